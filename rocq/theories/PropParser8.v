(* Properties C116, C117, C118: lookups, entries without an address, and ports
   which are not allowed. *)
From Coq Require Import ZifyBool ZifyNat.
From Verif Require Import Base Addr Spec Range SpecRange Inet SpecText Parser SpecParser SpecParser2 SpecParser4.
From Verif Require AddrProofs AddrProofs4 ParserProofs ParserProofs2 ParserProofs3 ParserProofs7 ParserProofs8 ParserProofs9
  ParserProofs12 PropParser PropParser2 PropParser4.
Import AddrProofs AddrProofs4 ParserProofs ParserProofs2 ParserProofs3 ParserProofs7 ParserProofs8 ParserProofs9
  ParserProofs12 PropParser PropParser2 PropParser4.
Local Open Scope Z_scope.

(* ---------- C116 ---------- *)
Lemma filter_usable l : Forall (fun ai => usable ai = true) l -> filter usable l = l.
Proof. induction 1 as [|ai l H F IH]; [reflexivity|]. cbn [filter]. rewrite H, IH. reflexivity. Qed.
(* The answers of the resolver become the result, in their order. *)
Theorem C116_answers : forall y g p A P given s l, resolver_ok g ->
  takes_names p -> host_entry p A P s -> one_host p A -> ~ In 0 A -> trimmed s -> ~ In 47 s ->
  asked g p A P given (GAI_list l) ->
  Forall (fun ai => usable ai = true /\ protocol_ok (ai_protocol ai)) l ->
  exists rs, parse y g s p = (p, Ok rs) /\ Forall2 (answer A given) l rs.
Proof.
  intros y g p A P given s l R NM HE H1 N0 T N HA F.
  assert (Forall (fun ai => usable ai = true) l) as US by (eapply Forall_impl; [|exact F]; intros a X; apply X).
  destruct (lookup_entry y g p A P s given NM HE H1 N0 T N (GAI_list l)
    (fun rs ms => ms = [] /\ Forall2 (answer A given) l rs) HA) as (rs & ms & E & -> & F2).
  - destruct HA as (S & st & pr & _ & _ & G). destruct (R _ _ _ _ _ _ G) as [_ OK].
    eapply wp_conseq; [apply use_all; [exact OK|eapply Forall_impl; [|exact F]; intros a X _; apply X]|]. cbv beta.
    intros r ms ((rs & -> & F2) & _ & X). exists rs. split; [reflexivity|]. split; [now apply X|].
    rewrite filter_usable in F2; [exact F2|]. exact US.
  - exists rs. split; [|exact F2]. rewrite E. cbn [flat map concat length]. rewrite andb_false_r, app_nil_r, Z.add_0_r, with_errors_id.
    reflexivity.
Qed.
Print Assumptions C116_answers.

(* Answers which addr cannot hold are errors; the others are still used
   unless masks are allowed. *)
Theorem C116_other_answers : forall y g p A P given s l, resolver_ok g ->
  takes_names p -> host_entry p A P s -> one_host p A -> ~ In 0 A -> trimmed s -> ~ In 47 s ->
  asked g p A P given (GAI_list l) ->
  Forall (fun ai => usable ai = true -> protocol_ok (ai_protocol ai)) l ->
  Exists (fun ai => usable ai = false) l ->
  exists p2 rs, parse y g s p = (p2, Ok rs) /\ error_count p < error_count p2
    /\ (get_allow p ALLOW_MASK = Ok true -> rs = [])
    /\ (get_allow p ALLOW_MASK = Ok false -> Forall2 (answer A given) (filter usable l) rs).
Proof.
  intros y g p A P given s l R NM HE H1 N0 T N HA F EX.
  destruct (lookup_entry y g p A P s given NM HE H1 N0 T N (GAI_list l)
    (fun rs ms => ms <> [] /\ Forall2 (answer A given) (filter usable l) rs) HA) as (rs & ms & E & NE & F2).
  - destruct HA as (S & st & pr & _ & _ & G). destruct (R _ _ _ _ _ _ G) as [_ OK].
    eapply wp_conseq; [apply use_all; [exact OK|exact F]|]. cbv beta.
    intros r ms ((rs & -> & F2) & X & _). exists rs. split; [reflexivity|]. split; [|exact F2].
    intros M. apply (X eq_refl) in M. apply Exists_exists in EX. destruct EX as (ai & I & NU).
    rewrite Forall_forall in M. specialize (M _ I). congruence.
  - destruct ms as [|m ms]; [congruence|]. eexists _, _. split; [exact E|]. split; [unfold error_count; cbn [f_error_count with_errors length]; lia|].
    rewrite andb_true_r. split; intros M; apply allow_of in M; rewrite M; [reflexivity|exact F2].
Qed.
Print Assumptions C116_other_answers.

(* The messages about these answers, and no other. *)
Lemma signed_dec n : signed_decimal (to_string_int n) n.
Proof.
  unfold to_string_int. destruct (n <? 0) eqn:E; [right|left; apply PropText.plain_dec_string; lia].
  split; [lia|]. eexists. split; [reflexivity|]. apply PropText.plain_dec_string. lia.
Qed.
Lemma use_remarks p host given : forall l first, Forall (fun ai => 0 <= ai_addrlen ai) l ->
  wp p (use_addrinfo l first host given) (fun r ms => (exists rs, r = Ok rs) -> remarks (negb first) l ms).
Proof.
  induction l as [|ai l IH]; intros first F; cbn [use_addrinfo].
  { apply wp_ret. constructor. }
  inversion F as [|? ? A1 A2]; subst.
  assert (forall m, usable ai = true -> wp p (do! r <- lift m in do! rs <- use_addrinfo l first host given in ret (r :: rs))
    (fun r ms => (exists rs, r = Ok rs) -> remarks (negb first) (ai :: l) ms)) as GOOD.
  { intros m US. wbind. apply wp_lift. destruct m as [r|x| |]; try (intros (? & X); discriminate).
    wbind. eapply wp_conseq; [apply IH; exact A2|]. cbv beta. intros r2 ms H.
    destruct r2 as [l2|x| |]; try (intros (? & X); discriminate). apply wp_ret. intros _. rewrite app_nil_r.
    apply remarks_usable; [exact US|]. apply H. eauto. }
  destruct (ai_family ai =? AF_INET) eqn:F4; [|destruct (ai_family ai =? AF_INET6) eqn:F6].
  - apply Z.eqb_eq in F4. destruct (ai_addrlen ai =? SIZEOF_IN) eqn:LN; cbn [negb].
    + apply GOOD. unfold usable. now rewrite F4, LN.
    + wbind. apply wp_emit. eapply wp_conseq; [apply IH; exact A2|]. cbv beta. intros r ms H X.
      apply (remarks_size4 (negb first) ai l ms (dec_string (ai_addrlen ai))); [exact F4|lia|now apply PropText.plain_dec_string|auto].
  - apply Z.eqb_eq in F6. destruct (ai_addrlen ai =? SIZEOF_IN6) eqn:LN; cbn [negb].
    + apply GOOD. unfold usable. now rewrite F6, LN.
    + wbind. apply wp_emit. eapply wp_conseq; [apply IH; exact A2|]. cbv beta. intros r ms H X.
      apply (remarks_size6 (negb first) ai l ms (dec_string (ai_addrlen ai))); [exact F6|lia|now apply PropText.plain_dec_string|auto].
  - assert (other_family ai) as OF by (split; lia). destruct first.
    + wbind. apply wp_emit. eapply wp_conseq; [apply IH; exact A2|]. cbv beta. intros r ms H X.
      apply (remarks_family ai l ms (to_string_int (ai_family ai))); [exact OF|apply signed_dec|auto].
    + eapply wp_conseq; [apply IH; exact A2|]. cbv beta. intros r ms H X. apply remarks_again; auto.
Qed.
Theorem C116_remarks : forall y g p A P given s l, resolver_ok g ->
  takes_names p -> host_entry p A P s -> one_host p A -> ~ In 0 A -> trimmed s -> ~ In 47 s ->
  asked g p A P given (GAI_list l) ->
  Forall (fun ai => 0 <= ai_addrlen ai /\ (usable ai = true -> protocol_ok (ai_protocol ai))) l ->
  exists p2 rs ms, parse y g s p = (p2, Ok rs) /\ remarks false l ms
    /\ error_messages p2 = error_messages p ++ concat (map (fun m => m ++ [10]) ms)
    /\ error_count p2 = error_count p + Z.of_nat (length ms).
Proof.
  intros y g p A P given s l R NM HE H1 N0 T N HA F.
  destruct (lookup_entry y g p A P s given NM HE H1 N0 T N (GAI_list l)
    (fun rs ms => remarks false l ms) HA) as (rs & ms & E & RM).
  - destruct HA as (S & st & pr & _ & _ & G). destruct (R _ _ _ _ _ _ G) as [_ OK].
    assert (wp p (use_addrinfo l true A given) (fun r ms => exists rs, r = Ok rs)) as W1.
    { eapply wp_conseq; [apply use_all; [exact OK|eapply Forall_impl; [|exact F]; intros a X; apply X]|]. cbv beta.
      intros r ms ((rs & -> & _) & _). eauto. }
    assert (Forall (fun ai => 0 <= ai_addrlen ai) l) as F2 by (eapply Forall_impl; [|exact F]; intros a X; apply X).
    destruct W1 as (ms1 & r1 & E1 & rs & ->). destruct (use_remarks p A given l true F2) as (ms2 & r2 & E2 & H2).
    assert (r2 = Ok rs) as ->. { specialize (E1 [] 0). specialize (E2 [] 0). rewrite E1 in E2. congruence. }
    exists ms2, (Ok rs). split; [exact E2|]. exists rs. split; [reflexivity|]. apply H2. eauto.
  - eexists _, _, ms. split; [exact E|]. split; [exact RM|]. split; reflexivity.
Qed.
Print Assumptions C116_remarks.
(* a case: two UNIX addresses, an IPv4 address of a wrong size and a good one *)
Definition odd_answers : list addrinfo :=
  [mk_ai 1 110 6 (mk_in AF_INET 0 0) init_in6; mk_ai AF_INET 12 6 (mk_in AF_INET 0 0) init_in6;
   mk_ai AF_INET SIZEOF_IN 6 (mk_in AF_INET 0 0) init_in6; mk_ai 1 110 6 (mk_in AF_INET 0 0) init_in6].
Example C116_odd_case :
  error_messages (fst (parse ref_sys (fun _ _ _ _ _ => GAI_list odd_answers) (lit "localhost") parser_new))
    = lit "Unsupported address family 1." ++ [10] ++ lit "Unsupported address size (12, expected16)." ++ [10]
  /\ Forall (fun ai => 0 <= ai_addrlen ai /\ (usable ai = true -> protocol_ok (ai_protocol ai))) odd_answers.
Proof.
  split; [vm_compute; reflexivity|].
  assert (protocol_ok 6) by (unfold protocol_ok; cbn; auto).
  constructor; [split; [vm_compute; discriminate|auto]|]. constructor; [split; [vm_compute; discriminate|auto]|]. constructor; [split; [vm_compute; discriminate|auto]|].
  constructor; [split; [vm_compute; discriminate|auto]|constructor].
Qed.

(* A name which is not found is one error, with the reason. *)
Theorem C116_not_found : forall y g p A P given s text,
  takes_names p -> host_entry p A P s -> one_host p A -> ~ In 0 A -> trimmed s -> ~ In 47 s ->
  asked g p A P given (GAI_error text) ->
  exists p2 m1 m2, parse y g s p = (p2, Ok []) /\ error_count p2 = error_count p + 1
    /\ error_messages p2 = error_messages p ++ m1 ++ A ++ m2 ++ text ++ [10].
Proof.
  intros y g p A P given s text NM HE H1 N0 T N HA.
  destruct (lookup_entry y g p A P s given NM HE H1 N0 T N (GAI_error text)
    (fun rs ms => rs = [] /\ ms = [invalid A (port_used p P) text]) HA) as (rs & ms & E & -> & ->).
  - now split.
  - set (Q := match port_used p P with [] => [] | _ => lit ":" end).
    eexists _, (lit "Invalid address in """), (Q ++ port_used p P ++ lit """ error "). split; [rewrite E; f_equal; now destruct (_ && _)|].
    split; [reflexivity|]. unfold error_messages. cbn [f_error with_errors flat map concat]. rewrite app_nil_r. f_equal. unfold invalid. fold Q.
    rewrite <- !app_assoc. reflexivity.
Qed.
Print Assumptions C116_not_found.

(* a usable case: a name with two addresses, with a port and without *)
Example C116_case : resolver_ok one_name /\ takes_names parser_new
  /\ host_entry parser_new (lit "localhost") (lit ":80") (lit "localhost:80")
  /\ one_host parser_new (lit "localhost") /\ trimmed (lit "localhost:80")
  /\ asked one_name parser_new (lit "localhost") (lit ":80") true (one_name [] [] false 0 0)
  /\ (exists rs, parse ref_sys one_name (lit "localhost:80") parser_new = (parser_new, Ok rs) /\ length rs = 2%nat)
  /\ host_entry parser_new (lit "::1") [] (lit "::1")
  /\ asked no_answer parser_new (lit "::1") [] false (GAI_error (lit "no answer")).
Proof.
  split; [exact one_name_ok|]. split.
  { constructor; [now apply no_seps|now apply no_comments|now cbv|now cbv|now left]. }
  split. { apply (host_plain _ (lit "localhost")); [discriminate|discriminate| | |].
    - now apply not_in. - now apply not_in. - right. exists (lit "80"). split; [reflexivity|]. split; [now apply not_in|]. now left. }
  split. { left. now apply not_in. } split; [now apply trimmed_lit|].
  split. { exists (lit "80"), 0, 0. split; [constructor; [discriminate|now apply not_in]|]. split; [apply hints_any; discriminate|reflexivity]. }
  split. { eexists. split; [vm_compute; reflexivity|reflexivity]. }
  split. { apply host_bare; [|discriminate]. exists [], [], (lit "1"). reflexivity. }
  exists (lit "0"), 0, 0. split; [apply service_zero; [now left|now cbv|reflexivity]|]. split; [apply hints_any; discriminate|reflexivity].
Qed.

(* ---------- C117 ---------- *)
(* An entry without an address is worth the same as the entry with the
   default address written in front of it. *)
Theorem C117_default_address : forall y g p P m M six D W,
  nobody (separator p) -> nobody (starts_comment p) ->
  get_allow p ALLOW_REQUIRED_ADDRESS = Ok false ->
  no_address P -> (P = [] \/ ports_allowed p) -> mask_part p m M ->
  (six = true <-> means_six p m) -> default_for p six D -> spelled p six D P W ->
  plain_text (P ++ M) -> plain_text (W ++ P ++ M) ->
  parse y g (P ++ M) p = parse y g (W ++ P ++ M) p.
Proof.
  intros y g p P m M six D W NS NC R HP PA HM HS HD HW T1 T2. apply allow_of in R.
  rewrite (parse_one y g (P ++ M)), (parse_one y g (W ++ P ++ M)) by assumption.
  assert (parse_cidr y g (P ++ M) p = parse_cidr y g (W ++ P ++ M) p) as E.
  { rewrite app_assoc in *. assert (~ In 47 P) as NP.
    { destruct HP as [->|(S & -> & _ & X)]; [intros []|]. intros [H|H]; [discriminate|auto]. }
    apply (cidr_split y g p P (W ++ P) m M HM NP); [|assumption|assumption|].
    - intros I. apply in_app_or in I. destruct I as [I|I]; [|auto]. destruct HW as (_ & N47 & HW). destruct six.
      + destruct HW as (_ & ->). apply in_app_or in I. destruct I as [[I|[]]|I]; [discriminate|].
        apply in_app_or in I. destruct I as [I|[I|[]]]; [auto|discriminate].
      + destruct HW as (_ & _ & _ & ->). auto.
    - apply (default_address_eq y g p P m six D); try assumption.
      destruct HM as [[-> _]|(_ & X & _)]; [intros []|exact X]. }
  unfold bind, ask. now rewrite E.
Qed.
Print Assumptions C117_default_address.

(* usable cases: ":80", "/64" and nothing at all *)
Example C117_case :
  (forall y g, parse y g (lit ":80") parser_new = parse y g (lit "0.0.0.0:80") parser_new)
  /\ (forall y g, parse y g (lit "/64") (with_allow parser_new ALLOW_MASK true)
        = parse y g (lit "[::]/64") (with_allow parser_new ALLOW_MASK true))
  /\ (forall y g, parse y g [] (fst (set_default_address parser_new (lit "::1")))
        = parse y g (lit "[::1]") (fst (set_default_address parser_new (lit "::1")))).
Proof.
  Local Ltac none := first [now apply no_seps|now apply no_comments|reflexivity].
  split; [|split]; intros y g.
  - apply (C117_default_address y g parser_new (lit ":80") [] [] false (lit "0.0.0.0") (lit "0.0.0.0")); try none.
    + right. exists (lit "80"). split; [reflexivity|]. split; now apply not_in.
    + right. now left.
    + now left.
    + split; [discriminate|]. intros [[H _]|(_ & _ & H)]; now destruct H.
    + right. now split.
    + split; [left; now apply not_in|]. split; [now apply not_in|]. split; [now apply not_in|]. split; [now apply not_in|]. now split.
    + right. now apply trimmed_lit.
    + right. now apply trimmed_lit.
  - apply (C117_default_address y g (with_allow parser_new ALLOW_MASK true) [] (lit "64") (lit "/64") true (lit "::") (lit "[::]"));
      try none.
    + now left.
    + now left.
    + right. split; [reflexivity|]. split; [now apply not_in|now cbv].
    + split; [intros _|reflexivity]. left. split; [discriminate|]. right. exists 64. split; [|lia]. split; [discriminate|now split].
    + right. now split.
    + split; [left; now apply not_in|]. split; [now apply not_in|]. split; [now apply not_in|reflexivity].
    + right. now apply trimmed_lit.
    + right. now apply trimmed_lit.
  - apply (C117_default_address y g (fst (set_default_address parser_new (lit "::1"))) [] [] [] true (lit "::1") (lit "[::1]"));
      try none.
    + now left.
    + now left.
    + now left.
    + split; [intros _|reflexivity]. right. split; [reflexivity|]. now split.
    + left. now split.
    + split; [left; now apply not_in|]. split; [now apply not_in|]. split; [now apply not_in|reflexivity].
    + now left.
    + right. now apply trimmed_lit.
Qed.

(* ---------- C118 ---------- *)
(* With lookups on, a port is refused when ports are not allowed: not for a
   name without a dot. *)
Definition web : resolver := fun _ service _ _ _ =>
  GAI_list [mk_ai AF_INET 16 6 (mk_in AF_INET (if decimal_value service =? 80 then bswap16 80 else 0) (load32 [10; 0; 0; 1] 0)) (mk_in6 0 0 0 [] 0)].
Theorem C118_forbidden_port_with_lookup_refuted : exists y g p p' r, resolver_ok g /\ parser_reachable y g p
  /\ get_allow p ALLOW_ADDRESS_LOOKUP = Ok true /\ get_allow p ALLOW_PORT = Ok false /\ get_allow p ALLOW_REQUIRED_PORT = Ok false
  /\ parse y g (lit "localhost:80") p = (p', Ok [r]) /\ error_count p' = error_count p
  /\ get_port (get_from r) = 80 /\ is_port_defined (get_from r) = true.
Proof.
  set (p := with_allow parser_new ALLOW_PORT false).
  exists ref_sys, web, p, p. eexists. split.
  { intros n s b t pr l H. cbv [web] in H. injection H as <-. split; [discriminate|]. constructor; [|constructor].
    split; [|discriminate]. intros _. split; [|reflexivity]. destruct (_ =? 80); (cbv - [Z.le Z.lt]; lia). }
  split. { change p with (parser_run ref_sys web [P_set_allow ALLOW_PORT false]). apply run_reachable. }
  split; [reflexivity|]. split; [reflexivity|]. split; [reflexivity|].
  split; [vm_compute; reflexivity|]. split; [reflexivity|]. split; vm_compute; reflexivity.
Qed.
Print Assumptions C118_forbidden_port_with_lookup_refuted.

(* In brackets, or with a dot before the port, it is. *)
Theorem C118_forbidden_port_with_lookup_partial : forall y g p a port entry,
  nobody (separator p) -> nobody (starts_comment p) ->
  get_allow p ALLOW_PORT = Ok false -> get_allow p ALLOW_REQUIRED_PORT = Ok false ->
  (a <> [] /\ hd 0 a <> 91 /\ In 46 a /\ ~ In 58 (a ++ port) /\ ~ In 93 (a ++ port))
    \/ (exists x, a = [91] ++ x ++ [93] /\ ~ In 93 x) ->
  entry_of p (a ++ [58] ++ port) entry ->
  exists p', parse y g entry p = (p', Ok []) /\ error_count p < error_count p'.
Proof.
  intros y g p a port entry N C P Q A T.
  allowed P. allowed Q. apply single_fails; auto; [apply T|].
  eapply entry_fails; [exact T|]. intros mask. destruct A as [(A1 & A2 & A3 & A4 & A5)|(x & -> & X)].
  - apply address_dotted; assumption.
  - cbn [app]. rewrite <- app_assoc. now apply address_no_port6.
Qed.
Print Assumptions C118_forbidden_port_with_lookup_partial.

Example C118_case : let p := with_allow parser_new ALLOW_PORT false in
  get_allow p ALLOW_ADDRESS_LOOKUP = Ok true /\ nobody (separator p) /\ nobody (starts_comment p)
  /\ In 46 (lit "m2osw.com") /\ ~ In 58 (lit "m2osw.com" ++ lit "80") /\ ~ In 93 (lit "m2osw.com" ++ lit "80")
  /\ entry_of p (lit "m2osw.com" ++ [58] ++ lit "80") (lit "m2osw.com:80")
  /\ snd (parse ref_sys web (lit "m2osw.com:80") p) = Ok []
  /\ (exists l, snd (parse ref_sys web (lit "m2osw.com") p) = Ok l /\ length l = 1%nat).
Proof.
  cbv zeta. split; [reflexivity|]. split; [now apply no_seps|]. split; [now apply no_comments|].
  split; [vm_compute; tauto|]. split; [now apply not_in|]. split; [now apply not_in|].
  split; [split; [now apply not_in|]; split; [now apply trimmed_lit|now left]|].
  split; [vm_compute; reflexivity|]. eexists. split; [vm_compute; reflexivity|reflexivity].
Qed.
