(* C168: the host names of the addresses which parse() returns. *)
From Coq Require Import Lia ZifyBool ZifyNat.
From Verif Require Import Base Addr Spec Range SpecRange Inet SpecText SpecIpv6 AddrText Parser SpecParser SpecParser2 SpecParser4.
From Verif Require AddrProofs AddrProofs2 AddrProofs3 AddrProofs4 TextProofs ParserProofs ParserProofs2 ParserProofs3 ParserProofs7 ParserProofs9 ParserProofs12 ParserProofs17 PropLookups
  PropText PropParser PropParser2 PropParser5 PropParser8 PropIpv6 PropAddr.
Import AddrProofs AddrProofs2 AddrProofs3 AddrProofs4 TextProofs ParserProofs ParserProofs2 ParserProofs3 ParserProofs7 ParserProofs9 PropParser PropParser2 PropIpv6.
Import PropLookups (part_of).
Local Open Scope Z_scope.

(* The host name, up to its first NUL, is a text of this very address. *)
Definition names_itself (a : addr) : Prop := exists t, before_nul (f_hostname a) t /\ denotes t (value a).
(* The address and the port which an answer of the resolver carries. *)
Inductive carries (ai : addrinfo) : Z -> Z -> Prop :=
| carries_four : ai_family ai = AF_INET -> ai_addrlen ai = SIZEOF_IN ->
    carries ai (v4_base + bswap32 (s_addr (ai_in ai))) (bswap16 (sin_port (ai_in ai)))
| carries_six : ai_family ai = AF_INET6 -> ai_addrlen ai = SIZEOF_IN6 ->
    carries ai (num (sin6_addr (ai_in6 ai))) (bswap16 (sin6_port (ai_in6 ai))).
(* The resolver, asked for the host name, has this address and port among its
   answers. *)
Definition found_by_name (g : resolver) (p : parser) (a : addr) : Prop :=
  exists t S socktype protocol l ai, before_nul (f_hostname a) t
    /\ hints (parser_get_protocol p) socktype protocol
    /\ g t S false socktype protocol = GAI_list l /\ In ai l /\ carries ai (value a) (get_port a).
(* The host name is written in the text, or it is an address which the parser
   uses when there is none. *)
Definition written (s : str) (p : parser) (h : str) : Prop :=
  (h <> [] /\ part_of h s)
  \/ (get_allow p ALLOW_REQUIRED_ADDRESS = Ok false
      /\ In h [get_default_address4 p; get_default_address6 p; lit "0.0.0.0"; lit "::"] /\ h <> []).
(* An end of a range. *)
Definition end_of (r : addr_range) (a : addr) : Prop := (has_from r = true /\ a = get_from r) \/ (has_to r = true /\ a = get_to r).

Lemma c_str_before s : before_nul s (c_str s).
Proof.
  induction s as [|c s [N H]]; cbn [c_str]; [split; [intros []|now left]|].
  destruct (c =? 0) eqn:E.
  - split; [intros []|]. right. exists s. cbn. f_equal. lia.
  - split; [intros [X|X]; [lia|auto]|]. destruct H as [H|[u H]]; [left; congruence|right; exists u; cbn; congruence].
Qed.
Lemma hints_of n : hints n (hint_socktype n) (hint_protocol n).
Proof.
  unfold hint_socktype, hint_protocol.
  destruct (n =? IPPROTO_TCP) eqn:E1; [assert (n = IPPROTO_TCP) as -> by lia; constructor|].
  destruct (n =? IPPROTO_UDP) eqn:E2; [assert (n = IPPROTO_UDP) as -> by lia; constructor|].
  constructor; lia.
Qed.

Section Port.
Variables (y : sys) (g : resolver) (p0 : parser) (text : str).
Let G := resolver_ok g.
Definition named (a : addr) : Prop :=
  written text p0 (f_hostname a) /\ if allow p0 ALLOW_ADDRESS_LOOKUP then found_by_name g p0 a else names_itself a.
Let OKf := OKfrom named G.

Lemma OKf_fail msg : OKf (Ok []) [msg].
Proof.
  split; [discriminate|]. intros _. split; [discriminate|]. intros l E. inversion E; subst.
  split; [constructor|]. cbn. lia.
Qed.
Definition of_answer (host : str) (l : list addrinfo) (a : addr) : Prop :=
  f_hostname a = host /\ exists ai, In ai l /\ carries ai (value a) (get_port a).

Lemma use_addrinfo_named host dp :
  forall l first, wp p0 (use_addrinfo l first host dp)
    (fun r ms => r <> OutOfFuel /\ (Forall addrinfo_ok l -> r <> UB /\
       forall l', r = Ok l' -> Forall (from_only (of_answer host l)) l'
         /\ (l <> [] -> first = true -> (1 <= length l' + length ms)%nat))).
Proof.
  assert (forall ai l r, from_only (of_answer host l) r -> from_only (of_answer host (ai :: l)) r) as MONO.
  { intros ai l r (F & T & W & H & ai' & I & C). split; [exact F|]. split; [exact T|]. split; [exact W|]. split; [exact H|]. exists ai'. split; [now right|exact C]. }
  assert (forall ai l a v port proto, built a v port host proto dp -> carries ai v port -> from_only (of_answer host (ai :: l)) (set_from range_new a)) as MK.
  { intros ai l a v port proto B C. split; [reflexivity|]. split; [reflexivity|]. split; [eapply built_wf; exact B|].
    destruct B. split; [exact bd_host|]. exists ai. split; [now left|]. cbn [f_from set_from]. now rewrite bd_value, bd_port. }
  induction l as [|ai l IH]; intros first.
  - apply wp_ret. split; [discriminate|]. intros _. split; [discriminate|]. intros l' E. inversion E.
    split; [constructor|]. now intros [].
  - cbn [use_addrinfo].
    assert (forall r0, r0 <> OutOfFuel -> (Forall addrinfo_ok (ai :: l) -> r0 <> UB /\ forall r, r0 = Ok r -> from_only (of_answer host (ai :: l)) r) ->
      wp p0 (do! r <- lift r0 in do! rs <- use_addrinfo l first host dp in ret (r :: rs))
      (fun r ms => r <> OutOfFuel /\ (Forall addrinfo_ok (ai :: l) -> r <> UB /\
       forall l', r = Ok l' -> Forall (from_only (of_answer host (ai :: l))) l'
         /\ (ai :: l <> [] -> first = true -> (1 <= length l' + length ms)%nat)))) as ADD.
    { intros r0 N0 H0. wbind. apply wp_lift. destruct r0 as [r|x| |].
      2:{ split; [discriminate|]. intros _. split; discriminate. }
      2:{ split; [discriminate|]. intros F. now destruct (proj1 (H0 F)). }
      2:{ now destruct N0. }
      wbind. eapply wp_conseq; [apply IH|]. intros r2 ms2 (N2 & H2). destruct r2 as [l2|x| |].
      2:{ split; [discriminate|]. intros _. split; discriminate. }
      2:{ split; [discriminate|]. intros F. inversion F; subst. now destruct (proj1 (H2 ltac:(assumption))). }
      2:{ now destruct N2. }
      apply wp_ret. split; [discriminate|]. intros F. split; [discriminate|]. intros l' E. inversion E; subst.
      split; [|intros _ _; cbn; lia]. constructor; [now apply H0|]. inversion F; subst.
      eapply Forall_impl; [apply MONO|]. now apply H2. }
    assert (forall msg fi, wp p0 (do! _ <- emit msg in use_addrinfo l fi host dp)
      (fun r ms => r <> OutOfFuel /\ (Forall addrinfo_ok (ai :: l) -> r <> UB /\
       forall l', r = Ok l' -> Forall (from_only (of_answer host (ai :: l))) l'
         /\ (ai :: l <> [] -> first = true -> (1 <= length l' + length ms)%nat)))) as ERR.
    { intros msg fi. wbind. apply wp_emit. eapply wp_conseq; [apply IH|]. intros r2 ms2 (N2 & H2).
      split; [exact N2|]. intros F. inversion F as [|? ? F1 F2]; subst. destruct (H2 F2) as [U K].
      split; [exact U|]. intros l' E. split; [eapply Forall_impl; [apply MONO|]; now apply K|]. intros _ _. cbn. lia. }
    destruct (ai_family ai =? AF_INET) eqn:E4.
    { destruct (negb (ai_addrlen ai =? SIZEOF_IN)) eqn:EL; [apply ERR|]. apply ADD; [apply range4_not_fuel|].
      intros F. inversion F as [|? ? F1 F2]; subst. destruct F1 as [F1 _]. destruct F1 as [F1 F3]; [lia|].
      destruct (range4_spec (ai_in ai) host (ai_protocol ai) dp F1 F3) as [(x & E & _)|(_ & a & E & B)]; rewrite E.
      - split; discriminate.
      - split; [discriminate|]. intros r X. inversion X; subst. eapply MK; [exact B|]. constructor; lia. }
    destruct (ai_family ai =? AF_INET6) eqn:E6.
    { destruct (negb (ai_addrlen ai =? SIZEOF_IN6)) eqn:EL; [apply ERR|]. apply ADD; [apply range6_not_fuel|].
      intros F. inversion F as [|? ? F1 F2]; subst. destruct F1 as [_ F1]. destruct F1 as [F1 F3]; [lia|].
      destruct (range6_spec (ai_in6 ai) host (ai_protocol ai) dp F1 F3) as [(x & E & _)|(_ & a & E & B)]; rewrite E.
      - split; discriminate.
      - split; [discriminate|]. intros r X. inversion X; subst. eapply MK; [exact B|]. constructor; lia. }
    destruct first; [apply ERR|]. eapply wp_conseq; [apply IH|]. intros r2 ms2 (N2 & H2).
    split; [exact N2|]. intros F. inversion F as [|? ? F1 F2]; subst. destruct (H2 F2) as [U K].
    split; [exact U|]. intros l' E. split; [eapply Forall_impl; [apply MONO|]; now apply K|]. intros _ X. discriminate X.
Qed.

Lemma numeric_named address port dp : written text p0 address -> 0 <= port <= 65535 -> allow p0 ALLOW_ADDRESS_LOOKUP = false ->
  wp p0 (numeric_address address port dp) OKf.
Proof.
  intros HW Hp HL.
  assert (forall a v, denotes (c_str address) v -> built a v port address (p_protocol p0) dp -> from_only named (set_from range_new a)) as MK.
  { intros a v D B. split; [reflexivity|]. split; [reflexivity|]. split; [eapply built_wf; exact B|].
    destruct B. cbn [f_from set_from]. unfold named. rewrite HL, bd_host. split; [exact HW|]. exists (c_str address). rewrite bd_host, bd_value. split; [apply c_str_before|exact D]. }
  assert (forall r0 : res addr_range, (r0 <> UB /\ r0 <> OutOfFuel /\ forall r, r0 = Ok r -> from_only named r) ->
    wp p0 (do! r <- lift r0 in ret [r]) OKf) as ADD.
  { intros r0 (N1 & N2 & H). wbind. apply wp_lift. destruct r0 as [r|x| |]; try (now destruct N1); try (now destruct N2).
    - apply wp_ret. split; [discriminate|]. intros _. split; [discriminate|]. intros l E. inversion E; subst.
      split; [|cbn; lia]. constructor; [now apply H|constructor].
    - split; [discriminate|]. intros _. split; discriminate. }
  assert (bswap16 (bswap16 port) = port) as BB by (apply bswap16_invol; lia).
  pose proof (bswap16_range port) as BR.
  unfold numeric_address. wask. destruct (inet_pton4 (c_str address)) as [q|] eqn:P4.
  - apply ADD. pose proof (PropParser5.denotes_dotted _ _ P4) as D. apply pton4_iff in P4. destruct P4 as (L4 & F4 & _).
    destruct (range4_spec (mk_in AF_INET (bswap16 port) (load32 q 0)) address (p_protocol p0) dp) as [(x & E & _)|(_ & a & E & B)].
    + split; [cbn; unfold AF_INET; lia|]. split; [exact BR|]. now apply load32_range.
    + reflexivity.
    + rewrite E. split; [discriminate|]. split; discriminate.
    + rewrite E. split; [discriminate|]. split; [discriminate|]. intros r X. inversion X; subst.
      cbn [sin_port s_addr] in B. rewrite BB, (proj1 (load32_num q L4 F4)) in B. eapply MK; [exact D|exact B].
  - destruct (inet_pton6 (c_str address)) as [q|] eqn:P6; [|apply wp_fail, OKf_fail].
    apply ADD. pose proof (PropParser5.denotes_lit _ _ P6) as D. apply pton6_bytes in P6.
    destruct (range6_spec (mk_in6 AF_INET6 (bswap16 port) 0 q 0) address (p_protocol p0) dp) as [(x & E & _)|(_ & a & E & B)].
    + split; [cbn; unfold AF_INET6; lia|]. split; [exact BR|]. split; [cbn; lia|]. split; [exact P6|]. cbn; lia.
    + reflexivity.
    + rewrite E. split; [discriminate|]. split; discriminate.
    + rewrite E. split; [discriminate|]. split; [discriminate|]. intros r X. inversion X; subst.
      cbn [sin6_port sin6_addr] in B. rewrite BB in B. eapply MK; [exact D|exact B].
Qed.

Lemma address_port_named address port_str ipv6 : part_of address text -> wp p0 (parse_address_port y g address port_str ipv6) OKf.
Proof.
  intros TA. unfold parse_address_port. cbv zeta. wallow.
  set (dp := match port_str with [] => false | _ => true end).
  destruct (negb dp && allow p0 ALLOW_REQUIRED_PORT) eqn:RQ; [apply wp_fail, OKf_fail|]. wask.
  set (ps := if negb dp && negb (f_default_port p0 =? -1) then to_string_int (f_default_port p0) else port_str).
  wallow. destruct ((match address with [] => true | _ => false end) && allow p0 ALLOW_REQUIRED_ADDRESS) eqn:RA;
    [apply wp_fail, OKf_fail|]. wask.
  set (ad := if match address with [] => true | _ => false end then default_address p0 ipv6 else address).
  assert (written text p0 ad) as HW.
  { unfold ad. destruct address as [|c address']; [right|left; now split]. cbn [andb] in RA.
    split; [apply allow_get; [unfold ALLOW_REQUIRED_ADDRESS; lia|exact RA]|]. apply PropLookups.default_in. }
  wallow. destruct (allow p0 ALLOW_ADDRESS_LOOKUP) eqn:HL.
  - wask. match goal with |- wp _ (match ?x with _ => _ end) _ => destruct x as [msg|l] eqn:X end;
      [apply wp_fail, OKf_fail|].
    eapply wp_conseq; [apply use_addrinfo_named|]. intros r ms (N & H). split; [exact N|]. intros HG.
    destruct (HG _ _ _ _ _ _ X) as [NE F]. destruct (H F) as [U K]. split; [exact U|]. intros l' E.
    destruct (K l' E) as [K1 K2]. split; [|now apply K2]. eapply Forall_impl; [|exact K1].
    intros r1 (A1 & A2 & A3 & A4 & ai & I & C). split; [exact A1|]. split; [exact A2|]. split; [exact A3|].
    unfold named. rewrite HL. split; [now rewrite A4|]. exists (c_str ad). eexists _, _, _, l, ai. split; [rewrite A4; apply c_str_before|].
    split; [apply hints_of|]. split; [exact X|]. now split.
  - wallow. destruct (allow p0 ALLOW_REQUIRED_PORT || match ps with [] => false | _ => true end) eqn:PS.
    + destruct (convert_string y ps) as [port|] eqn:CV; [|apply wp_fail, OKf_fail].
      destruct ((port <? 0) || (port >? 65535)) eqn:RG; [apply wp_fail, OKf_fail|].
      destruct (negb (allow p0 ALLOW_PORT) && negb (allow p0 ALLOW_REQUIRED_PORT)) eqn:AL; [apply wp_fail, OKf_fail|].
      apply numeric_named; [exact HW|lia|exact HL].
    + apply numeric_named; [exact HW|lia|exact HL].
Qed.

Lemma named_mask a m : named a -> bytes16 m -> named (set_mask a m).
Proof. intros H _. unfold named, found_by_name, names_itself in *. destruct (allow p0 ALLOW_ADDRESS_LOOKUP); exact H. Qed.

Lemma entries_named : wp p0 (parse_entries y g text) (fun r _ => OKall named G r).
Proof.
  apply (ParserProofs17.entries_ok y g p0 named G (fun t => part_of t text)).
  - intros s t H K. eapply PropLookups.part_trans; eassumption.
  - intros a ps v6 H. now apply address_port_named.
  - apply named_mask.
  - exact (fun H => H).
  - apply PropLookups.part_refl.
Qed.

Lemma parse_named : wp p0 (parse y g text) (fun r _ =>
  r <> OutOfFuel /\ (resolver_ok g -> r <> UB /\ forall l, r = Ok l -> Forall (ends named) l)).
Proof.
  unfold parse. wbind. eapply wp_conseq; [apply entries_named|]. cbv beta. intros r ms (N & H).
  destruct r as [l|x| |].
  2:{ split; [discriminate|]. intros _. split; discriminate. }
  2:{ split; [discriminate|]. intros HG. now destruct (proj1 (H HG)). }
  2:{ now destruct N. }
  wask. apply wp_lift. split.
  - destruct (arrange_total (f_sort p0) l) as [[x E]|[l' E]]; rewrite E; discriminate.
  - intros HG. destruct (H HG) as [_ H']. specialize (H' l eq_refl).
    destruct (arrange_ends named (f_sort p0) l named_mask H') as [[x E]|(l' & E & F)]; rewrite E.
    + split; discriminate.
    + split; [discriminate|]. intros l2 X. inversion X; subst. exact F.
Qed.
End Port.

Lemma parse_end y g s p p2 l r a : resolver_ok g -> parse y g s p = (p2, Ok l) -> In r l -> end_of r a -> named g p s a.
Proof.
  intros R E I H. destruct (wp_run p _ _ p (parse_named y g p s)) as (ms & r0 & E2 & _ & K); [repeat split|].
  rewrite E in E2. assert (r0 = Ok l) as -> by congruence. destruct (K R) as [_ F]. specialize (F l eq_refl).
  rewrite Forall_forall in F. destruct (F r I) as (_ & _ & F1 & F2). destruct H as [[H ->]|[H ->]]; auto.
Qed.

(* Without lookups the host name of an address is a text of this address, so
   is_hostname_an_ip() is true, whatever the sort order. *)
Theorem C168_numeric : forall y g p s p2 l r a, resolver_ok g ->
  get_allow p ALLOW_ADDRESS_LOOKUP = Ok false -> parse y g s p = (p2, Ok l) -> In r l -> end_of r a ->
  names_itself a /\ f_hostname a <> [] /\ is_hostname_an_ip a = true.
Proof.
  intros y g p s p2 l r a R L E I H. pose proof (parse_end y g s p p2 l r a R E I H) as [_ N].
  apply ParserProofs12.allow_of in L. rewrite L in N. split; [exact N|]. destruct N as (t & B & D).
  split; [|rewrite (C134_hostname a t B); right; eauto].
  intros X. rewrite X in B. destruct B as [_ [B|[u B]]]; [|destruct t; discriminate B].
  subst t. now destruct (denotes_chars _ _ D).
Qed.
Print Assumptions C168_numeric.

(* With lookups it is a name for which the resolver has this address, with
   this port. *)
Theorem C168_lookup : forall y g p s p2 l r a, resolver_ok g ->
  get_allow p ALLOW_ADDRESS_LOOKUP = Ok true -> parse y g s p = (p2, Ok l) -> In r l -> end_of r a ->
  found_by_name g p a.
Proof.
  intros y g p s p2 l r a R L E I H. pose proof (parse_end y g s p p2 l r a R E I H) as [_ N].
  apply ParserProofs12.allow_of in L. now rewrite L in N.
Qed.
Print Assumptions C168_lookup.

(* In both cases it is a part of the text or one of the default addresses; only
   the former if an address is required. *)
Theorem C168_written : forall y g p s p2 l r a, resolver_ok g ->
  parse y g s p = (p2, Ok l) -> In r l -> end_of r a -> written s p (f_hostname a).
Proof. intros y g p s p2 l r a R E I H. apply (parse_end y g s p p2 l r a R E I H). Qed.
Print Assumptions C168_written.

(* usable cases: both ends of a range of numeric addresses, and a name with two
   addresses *)
Definition numeric_ranges : parser := parser_run ref_sys no_answer
  [P_set_allow ALLOW_ADDRESS_RANGE true; P_set_allow ALLOW_ADDRESS_LOOKUP false].
Example C168_numeric_case : resolver_ok no_answer /\ get_allow numeric_ranges ALLOW_ADDRESS_LOOKUP = Ok false
  /\ exists p2 r, parse ref_sys no_answer (lit "10.0.0.1-10.0.0.9") numeric_ranges = (p2, Ok [r])
     /\ end_of r (get_from r) /\ end_of r (get_to r)
     /\ f_hostname (get_from r) = lit "10.0.0.1" /\ f_hostname (get_to r) = lit "10.0.0.9".
Proof.
  split; [exact no_answer_ok|]. split; [reflexivity|]. eexists _, _. split; [vm_compute; reflexivity|].
  split; [now left|]. split; [now right|]. split; reflexivity.
Qed.
Example C168_lookup_case : resolver_ok one_name /\ get_allow parser_new ALLOW_ADDRESS_LOOKUP = Ok true
  /\ exists p2 r1 r2, parse ref_sys one_name (lit "localhost:80") parser_new = (p2, Ok [r1; r2])
     /\ end_of r1 (get_from r1) /\ end_of r2 (get_from r2)
     /\ f_hostname (get_from r1) = lit "localhost" /\ is_hostname_an_ip (get_from r1) = false.
Proof.
  split; [exact one_name_ok|]. split; [reflexivity|]. eexists _, _, _. split; [vm_compute; reflexivity|].
  split; [now left|]. split; [now left|]. split; reflexivity.
Qed.
