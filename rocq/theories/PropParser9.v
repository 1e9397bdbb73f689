(* Property C122: the texts which a parser accepts. *)
From Coq Require Import ZifyBool ZifyNat.
From Verif Require Import Base Addr Spec Range SpecRange Inet SpecText Parser SpecParser SpecParser2 SpecParser4 SpecLanguage.
From Verif Require AddrProofs AddrProofs4 ParserProofs ParserProofs2 ParserProofs3 ParserProofs4 ParserProofs7 ParserProofs8
  ParserProofs13 ParserProofs14 PropParser PropParser2 PropParser4 PropParser5.
Import AddrProofs AddrProofs4 ParserProofs ParserProofs2 ParserProofs3 ParserProofs4 ParserProofs7 ParserProofs8
  ParserProofs13 ParserProofs14 PropParser PropParser2 PropParser4 PropParser5.
Local Open Scope Z_scope.

Lemma language_of y g p s : takes_one p -> takes_entries p -> converts_decimals y -> resolver_ok g ->
  (get_allow p ALLOW_ADDRESS_LOOKUP = Ok true -> known_protocols g) -> ~ In 0 s -> plain_text s ->
  (exists l, parse y g s p = (p, Ok l) /\ accepted y g p s l)
  \/ ((forall l, ~ accepted y g p s l) /\ exists p2 l, parse y g s p = (p2, Ok l) /\ error_count p < error_count p2
      /\ (get_allow p ALLOW_ADDRESS_LOOKUP = Ok false \/ get_allow p ALLOW_MASK = Ok true -> l = [])).
Proof.
  intros TO TE HC HG HK N0 PT. apply language; auto. intros A. apply HK. apply allowed_is; [unfold ALLOW_ADDRESS_LOOKUP; lia|exact A].
Qed.

(* A text which is parsed without an error is an entry of the language, and
   the result is what the entry means. *)
Theorem C122_only_these : forall y g p s p2 l, takes_one p -> takes_entries p -> converts_decimals y -> resolver_ok g ->
  (get_allow p ALLOW_ADDRESS_LOOKUP = Ok true -> known_protocols g) ->
  ~ In 0 s -> plain_text s ->
  parse y g s p = (p2, Ok l) -> error_count p2 = error_count p -> p2 = p /\ accepted y g p s l.
Proof.
  intros y g p s p2 l TO TE HC HG HK N0 PT E EC. destruct (language_of y g p s TO TE HC HG HK N0 PT) as [(l2 & E2 & A)|(_ & p3 & l3 & E3 & L & _)].
  - rewrite E in E2. injection E2 as -> ->. now split.
  - rewrite E in E3. injection E3 as -> _. lia.
Qed.
Print Assumptions C122_only_these.

(* An entry has one meaning. *)
Theorem C122_one_meaning : forall y g p s l l2, takes_entries p ->
  accepted y g p s l -> accepted y g p s l2 -> Forall2 same_range l l2.
Proof. intros y g p s l l2 TE. now apply one_meaning. Qed.
Print Assumptions C122_one_meaning.

(* Each entry of the language is parsed, without an error, to its meaning. *)
Theorem C122_all_these : forall y g p s l, takes_one p -> takes_entries p -> converts_decimals y -> resolver_ok g ->
  (get_allow p ALLOW_ADDRESS_LOOKUP = Ok true -> known_protocols g) ->
  ~ In 0 s -> plain_text s ->
  accepted y g p s l -> exists l2, parse y g s p = (p, Ok l2) /\ Forall2 same_range l l2.
Proof.
  intros y g p s l TO TE HC HG HK N0 PT A. destruct (language_of y g p s TO TE HC HG HK N0 PT) as [(l2 & E & A2)|(F & _)]; [|elim (F l A)].
  exists l2. split; [exact E|]. eapply one_meaning; eassumption.
Qed.
Print Assumptions C122_all_these.

(* Any other text is an error; without lookup, or with masks, it gives
   nothing. *)
Theorem C122_no_others : forall y g p s, takes_one p -> takes_entries p -> converts_decimals y -> resolver_ok g ->
  (get_allow p ALLOW_ADDRESS_LOOKUP = Ok true -> known_protocols g) ->
  ~ In 0 s -> plain_text s ->
  (forall l, ~ accepted y g p s l) -> exists p2 l, parse y g s p = (p2, Ok l) /\ error_count p < error_count p2
    /\ (get_allow p ALLOW_ADDRESS_LOOKUP = Ok false \/ get_allow p ALLOW_MASK = Ok true -> l = []).
Proof.
  intros y g p s TO TE HC HG HK N0 PT F. destruct (language_of y g p s TO TE HC HG HK N0 PT) as [(l & _ & A)|(_ & X)]; [|exact X]. elim (F l A).
Qed.
Print Assumptions C122_no_others.

(* Blanks around the entry do not matter. *)
Lemma single_blanks b1 t b2 : Forall blank b1 -> Forall blank b2 -> plain_text t -> single_entry [] (b1 ++ t ++ b2) = t.
Proof.
  intros F1 F2 [->|T].
  - cbn [app]. assert (Forall blank (b1 ++ b2)) as F by (now apply Forall_app). set (s := b1 ++ b2) in *.
    assert (trim_left s = []) as E by (rewrite <- (app_nil_r s); rewrite trim_left_blanks by exact F; reflexivity).
    unfold single_entry. rewrite E. cbn [length]. rewrite Nat.sub_0_r, skipn_all, firstn_nil. now destruct (_ <? _)%nat.
  - destruct T as (NE & H1 & H2). destruct t as [|c t]; [congruence|].
    pose proof (single_entry_form [] b1 c (t ++ b2) [] F1 (H1 c t eq_refl)) as X. rewrite app_nil_r in X.
    change (b1 ++ (c :: t) ++ b2) with (b1 ++ c :: t ++ b2). rewrite X.
    + change (c :: t ++ b2) with ((c :: t) ++ b2). rewrite rev_app_distr, trim_left_blanks by (now apply Forall_rev). now apply trim_right.
    + apply Forall_forall. reflexivity.
    + now left.
Qed.
Theorem C122_blanks : forall y g p b1 t b2, nobody (separator p) -> nobody (starts_comment p) ->
  Forall blank b1 -> Forall blank b2 -> plain_text t -> parse y g (b1 ++ t ++ b2) p = parse y g t p.
Proof.
  intros y g p b1 t b2 NS NC F1 F2 PT. apply nobody_separators in NS. apply nobody_comments in NC.
  unfold parse, bind. rewrite !entries_single, NC by exact NS. rewrite single_blanks by assumption.
  pose proof (single_blanks [] t [] (Forall_nil _) (Forall_nil _) PT) as X. cbn [app] in X. rewrite app_nil_r in X. now rewrite X.
Qed.
Print Assumptions C122_blanks.

(* Addresses, ranges, ports and both kinds of masks. *)
Definition everything : parser :=
  parser_run ref_sys numbers [P_set_allow ALLOW_ADDRESS_LOOKUP false; P_set_allow ALLOW_MASK true;
    P_set_allow ALLOW_ADDRESS_MASK true; P_set_allow ALLOW_ADDRESS_RANGE true].
Definition ends_of (r : parser * res (list addr_range)) : list (Z * Z * Z * Z) :=
  match snd r with Ok l => map (fun r => (value (f_from r), value (f_to r), get_port (f_from r), num (f_mask (f_from r)))) l | _ => [] end.
Lemma everything_one : takes_one everything.
Proof.
  split.
  - apply no_seps. vm_compute. reflexivity.
  - apply no_comments. vm_compute. reflexivity.
  - vm_compute. reflexivity.
Qed.
Lemma everything_takes : takes_entries everything.
Proof.
  split.
  - intros _. left. vm_compute. reflexivity.
  - vm_compute. split; discriminate.
  - vm_compute. tauto.
Qed.
Lemma numbers_ok : resolver_ok numbers.
Proof.
  intros node service b st pr l H. unfold numbers in H. destruct (inet_pton4 node) as [q|] eqn:E4.
  - injection H as <-. split; [discriminate|]. constructor; [|constructor]. destruct (PropText.C20_only_dotted_accepted _ _ E4) as (_ & B & _).
    split; cbn; [|discriminate]. intros _. split; [|reflexivity]. unfold sockaddr_in_ok. cbn. pose proof (load32_range q 0 B). unfold AF_INET. lia.
  - destruct (inet_pton6 node) as [q|] eqn:E6; [|discriminate]. injection H as <-. split; [discriminate|]. constructor; [|constructor].
    split; cbn; [discriminate|]. intros _. split; [|reflexivity]. apply pton6_bytes in E6. unfold sockaddr_in6_ok. cbn. unfold AF_INET6. repeat split; try lia; apply E6.
Qed.
Lemma no_lookup : get_allow everything ALLOW_ADDRESS_LOOKUP = Ok true -> known_protocols numbers.
Proof. vm_compute. discriminate. Qed.
Lemma yes s w : ~ In 0 s -> plain_text s -> error_count (fst (parse ref_sys numbers s everything)) = error_count everything ->
  ends_of (parse ref_sys numbers s everything) = w ->
  w <> [] -> exists l, accepted ref_sys numbers everything s l /\ parse ref_sys numbers s everything = (everything, Ok l) /\ ends_of (everything, Ok l) = w.
Proof.
  intros N T EC E NW. destruct (parse ref_sys numbers s everything) as [p2 r] eqn:EP. cbn [fst] in EC.
  destruct r as [l|x| |]; cbn [ends_of snd] in E; try congruence.
  destruct (C122_only_these _ _ _ _ _ _ everything_one everything_takes ref_sys_converts numbers_ok no_lookup N T EP EC) as [-> A]. exists l. auto.
Qed.
Lemma no s : ~ In 0 s -> plain_text s -> error_count (fst (parse ref_sys numbers s everything)) <> error_count everything ->
  forall l, ~ accepted ref_sys numbers everything s l.
Proof.
  intros N T EC l A. destruct (C122_all_these _ _ _ _ _ everything_one everything_takes ref_sys_converts numbers_ok no_lookup N T A) as (l2 & E & _). apply EC. now rewrite E.
Qed.
Example C122_witness : takes_one everything /\ takes_entries everything /\ converts_decimals ref_sys /\ resolver_ok numbers
  /\ (exists l, accepted ref_sys numbers everything (lit "10.0.0.1-10.0.0.9:80/24") l
        /\ parse ref_sys numbers (lit "10.0.0.1-10.0.0.9:80/24") everything = (everything, Ok l)
        /\ ends_of (everything, Ok l) = [(v4_base + 167772161, v4_base + 167772169, 80, prefix_mask 120)])
  /\ (exists l, accepted ref_sys numbers everything (lit "[::1]:443/[ffff::]") l
        /\ ends_of (everything, Ok l) = [(1, 0, 443, prefix_mask 16)])
  /\ (forall l, ~ accepted ref_sys numbers everything (lit "10.0.0.1:99999") l)
  /\ (forall l, ~ accepted ref_sys numbers everything (lit "10.0.0.1/33") l)
  /\ parse ref_sys numbers (lit "  10.0.0.1 ") everything = parse ref_sys numbers (lit "10.0.0.1") everything.
Proof.
  split; [exact everything_one|]. split; [exact everything_takes|]. split; [exact ref_sys_converts|]. split; [exact numbers_ok|].
  split. { apply yes; [now apply not_in|right; now apply trimmed_lit|vm_compute; reflexivity|vm_compute; reflexivity|discriminate]. }
  split.
  { destruct (yes (lit "[::1]:443/[ffff::]") [(1, 0, 443, prefix_mask 16)]) as (l & A & _ & E);
      [now apply not_in|right; now apply trimmed_lit|vm_compute; reflexivity|vm_compute; reflexivity|discriminate|]. exists l. auto. }
  split. { apply no; [now apply not_in|right; now apply trimmed_lit|vm_compute; discriminate]. }
  split. { apply no; [now apply not_in|right; now apply trimmed_lit|vm_compute; discriminate]. }
  apply (C122_blanks ref_sys numbers everything (lit "  ") (lit "10.0.0.1") (lit " ")).
  - exact (to_separator _ everything_one).
  - exact (to_comment _ everything_one).
  - repeat constructor.
  - repeat constructor.
  - right. now apply trimmed_lit.
Qed.
(* Names, with the parser as it is created. *)
Lemma new_one : takes_one parser_new.
Proof. split; [now apply no_seps|now apply no_comments|reflexivity]. Qed.
Lemma new_takes : takes_entries parser_new.
Proof. split; [intros _; left; reflexivity|vm_compute; split; discriminate|vm_compute; tauto]. Qed.
Lemma one_name_known : known_protocols one_name.
Proof.
  intros node service n t q l E. unfold one_name in E. injection E as <-.
  constructor; [right; left; reflexivity|]. constructor; [right; right; reflexivity|constructor].
Qed.
Example C122_witness_names : takes_one parser_new /\ takes_entries parser_new /\ converts_decimals ref_sys /\ resolver_ok one_name
  /\ get_allow parser_new ALLOW_ADDRESS_LOOKUP = Ok true /\ known_protocols one_name
  /\ (exists r1 r2, accepted ref_sys one_name parser_new (lit "m2osw.com:80") [r1; r2])
  /\ (forall l, ~ accepted ref_sys one_name parser_new (lit "[m2osw.com") l).
Proof.
  assert (forall s, ~ In 0 s -> plain_text s -> error_count (fst (parse ref_sys one_name s parser_new)) <> error_count parser_new ->
    forall l, ~ accepted ref_sys one_name parser_new s l) as N.
  { intros s N T EC l A.
    destruct (C122_all_these _ _ _ _ _ new_one new_takes ref_sys_converts one_name_ok (fun _ => one_name_known) N T A) as (l2 & E & _). apply EC. now rewrite E. }
  split; [exact new_one|]. split; [exact new_takes|]. split; [exact ref_sys_converts|]. split; [exact one_name_ok|].
  split; [reflexivity|]. split; [exact one_name_known|]. split.
  - destruct (parse ref_sys one_name (lit "m2osw.com:80") parser_new) as [p2 r] eqn:E.
    assert (exists r1 r2, r = Ok [r1; r2]) as (r1 & r2 & ->) by (revert E; vm_compute; intros E; injection E as _ <-; eauto).
    exists r1, r2. eapply (C122_only_these _ _ _ _ _ _ new_one new_takes ref_sys_converts one_name_ok (fun _ => one_name_known)).
    + now apply not_in.
    + right. now apply trimmed_lit.
    + exact E.
    + revert E. vm_compute. intros E. injection E as <- _. reflexivity.
  - apply N. { now apply not_in. } { right. now apply trimmed_lit. } vm_compute. discriminate.
Qed.
