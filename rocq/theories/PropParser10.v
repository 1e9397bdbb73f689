(* Property C123: texts with several entries. *)
From Coq Require Import ZifyBool ZifyNat.
From Verif Require Import Base Addr Spec Range SpecRange Inet SpecText Parser SpecParser SpecParser2 SpecParser4 SpecLanguage.
From Verif Require AddrProofs AddrProofs4 ParserProofs ParserProofs2 ParserProofs3 ParserProofs4 ParserProofs7 ParserProofs8
  ParserProofs13 ParserProofs14 ParserProofs15 PropParser PropParser2 PropParser4 PropParser5 PropParser9.
Import AddrProofs AddrProofs4 ParserProofs ParserProofs2 ParserProofs3 ParserProofs4 ParserProofs7 ParserProofs8
  ParserProofs13 ParserProofs14 ParserProofs15 PropParser PropParser2 PropParser4 PropParser5 PropParser9.
Local Open Scope Z_scope.

(* Each text has entries. *)
Theorem C123_entries_exist : forall p s, exists ts, entries_of p s ts.
Proof. apply entries_exist. Qed.
Print Assumptions C123_entries_exist.

Definition lookup_known (g : resolver) (p : parser) : Prop := get_allow p ALLOW_ADDRESS_LOOKUP = Ok true -> known_protocols g.
Lemma known_allow g p : lookup_known g p -> allow p ALLOW_ADDRESS_LOOKUP = true -> known_protocols g.
Proof. intros K A. apply K. apply allowed_is; [unfold ALLOW_ADDRESS_LOOKUP; lia|exact A]. Qed.

(* The result is the meanings of the entries in order; each refused entry is
   an error at least, and without one the parser does not change. *)
Theorem C123_lists : forall y g p s ts, unsorted p -> takes_entries p -> converts_decimals y -> resolver_ok g -> lookup_known g p ->
  ~ In 0 s -> entries_of p s ts ->
  exists p2 vs, parse y g s p = (p2, Ok (concat (map fst vs))) /\ Forall2 (verdict y g p) ts vs
    /\ error_count p + Z.of_nat (length (filter (fun v => negb (snd v)) vs)) <= error_count p2
    /\ ((forall v, In v vs -> snd v = true) -> p2 = p).
Proof.
  intros y g p s ts U TE HC HG HK N0 E.
  destruct (lists y g p TE HC HG (known_allow g p HK) s ts U E N0) as (p2 & vs & EP & V & L & Z). exists p2, vs. split; [exact EP|]. split; [exact V|].
  split; [exact L|]. intros A. apply Z. unfold refusals. clear - A. induction vs as [|v vs IH]; [reflexivity|]. cbn [filter].
  rewrite (A v) by now left. cbn [negb]. apply IH. intros x I. apply A. now right.
Qed.
Print Assumptions C123_lists.

(* There is no error exactly when each entry is one of the language. *)
Definition entry_accepted (y : sys) (g : resolver) (p : parser) (e : str) : Prop :=
  exists b1 t b2 l, e = b1 ++ t ++ b2 /\ Forall blank b1 /\ plain_text t /\ Forall blank b2 /\ accepted y g p t l.
Lemma plain_unique_text b1 t b2 c1 u c2 : Forall blank b1 -> plain_text t -> Forall blank b2 -> Forall blank c1 -> plain_text u -> Forall blank c2 ->
  b1 ++ t ++ b2 = c1 ++ u ++ c2 -> t = u.
Proof.
  assert (forall b1 t b2, Forall blank b1 -> plain_text t -> Forall blank b2 -> trim_string (b1 ++ t ++ b2) = t) as K.
  { clear. intros b1 t b2 F1 T F2. rewrite trim_blanks by exact F1. destruct T as [->|(NE & H1 & H2)]; [now apply trim_all|].
    destruct t as [|c t]; [congruence|]. unfold trim_string. cbn [app]. rewrite trim_left_id by (now apply (H1 c t)).
    change (c :: t ++ b2) with ((c :: t) ++ b2). rewrite rev_app_distr, trim_left_blanks by (now apply Forall_rev). now apply trim_right. }
  intros F1 T F2 G1 X G2 E. rewrite <- (K b1 t b2), <- (K c1 u c2) by assumption. now rewrite E.
Qed.
Theorem C123_no_error : forall y g p s ts p2 r, unsorted p -> takes_entries p -> converts_decimals y -> resolver_ok g -> lookup_known g p ->
  ~ In 0 s -> entries_of p s ts -> parse y g s p = (p2, r) ->
  error_count p2 = error_count p <-> Forall (entry_accepted y g p) ts.
Proof.
  intros y g p s ts p2 r U TE HC HG HK N0 E EP. destruct (C123_lists y g p s ts U TE HC HG HK N0 E) as (p3 & vs & EP3 & V & L & Z).
  rewrite EP in EP3. injection EP3 as <- _. split.
  - intros EC. assert (length (filter (fun v : list addr_range * bool => negb (snd v)) vs) = 0%nat) as L0 by lia. clear - V L0.
    induction V as [|t v ts vs VT V IH]; constructor.
    + destruct VT as [b1 t b2 l F1 PT F2 A|b1 t b2 l F1 PT F2 N1 N2]; [|discriminate L0]. exists b1, t, b2, l. auto.
    + apply IH. cbn [filter] in L0. destruct (negb (snd v)); [discriminate|exact L0].
  - intros F. rewrite Z; [reflexivity|]. clear - V F. induction V as [|t v ts vs VT V IH]; intros x I; [destruct I|].
    inversion F as [|? ? FT FF]; subst. destruct I as [<-|I]; [|now apply IH].
    destruct VT as [b1 t b2 l F1 PT F2 A|b1 t b2 l F1 PT F2 N1 N2]; [reflexivity|].
    destruct FT as (c1 & u & c2 & l2 & E & G1 & PU & G2 & A). exfalso. apply (N1 l2).
    now rewrite (plain_unique_text b1 t b2 c1 u c2).
Qed.
Print Assumptions C123_no_error.

(* Three entries, the second one refused. *)
Definition listing : parser :=
  parser_run ref_sys numbers [P_set_allow ALLOW_ADDRESS_LOOKUP false; P_set_allow ALLOW_MASK true;
    P_set_allow ALLOW_ADDRESS_MASK true; P_set_allow ALLOW_ADDRESS_RANGE true; P_set_allow ALLOW_MULTI_ADDRESSES_COMMAS true;
    P_set_allow ALLOW_COMMENT_HASH true].
Lemma listing_takes : takes_entries listing.
Proof. split; [intros _; left; vm_compute; reflexivity|vm_compute; split; discriminate|vm_compute; tauto]. Qed.
Example C123_witness : unsorted listing /\ takes_entries listing /\ converts_decimals ref_sys /\ resolver_ok numbers /\ lookup_known numbers listing
  /\ entries_of listing (lit "10.0.0.1, 1.2.3.4/99,::1:5 # six") [lit "10.0.0.1"; lit " 1.2.3.4/99"; lit "::1:5 "]
  /\ ends_of (parse ref_sys numbers (lit "10.0.0.1, 1.2.3.4/99,::1:5 # six") listing)
     = [(v4_base + 167772161, 0, 0, LAST); (65541, 0, 0, LAST)]
  /\ error_count (fst (parse ref_sys numbers (lit "10.0.0.1, 1.2.3.4/99,::1:5 # six") listing)) = error_count listing + 1
  /\ ~ Forall (entry_accepted ref_sys numbers listing) [lit "10.0.0.1"; lit " 1.2.3.4/99"; lit "::1:5 "].
Proof.
  assert (entries_of listing (lit "10.0.0.1, 1.2.3.4/99,::1:5 # six") [lit "10.0.0.1"; lit " 1.2.3.4/99"; lit "::1:5 "]) as E.
  { assert (forall s, forallb (fun c => mem c (separators listing)) s = true -> Forall (separator listing) s) as F.
    { intros s H. apply Forall_forall. intros c Hc. rewrite forallb_forall in H. apply mem_separators. now apply H. }
    assert (forall s, forallb (fun c => negb (mem c (separators listing))) s = true -> Forall (fun c => ~ separator listing c) s) as G.
    { intros s H. apply Forall_forall. intros c Hc X. rewrite forallb_forall in H. specialize (H c Hc). apply mem_separators in X. now rewrite X in H. }
    assert (forall s, forallb (fun c => negb (mem c (comment_chars listing))) s = true -> Forall (fun c => ~ starts_comment listing c) s) as K.
    { intros s H. apply Forall_forall. intros c Hc X. rewrite forallb_forall in H. specialize (H c Hc). apply mem_comments in X. now rewrite X in H. }
    assert (separator listing 44) as S by (left; split; [vm_compute|]; reflexivity).
    apply (each_piece listing _ [lit "10.0.0.1"; lit " 1.2.3.4/99"; lit "::1:5 # six"] [lit "10.0.0.1"; lit " 1.2.3.4/99"; lit "::1:5 "]).
    - exists 44. exact S.
    - right. left. intros X. apply mem_separators in X. vm_compute in X. discriminate.
    - apply (pieces_one _ [] (lit "10.0.0.1") (lit ", 1.2.3.4/99,::1:5 # six")); [constructor|discriminate|apply G; vm_compute; reflexivity| |].
      { right. exists 44, (lit " 1.2.3.4/99,::1:5 # six"). now split. }
      apply (pieces_one _ [44] (lit " 1.2.3.4/99") (lit ",::1:5 # six")); [now constructor|discriminate|apply G; vm_compute; reflexivity| |].
      { right. exists 44, (lit "::1:5 # six"). now split. }
      apply (pieces_one _ [44] (lit "::1:5 # six") []); [now constructor|discriminate|apply G; vm_compute; reflexivity|now left|].
      constructor. constructor.
    - constructor; [|constructor; [|constructor; [|constructor]]].
      + split; [apply K; vm_compute; reflexivity|now left].
      + split; [apply K; vm_compute; reflexivity|now left].
      + split; [apply K; vm_compute; reflexivity|]. right. exists 35, (lit " six"). split; [reflexivity|]. left. split; [vm_compute|]; reflexivity. }
  assert (lookup_known numbers listing) as LK by (vm_compute; discriminate).
  split; [vm_compute; reflexivity|]. split; [exact listing_takes|]. split; [exact ref_sys_converts|]. split; [exact numbers_ok|]. split; [exact LK|].
  split; [exact E|]. split; [vm_compute; reflexivity|]. split; [vm_compute; reflexivity|].
  intros F. destruct (parse ref_sys numbers (lit "10.0.0.1, 1.2.3.4/99,::1:5 # six") listing) as [p2 r] eqn:EP.
  apply (C123_no_error ref_sys numbers listing (lit "10.0.0.1, 1.2.3.4/99,::1:5 # six") _ p2 r) in F.
  - revert EP F. vm_compute. intros EP. injection EP as <- _. discriminate.
  - vm_compute. reflexivity.
  - exact listing_takes.
  - exact ref_sys_converts.
  - exact numbers_ok.
  - exact LK.
  - now apply not_in.
  - exact E.
  - exact EP.
Qed.
