(* C165: an entry of a text may be replaced by one with the same meaning. *)
From Coq Require Import ZifyBool ZifyNat.
From Verif Require Import Base Addr Spec Range SpecRange Inet SpecText Parser SpecParser SpecParser2 SpecParser4 SpecLanguage SpecSettings SpecLists SpecReplace.
From Verif Require AddrProofs4 ParserProofs ParserProofs2 ParserProofs3 ParserProofs4 ParserProofs5 ParserProofs15 PropParser PropParser2 PropParser3 PropParser4 PropParser8
  OrderProofs ListProofs SettingsProofs PropParser5 PropGrammar.
Import AddrProofs4 ParserProofs ParserProofs2 ParserProofs3 ParserProofs15 PropParser PropParser2 PropParser3 PropParser4 PropParser8
  OrderProofs ListProofs.
Local Open Scope Z_scope.

Lemma for_one_unsorted p : unsorted (for_one p).
Proof. unfold for_one. rewrite alone_eq. unfold unsorted. cbn [f_sort with_flags]. apply without_sort_unsorted. Qed.
Lemma for_one_takes p : nobody (separator (for_one p)) /\ nobody (starts_comment (for_one p)).
Proof. destruct (alone_one (without_sort p) (without_sort_unsorted p)) as [A B _]. now split. Qed.
Lemma for_one_allow p f : In f SettingsProofs.entry_flags -> get_allow (for_one p) f = get_allow p f.
Proof.
  intros I. unfold for_one. rewrite alone_allow. rewrite without_sort_allow.
  cbn in I. destruct I as [<-|[<-|[<-|[<-|[<-|[<-|[<-|[]]]]]]]]; reflexivity.
Qed.
Lemma for_one_same p : get_default_address4 (for_one p) = get_default_address4 p /\ get_default_address6 (for_one p) = get_default_address6 p
  /\ get_default_mask4 (for_one p) = get_default_mask4 p /\ get_default_mask6 (for_one p) = get_default_mask6 p.
Proof. unfold for_one. rewrite alone_eq, without_sort_eq. now repeat split. Qed.
Lemma entry_flag q f : In f SettingsProofs.entry_flags -> get_allow q f = Ok (allow q f).
Proof. intros I. cbn in I. destruct I as [<-|[<-|[<-|[<-|[<-|[<-|[<-|[]]]]]]]]; reflexivity. Qed.
Lemma for_one_sim p : SettingsProofs.sim (without_sort p) (for_one p).
Proof.
  assert (forall f, In f SettingsProofs.entry_flags -> allow (without_sort p) f = allow (for_one p) f) as AL.
  { intros f I. pose proof (for_one_allow p f I) as X. rewrite <- (without_sort_allow p) in X.
    rewrite !(entry_flag _ f I) in X. congruence. }
  constructor; auto; try (unfold for_one; rewrite alone_eq; reflexivity).
Qed.

Lemma trim_after t b : Forall blank b -> trim_string (t ++ b) = trim_string t.
Proof.
  intros F. destruct (left_parts t) as (a & FA & E & H). destruct (trim_left t) as [|c u] eqn:U.
  - rewrite app_nil_r in E. subst a. rewrite trim_blanks by assumption. now rewrite !trim_all.
  - rewrite E, <- app_assoc, !trim_blanks by assumption. unfold trim_string.
    assert (forall w, trim_left ((c :: u) ++ w) = (c :: u) ++ w) as L.
    { intros w. apply ParserProofs4.trim_left_id. now apply (H c u). }
    pose proof (L []) as L0. rewrite app_nil_r in L0. rewrite (ParserProofs4.trim_left_blanks a _ FA), L, L0, rev_app_distr, ParserProofs4.trim_left_blanks by now apply Forall_rev. reflexivity.
Qed.
Lemma trim_around b1 t b2 : Forall blank b1 -> Forall blank b2 -> trim_string (b1 ++ t ++ b2) = trim_string t.
Proof. intros F1 F2. rewrite trim_blanks by assumption. now apply trim_after. Qed.

(* One entry by itself. *)
Lemma one_itself y g p t : parse y g t (for_one p) = parse_cidr y g t (for_one p).
Proof.
  destruct (for_one_takes p) as [NS NC].
  destruct (entries_parsed y g (for_one p) t [t] (for_one_unsorted p)) as (es & -> & F).
  { apply one_entry; auto. split; [|now left]. apply Forall_forall. intros c _. apply NC. }
  inversion F as [|? e ? es2 T F2]; subst. inversion F2; subst. rewrite one_single.
  now rewrite (cidr_trim _ _ e), (cidr_trim _ _ t), T.
Qed.
Lemma swap_one y g p t t2 : interchangeable y g p t t2 -> forall e c,
  parse_cidr y g t (with_errors (without_sort p) e c) = parse_cidr y g t2 (with_errors (without_sort p) e c).
Proof.
  unfold interchangeable. rewrite !one_itself. intros E e c.
  destruct (SettingsProofs.rel_cidr y g t _ _ I (for_one_sim p)) as (a & n & r & X1 & X2 & _).
  destruct (SettingsProofs.rel_cidr y g t2 _ _ I (for_one_sim p)) as (a2 & n2 & r2 & Y1 & Y2 & _).
  rewrite X2, Y2 in E. assert (r2 = r) as -> by congruence.
  pose proof (f_equal (fun x => f_error (fst x)) E) as E1. pose proof (f_equal (fun x => f_error_count (fst x)) E) as E2.
  cbn [fst SettingsProofs.log with_errors f_error f_error_count] in E1, E2. apply app_inv_head in E1. subst a2. assert (n2 = n) as -> by lia.
  destruct (does_some y g (without_sort p) t) as (ms & q & D). destruct (does_some y g (without_sort p) t2) as (ms2 & q2 & D2).
  pose proof (D (f_error (without_sort p)) (f_error_count (without_sort p))) as Z1.
  pose proof (D2 (f_error (without_sort p)) (f_error_count (without_sort p))) as Z2.
  rewrite with_errors_id in Z1, Z2. rewrite X1 in Z1. rewrite Y1 in Z2.
  rewrite (D e c), (D2 e c). assert (q = r /\ q2 = r) as [-> ->] by (split; congruence).
  pose proof (f_equal (fun x => f_error (fst x)) Z1) as U1. pose proof (f_equal (fun x => f_error (fst x)) Z2) as U2.
  pose proof (f_equal (fun x => f_error_count (fst x)) Z1) as V1. pose proof (f_equal (fun x => f_error_count (fst x)) Z2) as V2.
  cbn [fst SettingsProofs.log with_errors f_error f_error_count] in U1, U2, V1, V2. apply app_inv_head in U1, U2. subst a.
  rewrite <- U2. do 2 f_equal. lia.
Qed.
Lemma swap_all y g p ts ts2 : Forall2 (fun t t2 => forall e c,
  parse_cidr y g t (with_errors (without_sort p) e c) = parse_cidr y g t2 (with_errors (without_sort p) e c)) ts ts2 -> forall e c,
  one_after_the_other (parse_cidr y g) ts (with_errors (without_sort p) e c) = one_after_the_other (parse_cidr y g) ts2 (with_errors (without_sort p) e c).
Proof.
  induction 1 as [|t t2 ts ts2 H F IH]; intros e c; [reflexivity|]. cbn [one_after_the_other]. rewrite <- H.
  destruct (does_some y g (without_sort p) t) as (ms & r & D). rewrite (D e c). destruct r as [a|x| |]; try reflexivity. now rewrite IH.
Qed.
Lemma same_unsorted y g p s s2 : parse y g s (without_sort p) = parse y g s2 (without_sort p) -> parse y g s p = parse y g s2 p.
Proof.
  rewrite without_sort_eq. set (q := with_sort p _).
  assert (forall s, exists ms re, parse y g s p = (with_errors p (f_error p ++ flat ms) (f_error_count p + Z.of_nat (length ms)), rbind re (arrange (f_sort p)))
    /\ parse y g s q = (with_errors q (f_error p ++ flat ms) (f_error_count p + Z.of_nat (length ms)), re)) as K.
  { intros t. destruct (ParserProofs5.both_entries p q y g g eq_refl eq_refl eq_refl eq_refl eq_refl eq_refl eq_refl
      (eq_sym (no_empty_only (f_sort p))) (or_introl eq_refl) t) as (ms & re & E1 & E2).
    specialize (E1 (f_error p) (f_error_count p)). specialize (E2 (f_error p) (f_error_count p)).
    rewrite with_errors_id in E1. change (with_errors q (f_error p) (f_error_count p)) with q in E2.
    exists ms, re. split; unfold parse, bind, ask, lift.
    - rewrite E1. destruct re; reflexivity.
    - rewrite E2. destruct re as [l| | |]; try reflexivity. cbn [f_sort with_errors q with_sort]. now rewrite arrange_unsorted. }
  destruct (K s) as (ms & re & -> & ->). destruct (K s2) as (ms2 & re2 & -> & ->). intros E.
  assert (re2 = re) as -> by congruence.
  pose proof (f_equal (fun x => f_error (fst x)) E) as E1. pose proof (f_equal (fun x => f_error_count (fst x)) E) as E2.
  cbn [fst with_errors f_error f_error_count] in E1, E2. now rewrite E1, E2.
Qed.

(* Entries which cannot be told apart one by one cannot in a text, whatever
   separates them, whatever the comments and the sort order, and also when
   parse() throws. *)
Theorem C165_replace : forall y g p s s2 ts ts2, entries_of p s ts -> entries_of p s2 ts2 ->
  Forall2 (interchangeable y g p) ts ts2 -> parse y g s p = parse y g s2 p.
Proof.
  intros y g p s s2 ts ts2 E E2 F. apply same_unsorted.
  destruct (entries_parsed y g _ s ts (without_sort_unsorted p) (without_sort_entries p s ts E)) as (es & -> & T).
  destruct (entries_parsed y g _ s2 ts2 (without_sort_unsorted p) (without_sort_entries p s2 ts2 E2)) as (es2 & -> & T2).
  rewrite <- (with_errors_id (without_sort p)). apply swap_all.
  clear E E2 s s2. revert es es2 T T2. induction F as [|t t2 ts ts2 H F IH]; intros es es2 T T2; inversion T as [|? u ? us U T3]; inversion T2 as [|? v ? vs V T4]; subst; constructor.
  - intros e c. rewrite (cidr_trim _ _ u), (cidr_trim _ _ v), <- U, <- V, <- !cidr_trim. now apply swap_one.
  - now apply IH.
Qed.
Print Assumptions C165_replace.

(* Writing out a default makes an entry which cannot be told apart. *)
Lemma written_same y g p t t2 : written_out p t t2 -> interchangeable y g p t t2.
Proof.
  destruct (for_one_takes p) as [NS NC]. pose proof (for_one_unsorted p) as US. destruct (for_one_same p) as (A4 & A6 & M4 & M6).
  assert (forall f b, In f SettingsProofs.entry_flags -> get_allow p f = Ok b -> get_allow (for_one p) f = Ok b) as AL
    by (intros f b I <-; now apply for_one_allow).
  assert (ports_allowed p -> ports_allowed (for_one p)) as PO.
  { unfold ports_allowed. now rewrite !for_one_allow by (cbn; tauto). }
  unfold interchangeable. induction 1 as [t|t t2 t3 H1 IH1 H2 IH2|b1 t b2 F1 F2|b1 t b2 F1 F2|P m M six D W R HP PA HM HS HD HW T1 T2|A AM T N HA Y NE TM|A AM T N HA Y C].
  - reflexivity.
  - congruence.
  - rewrite !one_itself, (cidr_trim _ _ (b1 ++ t ++ b2)), (cidr_trim _ _ t). f_equal. now apply trim_around.
  - rewrite !one_itself, (cidr_trim _ _ (b1 ++ t ++ b2)), (cidr_trim _ _ t). f_equal. symmetry. now apply trim_around.
  - apply (C117_default_address y g (for_one p) P m M six D W); auto.
    + apply AL; [cbn; tauto|exact R].
    + destruct PA; auto.
    + destruct HM as [X|(X1 & X2 & X3)]; [now left|right]. split; [exact X1|]. split; [exact X2|]. apply AL; [cbn; tauto|exact X3].
    + rewrite HS. unfold means_six. now rewrite A4, A6.
    + unfold default_for in *. now rewrite A4, A6.
    + destruct HW as (X & X2). split; [|exact X2]. unfold one_host in *. destruct X as [X|X]; [now left|right]. apply AL; [cbn; tauto|exact X].
  - rewrite <- M4. apply C48_default_mask4_partial; auto; rewrite ?M4; auto.
    + apply AL; [cbn; tauto|exact AM].
    + destruct Y as (Y1 & Y2 & Y3 & Y4). split; [exact Y1|]. split; [exact Y2|]. split; [exact Y3|]. now rewrite !for_one_allow by (cbn; tauto).
  - rewrite <- M6. apply C48_default_mask6_partial; auto; rewrite ?M6; auto. apply AL; [cbn; tauto|exact AM].
Qed.
Theorem C165_defaults_written_out : forall y g p s s2 ts ts2, entries_of p s ts -> entries_of p s2 ts2 ->
  Forall2 (written_out p) ts ts2 -> parse y g s p = parse y g s2 p.
Proof.
  intros y g p s s2 ts ts2 E E2 F. apply (C165_replace y g p s s2 ts ts2 E E2).
  clear E E2 s s2. induction F; constructor; auto. now apply written_same.
Qed.
Print Assumptions C165_defaults_written_out.

(* Masks and commas allowed, sorted, a default address and a default mask. *)
Import PropParser5.
Definition with_defaults : parser :=
  parser_run ref_sys numbers [P_set_sort_order SORT_FULL; P_set_default_mask (lit "16"); P_set_default_address (lit "10.9.9.9");
    P_set_allow ALLOW_ADDRESS_LOOKUP false; P_set_allow ALLOW_MASK true; P_set_allow ALLOW_MULTI_ADDRESSES_COMMAS true].
Example C165_witness :
  let t := lit "10.0.0.1, :80 " in let t2 := lit "10.0.0.1/16,10.9.9.9:80/16" in
  let ts := [lit "10.0.0.1"; lit " :80 "] in let ts2 := [lit "10.0.0.1/16"; lit "10.9.9.9:80/16"] in
  entries_of with_defaults t ts /\ entries_of with_defaults t2 ts2 /\ Forall2 (written_out with_defaults) ts ts2
  /\ Forall2 (interchangeable ref_sys numbers with_defaults) ts ts2
  /\ exists r1 r2, parse ref_sys numbers t with_defaults = (with_defaults, Ok [r1; r2])
      /\ value (get_from r2) = v4_base + 168364297 /\ get_port (get_from r2) = 80 /\ mask_value (get_from r2) = 2 ^ 128 - 2 ^ 16.
Proof.
  cbv zeta.
  assert (Forall2 (written_out with_defaults) [lit "10.0.0.1"; lit " :80 "] [lit "10.0.0.1/16"; lit "10.9.9.9:80/16"]) as W.
  { assert (forall A, A <> [] -> trimmed A -> ~ In 47 A -> ~ In 93 A -> ~ In 91 A -> hd 0 A <> 58 -> ~ two_colons A -> trimmed (A ++ lit "/16") ->
      written_out with_defaults A (A ++ lit "/16")) as K.
    { intros A NE T N N2 N3 C C2 T2. change (lit "/16") with ([47] ++ get_default_mask4 with_defaults). apply wo_mask4; auto.
      - split; [exact NE|now left].
      - split; [destruct A as [|c A]; [congruence|cbn [hd]; intros X; apply N3; left; exact X]|]. split; [exact N2|]. split; [exact C2|]. right. left. reflexivity.
      - discriminate. }
    constructor; [|constructor; [|constructor]].
    - apply (K (lit "10.0.0.1")); try discriminate; try (now apply trimmed_lit); try (now apply not_in). apply no_two_colons. now left.
    - apply wo_then with (lit ":80"); [apply (wo_blanks _ [32] (lit ":80") [32]); (constructor; [left; reflexivity|constructor])|].
      apply wo_then with (lit "10.9.9.9:80").
      + apply (wo_address with_defaults (lit ":80") [] [] false (lit "10.9.9.9") (lit "10.9.9.9")).
        * reflexivity.
        * right. exists (lit "80"). split; [reflexivity|]. split; now apply not_in.
        * right. now left.
        * now left.
        * split; [discriminate|]. intros [[H _]|(_ & H & _)]; [congruence|discriminate].
        * left. split; [reflexivity|discriminate].
        * split; [left; now apply not_in|]. split; [now apply not_in|]. split; [now apply not_in|]. split; [now apply not_in|]. now split.
        * right. now apply trimmed_lit.
        * right. now apply trimmed_lit.
      + apply (K (lit "10.9.9.9:80")); try discriminate; try (now apply trimmed_lit); try (now apply not_in). apply no_two_colons. now right. }
  split. { change (lit "10.0.0.1, :80 ") with (lit "10.0.0.1" ++ [44] ++ lit " :80 ").
    apply PropGrammar.two_entries; try reflexivity; try discriminate; now apply not_in. }
  split. { change (lit "10.0.0.1/16,10.9.9.9:80/16") with (lit "10.0.0.1/16" ++ [44] ++ lit "10.9.9.9:80/16").
    apply PropGrammar.two_entries; try reflexivity; try discriminate; now apply not_in. }
  split; [exact W|]. split; [clear -W; induction W; constructor; auto; now apply written_same|].
  do 2 eexists. split; [vm_compute; reflexivity|]. split; [vm_compute; reflexivity|]. split; vm_compute; reflexivity.
Qed.
