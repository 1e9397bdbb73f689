(* Property C176: what separates the entries does not matter. *)
From Coq Require Import ZifyBool ZifyNat.
From Verif Require Import Base Addr Spec Range Inet Parser SpecParser SpecParser2 SpecParser4 SpecLanguage SpecModes SpecSettings SpecLists SpecCuts.
From Verif Require AddrProofs4 ParserProofs ParserProofs2 ParserProofs3 ParserProofs4 ParserProofs5 ParserProofs15 PropParser PropParser2 PropParser3 PropParser5
  OrderProofs ListProofs PropReplace PropAllow SettingsProofs.
Import AddrProofs4 ParserProofs ParserProofs2 ParserProofs3 ParserProofs15 PropParser PropParser2 PropParser3 OrderProofs SettingsProofs PropAllow.
Local Open Scope Z_scope.

Lemma entry_flag_range f : In f entry_flags -> In f looked_at /\ ~ In f cuts /\ 0 <= f < 16.
Proof.
  intros I. cbn in I. decompose [or] I; subst; try contradiction;
    (split; [cbn; tauto|]; split; [intros X; cbn in X; decompose [or] X; try discriminate; contradiction|cbv; split; try discriminate; reflexivity]).
Qed.
Lemma cuts_sim p q : same_but_cuts p q -> sim (without_sort p) (without_sort q).
Proof.
  intros [FL SO PR A4 A6 DP M4 M6]. rewrite !without_sort_eq. constructor; try assumption.
  - intros f I. change (allow p f = allow q f). destruct (entry_flag_range f I) as (L & N & RG).
    specialize (FL f L N). rewrite !get_allow_nth in FL by exact RG. now injection FL.
  - cbn [f_sort with_sort]. unfold get_sort_order in SO. now rewrite SO.
  - intros _. exact DP.
  - intros _ m b. unfold effective_mask. cbn [f_default_mask4 f_default_mask6 with_sort]. unfold get_default_mask4, get_default_mask6 in *. now rewrite M4, M6.
Qed.
Lemma same_trim t u : same_inside t u -> trim_string t = trim_string u.
Proof. intros (b1 & b2 & c1 & c2 & w & B1 & B2 & C1 & C2 & -> & ->). now rewrite !PropReplace.trim_around. Qed.
Lemma cut_all y g es es2 : Forall2 (fun e e2 => trim_string e = trim_string e2) es es2 -> forall p q, sim p q ->
  exists x n r, one_after_the_other (parse_cidr y g) es p = (log p x n, r) /\ one_after_the_other (parse_cidr y g) es2 q = (log q x n, r) /\ 0 <= n.
Proof.
  induction 1 as [|e e2 es es2 T F IH]; intros p q S.
  - exists [], 0, (Ok []). cbn [one_after_the_other]. rewrite !log_nil. repeat split. lia.
  - destruct (rel_cidr y g e p q I S) as (x & n & r & E1 & E2 & N). cbn [one_after_the_other].
    rewrite (cidr_trim _ _ e) in E2. rewrite T in E2. rewrite <- cidr_trim in E2. rewrite E1, E2.
    destruct r as [l|z| |]; [|exists x, n; eexists; repeat split; assumption..].
    destruct (IH (log p x n) (log q x n) (sim_log _ _ _ _ _ _ S)) as (x2 & n2 & r2 & -> & -> & N2).
    rewrite !log_log. exists (x ++ x2), (n + n2). destruct r2; eexists; repeat split; lia.
Qed.
Lemma sorted_after y g s p x n r : parse y g s (without_sort p) = (log (without_sort p) x n, r) -> parse y g s p = (log p x n, rbind r (arrange (f_sort p))).
Proof.
  intros E. rewrite without_sort_eq in E. set (q := with_sort p _) in E.
  destruct (ParserProofs5.both_entries p q y g g eq_refl eq_refl eq_refl eq_refl eq_refl eq_refl eq_refl
    (eq_sym (no_empty_only (f_sort p))) (or_introl eq_refl) s) as (ms & re & E1 & E2).
  specialize (E1 (f_error p) (f_error_count p)). specialize (E2 (f_error p) (f_error_count p)).
  rewrite with_errors_id in E1. change (with_errors q (f_error p) (f_error_count p)) with q in E2.
  assert (Q : parse y g s q = (with_errors q (f_error p ++ flat ms) (f_error_count p + Z.of_nat (length ms)), re)).
  { unfold parse, bind, ask, lift. rewrite E2. destruct re as [l| | |]; try reflexivity. cbn [f_sort with_errors q with_sort]. now rewrite arrange_unsorted. }
  rewrite E in Q. assert (re = r) as -> by congruence.
  pose proof (f_equal (fun x => f_error (fst x)) Q) as Q1. pose proof (f_equal (fun x => f_error_count (fst x)) Q) as Q2.
  unfold log in Q1, Q2. cbn [fst with_errors f_error f_error_count q with_sort] in Q1, Q2. unfold log. rewrite Q1, Q2.
  unfold parse, bind, ask, lift. rewrite E1. destruct r; reflexivity.
Qed.

(* Two texts which two parsers cut into the same entries, blanks around them
   aside: same ranges, same exception, same errors. *)
Theorem C176_cut : forall y g p q s s2 ts ts2, entries_of p s ts -> entries_of q s2 ts2 -> Forall2 same_inside ts ts2 ->
  same_but_cuts p q -> same_answer p (parse y g s p) q (parse y g s2 q).
Proof.
  intros y g p q s s2 ts ts2 E E' F D.
  destruct (entries_parsed y g _ s ts (without_sort_unsorted p) (without_sort_entries p s ts E)) as (es & P1 & T).
  destruct (entries_parsed y g _ s2 ts2 (without_sort_unsorted q) (without_sort_entries q s2 ts2 E')) as (es2 & P2 & T2).
  assert (FE : Forall2 (fun e e2 => trim_string e = trim_string e2) es es2).
  { clear - F T T2. revert es es2 T T2. induction F as [|t t2 ts ts2 H F IH]; intros es es2 T T2; inversion T as [|? e ? es' HU T']; inversion T2 as [|? e2 ? es2' HV T2']; subst; constructor; auto.
    rewrite <- HU, <- HV. now apply same_trim. }
  destruct (cut_all y g es es2 FE _ _ (cuts_sim p q D)) as (x & n & r & X1 & X2 & N).
  rewrite <- P1 in X1. rewrite <- P2 in X2. rewrite (sorted_after _ _ _ _ _ _ _ X1), (sorted_after _ _ _ _ _ _ _ X2).
  pose proof (bc_sort _ _ D) as SO. unfold get_sort_order in SO. rewrite SO.
  split; [reflexivity|]. exists x. repeat split. unfold error_count, log. cbn [fst f_error_count with_errors]. lia.
Qed.
Print Assumptions C176_cut.

Lemma inside_refl ts : Forall2 same_inside ts ts.
Proof.
  induction ts as [|t ts IH]; constructor; auto. exists [], [], [], [], t. rewrite app_nil_r. repeat split; constructor.
Qed.
Lemma uncut_nonempty p ts : Forall (uncut p) ts -> filter nonempty_str ts = ts.
Proof. induction 1 as [|t ts [N _] F IH]; [reflexivity|]. destruct t; [now destruct N|]. cbn. now rewrite IH. Qed.
Lemma separated_entries p w ts : w <> [] -> Forall (separator p) w -> whole_lines p -> Forall (uncut p) ts -> entries_of p (separated w ts) ts.
Proof.
  intros NW FW WL F. pose proof (uncut_nonempty p ts F) as E. rewrite <- E at 2. apply each_piece with ts; [|exact WL| |].
  - destruct w as [|c w]; [now destruct NW|]. exists c. now inversion FW.
  - apply ListProofs.separated_pieces; auto. eapply Forall_impl; [|exact F]. intros t [N C]. split; [exact N|]. apply Forall_forall. intros c I. now apply C.
  - clear - F. induction F as [|t ts [N C] F IH]; constructor; auto. split; [|now left]. apply Forall_forall. intros c I. now apply C.
Qed.
(* A list with any separators: commas on a command line, newlines in a file,
   one or several of them. *)
Theorem C176_lists : forall y g p q v w ts, v <> [] -> Forall (separator p) v -> w <> [] -> Forall (separator q) w ->
  whole_lines p -> whole_lines q -> Forall (fun t => uncut p t /\ uncut q t) ts -> same_but_cuts p q ->
  same_answer p (parse y g (separated v ts) p) q (parse y g (separated w ts) q).
Proof.
  intros y g p q v w ts NV FV NW FW LP LQ F D.
  apply (C176_cut y g p q _ _ ts ts); auto using inside_refl; apply separated_entries; auto; eapply Forall_impl; try exact F; intros t [A B]; assumption.
Qed.
Print Assumptions C176_lists.

Lemma uncut_entries p t : uncut p t -> entries_of p t [t].
Proof.
  intros [N C]. assert (F1 : Forall (fun c => ~ separator p c) t) by (apply Forall_forall; intros c I; now apply C).
  assert (F2 : Forall (fun c => ~ starts_comment p c) t) by (apply Forall_forall; intros c I; now apply C).
  assert (UP : up_to (starts_comment p) t t) by (split; [exact F2|now left]).
  destruct (separators p) as [|c l] eqn:SE.
  { apply one_entry; auto. intros c X. apply mem_separators in X. rewrite SE in X. discriminate. }
  assert (EX : exists c, separator p c) by (exists c; apply mem_separators; rewrite SE; cbn; now rewrite Z.eqb_refl).
  assert (FE : filter nonempty_str [t] = [t]) by (destruct t; [now destruct N|reflexivity]).
  assert (EP : whole_lines p -> entries_of p t [t]).
  { intros WL. rewrite <- FE. apply each_piece with [t]; auto. now apply pieces_single. }
  destruct (mem 10 (separators p)) eqn:M10.
  - apply mem_separators in M10. destruct (comment_chars p) as [|d k] eqn:CE.
    + apply EP. left. intros d X. apply mem_comments in X. rewrite CE in X. discriminate.
    + replace [t] with (filter nonempty_str (concat [[t]])) by exact FE. apply first_of_lines with [t]; auto.
      * exists d. apply mem_comments. rewrite CE. cbn. now rewrite Z.eqb_refl.
      * apply pieces_single; [exact N|]. eapply Forall_impl; [|exact F1]. intros c0 X ->. now apply X.
      * constructor; [|constructor]. right. exists t, [], t. split; [now apply pieces_single|]. now split.
  - apply EP. right. left. intros X. apply mem_separators in X. rewrite X in M10. discriminate.
Qed.
(* Lists and comments may be allowed or not: a text without separators and
   comments, good or bad, is answered the same. *)
Theorem C176_uncut : forall y g p q t, uncut p t -> uncut q t -> same_but_cuts p q -> same_answer p (parse y g t p) q (parse y g t q).
Proof. intros y g p q t U V D. apply (C176_cut y g p q t t [t] [t]); auto using uncut_entries, inside_refl. Qed.
Print Assumptions C176_uncut.

(* A usable case: three entries, one of them refused, on a command line and in
   a file with comments. *)
Import PropParser5.
Definition command_line : parser := parser_run ref_sys numbers [P_set_allow ALLOW_ADDRESS_LOOKUP false; P_set_allow ALLOW_MASK true; P_set_allow ALLOW_MULTI_ADDRESSES_COMMAS true].
Definition in_file : parser := parser_run ref_sys numbers [P_set_allow ALLOW_ADDRESS_LOOKUP false; P_set_allow ALLOW_MASK true; P_set_allow ALLOW_MULTI_ADDRESSES_NEWLINES true;
  P_set_allow ALLOW_COMMENT_HASH true].
Example C176_witness : let ts := [lit "10.0.0.0/8"; lit "300.1"; lit "192.168.1.1"] in
  Forall (fun t => uncut command_line t /\ uncut in_file t) ts /\ same_but_cuts command_line in_file
  /\ Forall (separator command_line) [44] /\ Forall (separator in_file) [10] /\ whole_lines command_line /\ whole_lines in_file
  /\ (exists c, starts_comment in_file c)
  /\ separated [44] ts = lit "10.0.0.0/8,300.1,192.168.1.1"
  /\ exists p1 q1 r1 r2, parse ref_sys numbers (separated [44] ts) command_line = (p1, Ok [r1; r2]) /\ parse ref_sys numbers (separated [10] ts) in_file = (q1, Ok [r1; r2])
      /\ error_count p1 = 1 /\ error_count q1 = 1.
Proof.
  assert (SP : forall c, separator command_line c -> c = 44) by (intros c H; apply mem_separators in H; change (separators command_line) with [44] in H; cbn in H; lia).
  assert (SQ : forall c, separator in_file c -> c = 10) by (intros c H; apply mem_separators in H; change (separators in_file) with [10] in H; cbn in H; lia).
  assert (CP : nobody (starts_comment command_line)) by (intros c H; apply mem_comments in H; discriminate).
  assert (CQ : forall c, starts_comment in_file c -> c = 35) by (intros c H; apply mem_comments in H; change (comment_chars in_file) with [35] in H; cbn in H; lia).
  assert (U : forall t, t <> [] -> ~ In 44 t -> ~ In 10 t -> ~ In 35 t -> uncut command_line t /\ uncut in_file t).
  { intros t N A B C. split; (split; [exact N|]); intros c I; split; intros X.
    - apply SP in X. now subst.
    - now apply CP in X.
    - apply SQ in X. now subst.
    - apply CQ in X. now subst. }
  cbv zeta. split; [constructor; [|constructor; [|constructor; [|constructor]]]; apply U; try discriminate; now apply not_in|].
  split. { constructor; try reflexivity. intros f I N. cbn in I. decompose [or] I; subst; try contradiction; try reflexivity; exfalso; apply N; cbn; tauto. }
  split; [constructor; [|constructor]; now apply mem_separators|]. split; [constructor; [|constructor]; now apply mem_separators|].
  split; [now left|]. split; [right; right; exact SQ|]. split; [exists 35; now apply mem_comments|]. split; [reflexivity|].
  do 4 eexists. split; [vm_compute; reflexivity|]. split; [vm_compute; reflexivity|]. split; vm_compute; reflexivity.
Qed.
