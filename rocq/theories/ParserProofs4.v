(* Comments without separators, and comments with several separators. *)
From Coq Require Import ZifyBool ZifyNat.
From Verif Require Import Base Addr Spec Range SpecRange Inet Parser SpecParser
  ParserProofs ParserProofs2 ParserProofs3.
Local Open Scope Z_scope.

(* ---------- one entry ---------- *)

Lemma isspace_spec c : isspace c = true <-> blank c.
Proof. unfold isspace, blank. lia. Qed.

Lemma trim_left_blanks sp r : Forall blank sp -> trim_left (sp ++ r) = trim_left r.
Proof.
  intros F. induction F as [|c sp Hc F IH]; [reflexivity|]. cbn [app trim_left].
  apply isspace_spec in Hc. now rewrite Hc.
Qed.
Lemma trim_left_id c r : ~ blank c -> trim_left (c :: r) = c :: r.
Proof.
  intros N. cbn [trim_left]. destruct (isspace c) eqn:E; [|reflexivity]. now apply isspace_spec in E.
Qed.
Lemma blank_dec c : blank c \/ ~ blank c.
Proof. unfold blank. lia. Qed.
Lemma leading_blanks s : exists sp r, s = sp ++ r /\ Forall blank sp /\ (r = [] \/ exists c t, r = c :: t /\ ~ blank c).
Proof.
  induction s as [|c s (sp & r & -> & F & B)]; [exists [], []; repeat split; auto|].
  destruct (blank_dec c) as [H|H].
  - exists (c :: sp), r. repeat split; auto.
  - exists [], (c :: sp ++ r). repeat split; auto. right. exists c, (sp ++ r). now split.
Qed.

Lemma split_none set s : Forall (fun c => mem c set = false) s -> split_at set s = (s, []).
Proof.
  intros F. induction F as [|c s Hc F IH]; [reflexivity|]. cbn [split_at]. now rewrite Hc, IH.
Qed.
Lemma split_some set a c b : Forall (fun c => mem c set = false) a -> mem c set = true ->
  split_at set (a ++ c :: b) = (a, c :: b).
Proof.
  intros F Hc. induction F as [|d a Hd F IH]; cbn [app split_at]; [now rewrite Hc|]. now rewrite Hd, IH.
Qed.

(* sp: the leading blanks, t: the text, cut before a comment or the end *)
Lemma single_entry_form comments sp c t v : Forall blank sp -> ~ blank c ->
  Forall (fun d => mem d comments = false) (c :: t) ->
  (v = [] \/ comments <> [] /\ exists d r, v = d :: r /\ mem d comments = true) ->
  single_entry comments (sp ++ (c :: t) ++ v) = rev (trim_left (rev (c :: t))).
Proof.
  intros F Nc N B. unfold single_entry.
  assert (trim_left (sp ++ (c :: t) ++ v) = (c :: t) ++ v) as ->.
  { rewrite trim_left_blanks by assumption. now apply trim_left_id. }
  assert (length (sp ++ (c :: t) ++ v) - length ((c :: t) ++ v) = length sp)%nat as ->.
  { rewrite (app_length sp). lia. }
  assert (skipn (length sp) (sp ++ (c :: t) ++ v) = (c :: t) ++ v) as ->.
  { rewrite skipn_app, skipn_all, Nat.sub_diag. reflexivity. }
  assert ((match comments with
           | [] => length (sp ++ (c :: t) ++ v)
           | _ => (length sp + length (fst (split_at comments ((c :: t) ++ v))))%nat
           end) = length (sp ++ c :: t)) as ->.
  { destruct comments as [|cc co].
    - destruct B as [->|[B _]]; [now rewrite app_nil_r|now destruct B].
    - destruct B as [->|(_ & d & r & -> & Hd)].
      + rewrite app_nil_r, split_none, app_length by assumption. reflexivity.
      + rewrite split_some, app_length by assumption. reflexivity. }
  assert (firstn (length (sp ++ c :: t)) (sp ++ (c :: t) ++ v) = sp ++ c :: t) as ->.
  { rewrite app_assoc, firstn_app, firstn_all, Nat.sub_diag. cbn [firstn]. apply app_nil_r. }
  assert (exists k, rev (trim_left (rev (c :: t))) = c :: k /\ exists q, c :: t = (c :: k) ++ q
            /\ rev (trim_left (rev (sp ++ c :: t))) = sp ++ c :: k) as (k & Ek & q & Eq & Es).
  { destruct (leading_blanks (rev t)) as (bl & r & Er & Fb & Br).
    assert (t = rev r ++ rev bl) as Et.
    { apply (f_equal (@rev _)) in Er. now rewrite rev_involutive, rev_app_distr in Er. }
    exists (rev r). assert (trim_left (rev (c :: t)) = r ++ [c]) as Tr.
    { cbn [rev]. rewrite Er, <- app_assoc, trim_left_blanks by assumption.
      destruct Br as [->|(d & r' & -> & Nd)]; now apply trim_left_id. }
    split; [rewrite Tr, rev_app_distr; reflexivity|]. exists (rev bl).
    split; [now rewrite Et|]. rewrite rev_app_distr. cbn [rev].
    rewrite Er, <- !app_assoc, trim_left_blanks by assumption.
    assert (trim_left (r ++ [c] ++ rev sp) = r ++ [c] ++ rev sp) as ->.
    { destruct Br as [->|(d & r' & -> & Nd)]; now apply trim_left_id. }
    rewrite !rev_app_distr, rev_involutive. cbn [rev app]. now rewrite <- app_assoc. }
  rewrite Es, Ek. rewrite app_length.
  destruct (length sp + length (c :: k) <? length sp)%nat eqn:L; [apply Nat.ltb_lt in L; lia|].
  replace (length sp + length (c :: k) - length sp)%nat with (length (c :: k)) by lia.
  rewrite Eq, <- app_assoc, firstn_app, firstn_all, Nat.sub_diag. cbn [firstn]. apply app_nil_r.
Qed.

Lemma single_entry_nil comments : single_entry comments [] = [].
Proof. unfold single_entry. now destruct comments. Qed.

Lemma comment_not_blank p c : starts_comment p c -> ~ blank c.
Proof. unfold starts_comment, blank. lia. Qed.

Lemma single_entry_comment p s t : up_to (starts_comment p) s t ->
  (t = [] \/ Exists (fun c => ~ blank c) t) ->
  single_entry (comment_chars p) s = single_entry (comment_chars p) t.
Proof.
  intros [N B] H. destruct B as [->|(c & r & -> & Sc)]; [reflexivity|].
  assert (Forall (fun c => mem c (comment_chars p) = false) t) as N'.
  { eapply Forall_impl; [|exact N]. cbv beta. intros d Hd. destruct (mem d (comment_chars p)) eqn:E; [|reflexivity].
    destruct Hd. now apply mem_comments. }
  assert (comment_chars p <> []) as NE.
  { intros E. apply mem_comments in Sc. now rewrite E in Sc. }
  pose proof (comment_not_blank _ _ Sc) as Nb. apply mem_comments in Sc.
  destruct H as [->|H].
  - cbn [app]. rewrite single_entry_nil. unfold single_entry. rewrite trim_left_id by assumption.
    rewrite Nat.sub_diag. cbn [skipn]. cbn [split_at]. rewrite Sc.
    destruct (comment_chars p); [now destruct NE|]. reflexivity.
  - destruct (leading_blanks t) as (sp & r' & -> & F & Br).
    destruct Br as [->|(d & u & -> & Nd)].
    { exfalso. rewrite app_nil_r in H. clear - H F. induction F; inversion H; auto. }
    apply Forall_app in N'. destruct N' as [_ N'].
    rewrite <- app_assoc, single_entry_form; [|assumption|assumption|assumption|right; split; [assumption|]; now exists c, r].
    rewrite <- (app_nil_r (d :: u)) at 2. rewrite single_entry_form; auto.
Qed.

Theorem parse_comment y g s t p : nobody (separator p) -> up_to (starts_comment p) s t ->
  (t = [] \/ Exists (fun c => ~ blank c) t) ->
  parse y g s p = parse y g t p.
Proof.
  intros NS U H. unfold parse, bind. rewrite !entries_single by now apply nobody_separators.
  now rewrite (single_entry_comment p s t U H).
Qed.

(* ---------- lines ---------- *)

Section Lines.
Variables (y : sys) (g : resolver) (seps comments : str).
Hypothesis NC : comments <> [].
Hypothesis NL : mem 10 seps = true.
Let sep (c : Z) : Prop := mem c seps = true.
Let com (c : Z) : Prop := mem c comments = true.

Definition firsts (s : str) (ts : list str) : Prop :=
  exists lines fs, pieces newline s lines /\ Forall2 (line_entry sep com) lines fs /\ ts = concat fs.

Lemma line_entry_sep c r ts : sep c -> line_entry sep com (c :: r) ts -> line_entry sep com r ts.
Proof.
  intros Sc [[H ->]|(w & ps & t & H & U & ->)]; [left|right].
  - split; [|reflexivity]. now apply pieces_sep in H.
  - exists w, ps, t. apply pieces_sep in H; auto.
Qed.

Lemma newline_split s : exists u v, split_at [10] s = (u, v) /\ s = u ++ v
  /\ Forall (fun c => ~ newline c) u /\ (v = [] \/ exists c r, v = c :: r /\ newline c).
Proof.
  destruct (split_at_spec [10] s) as [N B]. pose proof (split_at_app [10] s) as E.
  destruct (split_at [10] s) as [u v]. cbn [fst snd] in *. exists u, v. repeat split; auto.
  - eapply Forall_impl; [|exact N]. unfold mem, newline. cbn [existsb]. intros c Hc. lia.
  - destruct B as [->|(c & r & -> & Hc)]; [now left|right]. exists c, r. split; [reflexivity|].
    unfold mem, newline in *. cbn [existsb] in Hc. lia.
Qed.

Lemma firsts_sep c r ts : sep c -> firsts (c :: r) ts -> firsts r ts.
Proof.
  intros Sc (lines & fs & H & F & ->).
  destruct (Z.eq_dec c 10) as [->|Nc].
  { apply pieces_sep in H; [|reflexivity]. exists lines, fs. auto. }
  destruct (newline_split r) as (u & v & _ & -> & Nu & Bv).
  change (c :: u ++ v) with ((c :: u) ++ v) in H.
  apply pieces_word in H; [|discriminate|constructor; assumption|assumption].
  destruct H as (lines' & -> & H). inversion F as [|? f ? fs' F1 F2]; subst.
  apply (line_entry_sep c u) in F1; [|assumption].
  destruct u as [|d u].
  - cbn [app]. exists lines', fs'. repeat split; auto.
    destruct F1 as [[_ ->]|(w & ps & t & H1 & _)]; [reflexivity|]. now apply pieces_nil in H1.
  - exists ((d :: u) :: lines'), (f :: fs'). split; [|split; [now constructor|reflexivity]].
    apply (pieces_one newline [] (d :: u) v lines'); auto. discriminate.
Qed.

Lemma firsts_word w t ts : w <> [] -> Forall (fun c => ~ sep c) w ->
  (t = [] \/ exists c r, t = c :: r /\ sep c) -> firsts (w ++ t) ts ->
  exists ts', ts = fst (split_at comments w) :: ts' /\ firsts (skipn 1 (snd (split_at [10] t))) ts'.
Proof.
  intros NE N B (lines & fs & H & F & ->).
  destruct (newline_split t) as (u & v & E & -> & Nu & Bv).
  assert (Forall (fun c => ~ newline c) w) as Nw.
  { eapply Forall_impl; [|exact N]. cbv beta. unfold sep, newline. intros c Hc ->. contradiction. }
  rewrite app_assoc in H. apply pieces_word in H; [| |now apply Forall_app|assumption].
  2:{ intros K. apply app_eq_nil in K. now destruct K. }
  destruct H as (lines' & -> & H). inversion F as [|? f ? fs' F1 F2]; subst.
  assert (u = [] \/ exists c r, u = c :: r /\ sep c) as Bu.
  { destruct u as [|c u]; [now left|right]. exists c, u. split; [reflexivity|].
    destruct B as [B|(c' & r & B & Sc)]; [discriminate|]. cbn [app] in B. congruence. }
  destruct F1 as [[F1 _]|(w' & ps & t' & F1 & U & ->)].
  { apply pieces_word in F1; auto. destruct F1 as (? & F1 & _). discriminate. }
  apply pieces_word in F1; auto. destruct F1 as (ps' & F1 & _).
  assert (w' = w) as -> by congruence. apply up_to_split in U. rewrite U.
  exists (concat fs'). split; [reflexivity|]. rewrite E. cbn [snd]. exists lines', fs'. repeat split; auto.
  destruct Bv as [->|(c & r & -> & Hc)]; [exact H|]. cbn [skipn]. now apply pieces_sep in H.
Qed.

Lemma loop_lines : forall fuel rest ts p, (length rest <= fuel)%nat -> firsts rest ts ->
  parse_loop y g fuel seps comments true rest p
  = one_after_the_other (parse_cidr y g) (filter nonempty_str ts) p.
Proof.
  assert (forall ts, firsts [] ts -> ts = []) as K0.
  { intros ts (lines & fs & H & F & ->). apply pieces_nil in H. subst. now inversion F. }
  induction fuel as [|k IH]; intros rest ts p L H.
  { destruct rest; [|cbn in L; lia]. apply K0 in H. now subst. }
  destruct rest as [|c0 rest]; [apply K0 in H; now subst|].
  cbn [parse_loop]. destruct (split_at_spec seps (c0 :: rest)) as [N B].
  pose proof (split_at_app seps (c0 :: rest)) as E.
  destruct (split_at seps (c0 :: rest)) as [w t]. cbn [fst snd] in *. destruct w as [|c w].
  - cbn [app] in E. subst t. destruct B as [B|(c & r & Ec & Sc)]; [discriminate|].
    assert (c0 = c /\ rest = r) as [-> ->] by (split; congruence).
    cbn [skipn]. apply IH; [cbn in L; lia|]. now apply firsts_sep in H.
  - rewrite <- E in H. apply firsts_word in H; [|discriminate| |exact B].
    2:{ eapply Forall_impl; [|exact N]. unfold sep. cbv beta. intros. congruence. }
    destruct H as (ts' & -> & H).
    match goal with |- (let (_, _) := ?x in _) p = _ =>
      assert (x = (fst (split_at comments (c :: w)), snd (split_at [10] t))) as -> end.
    { assert (forall (A : Type) (a b : A), match comments with [] => a | _ => b end = b) as ->.
      { intros A a b. clear - NC. now destruct comments. }
      f_equal. destruct t as [|d t']; [reflexivity|]. cbn [andb]. unfold negb. 
      cbn [split_at mem existsb]. unfold mem. cbn [existsb].
      destruct (d =? 10) eqn:Ed; cbn [orb negb]; [reflexivity|]. reflexivity. }
    assert ((length (skipn 1 (snd (split_at [10%Z] t))) <= k)%nat) as L'.
    { apply (f_equal (@length _)) in E. rewrite app_length in E. cbn [length] in E, L.
      rewrite skipn_length. pose proof (f_equal (@length _) (split_at_app [10] t)) as Q. rewrite app_length in Q. lia. }
    cbn [filter]. destruct (fst (split_at comments (c :: w))) as [|x xs] eqn:Ex; cbn [nonempty_str].
    + rewrite skip_nil. now apply IH.
    + rewrite one_cons, loop_turn. destruct (parse_cidr y g (x :: xs) p) as [p1 [a|e| |]]; try reflexivity.
      now rewrite (IH _ _ _ L' H).
Qed.
End Lines.

Theorem parse_is_lines y g s lines firsts p : unsorted p ->
  (exists c, starts_comment p c) -> separator p 10 ->
  pieces newline s lines -> Forall2 (line_entry (separator p) (starts_comment p)) lines firsts ->
  parse y g s p = one_after_the_other (parse y g) (filter nonempty_str (concat firsts)) p.
Proof.
  intros U [c0 S0] NL H F.
  assert (separators p <> []) as NS.
  { intros E. apply mem_separators in NL. now rewrite E in NL. }
  assert (comment_chars p <> []) as NC.
  { intros E. apply mem_comments in S0. now rewrite E in S0. }
  assert (allow p ALLOW_MULTI_ADDRESSES_NEWLINES = true) as AN.
  { destruct NL as [[_ ?]|[[_ ?]|[K _]]]; try discriminate. unfold get_allow in K. cbn in K. congruence. }
  rewrite parse_unsorted, entries_seps, AN by assumption.
  rewrite (loop_lines y g (separators p) (comment_chars p) NC (proj2 (mem_separators p 10) NL) _ _ (concat firsts) _ (le_n _)).
  - apply one_parse; auto. apply Forall_forall. intros t Ht. apply filter_In in Ht. destruct Ht as [Ht NE].
    apply in_concat in Ht. destruct Ht as (f & Hf & Ht).
    assert (exists line, line_entry (separator p) (starts_comment p) line f) as [line Le].
    { clear - F Hf. induction F; [now destruct Hf|]. destruct Hf as [->|Hf]; [eauto|auto]. }
    destruct Le as [[_ ->]|(w & ps & t' & Hw & Ut & ->)]; [now destruct Ht|].
    destruct Ht as [->|[]]. split; [intros E; now rewrite E in NE|].
    rewrite (up_to_cut _ _ _ Ut). apply cut_words. apply pieces_words in Hw. now inversion Hw.
  - exists lines, firsts. repeat split; auto. clear - F. induction F as [|line f lines fs Le F IH]; constructor; auto.
    assert (forall w ps, pieces (separator p) w ps -> pieces (fun c => mem c (separators p) = true) w ps) as K.
    { intros w ps. apply pieces_ext. intros c. symmetry. apply mem_separators. }
    destruct Le as [[Le ->]|(w & ps & t' & Hw & Ut & ->)]; [left; auto|right].
    exists w, ps, t'. split; [auto|]. split; [|reflexivity]. destruct Ut as [N B]. split.
    + eapply Forall_impl; [|exact N]. cbv beta. intros c Hc Hm. now apply Hc, mem_comments.
    + destruct B as [->|(c & r & -> & Sc)]; [now left|right]. exists c, r. split; [reflexivity|now apply mem_comments].
Qed.
