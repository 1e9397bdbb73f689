(* The language of a parser: texts with several entries. *)
From Coq Require Import ZifyBool ZifyNat.
From Verif Require Import Base Addr Spec Range SpecRange Inet SpecText Parser SpecParser SpecParser2 SpecParser4 SpecLanguage.
From Verif Require Import ParserProofs ParserProofs2 ParserProofs3 ParserProofs4 ParserProofs7 ParserProofs8 ParserProofs12 ParserProofs13.
Local Open Scope Z_scope.

(* ---------- trimming ---------- *)
Lemma left_parts s : exists b, Forall blank b /\ s = b ++ trim_left s /\ (forall c r, trim_left s = c :: r -> ~ blank c).
Proof.
  destruct (leading_blanks s) as (sp & r & -> & F & B). exists sp. split; [exact F|]. rewrite trim_left_blanks by exact F.
  destruct B as [->|(c & t & -> & N)]; [split; [reflexivity|discriminate]|]. rewrite trim_left_id by exact N. split; [reflexivity|].
  intros d r E. injection E as <- _. exact N.
Qed.
Lemma trim_parts s : exists b1 b2, Forall blank b1 /\ Forall blank b2 /\ s = b1 ++ trim_string s ++ b2 /\ plain_text (trim_string s).
Proof.
  destruct (left_parts s) as (b1 & F1 & E1 & H1). destruct (left_parts (rev (trim_left s))) as (b2 & F2 & E2 & H2).
  assert (trim_left s = trim_string s ++ rev b2) as E3 by (unfold trim_string; rewrite <- rev_app_distr, <- E2; now rewrite rev_involutive).
  exists b1, (rev b2). split; [exact F1|]. split; [now apply Forall_rev|]. split; [now rewrite <- E3|].
  destruct (trim_string s) as [|c t] eqn:ET; [now left|right]. split; [discriminate|]. split.
  - intros d r E. injection E as <- _. apply (H1 c (t ++ rev b2)). rewrite E3. reflexivity.
  - intros d r E. unfold trim_string in ET. apply (H2 d (rev r)). rewrite <- (rev_involutive (trim_left _)), ET, E, rev_app_distr. reflexivity.
Qed.
Lemma trim_again s : trim_string (trim_string s) = trim_string s.
Proof. destruct (trim_parts s) as (_ & _ & _ & _ & _ & [E|T]); [now rewrite E|now apply trimmed_trim]. Qed.
Lemma cidr_trim y g s : parse_cidr y g s = parse_cidr y g (trim_string s).
Proof. unfold parse_cidr. cbv zeta. now rewrite trim_again. Qed.
Lemma trim_in s c : In c (trim_string s) -> In c s.
Proof. destruct (trim_parts s) as (b1 & b2 & _ & _ & E & _). intros I. rewrite E. apply in_or_app. right. apply in_or_app. now left. Qed.
Lemma trim_blanks b s : Forall blank b -> trim_string (b ++ s) = trim_string s.
Proof. intros F. unfold trim_string. now rewrite trim_left_blanks. Qed.
Lemma trim_all b : Forall blank b -> trim_string b = [].
Proof. intros F. rewrite <- (app_nil_r b). now rewrite trim_blanks. Qed.
Lemma single_blank com b : Forall blank b -> trim_string (single_entry com b) = [].
Proof.
  intros F. assert (trim_left b = []) as E by (rewrite <- (app_nil_r b); now rewrite trim_left_blanks).
  unfold single_entry. rewrite E. cbn [length]. rewrite Nat.sub_0_r, skipn_all, firstn_nil. now destruct (_ <? _)%nat.
Qed.
Lemma all_blank_or t : Forall blank t \/ Exists (fun c => ~ blank c) t.
Proof. induction t as [|c t [IH|IH]]; [left; constructor| |right; now constructor 2]. destruct (blank_dec c); [left|right]; now constructor. Qed.
Lemma single_trim p t : Forall (fun c => ~ starts_comment p c) t -> trim_string (single_entry (comment_chars p) t) = trim_string t.
Proof.
  intros N. destruct (all_blank_or t) as [F|X]; [now rewrite single_blank, trim_all|].
  destruct (leading_blanks t) as (sp & r' & -> & F & Br). destruct Br as [->|(d & u & -> & Nd)].
  { exfalso. rewrite app_nil_r in X. clear - X F. induction F; inversion X; auto. }
  rewrite <- (app_nil_r (d :: u)) at 1. rewrite single_entry_form; [|exact F|exact Nd| |now left].
  - rewrite trim_blanks by exact F. unfold trim_string at 2. rewrite (trim_left_id d u Nd).
    replace (rev (trim_left (rev (d :: u)))) with (trim_string (d :: u)); [apply trim_again|]. unfold trim_string. now rewrite (trim_left_id d u Nd).
  - apply Forall_app in N as [_ N]. eapply Forall_impl; [|exact N]. cbv beta. intros c Hc. destruct (mem c (comment_chars p)) eqn:E; [|reflexivity].
    destruct Hc. now apply mem_comments.
Qed.
Lemma single_kept p b c r : b <> [] -> Forall blank b -> starts_comment p c -> single_entry (comment_chars p) (b ++ c :: r) = c :: r.
Proof.
  intros NE F Sc. pose proof (comment_not_blank _ _ Sc) as Nb. apply mem_comments in Sc. unfold single_entry.
  rewrite trim_left_blanks, trim_left_id by assumption. rewrite app_length. replace (length b + length (c :: r) - length (c :: r))%nat with (length b) by lia.
  assert (skipn (length b) (b ++ c :: r) = c :: r) as -> by (rewrite skipn_app, skipn_all, Nat.sub_diag; reflexivity).
  destruct (comment_chars p) as [|x l]; [discriminate|]. cbn [split_at]. rewrite Sc. cbn [fst length]. rewrite Nat.add_0_r.
  assert (firstn (length b) (b ++ c :: r) = b) as -> by (rewrite firstn_app, firstn_all, Nat.sub_diag; cbn [firstn]; apply app_nil_r).
  assert (trim_left (rev b) = []) as -> by (rewrite <- (app_nil_r (rev b)); rewrite trim_left_blanks by (now apply Forall_rev); reflexivity).
  cbn [rev length]. replace (0 <? length b)%nat with true; [reflexivity|]. destruct b; [congruence|reflexivity].
Qed.

(* ---------- the entries ---------- *)
Lemma one_single {A} (f : str -> M (list A)) e p : one_after_the_other f [e] p = f e p.
Proof. cbn [one_after_the_other]. destruct (f e p) as [p1 [a|x| |]]; [now rewrite app_nil_r|reflexivity..]. Qed.
Lemma entries_parsed y g p s ts : unsorted p -> entries_of p s ts ->
  exists es, parse y g s p = one_after_the_other (parse_cidr y g) es p /\ Forall2 (fun t e => trim_string t = trim_string e) ts es.
Proof.
  intros U E. assert (forall l : list str, Forall2 (fun t e => trim_string t = trim_string e) l l) as REFL by (induction l; constructor; auto).
  destruct E as [s t NS UP H|b c r NS NE F Sc|s ps ts S C H F|s lines ts C NL H F].
  - exists [single_entry (comment_chars p) s]. rewrite one_single, parse_unsorted, entries_single by (exact U || now apply nobody_separators).
    split; [reflexivity|]. constructor; [|constructor]. symmetry. destruct UP as [N B].
    assert (single_entry (comment_chars p) s = single_entry (comment_chars p) t) as ->; [|now apply single_trim].
    destruct H as [->|H]; [reflexivity|]. apply single_entry_comment; [now split|exact H].
  - exists [c :: r]. rewrite one_single, parse_unsorted, entries_single by (exact U || now apply nobody_separators).
    rewrite single_kept by assumption. now split.
  - eexists. split; [|apply REFL]. rewrite (parse_is_pieces y g s ps ts p U S C H F). symmetry. apply one_parse; auto.
    + destruct S as [c S]. intros E. apply mem_separators in S. now rewrite E in S.
    + apply Forall_forall. intros t Ht. apply filter_In in Ht. destruct Ht as [Ht NE]. split; [intros ->; discriminate|].
      apply pieces_words in H. clear - F H Ht. induction F as [|w t0 ps ts UP F IH]; [destruct Ht|]. inversion H as [|? ? [_ Nw] H2]; subst.
      destruct Ht as [->|Ht]; [|auto]. rewrite (up_to_cut _ _ _ UP). now apply cut_words.
  - eexists. split; [|apply REFL]. rewrite (parse_is_lines y g s lines ts p U C NL H F). symmetry. apply one_parse; auto.
    + intros E. apply mem_separators in NL. now rewrite E in NL.
    + apply Forall_forall. intros t Ht. apply filter_In in Ht. destruct Ht as [Ht NE]. split; [intros ->; discriminate|].
      apply in_concat in Ht. destruct Ht as (f & Hf & Ht).
      assert (exists line, line_entry (separator p) (starts_comment p) line f) as [line Le].
      { clear - F Hf. induction F; [now destruct Hf|]. destruct Hf as [->|Hf]; [eauto|auto]. }
      destruct Le as [[_ ->]|(w & ps & t' & Hw & Ut & ->)]; [now destruct Ht|]. destruct Ht as [->|[]].
      rewrite (up_to_cut _ _ _ Ut). apply cut_words. apply pieces_words in Hw. now inversion Hw.
Qed.
Lemma pieces_in sep s ps : pieces sep s ps -> forall t c, In t ps -> In c t -> In c s.
Proof.
  induction 1 as [|seps piece rest l F NE N B Hr IH]; intros t c Ht Hc; [destruct Ht|]. apply in_or_app. right. apply in_or_app.
  destruct Ht as [->|Ht]; [now left|right; eauto].
Qed.
Lemma up_to_in P s t c : up_to P s t -> In c t -> In c s.
Proof. intros [_ [->|(d & r & -> & _)]] I; [exact I|]. apply in_or_app. now left. Qed.
Lemma entries_in p s ts : entries_of p s ts -> forall t c, In t ts -> In c t -> In c s.
Proof.
  intros E t0 c0 It Ic. destruct E as [s t NS UP H|b c r NS NE F Sc|s ps ts S C H F|s lines ts C NL H F].
  - destruct It as [<-|[]]. eapply up_to_in; eassumption.
  - destruct It as [<-|[]]. apply in_or_app. now right.
  - apply filter_In in It. destruct It as [It _]. assert (exists w, In w ps /\ up_to (starts_comment p) w t0) as (w & Iw & UP).
    { clear - F It. induction F as [|w t ps ts UP F IH]; [destruct It|]. destruct It as [->|It]; [exists w; cbn; auto|].
      destruct (IH It) as (x & A & B). exists x. cbn. auto. }
    eapply pieces_in; [exact H|exact Iw|]. eapply up_to_in; eassumption.
  - apply filter_In in It. destruct It as [It _]. apply in_concat in It. destruct It as (f & If & It).
    assert (exists line, In line lines /\ line_entry (separator p) (starts_comment p) line f) as (line & Il & LE).
    { clear - F If. induction F as [|w t ps ts UP F IH]; [destruct If|]. destruct If as [->|If]; [exists w; cbn; auto|].
      destruct (IH If) as (x & A & B). exists x. cbn. auto. }
    destruct LE as [[_ ->]|(w & ps & t & Pw & UP & ->)]; [destruct It|]. destruct It as [->|[]].
    eapply pieces_in; [exact H|exact Il|]. eapply pieces_in; [exact Pw|now left|]. eapply up_to_in; eassumption.
Qed.
Lemma up_to_exists (P : Z -> Prop) (dec : forall c, P c \/ ~ P c) s : exists t, up_to P s t.
Proof.
  induction s as [|c s (t & N & B)]; [exists []; split; [constructor|now left]|]. destruct (dec c) as [H|H].
  - exists []. split; [constructor|]. right. exists c, s. now split.
  - exists (c :: t). split; [now constructor|]. destruct B as [->|(d & r & -> & Pd)]; [now left|]. right. exists d, r. now split.
Qed.
Lemma comment_dec p c : starts_comment p c \/ ~ starts_comment p c.
Proof. rewrite <- mem_comments. destruct (mem c (comment_chars p)); [now left|right; discriminate]. Qed.
Lemma separator_dec p c : separator p c \/ ~ separator p c.
Proof. rewrite <- mem_separators. destruct (mem c (separators p)); [now left|right; discriminate]. Qed.
Lemma each_up_to p ps : exists ts, Forall2 (up_to (starts_comment p)) ps ts.
Proof.
  induction ps as [|s ps [ts IH]]; [exists []; constructor|]. destruct (up_to_exists _ (comment_dec p) s) as [t H]. exists (t :: ts). now constructor.
Qed.
Lemma some_or_nobody (P : Z -> Prop) set : (forall c, mem c set = true <-> P c) -> (exists c, P c) \/ nobody P.
Proof.
  intros E. destruct set as [|c set]; [right; intros c H; now apply E in H|left; exists c]. apply E. unfold mem. cbn [existsb]. now rewrite Z.eqb_refl.
Qed.
Lemma entries_exist p s : exists ts, entries_of p s ts.
Proof.
  destruct (some_or_nobody (separator p) (separators p) (mem_separators p)) as [SE|SE].
  - destruct (some_or_nobody (starts_comment p) (comment_chars p) (mem_comments p)) as [CE|CE].
    + destruct (separator_dec p 10) as [NL|NL].
      * destruct (pieces_total [10] (length s) s (le_n _)) as [lines H].
        assert (pieces newline s lines) as HL.
        { eapply pieces_ext; [|exact H]. intros c. unfold mem, newline. cbn [existsb]. lia. }
        assert (exists ts, Forall2 (line_entry (separator p) (starts_comment p)) lines ts) as [ts F].
        { clear H HL. induction lines as [|line lines [ts IH]]; [exists []; constructor|].
          destruct (pieces_total (separators p) (length line) line (le_n _)) as [ps H].
          assert (pieces (separator p) line ps) as HP by (eapply pieces_ext; [|exact H]; intros c; apply mem_separators).
          destruct ps as [|w ps]; [exists ([] :: ts); constructor; [now left|exact IH]|].
          destruct (up_to_exists _ (comment_dec p) w) as [t UP]. exists ([t] :: ts). constructor; [|exact IH]. right. exists w, ps, t. auto. }
        eexists. eapply first_of_lines; eassumption.
      * destruct (pieces_total (separators p) (length s) s (le_n _)) as [ps H]. destruct (each_up_to p ps) as [ts F].
        eexists. eapply each_piece; [exact SE|right; left; exact NL| |exact F]. eapply pieces_ext; [|exact H]. intros c. apply mem_separators.
    + destruct (pieces_total (separators p) (length s) s (le_n _)) as [ps H]. destruct (each_up_to p ps) as [ts F].
      eexists. eapply each_piece; [exact SE|left; exact CE| |exact F]. eapply pieces_ext; [|exact H]. intros c. apply mem_separators.
  - destruct (up_to_exists _ (comment_dec p) s) as [t UP]. pose proof UP as [N [E|(c & r & E & Sc)]].
    + exists [t]. apply (one_entry p s t); [exact SE|exact UP|left; exact E].
    + destruct t as [|d t]; [exists [[]]; apply (one_entry p s []); auto|]. destruct (all_blank_or (d :: t)) as [F|X].
      * exists [c :: r]. rewrite E. apply comment_kept; [exact SE|discriminate|exact F|exact Sc].
      * exists [d :: t]. apply (one_entry p s (d :: t)); auto.
Qed.

Section Lists.
Variables (y : sys) (g : resolver) (p0 : parser).
Hypothesis TE : takes_entries p0.
Hypothesis Hconv : converts_decimals y.
Hypothesis Hg : resolver_ok g.
Hypothesis Hk : allow p0 ALLOW_ADDRESS_LOOKUP = true -> known_protocols g.

Lemma wp_ext {A} (m m2 : M A) Q : (forall p, m p = m2 p) -> wp p0 m2 Q -> wp p0 m Q.
Proof. intros E (ms & r & H & K). exists ms, r. split; [|exact K]. intros e c. rewrite E. apply H. Qed.
Definition refusals (vs : list (list addr_range * bool)) : nat := length (filter (fun v => negb (snd v)) vs).
Lemma one_verdict t e : ~ In 0 t -> trim_string t = trim_string e ->
  wp p0 (parse_cidr y g e) (fun r ms => exists v, r = Ok (fst v) /\ verdict y g p0 t v /\ (snd v = true <-> ms = [])).
Proof.
  intros N E. rewrite cidr_trim, <- E. destruct (trim_parts t) as (b1 & b2 & F1 & F2 & ET & PT). set (T := trim_string t) in *.
  assert (~ In 0 T) as NT by (intros I; apply N; now apply trim_in).
  eapply wp_conseq; [exact (cidr_decides y g p0 TE Hconv Hg Hk T NT PT)|]. cbv beta. intros r ms (l & -> & H1 & H2). destruct ms as [|m ms].
  - exists (l, true). split; [reflexivity|]. split; [|now split]. rewrite ET. apply verdict_taken; auto.
  - exists (l, false). split; [reflexivity|]. destruct (H2 ltac:(discriminate)) as [H3 H4]. split; [|split; discriminate]. rewrite ET. apply verdict_refused; auto.
    intros [X|X]; apply H4; [left|right]; now apply allow_of.
Qed.
Lemma all_verdicts ts es : Forall2 (fun t e => trim_string t = trim_string e) ts es -> (forall t, In t ts -> ~ In 0 t) ->
  wp p0 (one_after_the_other (parse_cidr y g) es) (fun r ms => exists vs, r = Ok (concat (map fst vs)) /\ Forall2 (verdict y g p0) ts vs
    /\ (refusals vs <= length ms)%nat /\ (refusals vs = 0%nat -> ms = [])).
Proof.
  intros F. induction F as [|t e ts es E F IH]; intros N.
  - eapply wp_ext; [|apply wp_ret]; [reflexivity|]. exists []. split; [reflexivity|]. split; [constructor|]. split; [apply le_n|reflexivity].
  - apply (wp_ext _ (do! a <- parse_cidr y g e in do! b <- one_after_the_other (parse_cidr y g) es in ret (a ++ b))).
    { intros p. rewrite one_cons. unfold bind, ret. destruct (parse_cidr y g e p) as [p1 [a|x| |]]; reflexivity. }
    wbind. eapply wp_conseq; [apply (one_verdict t e); [apply N; now left|exact E]|]. cbv beta. intros r ms (v & -> & V & K). cbv beta iota.
    wbind. eapply wp_conseq; [apply IH; intros t2 I; apply N; now right|]. cbv beta. intros r ms2 (vs & -> & VS & L & Z). cbv beta iota.
    apply wp_ret. rewrite app_nil_r. exists (v :: vs). split; [reflexivity|]. split; [now constructor|]. unfold refusals in *. cbn [filter].
    destruct (snd v) eqn:SV; cbn [negb].
    + destruct K as [K _]. rewrite (K eq_refl). cbn [app]. now split.
    + destruct ms as [|m ms]; [destruct K as [_ K]; discriminate (K eq_refl)|]. cbn [length app]. rewrite app_length. split; [lia|discriminate].
Qed.
Theorem lists s ts : unsorted p0 -> entries_of p0 s ts -> ~ In 0 s ->
  exists p2 vs, parse y g s p0 = (p2, Ok (concat (map fst vs))) /\ Forall2 (verdict y g p0) ts vs
    /\ error_count p0 + Z.of_nat (refusals vs) <= error_count p2 /\ (refusals vs = 0%nat -> p2 = p0).
Proof.
  intros U E N0. destruct (entries_parsed y g p0 s ts U E) as (es & -> & F).
  destruct (all_verdicts ts es F) as (ms & r & EQ & vs & -> & V & L & Z).
  { intros t It I. apply N0. eapply entries_in; eassumption. }
  specialize (EQ (f_error p0) (f_error_count p0)). rewrite with_errors_self in EQ. rewrite EQ. eexists _, vs. split; [reflexivity|]. split; [exact V|].
  split; [unfold error_count; cbn [f_error_count with_errors]; lia|]. intros ZZ. rewrite (Z ZZ). cbn [flat length]. rewrite app_nil_r, Z.add_0_r. apply with_errors_self.
Qed.
End Lists.
