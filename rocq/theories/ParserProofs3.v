(* How an input is cut in entries: separators and comments. *)
From Coq Require Import ZifyBool ZifyNat.
From Verif Require Import Base Addr Spec Range SpecRange Inet Parser SpecParser
  ParserProofs ParserProofs2.
Local Open Scope Z_scope.

(* ---------- pieces ---------- *)

Lemma pieces_sep (sep : Z -> Prop) c r ps : sep c -> pieces sep (c :: r) ps -> pieces sep r ps.
Proof.
  intros Sc H. inversion H as [s F|seps piece rest l F NE N B Hr E]; subst.
  - apply pieces_none. now inversion F.
  - destruct seps as [|c' seps]; cbn [app] in E.
    + destruct piece as [|c' piece]; [now destruct NE|]. cbn [app] in E.
      assert (c' = c) by congruence. subst. inversion N; subst. contradiction.
    + assert (c' = c /\ seps ++ piece ++ rest = r) as [-> <-] by (split; congruence).
      apply pieces_one; auto. now inversion F.
Qed.

Lemma maximal_word (sep : Z -> Prop) : forall w1 w2 t1 t2, w1 ++ t1 = w2 ++ t2 ->
  Forall (fun c => ~ sep c) w1 -> Forall (fun c => ~ sep c) w2 ->
  (t1 = [] \/ exists c r, t1 = c :: r /\ sep c) -> (t2 = [] \/ exists c r, t2 = c :: r /\ sep c) ->
  w1 = w2 /\ t1 = t2.
Proof.
  induction w1 as [|c w1 IH]; intros w2 t1 t2 E N1 N2 B1 B2.
  - destruct w2 as [|d w2]; [now split|]. cbn [app] in E.
    destruct B1 as [->|(c & r & -> & Sc)]; [discriminate|].
    assert (c = d) by congruence. subst. inversion N2; subst. contradiction.
  - destruct w2 as [|d w2]; cbn [app] in E.
    + destruct B2 as [->|(d & r & -> & Sd)]; [discriminate|].
      assert (c = d) by congruence. subst. inversion N1; subst. contradiction.
    + assert (c = d) as <- by congruence. assert (w1 ++ t1 = w2 ++ t2) as E' by congruence.
      inversion N1; inversion N2; subst. destruct (IH _ _ _ E') as [-> ->]; auto.
Qed.

Lemma pieces_word (sep : Z -> Prop) w t ps : w <> [] -> Forall (fun c => ~ sep c) w ->
  (t = [] \/ exists c r, t = c :: r /\ sep c) -> pieces sep (w ++ t) ps ->
  exists ps', ps = w :: ps' /\ pieces sep t ps'.
Proof.
  intros NE N B H. inversion H as [s F|seps piece rest l F NE' N' B' Hr E]; subst.
  - destruct w as [|c w]; [now destruct NE|]. inversion N; inversion F; subst. contradiction.
  - destruct seps as [|c' seps]; cbn [app] in E.
    + destruct (maximal_word sep _ _ _ _ E N' N B' B) as [-> ->]. exists l. now split.
    + destruct w as [|c w]; [now destruct NE|]. cbn [app] in E.
      assert (c' = c) by congruence. subst. inversion F; inversion N; subst. contradiction.
Qed.

Lemma pieces_nil (sep : Z -> Prop) ps : pieces sep [] ps -> ps = [].
Proof.
  intros H. remember [] as s eqn:Es in H. destruct H as [s F|seps piece rest l F NE' N' B' Hr]; [reflexivity|].
  apply app_eq_nil in Es. destruct Es as [_ E]. apply app_eq_nil in E. destruct E. contradiction.
Qed.

Lemma pieces_ext (s1 s2 : Z -> Prop) s ps : (forall c, s1 c <-> s2 c) -> pieces s1 s ps -> pieces s2 s ps.
Proof.
  intros E H. induction H as [s F|seps piece rest l F NE N B Hr IH].
  - apply pieces_none. eapply Forall_impl; [|exact F]. intros c. apply E.
  - apply pieces_one; auto.
    + eapply Forall_impl; [|exact F]. intros c. apply E.
    + eapply Forall_impl; [|exact N]. cbv beta. intros c Hc Hc'. apply Hc, E, Hc'.
    + destruct B as [->|(c & r & -> & Sc)]; [now left|right]. exists c, r. split; [reflexivity|now apply E].
Qed.

(* every piece is non-empty and has no separator *)
Lemma pieces_words (sep : Z -> Prop) s ps : pieces sep s ps ->
  Forall (fun w => w <> [] /\ Forall (fun c => ~ sep c) w) ps.
Proof. induction 1; [constructor|]. constructor; auto. Qed.

Lemma pieces_single (sep : Z -> Prop) w : w <> [] -> Forall (fun c => ~ sep c) w -> pieces sep w [w].
Proof.
  intros NE N. assert (w = [] ++ w ++ []) as E by (now rewrite app_nil_r).
  rewrite E at 1. apply pieces_one; auto. apply pieces_none. constructor.
Qed.

(* there is one way to cut *)
Lemma pieces_fun (sep : Z -> Prop) s ps : pieces sep s ps -> forall ps', pieces sep s ps' -> ps' = ps.
Proof.
  induction 1 as [s F|seps piece rest l F NE N B Hr IH]; intros ps' H'.
  - induction s as [|c s IHs]; [now apply pieces_nil in H'|].
    inversion F; subst. apply IHs; auto. now apply pieces_sep in H'.
  - assert (pieces sep (piece ++ rest) ps') as H2.
    { clear - F H'. induction seps as [|c seps IHs]; [exact H'|]. inversion F; subst.
      apply IHs; auto. cbn [app] in H'. now apply pieces_sep in H'. }
    apply pieces_word in H2; auto. destruct H2 as (ps2 & -> & H2). now rewrite (IH _ H2).
Qed.

Lemma split_at_spec set s : 
  Forall (fun c => mem c set = false) (fst (split_at set s))
  /\ (snd (split_at set s) = [] \/ exists c r, snd (split_at set s) = c :: r /\ mem c set = true).
Proof.
  induction s as [|c s IH]; [split; [constructor|now left]|]. cbn [split_at].
  destruct (mem c set) eqn:E.
  - split; [constructor|]. right. now exists c, s.
  - destruct (split_at set s) as [a b]. cbn [fst snd] in *. destruct IH as [I1 I2]. split; auto.
Qed.

(* there is a way to cut *)
Lemma pieces_total (seps : str) : forall n s, (length s <= n)%nat ->
  exists ps, pieces (fun c => mem c seps = true) s ps.
Proof.
  induction n as [|n IH]; intros s L.
  - destruct s; [|cbn in L; lia]. exists []. apply pieces_none. constructor.
  - destruct (split_at_spec seps s) as [N B]. pose proof (split_at_app seps s) as E.
    destruct (split_at seps s) as [w t]. cbn [fst snd] in *. destruct w as [|c w].
    + cbn [app] in E. subst t. destruct B as [->|(c & r & -> & Sc)].
      * exists []. apply pieces_none. constructor.
      * destruct (IH r) as (ps & H); [cbn in L; lia|]. exists ps.
        inversion H as [s F|sp piece rest l F NE' N' B' Hr E]; subst.
        -- apply pieces_none. now constructor.
        -- change (c :: sp ++ piece ++ rest) with ((c :: sp) ++ piece ++ rest).
           apply pieces_one; auto.
    + destruct (IH t) as (ps & H).
      { apply (f_equal (@length _)) in E. rewrite app_length in E. cbn [length] in E. lia. }
      exists ((c :: w) :: ps). rewrite <- E. change ((c :: w) ++ t) with ([] ++ (c :: w) ++ t).
      apply pieces_one; auto; [discriminate|]. eapply Forall_impl; [|exact N]. cbv beta. intros. congruence.
Qed.

Lemma up_to_split set s t : up_to (fun c => mem c set = true) s t -> fst (split_at set s) = t.
Proof.
  intros [N B]. destruct (split_at_spec set s) as [N' B']. pose proof (split_at_app set s) as E.
  destruct (split_at set s) as [w u]. cbn [fst snd] in *.
  assert (exists v, s = t ++ v /\ (v = [] \/ exists c r, v = c :: r /\ mem c set = true)) as (v & -> & Bv).
  { destruct B as [->|(c & r & -> & Sc)]; [exists []; rewrite app_nil_r; auto|].
    exists (c :: r). split; [reflexivity|right]. now exists c, r. }
  apply (maximal_word (fun c => mem c set = true)) in E; [tauto| |assumption|assumption|assumption].
  eapply Forall_impl; [|exact N']. cbv beta. intros. congruence.
Qed.

Lemma split_up_to set s : up_to (fun c => mem c set = true) s (fst (split_at set s)).
Proof.
  destruct (split_at_spec set s) as [N' B']. pose proof (split_at_app set s) as E.
  destruct (split_at set s) as [w u]. cbn [fst snd] in *. split.
  - eapply Forall_impl; [|exact N']. cbv beta. intros. congruence.
  - destruct B' as [->|(c & r & -> & Sc)]; [left; now rewrite app_nil_r in E|right].
    exists c, r. now split.
Qed.

(* ---------- the loop ---------- *)


Lemma bind_ok {A B} (m : M A) (f : A -> M B) p p1 a : m p = (p1, Ok a) -> bind m f p = f a p1.
Proof. intros E. unfold bind. now rewrite E. Qed.

(* one turn of the loop with a piece, then the remainder *)
Lemma loop_turn {A} (m k : M (list A)) p :
  (do! l <- m in do! l' <- k in ret (l ++ l')) p
  = match m p with
    | (p1, Ok a) => match k p1 with
                    | (p2, Ok b) => (p2, Ok (a ++ b))
                    | other => other
                    end
    | (p1, Throw e) => (p1, Throw e)
    | (p1, UB) => (p1, UB)
    | (p1, OutOfFuel) => (p1, OutOfFuel)
    end.
Proof.
  unfold bind, ret, lift. destruct (m p) as [p1 [a|x| |]]; try reflexivity.
Qed.

Lemma one_cons {A} (f : str -> M (list A)) s l p : one_after_the_other f (s :: l) p
  = match f s p with
    | (p1, Ok a) => match one_after_the_other f l p1 with
                    | (p2, Ok b) => (p2, Ok (a ++ b))
                    | other => other
                    end
    | (p1, Throw e) => (p1, Throw e)
    | (p1, UB) => (p1, UB)
    | (p1, OutOfFuel) => (p1, OutOfFuel)
    end.
Proof. cbn [one_after_the_other]. now destruct (f s p) as [p1 [a|x| |]]. Qed.

Lemma skip_nil {A} (k : M (list A)) p : (do! l <- ret [] in do! l' <- k in ret (l ++ l')) p = k p.
Proof. unfold bind, ret, lift. cbn [app]. destruct (k p) as [p2 [b|x| |]]; reflexivity. Qed.

Section Loop.
Variables (y : sys) (g : resolver) (seps comments : str) (newlines : bool).
Let sep (c : Z) : Prop := mem c seps = true.

Definition cut (comments piece : str) : str :=
  match comments with [] => piece | _ => fst (split_at comments piece) end.

Lemma not_sep w : Forall (fun c => mem c seps = false) w -> Forall (fun c => ~ sep c) w.
Proof. intros N. eapply Forall_impl; [|exact N]. unfold sep. cbv beta. intros. congruence. Qed.

(* the rest of a line is only skipped when comments and newlines are allowed
   and there is another separator than the newline *)
Lemma loop_pieces : (comments = [] \/ newlines = false \/ forall c, sep c -> c = 10) ->
  forall fuel rest ps p, (length rest <= fuel)%nat -> pieces sep rest ps ->
  parse_loop y g fuel seps comments newlines rest p
  = one_after_the_other (parse_cidr y g) (filter nonempty_str (map (cut comments) ps)) p.
Proof.
  intros C. induction fuel as [|k IH]; intros rest ps p L H.
  { destruct rest; [|cbn in L; lia]. apply pieces_nil in H. subst. reflexivity. }
  destruct rest as [|c0 rest]; [apply pieces_nil in H; now subst|].
  cbn [parse_loop]. destruct (split_at_spec seps (c0 :: rest)) as [N B].
  pose proof (split_at_app seps (c0 :: rest)) as E.
  destruct (split_at seps (c0 :: rest)) as [w t]. cbn [fst snd] in *. destruct w as [|c w].
  - cbn [app] in E. subst t. destruct B as [B|(c & r & Ec & Sc)]; [discriminate|].
    assert (c0 = c /\ rest = r) as [-> ->] by (split; congruence).
    cbn [skipn]. apply IH; [cbn in L; lia|]. now apply pieces_sep in H.
  - rewrite <- E in H.
    assert (t = [] \/ exists c r, t = c :: r /\ sep c) as B' by exact B.
    apply pieces_word in H; [|discriminate|now apply not_sep|exact B'].
    destruct H as (ps' & -> & H).
    assert ((let '(text, tail) :=
                match comments with
                | [] => (c :: w, t)
                | _ =>
                    (fst (split_at comments (c :: w)),
                     match t with
                     | c :: _ => if newlines && negb (c =? 10) then snd (split_at [10] t) else t
                     | [] => t
                     end)
                end in (text, tail)) = (cut comments (c :: w), t)) as E2.
    { unfold cut. destruct comments as [|cc co] eqn:EC; [reflexivity|]. f_equal.
      destruct t as [|d t']; [reflexivity|].
      destruct (newlines && negb (d =? 10)) eqn:EN; [exfalso|reflexivity].
      destruct B' as [B'|(d' & r & Ed & Sd)]; [discriminate|].
      assert (d' = d) by congruence. subst d'.
      destruct C as [C|[C|C]]; [discriminate|rewrite C in EN; discriminate|apply C in Sd; subst d; rewrite andb_comm in EN; discriminate]. }
    assert (pieces sep (skipn 1 t) ps') as H'.
    { destruct B' as [->|(d & r & -> & Sd)]; [exact H|]. cbn [skipn]. now apply pieces_sep in H. }
    assert ((length (skipn 1 t) <= k)%nat) as L'.
    { apply (f_equal (@length _)) in E. rewrite app_length in E. cbn [length] in E, L.
      rewrite skipn_length. lia. }
    match goal with |- (let (_, _) := ?x in _) p = _ => assert (x = (cut comments (c :: w), t)) as -> end.
    { rewrite <- E2. now destruct comments. }
    cbn [map filter]. destruct (cut comments (c :: w)) as [|x xs] eqn:Ex; cbn [nonempty_str].
    + rewrite skip_nil. now apply IH.
    + rewrite one_cons, loop_turn. destruct (parse_cidr y g (x :: xs) p) as [p1 [a|e| |]]; try reflexivity.
      now rewrite (IH _ _ _ L' H').
Qed.
End Loop.

Lemma mem_separators p c : mem c (separators p) = true <-> separator p c.
Proof.
  unfold separators, separator, get_allow, mem. cbn [Z.ltb Z.geb ALLOW_MULTI_ADDRESSES_COMMAS
    ALLOW_MULTI_ADDRESSES_SPACES ALLOW_MULTI_ADDRESSES_NEWLINES ALLOW_max Z.compare orb Pos.compare Pos.compare_cont].
  change (0 <? 0) with false. cbv iota.
  assert (forall b b' : bool, Ok b = Ok b' <-> b = b') as I by (intros; split; congruence).
  rewrite !I, existsb_app, existsb_app.
  destruct (allow p ALLOW_MULTI_ADDRESSES_COMMAS), (allow p ALLOW_MULTI_ADDRESSES_SPACES),
    (allow p ALLOW_MULTI_ADDRESSES_NEWLINES); cbn [existsb]; lia.
Qed.
Lemma mem_comments p c : mem c (comment_chars p) = true <-> starts_comment p c.
Proof.
  unfold comment_chars, starts_comment, get_allow, mem. cbn [Z.ltb Z.geb ALLOW_COMMENT_HASH
    ALLOW_COMMENT_SEMICOLON ALLOW_max Z.compare orb Pos.compare Pos.compare_cont].
  assert (forall b b' : bool, Ok b = Ok b' <-> b = b') as I by (intros; split; congruence).
  rewrite !I, existsb_app.
  destruct (allow p ALLOW_COMMENT_HASH), (allow p ALLOW_COMMENT_SEMICOLON); cbn [existsb]; lia.
Qed.

Lemma nobody_comments p : nobody (starts_comment p) -> comment_chars p = [].
Proof.
  intros H. destruct (comment_chars p) as [|c l] eqn:E; [reflexivity|].
  destruct (H c). apply mem_comments. rewrite E. cbn. now rewrite Z.eqb_refl.
Qed.
Lemma nobody_separators p : nobody (separator p) -> separators p = [].
Proof.
  intros H. destruct (separators p) as [|c l] eqn:E; [reflexivity|].
  destruct (H c). apply mem_separators. rewrite E. cbn. now rewrite Z.eqb_refl.
Qed.

(* ---------- parse() without sorting ---------- *)

Lemma arrange_unsorted sort l : Z.land sort (Z.lor (Z.lor SORT_FULL SORT_MERGE) (Z.lor SORT_IPV4_FIRST SORT_IPV6_FIRST)) = 0 ->
  arrange sort l = Ok l.
Proof.
  intros H. unfold arrange.
  assert (forall n, Z.land n (Z.lor (Z.lor SORT_FULL SORT_MERGE) (Z.lor SORT_IPV4_FIRST SORT_IPV6_FIRST)) = n ->
            Z.land sort n = 0) as K.
  { intros n <-. rewrite (Z.land_comm n), Z.land_assoc, H. reflexivity. }
  now rewrite !K by reflexivity.
Qed.

Lemma same_config_refl p : same_config p p.
Proof. now constructor. Qed.
Lemma same_config_errors p e c : same_config (with_errors p e c) p.
Proof. now constructor. Qed.
Lemma same_config_sym p q : same_config p q -> same_config q p.
Proof. intros []; now constructor. Qed.
Lemma same_config_trans p q r : same_config p q -> same_config q r -> same_config p r.
Proof. intros [] []; constructor; congruence. Qed.

Lemma parse_config y g s p : same_config (fst (parse y g s p)) p.
Proof.
  destruct (wp_run _ _ _ _ (parse_made y g p s) (same_config_refl p)) as (ms & r & E & _).
  rewrite E. apply same_config_errors.
Qed.
Lemma cidr_config y g s p : same_config (fst (parse_cidr y g s p)) p.
Proof.
  destruct (wp_run _ _ _ _ (cidr_made y g p s) (same_config_refl p)) as (ms & r & E & _).
  rewrite E. apply same_config_errors.
Qed.
Lemma entries_config y g s p : same_config (fst (parse_entries y g s p)) p.
Proof.
  destruct (wp_run _ _ _ _ (entries_made y g p s) (same_config_refl p)) as (ms & r & E & _).
  rewrite E. apply same_config_errors.
Qed.

Lemma separators_config p q : same_config p q -> separators p = separators q.
Proof. intros [E]. unfold separators, allow. now rewrite E. Qed.
Lemma comment_chars_config p q : same_config p q -> comment_chars p = comment_chars q.
Proof. intros [E]. unfold comment_chars, allow. now rewrite E. Qed.
Lemma unsorted_config p q : same_config p q -> unsorted p -> unsorted q.
Proof. intros []. unfold unsorted. congruence. Qed.

Lemma parse_unsorted y g s p : unsorted p -> parse y g s p = parse_entries y g s p.
Proof.
  intros U. unfold parse, bind at 1. pose proof (entries_config y g s p) as C.
  destruct (parse_entries y g s p) as [p1 [l|x| |]]; try reflexivity. cbn [fst] in C.
  unfold bind, ask, lift. rewrite arrange_unsorted; [reflexivity|]. now apply (unsorted_config p p1 (same_config_sym _ _ C)).
Qed.

Lemma entries_seps y g s p : separators p <> [] ->
  parse_entries y g s p
  = parse_loop y g (length s) (separators p) (comment_chars p) (allow p ALLOW_MULTI_ADDRESSES_NEWLINES) s p.
Proof.
  intros N. unfold parse_entries, bind, ask, allowed. cbn.
  destruct (separators p); [now destruct N|reflexivity].
Qed.
Lemma entries_single y g s p : separators p = [] ->
  parse_entries y g s p = parse_cidr y g (single_entry (comment_chars p) s) p.
Proof. intros N. unfold parse_entries, bind, ask. now rewrite N. Qed.

(* a text without separator and comment is given to parse_cidr() *)
Lemma parse_piece y g s p : unsorted p -> separators p <> [] -> s <> [] ->
  Forall (fun c => mem c (separators p) = false) s ->
  Forall (fun c => mem c (comment_chars p) = false) s ->
  parse y g s p = parse_cidr y g s p.
Proof.
  intros U NS NE N NC. rewrite parse_unsorted, entries_seps by assumption.
  destruct s as [|c s]; [now destruct NE|]. cbn [length parse_loop].
  assert (forall set w, Forall (fun c => mem c set = false) w -> split_at set w = (w, [])) as K.
  { intros set. induction w as [|d w IH]; [reflexivity|]. intros F. inversion F as [|? ? F1 F2]; subst.
    cbn [split_at]. rewrite F1. now rewrite IH. }
  rewrite (K _ _ N). rewrite (K _ _ NC). cbn [fst].
  match goal with |- (let (_, _) := ?x in _) p = _ => assert (x = (c :: s, [])) as -> end.
  { destruct (comment_chars p); reflexivity. }
  rewrite loop_turn. cbn [skipn].
  assert (forall fuel q, parse_loop y g fuel (separators p) (comment_chars p)
            (allow p ALLOW_MULTI_ADDRESSES_NEWLINES) [] q = (q, Ok [])) as Z.
  { intros [|f] q; reflexivity. }
  destruct (parse_cidr y g (c :: s) p) as [p1 [a|x| |]]; try reflexivity. rewrite Z. now rewrite app_nil_r.
Qed.

Lemma one_parse y g : forall l p, unsorted p -> separators p <> [] ->
  Forall (fun s => s <> [] /\ Forall (fun c => mem c (separators p) = false) s
            /\ Forall (fun c => mem c (comment_chars p) = false) s) l ->
  one_after_the_other (parse_cidr y g) l p = one_after_the_other (parse y g) l p.
Proof.
  induction l as [|s l IH]; intros p U NS F; [reflexivity|].
  inversion F as [|? ? (F1 & F2 & F3) F4]; subst. rewrite !one_cons.
  rewrite (parse_piece y g s p) by assumption.
  pose proof (cidr_config y g s p) as C.
  destruct (parse_cidr y g s p) as [p1 [a|x| |]]; try reflexivity. cbn [fst] in C.
  rewrite IH; [reflexivity| | |].
  - exact (unsorted_config _ _ (same_config_sym _ _ C) U).
  - rewrite (separators_config _ _ C). exact NS.
  - rewrite (separators_config _ _ C), (comment_chars_config _ _ C). exact F4.
Qed.

(* the subset of the characters of the piece before a comment *)
Lemma cut_words p piece : Forall (fun c => ~ separator p c) piece ->
  Forall (fun c => mem c (separators p) = false) (cut (comment_chars p) piece)
  /\ Forall (fun c => mem c (comment_chars p) = false) (cut (comment_chars p) piece).
Proof.
  intros N.
  assert (Forall (fun c => mem c (separators p) = false) piece) as N'.
  { eapply Forall_impl; [|exact N]. cbv beta. intros c Hc. destruct (mem c (separators p)) eqn:E; [|reflexivity].
    destruct Hc. now apply mem_separators. }
  unfold cut. destruct (comment_chars p) as [|cc co] eqn:E.
  - split; [exact N'|]. apply Forall_forall. reflexivity.
  - rewrite <- E. split; [|apply split_at_spec].
    apply Forall_forall. intros c Hc. rewrite Forall_forall in N'. apply N'.
    rewrite <- (split_at_app (comment_chars p) piece). apply in_or_app. now left.
Qed.

Lemma up_to_cut p w t : up_to (starts_comment p) w t -> t = cut (comment_chars p) w.
Proof.
  intros H. symmetry. assert (up_to (fun c => mem c (comment_chars p) = true) w t) as H'.
  { destruct H as [N B]. split.
    - eapply Forall_impl; [|exact N]. cbv beta. intros c Hc Hm. now apply Hc, mem_comments.
    - destruct B as [->|(c & r & -> & Sc)]; [now left|right]. exists c, r. split; [reflexivity|now apply mem_comments]. }
  unfold cut. destruct (comment_chars p) as [|cc co] eqn:E.
  - destruct H' as [_ [->|(c & r & -> & Sc)]]; [reflexivity|discriminate].
  - now apply up_to_split.
Qed.

Theorem parse_is_pieces y g s ps texts p : unsorted p ->
  (exists c, separator p c) ->
  (nobody (starts_comment p) \/ ~ separator p 10 \/ forall c, separator p c -> newline c) ->
  pieces (separator p) s ps -> Forall2 (up_to (starts_comment p)) ps texts ->
  parse y g s p = one_after_the_other (parse y g) (filter nonempty_str texts) p.
Proof.
  intros U [c0 S0] C H T.
  assert (texts = map (cut (comment_chars p)) ps) as ->.
  { clear - T. induction T as [|w t ps texts H T IH]; [reflexivity|]. cbn [map]. now rewrite <- IH, <- (up_to_cut _ _ _ H). }
  assert (separators p <> []) as NS.
  { intros E. apply mem_separators in S0. now rewrite E in S0. }
  assert (pieces (fun c => mem c (separators p) = true) s ps) as H'.
  { eapply pieces_ext; [|exact H]. intros c. symmetry. apply mem_separators. }
  rewrite parse_unsorted, entries_seps by assumption.
  erewrite loop_pieces; [|clear - C|apply le_n|exact H'].
  - apply one_parse; auto. apply Forall_forall. intros t Ht. apply filter_In in Ht. destruct Ht as [Ht NE].
    apply in_map_iff in Ht. destruct Ht as (w & <- & Hw).
    apply pieces_words in H. rewrite Forall_forall in H. destruct (H w Hw) as [_ Nw].
    split; [|now apply cut_words]. intros E. now rewrite E in NE.
  - destruct C as [C|[C|C]]; [left; now apply nobody_comments|right; left|right; right].
    + destruct (allow p ALLOW_MULTI_ADDRESSES_NEWLINES) eqn:E; [|reflexivity]. destruct C. right. right.
      split; [|reflexivity]. unfold get_allow. cbn. now rewrite E.
    + intros c Hc. apply C, mem_separators, Hc.
Qed.
