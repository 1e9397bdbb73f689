(* Proofs about writing the default port. *)
From Coq Require Import Lia ZifyBool ZifyNat.
From Verif Require Import Base Addr Spec SpecText SpecRange Range Parser SpecParser SpecParser2 SpecParser4 SpecLanguage SpecPort.
From Verif Require DottedProofs ParserProofs13 ParserProofs8 ParserProofs7.
Local Open Scope Z_scope.

(* ---------- the ends of a range told that their port was written ---------- *)
Definition mark (b : bool) (r : addr_range) : addr_range :=
  mk_range (f_has_from r) (f_has_to r) (if f_has_from r then set_port_defined (f_from r) b else f_from r)
    (if f_has_to r then set_port_defined (f_to r) b else f_to r).
Lemma mark_wf b a : addr_wf a -> addr_wf (set_port_defined a b).
Proof. intros []. now constructor. Qed.
Lemma mark_from b r : f_has_from r = true -> get_from (mark b r) = set_port_defined (get_from r) b.
Proof. intros H. unfold mark, get_from. cbn [f_from]. now rewrite H. Qed.
Lemma mark_like b r : port_aside r (mark b r).
Proof.
  unfold port_aside, end_aside, has_from, has_to, mark, get_from, get_to. cbn [f_has_from f_has_to f_from f_to].
  split; [reflexivity|]. split; [reflexivity|]. split; intros ->; repeat split.
Qed.
Lemma mark_range r b from to : range_of r from to ->
  range_of (mark b r) (option_map (fun a => set_port_defined a b) from) (option_map (fun a => set_port_defined a b) to).
Proof.
  unfold range_of, has_from, has_to, get_from, get_to, mark. cbn [f_has_from f_has_to f_from f_to]. intros (H1 & H2 & H3 & H4).
  rewrite H1, H2, H3. destruct from as [a|], to as [c|]; cbn [option_map]; repeat split; intros z E; try discriminate E; injection E as <-;
    now rewrite (H4 c eq_refl).
Qed.

Section Moved.
Variables (y : sys) (g : resolver) (p : parser) (D1 D2 : str) (b : bool).
Hypothesis PT : forall n given, port_text y p D1 n given -> port_text y p D2 n b.
Hypothesis SO : forall S given, service_of p (58 :: D1) S given -> service_of p (58 :: D2) S b.

Lemma found_moved six A l : found y g p six A D1 l -> found y g p six A D2 (map (mark b) l).
Proof.
  intros F. destruct F as [H v n given r a L AT P ST RO|H given ais rs L HT (S & st & pr & SV & HI & G) U AN].
  - cbn [map]. apply (found_number _ _ _ _ _ _ H v n b (mark b r) (set_port_defined a b)); auto.
    + exact (PT n given P).
    + destruct ST. split; try assumption; [now apply mark_wf|reflexivity].
    + exact (mark_range r b (Some a) None RO).
  - apply (found_names _ _ _ _ _ _ H b ais); auto.
    + exists S, st, pr. split; [exact (SO S given SV)|]. auto.
    + clear - AN. induction AN as [|ai r ais rs X AN IH]; constructor; [|exact IH]. destruct X. unfold has_from, has_to in *.
      assert (get_from (mark b r) = set_port_defined (get_from r) b) as E by now apply mark_from.
      constructor; unfold has_from, has_to; try exact an_from; try exact an_to; rewrite ?E; try assumption; [now apply mark_wf|reflexivity].
Qed.
Lemma found_start six A D l : found y g p six A D l -> Forall (fun r => has_from r = true) l.
Proof.
  intros F. destruct F as [H v n given r a L AT P ST (RO & _)|H given ais rs L HT AK U AN]; [repeat constructor; exact RO|].
  clear - AN. induction AN as [|ai r ais rs X AN IH]; constructor; [exact (an_from _ _ _ _ X)|exact IH].
Qed.
Lemma one_moved six A a : found_one y g p six A D1 a -> found_one y g p six A D2 (set_port_defined a b).
Proof.
  intros (NE & r & rest & F & E & S). split; [exact NE|]. exists (mark b r), (map (mark b) rest). pose proof (found_start _ _ _ _ F) as FS.
  apply Forall_cons_iff in FS. destruct FS as [F1 F2]. split; [exact (found_moved six A (r :: rest) F)|].
  split; [rewrite mark_from by exact F1; now rewrite E|]. clear - S F2. induction S as [|x l V S IH]; cbn [map]; constructor.
  - apply Forall_inv in F2. rewrite mark_from by exact F2. exact V.
  - apply IH. now apply Forall_inv_tail in F2.
Qed.
Lemma addresses_moved six A l : addresses y g p six A D1 l -> addresses y g p six A D2 (map (mark b) l).
Proof.
  intros H. inversion H as [A0 D0 l0 N F|A0 B D0 a c r AR N F1 F2 V RO|A0 B D0 a c AR N F1 F2 V SE|A0 D0 a r AR N F1 RO|B D0 a r AR F1 RO]; subst.
  - apply no_range; [exact N|now apply found_moved].
  - cbn [map]. apply (both_ends _ _ _ _ _ _ _ (set_port_defined a b) (set_port_defined c b)); auto using one_moved.
    exact (mark_range r b (Some a) (Some c) RO).
  - cbn [map]. apply (inverted _ _ _ _ _ _ _ (set_port_defined a b) (set_port_defined c b)); auto using one_moved.
  - cbn [map]. apply (first_only _ _ _ _ _ _ (set_port_defined a b)); auto using one_moved. exact (mark_range r b (Some a) None RO).
  - cbn [map]. apply (last_only _ _ _ _ _ _ (set_port_defined a b)); auto using one_moved. exact (mark_range r b None (Some a) RO).
Qed.
Lemma same_limit four r : limit four (mark b r) = limit four r.
Proof. unfold limit, mark, get_from. cbn [f_from]. destruct (f_has_from r); reflexivity. Qed.
Lemma masked_moved v r r2 : masked_with v r r2 -> masked_with v (mark b r) (mark b r2).
Proof.
  unfold masked_with, has_from, has_to, get_from, get_to, mark. cbn [f_has_from f_has_to f_from f_to].
  intros (H1 & H2 & H3 & x & E & K). split; [exact H1|]. split; [exact H2|]. split; [now rewrite H2, H3|].
  exists x. split; [|exact K]. rewrite H1, E. now destruct (f_has_from r).
Qed.
Lemma answer_moved r m ai : mask_answer g (get_from r) m ai -> mask_answer g (get_from (mark b r)) m ai.
Proof. unfold mark, get_from. cbn [f_from]. now destruct (f_has_from r). Qed.
Lemma mask_moved six T r r2 : gets_mask g p six T r r2 -> gets_mask g p six T (mark b r) (mark b r2).
Proof.
  intros H. inversion H as [r0|r0 L AA|m n r0 r3 DM L M|m ai r0 r3 L AA NE NN HD MA AF AL M|t ai r0 r3 L AA NE MA AF AL M]; subst.
  - apply gets_none.
  - apply gets_brackets; [now rewrite same_limit|exact AA].
  - apply (gets_number _ _ _ _ n); [exact DM|now rewrite same_limit|rewrite same_limit; now apply masked_moved].
  - apply (gets_four _ _ _ _ ai); auto; [now rewrite same_limit|now apply answer_moved|now apply masked_moved].
  - apply (gets_six _ _ _ _ ai); auto; [now rewrite same_limit|now apply answer_moved|now apply masked_moved].
Qed.
Lemma masks_moved six T l1 l2 : Forall2 (gets_mask g p six T) l1 l2 -> Forall2 (gets_mask g p six T) (map (mark b) l1) (map (mark b) l2).
Proof. intros H. induction H; constructor; [now apply mask_moved|assumption]. Qed.
End Moved.

Lemma colons_dec (s : str) : two_colons s \/ ~ two_colons s.
Proof.
  destruct (Z_le_dec 2 (count_char 58 s)) as [L|L]; [left|right].
  - now apply ParserProofs8.two_colons_count.
  - intros T. apply ParserProofs8.two_colons_count in T. lia.
Qed.
(* ---------- the two ways of writing ---------- *)
Section Written.
Variables (y : sys) (g : resolver) (p : parser) (D : str).
Hypothesis HC : converts_decimals y.
Hypothesis AP : get_allow p ALLOW_PORT = Ok true.
Hypothesis NR : get_allow p ALLOW_REQUIRED_PORT = Ok false.
Hypothesis DP : 0 <= get_default_port p <= 65535.
Hypothesis PD : plain_decimal D (get_default_port p).

Lemma digits_only c : In c D -> 48 <= c <= 57.
Proof. destruct PD as ((_ & F & _) & _). rewrite forallb_forall in F. intros I. apply F in I. unfold is_digit in I. lia. Qed.
Lemma not_empty : D <> [].
Proof. destruct PD as ((N & _) & _). exact N. Qed.
Lemma text_to n given : port_text y p [] n given -> port_text y p D n true.
Proof.
  intros H. inversion H as [? ? X|R X|R A X]; subst; [now elim X|lia|].
  apply port_written; [exact not_empty|apply HC; [apply PD|change (2 ^ 63) with 9223372036854775808; lia]|lia|now left].
Qed.
Lemma text_from n given : port_text y p D n given -> port_text y p [] n false.
Proof.
  intros H. pose proof not_empty as NE. inversion H as [? ? X C R PA|R X Y|R A X Y]; subst; try (now elim NE).
  rewrite (HC D (get_default_port p)) in C; [|apply PD|change (2 ^ 63) with 9223372036854775808; lia]. injection C as <-. apply port_from_default; auto; lia.
Qed.
Lemma service_to S given : service_of p (58 :: []) S given -> service_of p (58 :: D) S true.
Proof.
  intros H. inversion H as [? X|? ? _ R N P|? _ R N]; subst; [now elim X| |lia].
  rewrite (DottedProofs.plain_unique S D _ P PD). apply service_given; [exact not_empty|]. intros I. apply digits_only in I. lia.
Qed.
Lemma service_from S given : service_of p (58 :: D) S given -> service_of p (58 :: []) S false.
Proof.
  intros H. inversion H as [? X N|? ? X R N P|? X R N]; subst.
  - apply service_default; auto; lia.
  - destruct X as [X|X]; [discriminate|]. injection X as X. now elim not_empty.
  - destruct X as [X|X]; [discriminate|]. injection X as X. now elim not_empty.
Qed.

Lemma colons_app (a c : str) : two_colons a -> two_colons (a ++ c).
Proof. intros (u & v & w & ->). exists u, v, (w ++ c). now rewrite <- !app_assoc, <- app_comm_cons, <- app_assoc, <- app_comm_cons. Qed.
Lemma colons_after (a c : str) : two_colons c -> two_colons (a ++ c).
Proof. intros (u & v & w & ->). exists (a ++ u), v, w. now rewrite <- !app_assoc. Qed.
Lemma no_colons (a : str) : ~ In 58 a -> ~ two_colons a.
Proof. intros N (u & v & w & ->). apply N. apply in_app_iff. right. now left. Qed.
Lemma one_colon (a c : str) : ~ In 58 a -> ~ In 58 c -> ~ two_colons (a ++ 58 :: c).
Proof.
  intros N1 N2 T. apply ParserProofs8.two_colons_count in T.
  rewrite ParserProofs7.count_char_app, ParserProofs7.count_char_cons, !ParserProofs7.count_char_none in T; [lia|exact N2|exact N1].
Qed.
Lemma no58 : ~ In 58 D. Proof. intros I. apply digits_only in I. lia. Qed.

Lemma way_written m s s2 six : writes_port D s s2 -> way p m s six <-> way p m s2 six.
Proof.
  intros W. destruct W as [A N1 N2|A N|A T N N2].
  - split; intros H.
    + inversion H as [? X|? ? X Y Z|? ? X Y Y2 Z]; subst.
      * now elim (no_colons _ N1).
      * assert (A = []) as -> by (destruct Y as [Y|Y]; [exact Y|destruct A as [|c A]; [reflexivity|cbn in Y; subst c; elim N1; now left]]).
        apply way_nothing; [exact (one_colon [] D (fun x => x) no58)|now right|exact Z].
      * apply way_brackets; [exact (one_colon A D N1 no58)|now destruct A|now destruct A|].
        rewrite Z. destruct A as [|c A]; [now elim Y|]. cbn [app hd]. cbn [hd] in *. split; intros [Q|[Q|[Q _]]]; auto.
        -- right. left. change (In 93 ((c :: A) ++ [58] ++ D)). apply in_app_iff. now left.
        -- elim Q. now left.
        -- right. left. change (In 93 ((c :: A) ++ 58 :: D)) in Q. apply in_app_iff in Q. destruct Q as [Q|[Q|Q]]; [exact Q|discriminate|].
           apply digits_only in Q. lia.
        -- elim Q. now left.
    + inversion H as [? X|? ? X Y Z|? ? X Y Y2 Z]; subst.
      * now elim (one_colon A D N1 no58).
      * assert (A = []) as -> by (destruct Y as [Y|Y]; [now destruct A|destruct A as [|c A]; [reflexivity|cbn in Y; subst c; elim N1; now left]]).
        apply way_nothing; [now apply no_colons|now left|exact Z].
      * assert (A <> []) as NE by (intros ->; cbn in Y2; now elim Y2).
        apply way_brackets; [now apply no_colons|exact NE|destruct A as [|c A]; [now elim NE|exact Y2]|].
        rewrite Z. destruct A as [|c A]; [now elim NE|]. cbn [app hd]. cbn [hd] in *. split; intros [Q|[Q|[Q _]]]; auto.
        -- right. left. change (In 93 ((c :: A) ++ 58 :: D)) in Q. apply in_app_iff in Q. destruct Q as [Q|[Q|Q]]; [exact Q|discriminate|].
           apply digits_only in Q. lia.
        -- elim Q. now left.
        -- right. left. change (In 93 ((c :: A) ++ [58] ++ D)). apply in_app_iff. now left.
        -- elim Q. now left.
  - assert (way p m ([91] ++ A ++ [93]) six <-> six = true) as ->.
    { split; intros H.
      - inversion H as [? X|? ? X Y Z|? ? X Y Y2 Z]; subst; [reflexivity|destruct Y; discriminate|]. apply Z. now left.
      - subst six. destruct (colons_dec ([91] ++ A ++ [93])) as [T|T]; [now apply way_colons|].
        apply way_brackets; [exact T|discriminate|discriminate|]. split; [now left|reflexivity]. }
    split; intros H.
    + subst six. destruct (colons_dec ([91] ++ A ++ [93; 58] ++ D)) as [T|T]; [now apply way_colons|].
      apply way_brackets; [exact T|discriminate|discriminate|]. split; [now left|reflexivity].
    + inversion H as [? X|? ? X Y Z|? ? X Y Y2 Z]; subst; [reflexivity|destruct Y; discriminate|]. apply Z. now left.
  - assert (two_colons ([91] ++ A ++ [93; 58] ++ D)) as T2 by (apply colons_after, colons_app; exact T).
    split; intros H.
    + inversion H as [? X|? ? X|? ? X]; subst; try contradiction. now apply way_colons.
    + inversion H as [? X|? ? X|? ? X]; subst; try contradiction. now apply way_colons.
Qed.
Lemma layout_to six s s2 A D0 : writes_port D s s2 -> layout p six s A D0 -> D0 = [] /\ layout p six s2 A D.
Proof.
  intros W L. assert (ports_allowed p) as PA by now left. destruct W as [B N1 N2|B N|B T N N2].
  - inversion L as [? T H|? X H|A1 D1 X1 X2 H X4 E|A1 X E|A1 D1 X X2 E]; subst; try (elim N1; apply in_app_iff; right; now left); try now elim N2.
    + now elim (no_colons _ N1).
    + split; [reflexivity|]. apply layout_port; auto using no58.
  - inversion L as [? T H|? X H|A1 D1 X1 X2 H X4 E|A1 X E|A1 D1 X X2 E]; subst; try now elim H.
    + destruct A as [|c A]; [discriminate E|]. cbn in E. injection E as -> _. now elim H.
    + apply app_inv_tail in E. subst B. split; [reflexivity|]. now apply layout_brackets_port.
    + destruct (ParserProofs13.split_unique 93 _ _ _ _ E X N) as [-> E2]. discriminate.
  - inversion L as [? X H|? X H|A1 D1 X1 X2 H X4 E|A1 X E|A1 D1 X X2 E]; subst; try (now elim N2).
    + split; [reflexivity|]. now apply layout_brackets_port.
    + elim (no_colons _ X). exact T.
    + now elim (one_colon _ _ X1 X2).
Qed.
Lemma layout_from six s s2 A D0 : writes_port D s s2 -> layout p six s2 A D0 -> D0 = D /\ layout p six s A [].
Proof.
  intros W L. destruct W as [B N1 N2|B N|B T N N2].
  - inversion L as [? T H|? X H|A1 D1 X1 X2 H X4 E|A1 X E|A1 D1 X X2 E]; subst.
    + now elim (one_colon B D N1 no58).
    + elim X. apply in_app_iff. right. now left.
    + destruct (ParserProofs13.split_unique 58 _ _ _ _ E X1 N1) as [-> ->]. split; [reflexivity|]. now apply layout_plain.
    + destruct B as [|c B]; [discriminate E|]. cbn in E. injection E as Q _. now elim N2.
    + destruct B as [|c B]; [discriminate E|]. cbn in E. injection E as Q _. now elim N2.
  - inversion L as [? T H|? X H|A1 D1 X1 X2 H X4 E|A1 X E|A1 D1 X X2 E]; subst; try (now elim H).
    + destruct A as [|c A]; [discriminate E|]. cbn in E. injection E as -> _. now elim H.
    + destruct (ParserProofs13.split_unique 93 _ _ _ _ E X N) as [-> E2]. discriminate.
    + destruct (ParserProofs13.split_unique 93 _ _ _ _ E X N) as [-> E2]. injection E2 as ->. split; [reflexivity|]. now apply layout_brackets.
  - inversion L as [? X H|? X H|A1 D1 X1 X2 H X4 E|A1 X E|A1 D1 X X2 E]; subst; try (now elim H).
    + destruct A as [|c A]; [discriminate E|]. cbn in E. injection E as -> _. now elim H.
    + destruct (ParserProofs13.split_unique 93 _ _ _ _ E X N) as [-> E2]. discriminate.
    + destruct (ParserProofs13.split_unique 93 _ _ _ _ E X N) as [-> E2]. injection E2 as ->. split; [reflexivity|]. now apply layout_bare.
Qed.
Lemma slash_written s s2 : writes_port D s s2 -> In 47 s <-> In 47 s2.
Proof.
  assert (~ In 47 D) as ND by (intros I; apply digits_only in I; lia).
  intros W. destruct W; cbn [app In]; rewrite ?in_app_iff; cbn [In]; rewrite ?in_app_iff; cbn [In]; intuition discriminate.
Qed.
Lemma tail_written s s2 M : writes_port D s s2 -> mask_tail p s M <-> mask_tail p s2 M.
Proof. intros W. unfold mask_tail. rewrite (slash_written s s2 W). reflexivity. Qed.
Lemma slashed_to s s2 M b0 m0 : mask_tail p s M -> mask_tail p s2 M -> slashed p (s ++ M) b0 m0 -> b0 = s /\ slashed p (s2 ++ M) s2 m0.
Proof.
  intros [[-> H]|(AM & N & m & ->)] T2 S.
  - rewrite app_nil_r in *. destruct T2 as [[_ H2]|(_ & _ & m & X)]; [|discriminate]. inversion S as [? F|? T N|? ? T N E]; subst.
    + split; [reflexivity|]. now apply cut_forbidden.
    + split; [reflexivity|]. apply cut_none; [exact T|]. destruct H2 as [H2|H2]; [congruence|exact H2].
    + destruct H as [H|H]; [congruence|]. elim H. apply in_app_iff. right. now left.
  - destruct T2 as [[X _]|(_ & N2 & _)]; [discriminate|]. inversion S as [? F E|? T N3 E|? ? T N3 E]; subst; try congruence.
    + elim N3. apply in_app_iff. right. now left.
    + destruct (ParserProofs13.split_unique 47 _ _ _ _ E N3 N) as [-> ->]. split; [reflexivity|]. now apply cut_mask.
Qed.
Lemma port_to s s2 M l : writes_port D s s2 -> mask_tail p s M -> accepted y g p (s ++ M) l -> accepted y g p (s2 ++ M) (map (mark true) l).
Proof.
  intros W MT A. inversion A as [t0 b0 m six A1 D0 T l1 l2 SL WY LY AD MM]; subst t0 l2.
  destruct (slashed_to s s2 M b0 m MT (proj1 (tail_written s s2 M W) MT) SL) as (-> & SL2). destruct (layout_to _ _ _ _ _ W LY) as (-> & LY2).
  apply (accepted_entry y g p (s2 ++ M) s2 m six A1 D T (map (mark true) l1)); auto.
  - now apply (way_written m s s2 six W).
  - exact (addresses_moved y g p [] D true text_to service_to six A1 l1 AD).
  - destruct MM as [[MF ->]|(MA & MU & F)]; [now left|]. right. split; [exact MA|]. split; [exact MU|]. now apply masks_moved.
Qed.
Lemma port_from s s2 M l : writes_port D s s2 -> mask_tail p s M -> accepted y g p (s2 ++ M) l -> accepted y g p (s ++ M) (map (mark false) l).
Proof.
  intros W MT A. inversion A as [t0 b0 m six A1 D0 T l1 l2 SL WY LY AD MM]; subst t0 l2.
  destruct (slashed_to s2 s M b0 m (proj1 (tail_written s s2 M W) MT) MT SL) as (-> & SL2). destruct (layout_from _ _ _ _ _ W LY) as (-> & LY2).
  apply (accepted_entry y g p (s ++ M) s m six A1 [] T (map (mark false) l1)); auto.
  - now apply (way_written m s s2 six W).
  - exact (addresses_moved y g p D [] false text_from service_from six A1 l1 AD).
  - destruct MM as [[MF ->]|(MA & MU & F)]; [now left|]. right. split; [exact MA|]. split; [exact MU|]. now apply masks_moved.
Qed.
End Written.
