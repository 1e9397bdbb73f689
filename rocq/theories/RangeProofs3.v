(* What two calls of optimize_vector() leave. *)
From Verif Require Import Base Addr Spec Range SpecRange.
From Verif Require Import AddrProofs AddrProofs2 AddrProofs3 RangeProofs RangeProofs2.
From Coq Require Import ZifyBool ZifyNat.
Local Open Scope Z_scope.

Definition covers (a b : addr) : Prop := first_of b <= first_of a /\ last_of a <= last_of b.
Definition apart (a b : addr) : Prop := not_in a b /\ not_in b a.

Lemma covers_refl a : covers a a.
Proof. split; lia. Qed.
Lemma covers_trans a b c : covers a b -> covers b c -> covers a c.
Proof. unfold covers. lia. Qed.

Lemma pairs_skip (R : addr -> addr -> Prop) l x r :
  ForallOrdPairs R (l ++ x :: r) -> ForallOrdPairs R (l ++ r).
Proof.
  induction l as [|a l IH]; cbn [app]; intros F; inversion F as [|? ? Fa Fl]; subst; auto.
  constructor; auto. apply Forall_app in Fa as [A B]. inversion B; subst. now apply Forall_app.
Qed.

Lemma pairs_snoc (R : addr -> addr -> Prop) l z :
  ForallOrdPairs R l -> (forall d, In d l -> R d z) -> ForallOrdPairs R (l ++ [z]).
Proof.
  induction l as [|a l IH]; intros H D; cbn [app]; [repeat constructor|].
  inversion H; subst. constructor.
  - apply Forall_app. split; auto. constructor; auto. apply D. now left.
  - apply IH; auto. intros d I. apply D. now right.
Qed.

Record inner_more (vi : addr) (kept rest : list addr) (vi' : addr) (after : list addr) : Prop := mk_more {
  im_contig : Forall contig rest;
  im_covers : forall w, In w (vi :: kept ++ rest) -> exists w', In w' (vi' :: after) /\ covers w w';
  im_alike : exists w, In w (vi :: rest) /\ alike vi' w;
  im_pairs : forall R, ForallOrdPairs R (kept ++ rest) -> ForallOrdPairs R after;
  im_stable : Forall (not_in vi) rest -> alike vi' vi;
  im_clean : Forall (not_in vi) rest -> Forall (fun w => not_in w vi) kept -> Forall (fun w => not_in w vi) after
}.

Lemma not_in_alike a b c : alike b c -> not_in a b -> not_in a c.
Proof. unfold alike, not_in. lia. Qed.

Lemma inner_more_ok rest : forall ra vi kept result vi' after result',
  tracks ra vi -> Forall addr_wf rest ->
  optimize_inner ra vi kept rest result = (vi', after, result', Ok tt) ->
  inner_more vi kept rest vi' after.
Proof.
  induction rest as [|vj rest IH]; intros ra vi kept result vi' after result' T WR E.
  - cbn [optimize_inner] in E. inversion E; subst. constructor; rewrite ?app_nil_r; auto.
    + intros w I. exists w. split; [exact I|apply covers_refl].
    + exists vi'. split; [now left|split; reflexivity].
    + intros _. split; reflexivity.
  - cbn [optimize_inner] in E. inversion WR as [|? ? Wj WR']; subst.
    destruct (from_cidr range_new vj) as [rb oc] eqn:FC.
    destruct oc as [[]| | |]; try (inversion E; fail).
    pose proof (from_cidr_tracks vj rb Wj FC) as Tj. pose proof (tr_size _ _ Tj) as Bj.
    assert (contig vj) as Cj by (unfold contig; lia).
    destruct (union_if_possible ra rb) as [u| | |] eqn:U; try (inversion E; fail).
    pose proof (nested_merges ra vi vj rb u T Tj U) as NM.
    assert (Skip : is_defined u
       && (eq_ (apply_mask (get_from u) false) (get_from u)
           && eq_ (apply_mask (get_from u) true) (get_to u)) = false ->
      optimize_inner ra vi (kept ++ [vj]) rest result = (vi', after, result', Ok tt) ->
      inner_more vi kept (vj :: rest) vi' after).
    { intros Q X.
      assert (N2 : not_in vj vi).
      { intros N. destruct NM as [D1 D2]; [now right|]. rewrite D1, D2 in Q. discriminate. }
      apply IH in X; auto. destruct X as [X1 X2 X3 X4 X5 X6].
      assert ((kept ++ [vj]) ++ rest = kept ++ vj :: rest) as EQ by now rewrite <- app_assoc.
      rewrite EQ in X2, X4. constructor; auto.
      - destruct X3 as (w & I & A). exists w. split; [|exact A]. destruct I as [I|I]; [now left|right; now right].
      - intros F. inversion F; subst. auto.
      - intros F K. inversion F; subst. apply X6; auto. apply Forall_app. auto. }
    destruct (is_defined u) eqn:D; [|now apply Skip].
    destruct (eq_ (apply_mask (get_from u) false) (get_from u)
       && eq_ (apply_mask (get_from u) true) (get_to u)) eqn:Q; [|now apply Skip].
    clear Skip.
    destruct (merge_step ra vi vj rb u T Tj U D Q) as (Tu & Fu & Lu & Mu).
    pose proof (merge_one ra vi vj rb u T Tj U D Tu Fu Lu) as K.
    set (p := apply_mask (get_from u) false) in *. clearbody p.
    apply IH in E; auto. destruct E as [X1 X2 X3 X4 X5 X6].
    assert (covers vi p) as C1 by (unfold covers; lia). assert (covers vj p) as C2 by (unfold covers; lia).
    assert (A : Forall (not_in vi) (vj :: rest) -> alike p vi).
    { intros F. inversion F as [|? ? F1 F2]; subst. destruct K as [K|K]; auto. exfalso. apply F1.
      unfold alike, covers in *. lia. }
    assert (P : Forall (not_in vi) (vj :: rest) -> Forall (not_in p) rest).
    { intros F. specialize (A F). inversion F as [|? ? F1 F2]; subst. eapply Forall_impl; [|exact F2].
      intros w. unfold not_in, alike in *. lia. }
    constructor; auto.
    + intros w I. cbn [In] in I. rewrite in_app_iff in I. cbn [In] in I.
      assert (covers w p \/ In w (p :: kept ++ rest)) as [C|I'].
      { cbn [In]. rewrite in_app_iff. intuition (subst; auto). }
      * destruct (X2 p (or_introl eq_refl)) as (w' & I' & C'). exists w'. split; auto. now apply covers_trans with p.
      * now apply X2.
    + destruct X3 as (w & [<-|I] & AL).
      * destruct K as [K|K]; [exists vi|exists vj]; (split; [cbn; auto|]); unfold alike in *; lia.
      * exists w. split; [cbn; auto|exact AL].
    + intros R F. apply X4. now apply pairs_skip with vj.
    + intros F. specialize (A F). specialize (X5 (P F)). unfold alike in *. lia.
    + intros F KK. specialize (A F). apply (Forall_impl _ (fun w => not_in_alike w p vi A)). apply X6; auto.
      eapply Forall_impl; [|exact KK]. intros w. unfold not_in, alike in *. lia.
Qed.

(* nothing is merged when nothing is included in anything *)
Lemma inner_apart rest : forall ra vi kept result vi' after result' o,
  tracks ra vi -> Forall addr_wf rest -> Forall (apart vi) rest ->
  optimize_inner ra vi kept rest result = (vi', after, result', o) ->
  vi' = vi /\ after = kept ++ rest /\ result' = result.
Proof.
  induction rest as [|vj rest IH]; intros ra vi kept result vi' after result' o T WR A E; cbn [optimize_inner] in E.
  - inversion E; subst. now rewrite app_nil_r.
  - inversion WR as [|? ? Wj WR']; subst. inversion A as [|? ? [A1 A2] A']; subst.
    destruct (from_cidr range_new vj) as [rb oc] eqn:FC.
    destruct oc as [[]| | |]; try (inversion E; now subst).
    pose proof (from_cidr_tracks vj rb Wj FC) as Tj.
    assert (Skip : optimize_inner ra vi (kept ++ [vj]) rest result = (vi', after, result', o) ->
       vi' = vi /\ after = kept ++ vj :: rest /\ result' = result).
    { intros X. apply IH in X; auto. now rewrite <- app_assoc in X. }
    destruct (union_if_possible ra rb) as [u| | |] eqn:U; try (inversion E; now subst).
    destruct (is_defined u) eqn:D; [|now apply Skip].
    destruct (eq_ (apply_mask (get_from u) false) (get_from u)
       && eq_ (apply_mask (get_from u) true) (get_to u)) eqn:Q; [|now apply Skip].
    exfalso.
    destruct (merge_step ra vi vj rb u T Tj U D Q) as (Tu & Fu & Lu & _).
    destruct (merge_one ra vi vj rb u T Tj U D Tu Fu Lu) as [K|K]; unfold alike, not_in in *; lia.
Qed.

Lemma outer_apart fuel : forall done rest result l o,
  Forall addr_wf rest -> ForallOrdPairs apart rest ->
  optimize_outer fuel done rest result = (l, o) -> l = done ++ rest /\ (forall b, o = Ok b -> b = result).
Proof.
  induction fuel as [|fuel IH]; intros done rest result l o W A E; destruct rest as [|vi rest]; cbn [optimize_outer] in E.
  - inversion E; subst. rewrite app_nil_r. split; auto. congruence.
  - inversion E; subst. split; auto. congruence.
  - inversion E; subst. rewrite app_nil_r. split; auto. congruence.
  - inversion W as [|? ? Wi W']; subst. inversion A as [|? ? A1 A2]; subst.
    destruct (from_cidr range_new vi) as [u oc] eqn:FC.
    destruct oc as [[]|e| |]; try (inversion E; subst; split; [reflexivity|congruence]).
    pose proof (from_cidr_tracks vi u Wi FC) as T.
    destruct (optimize_inner u vi [] rest result) as [[[vi' after] result'] o'] eqn:I.
    apply inner_apart in I as (-> & -> & ->); auto. cbn [app] in E.
    destruct o' as [[]|e| |]; try (inversion E; subst; split; [reflexivity|congruence]).
    apply IH in E; auto. now rewrite <- app_assoc in E.
Qed.

(* every network is still covered, and no new ones appear *)
Lemma outer_more fuel : forall done rest result l b,
  Forall addr_wf rest ->
  optimize_outer fuel done rest result = (l, Ok b) ->
  Forall contig rest
  /\ (forall w, In w (done ++ rest) -> exists w', In w' l /\ covers w w')
  /\ (forall w', In w' l -> exists w, In w (done ++ rest) /\ alike w' w).
Proof.
  induction fuel as [|fuel IH]; intros done rest result l b WR E; destruct rest as [|vi rest]; cbn [optimize_outer] in E;
    try (inversion E; fail).
  1,2: inversion E; subst; rewrite app_nil_r; split; [constructor|]; split; intros w I; exists w; (split; [exact I|]); [apply covers_refl|split; reflexivity].
  inversion WR as [|? ? Wi WR']; subst.
  destruct (from_cidr range_new vi) as [u oc] eqn:FC.
  destruct oc as [[]|e| |]; try (inversion E; fail).
  pose proof (from_cidr_tracks vi u Wi FC) as T. pose proof (tr_size _ _ T) as Bi.
  destruct (optimize_inner u vi [] rest result) as [[[vi' after] result'] o'] eqn:I.
  destruct o' as [[]|e| |]; try (inversion E; fail).
  pose proof (inner_ok rest _ _ _ _ _ _ _ _ T (Forall_nil _) WR' I) as [_ _ _ [IW1 IW2] IS _].
  pose proof (inner_more_ok rest _ _ _ _ _ _ _ T WR' I) as [M1 M2 M3 _ _ _]. cbn [app] in *.
  apply IH in E; auto. destruct E as (E1 & E2 & E3). rewrite <- app_assoc in E2, E3. cbn [app] in E2, E3.
  split; [constructor; auto; unfold contig; lia|]. split.
  - intros w Iw. apply in_app_iff in Iw as [Iw|Iw]; [apply E2, in_app_iff; now left|].
    destruct (M2 w Iw) as (x & Ix & Cx). destruct (E2 x) as (y & Iy & Cy); [apply in_app_iff; now right|].
    exists y. split; auto. now apply covers_trans with x.
  - intros w' Iw. destruct (E3 w' Iw) as (x & Ix & Ax). apply in_app_iff in Ix as [Ix|[<-|Ix]].
    + exists x. split; auto. apply in_app_iff. now left.
    + destruct M3 as (y & Iy & Ay). exists y. split; [apply in_app_iff; now right|]. unfold alike in *. lia.
    + exists x. split; auto. apply in_app_iff. right. right. now apply IS.
Qed.

(* a list where no element is included in a later one becomes one where no
   element is included in any other *)
Lemma outer_second fuel : forall done rest result l b,
  Forall addr_wf rest ->
  ForallOrdPairs not_in rest -> ForallOrdPairs apart done ->
  (forall d, In d done -> Forall (apart d) rest) ->
  optimize_outer fuel done rest result = (l, Ok b) ->
  ForallOrdPairs apart l.
Proof.
  induction fuel as [|fuel IH]; intros done rest result l b WR OR OD DR E; destruct rest as [|vi rest]; cbn [optimize_outer] in E;
    try (inversion E; fail); try (now inversion E; subst).
  inversion WR as [|? ? Wi WR']; subst. inversion OR as [|? ? Fi OR']; subst.
  destruct (from_cidr range_new vi) as [u oc] eqn:FC.
  destruct oc as [[]|e| |]; try (inversion E; fail).
  pose proof (from_cidr_tracks vi u Wi FC) as T.
  destruct (optimize_inner u vi [] rest result) as [[[vi' after] result'] o'] eqn:I.
  destruct o' as [[]|e| |]; try (inversion E; fail).
  pose proof (inner_ok rest _ _ _ _ _ _ _ _ T (Forall_nil _) WR' I) as [_ _ _ [IW1 IW2] IS _].
  pose proof (inner_more_ok rest _ _ _ _ _ _ _ T WR' I) as [_ _ _ M4 M5 M6]. cbn [app] in *.
  specialize (M5 Fi). specialize (M6 Fi (Forall_nil _)).
  apply IH in E; auto.
  - apply pairs_snoc; auto. intros d ID. specialize (DR d ID). inversion DR as [|? ? [D1 D2] _]; subst.
    split; unfold alike, not_in in *; lia.
  - intros d ID. apply in_app_iff in ID as [ID|[<-|[]]].
    + specialize (DR d ID). inversion DR; subst. rewrite Forall_forall in *. auto.
    + rewrite Forall_forall in *. intros w Iw. specialize (M6 w Iw). specialize (Fi w (IS w Iw)).
      split; unfold alike, not_in in *; lia.
Qed.
