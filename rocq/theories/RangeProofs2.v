From Verif Require Import Base Addr Spec Range SpecRange.
From Verif Require Import AddrProofs AddrProofs2 AddrProofs3 RangeProofs.
From Coq Require Import ZifyBool ZifyNat.
Local Open Scope Z_scope.
Ltac Zify.zify_post_hook ::= Z.div_mod_to_equations.

(* ---------- blocks ---------- *)

Definition first_of (a : addr) : Z := block_first (get_mask_size a) (value a).
Definition last_of (a : addr) : Z := block_last (get_mask_size a) (value a).

Lemma block_pos n : n <= 128 -> 0 < block_size n.
Proof. intros. unfold block_size. apply Z.pow_pos_nonneg; lia. Qed.

Lemma block_first_le n v : n <= 128 -> block_first n v <= v <= block_last n v.
Proof.
  intros H. unfold block_last, block_first. pose proof (block_pos n H).
  pose proof (Z.div_mod v (block_size n)). pose proof (Z.mod_pos_bound v (block_size n)).
  assert (v / block_size n * block_size n = block_size n * (v / block_size n)) as -> by ring.
  lia.
Qed.

Lemma block_first_first n v : n <= 128 -> block_first n (block_first n v) = block_first n v.
Proof.
  intros H. unfold block_first. pose proof (block_pos n H). rewrite Z.div_mul by lia. reflexivity.
Qed.

Lemma block_last_first n v : n <= 128 -> block_last n (block_first n v) = block_last n v.
Proof. intros H. unfold block_last. now rewrite block_first_first. Qed.

Lemma match_first_last a x : addr_wf a -> addr_wf x -> get_mask_size a <> -1 ->
  (match_ a x false = true <-> first_of a <= value x <= last_of a).
Proof.
  intros Wa Wx G. destruct (contiguous_size a Wa) as [(C & B & M)|[_ H]]; [|lia].
  now apply match_block.
Qed.

Lemma at_value v : 0 <= v < 2 ^ 128 -> exists x, addr_wf x /\ value x = v.
Proof.
  intros H. exists (ip_from_uint128 addr_new v). split; [now apply ip_from_wf, H; apply new_wf|].
  now apply ip_from_spec.
Qed.

Lemma block_range a : addr_wf a -> get_mask_size a <> -1 ->
  0 <= first_of a <= value a /\ value a <= last_of a < 2 ^ 128.
Proof.
  intros W G. destruct (contiguous_size a W) as [(C & B & M)|[_ H]]; [|lia].
  pose proof (block_first_le (get_mask_size a) (value a)) as BL.
  destruct (apply_mask_false a W) as [Wf Vf]. destruct (apply_mask_true a W) as [Wt Vt].
  pose proof (value_range a W) as V.
  rewrite M, land_prefix in Vf by auto. rewrite M, lor_prefix in Vt by auto.
  unfold first_of, last_of. rewrite <- Vf, <- Vt in *.
  pose proof (value_range _ Wf). pose proof (value_range _ Wt). lia.
Qed.

Lemma included_iff a b : addr_wf a -> addr_wf b -> get_mask_size a <> -1 -> get_mask_size b <> -1 ->
  (included a b <-> first_of b <= first_of a /\ last_of a <= last_of b).
Proof.
  intros Wa Wb Ga Gb. unfold included.
  pose proof (block_range a Wa Ga) as [R1 R2]. split.
  - intros H.
    destruct (at_value (first_of a)) as (x & Wx & Vx); [lia|].
    destruct (at_value (last_of a)) as (y & Wy & Vy); [lia|].
    pose proof (H x Wx) as Hx. pose proof (H y Wy) as Hy.
    rewrite !match_first_last in Hx, Hy by auto. lia.
  - intros H x Wx. rewrite !match_first_last by auto. lia.
Qed.

(* ---------- the inner loop ---------- *)

Definition good (a : addr) : Prop := addr_wf a /\ get_mask_size a <> -1.

(* ra is the range of the network v[i] *)
Record tracks (ra : addr_range) (vi : addr) : Prop := mk_tracks {
  tr_wf : range_wf ra;
  tr_vi : addr_wf vi;
  tr_full : full ra;
  tr_size : 0 <= get_mask_size vi <= 128;
  tr_lo : lo ra = first_of vi;
  tr_hi : hi ra = last_of vi;
  tr_mf : get_mask_size (f_from ra) = get_mask_size vi;
  tr_mt : get_mask_size (f_to ra) = get_mask_size vi
}.

Lemma from_cidr_tracks a u : addr_wf a -> from_cidr range_new a = (u, Ok tt) -> tracks u a.
Proof.
  intros W E. pose proof (from_cidr_spec range_new a W) as S.
  destruct (get_mask_size a =? -1) eqn:G.
  - destruct S as [_ S]. rewrite S in E. discriminate.
  - destruct S as (n & u' & C & B & G' & M & E' & Wu & Fu & L & H & Mf & Mt & _).
    rewrite E' in E. apply (f_equal fst) in E. cbn [fst] in E. subst u'.
    constructor; auto; unfold first_of, last_of; rewrite ?G'; auto; lia.
Qed.

(* one step: merging replaces both by the larger network *)
Lemma merge_step ra vi vj rb u : tracks ra vi -> tracks rb vj ->
  union_if_possible ra rb = Ok u -> is_defined u = true ->
  let p := apply_mask (get_from u) false in
  let q := apply_mask (get_from u) true in
  eq_ p (get_from u) && eq_ q (get_to u) = true ->
  tracks u p
  /\ first_of p = Z.min (first_of vi) (first_of vj)
  /\ last_of p = Z.max (last_of vi) (last_of vj)
  /\ forall x, addr_wf x ->
     (match_ p x false = true <-> match_ vi x false = true \/ match_ vj x false = true).
Proof.
  intros T1 T2 E D p q Q.
  pose proof (union_spec ra rb (tr_wf _ _ T1) (tr_wf _ _ T2)
    (full_defined _ (tr_full _ _ T1)) (full_defined _ (tr_full _ _ T2))) as S.
  destruct (touching ra rb) eqn:TT.
  2:{ rewrite E in S. inversion S. subst u. discriminate. }
  destruct (fitsb _ _ && fitsb _ _) eqn:FF.
  2:{ rewrite E in S. discriminate. }
  destruct S as (u' & E' & Wu & HF & HT & L & H & M & GF & GT). rewrite E in E'.
  injection E' as <-.
  assert (F : full u) by (split; auto; apply HT; left; apply T1).
  specialize (GT (proj2 F)).
  unfold union_from_mask, union_to_mask in *.
  rewrite (tr_mf _ _ T1), (tr_mf _ _ T2) in *. rewrite (tr_mt _ _ T1), (tr_mt _ _ T2) in *.
  pose proof (tr_size _ _ T1) as B1. pose proof (tr_size _ _ T2) as B2.
  set (n := Z.min (get_mask_size vi) (get_mask_size vj)) in *.
  assert (B : 0 <= n <= 128) by lia.
  destruct (apply_mask_false (get_from u) (wf_from _ Wu)) as [Wp Vp].
  destruct (apply_mask_true (get_from u) (wf_from _ Wu)) as [Wq Vq].
  fold p in Wp, Vp. fold q in Wq, Vq. unfold get_from, get_to in *.
  pose proof (value_range _ (wf_from _ Wu)) as VR.
  rewrite M, land_prefix in Vp by auto. rewrite M, lor_prefix in Vq by auto.
  apply andb_true_iff in Q as [Q1 Q2].
  rewrite eq_value in Q1, Q2 by (auto; apply Wu). apply Z.eqb_eq in Q1, Q2.
  assert (Gp : get_mask_size p = n).
  { unfold p, get_mask_size. rewrite <- (sb_mask _ _ (apply_mask_same (f_from u) false)). exact GF. }
  destruct (full_lo_hi u F) as [LU HU].
  assert (P1 : first_of p = lo u).
  { unfold first_of. rewrite Gp, Vp, block_first_first by lia. congruence. }
  assert (P2 : last_of p = hi u).
  { unfold last_of. rewrite Gp, Vp, block_last_first by lia. congruence. }
  split; [constructor; auto; congruence || lia|].
  split; [rewrite P1, L, (tr_lo _ _ T1), (tr_lo _ _ T2); reflexivity|].
  split; [rewrite P2, H, (tr_hi _ _ T1), (tr_hi _ _ T2); reflexivity|].
  intros x Wx. pose proof (tr_vi _ _ T1) as W1. pose proof (tr_vi _ _ T2) as W2.
  rewrite !match_first_last by (auto; lia).
  rewrite P1, P2, L, H. unfold touching in TT.
  rewrite <- (tr_lo _ _ T1), <- (tr_lo _ _ T2), <- (tr_hi _ _ T1), <- (tr_hi _ _ T2).
  generalize dependent (lo ra). generalize dependent (hi ra). generalize dependent (lo rb).
  generalize dependent (hi rb). clear. intros. lia.
Qed.

(* nested blocks are merged, unless setting the mask throws *)
Lemma size_order a b : 0 <= get_mask_size a <= 128 -> 0 <= get_mask_size b <= 128 ->
  first_of b <= first_of a -> last_of a <= last_of b -> get_mask_size b <= get_mask_size a.
Proof.
  intros A B F L. unfold first_of, last_of, block_last in *.
  destruct (Z_le_gt_dec (get_mask_size b) (get_mask_size a)) as [|G]; auto. exfalso.
  assert (block_size (get_mask_size b) < block_size (get_mask_size a)).
  { unfold block_size. apply Z.pow_lt_mono_r; lia. }
  lia.
Qed.

Lemma nested_merges ra vi vj rb u : tracks ra vi -> tracks rb vj ->
  union_if_possible ra rb = Ok u ->
  (first_of vj <= first_of vi /\ last_of vi <= last_of vj)
  \/ (first_of vi <= first_of vj /\ last_of vj <= last_of vi) ->
  is_defined u = true
  /\ eq_ (apply_mask (get_from u) false) (get_from u)
     && eq_ (apply_mask (get_from u) true) (get_to u) = true.
Proof.
  intros T1 T2 E N.
  pose proof (union_spec ra rb (tr_wf _ _ T1) (tr_wf _ _ T2)
    (full_defined _ (tr_full _ _ T1)) (full_defined _ (tr_full _ _ T2))) as S.
  assert (O1 : first_of vi <= last_of vi).
  { pose proof (block_range vi (tr_vi _ _ T1)). pose proof (tr_size _ _ T1). lia. }
  assert (O2 : first_of vj <= last_of vj).
  { pose proof (block_range vj (tr_vi _ _ T2)). pose proof (tr_size _ _ T2). lia. }
  assert (touching ra rb = true) as TT.
  { unfold touching. rewrite (tr_lo _ _ T1), (tr_lo _ _ T2), (tr_hi _ _ T1), (tr_hi _ _ T2). lia. }
  rewrite TT in S.
  destruct (fitsb _ _ && fitsb _ _) eqn:FF.
  2:{ rewrite E in S. discriminate. }
  destruct S as (u' & E' & Wu & HF & HT & L & H & M & GF & GT). rewrite E in E'.
  injection E' as <-.
  assert (F : full u) by (split; auto; apply HT; left; apply T1).
  split; [apply is_defined_spec, full_defined, F|].
  unfold union_from_mask in *. rewrite (tr_mf _ _ T1), (tr_mf _ _ T2) in *.
  pose proof (tr_size _ _ T1) as B1. pose proof (tr_size _ _ T2) as B2.
  set (n := Z.min (get_mask_size vi) (get_mask_size vj)) in *.
  assert (B : 0 <= n <= 128) by lia.
  destruct (apply_mask_false (get_from u) (wf_from _ Wu)) as [Wp Vp].
  destruct (apply_mask_true (get_from u) (wf_from _ Wu)) as [Wq Vq].
  unfold get_from, get_to in *.
  pose proof (value_range _ (wf_from _ Wu)) as VR.
  rewrite M, land_prefix in Vp by auto. rewrite M, lor_prefix in Vq by auto.
  rewrite !eq_value by (auto; apply Wu). rewrite Vp, Vq.
  destruct (full_lo_hi u F) as [LU HU]. rewrite <- LU, <- HU, L, H.
  rewrite (tr_lo _ _ T1), (tr_lo _ _ T2), (tr_hi _ _ T1), (tr_hi _ _ T2).
  assert (K : exists w, 0 <= get_mask_size w <= 128 /\ n = get_mask_size w
     /\ Z.min (first_of vi) (first_of vj) = first_of w
     /\ Z.max (last_of vi) (last_of vj) = last_of w).
  { destruct N as [[N1 N2]|[N1 N2]].
    - exists vj. pose proof (size_order vi vj B1 B2 N1 N2). repeat split; lia.
    - exists vi. pose proof (size_order vj vi B2 B1 N1 N2). repeat split; lia. }
  destruct K as (w & Bw & -> & -> & ->). unfold first_of, last_of.
  rewrite block_first_first, block_last_first by lia. lia.
Qed.

Lemma matched_app l1 l2 x : matched_by (l1 ++ l2) x <-> matched_by l1 x \/ matched_by l2 x.
Proof.
  unfold matched_by. split.
  - intros (a & I & M). apply in_app_iff in I as [I|I]; [left|right]; eauto.
  - intros [(a & I & M)|(a & I & M)]; exists a; split; auto; apply in_app_iff; auto.
Qed.
Lemma matched_cons a l x : matched_by (a :: l) x <-> match_ a x false = true \/ matched_by l x.
Proof.
  unfold matched_by. split.
  - intros (b & [->|I] & M); eauto.
  - intros [M|(b & I & M)]; eexists; split; eauto; [now left|now right].
Qed.

(* a and b match the same addresses *)
Definition alike (a b : addr) : Prop := first_of a = first_of b /\ last_of a = last_of b.

Ltac inner_stop E := inversion E; subst; clear E.

Record inner_facts (vi : addr) (kept rest : list addr) (result : bool)
    (vi' : addr) (after : list addr) (result' : bool) : Prop := mk_inner {
  in_match : forall x, addr_wf x ->
    (matched_by (vi' :: after) x <-> matched_by (vi :: kept ++ rest) x);
  in_len : (length after <= length kept + length rest)%nat;
  in_res : result' = true <->
    result = true \/ (length after < length kept + length rest)%nat;
  in_wf : Forall addr_wf after /\ addr_wf vi';
  in_sub : incl after (kept ++ rest);
  in_same : length after = (length kept + length rest)%nat -> vi' = vi /\ after = kept ++ rest
}.

Lemma inner_ok rest : forall ra vi kept result vi' after result' o,
  tracks ra vi -> Forall addr_wf kept -> Forall addr_wf rest ->
  optimize_inner ra vi kept rest result = (vi', after, result', o) ->
  inner_facts vi kept rest result vi' after result'.
Proof.
  induction rest as [|vj rest IH]; intros ra vi kept result vi' after result' o T WK WR E.
  - cbn [optimize_inner] in E. inversion E; subst.
    constructor; rewrite ?app_nil_r; cbn [length]; auto; try tauto; try lia.
    + split; [auto|intros [H|H]; [auto|lia]].
    + split; auto. apply T.
    + apply incl_refl.
  - assert (Stop : forall r0, (vi, kept ++ vj :: rest, result, r0) = (vi', after, result', o) ->
      inner_facts vi kept (vj :: rest) result vi' after result').
    { intros r0 X. inversion X; subst. constructor; rewrite ?app_length; cbn [length]; auto; try tauto; try lia.
      - split; [auto|intros [H|H]; [auto|lia]].
      - split; [now apply Forall_app|apply T].
      - apply incl_refl. }
    cbn [optimize_inner] in E.
    inversion WR as [|? ? Wj WR']; subst.
    destruct (from_cidr range_new vj) as [rb oc] eqn:FC.
    destruct oc as [[]| | |]; try (eapply Stop; exact E).
    pose proof (from_cidr_tracks vj rb Wj FC) as Tj.
    assert (Skip : optimize_inner ra vi (kept ++ [vj]) rest result = (vi', after, result', o) ->
      inner_facts vi kept (vj :: rest) result vi' after result').
    { intros X. apply IH in X; auto. 2:{ apply Forall_app; auto. }
      destruct X. constructor; auto;
        rewrite ?app_length in *; cbn [length] in *; try lia.
      - intros x Wx. rewrite in_match0 by auto. rewrite <- app_assoc. reflexivity.
      - rewrite in_res0. split; (intros [H|H]; [auto|right; lia]).
      - now rewrite <- app_assoc in in_sub0.
      - rewrite <- app_assoc in in_same0. cbn [app] in in_same0. intros H. apply in_same0. lia. }
    destruct (union_if_possible ra rb) as [u| | |] eqn:U; try (eapply Stop; exact E).
    destruct (is_defined u) eqn:D; [|now apply Skip].
    destruct (eq_ (apply_mask (get_from u) false) (get_from u)
       && eq_ (apply_mask (get_from u) true) (get_to u)) eqn:Q; [|now apply Skip].
    destruct (merge_step ra vi vj rb u T Tj U D Q) as (Tu & _ & _ & Mu).
    apply IH in E; auto. destruct E.
    assert (LT : (length after < length kept + S (length rest))%nat) by lia.
    constructor; auto; cbn [length]; try lia.
    + intros x Wx. rewrite in_match0 by auto. specialize (Mu x Wx).
      rewrite !matched_cons, !matched_app, matched_cons. tauto.
    + rewrite in_res0. split; auto.
    + intros z Z. specialize (in_sub0 z Z). rewrite in_app_iff in *. cbn [In]. tauto.
Qed.

(* no element is included in an element which comes later *)
Definition not_in (a b : addr) : Prop := ~ (first_of b <= first_of a /\ last_of a <= last_of b).

Lemma inner_result_true rest : forall ra vi kept vi' after result' o,
  optimize_inner ra vi kept rest true = (vi', after, result', o) -> result' = true.
Proof.
  induction rest as [|z rest IH]; intros ra vi kept vi' after result' o E; cbn [optimize_inner] in E.
  - now inversion E.
  - destruct (from_cidr range_new z) as [rb oc]. destruct oc as [[]| | |]; try (now inversion E).
    destruct (union_if_possible ra rb) as [u| | |]; try (now inversion E).
    destruct (is_defined u); [destruct (_ && _)|]; eauto.
Qed.

(* the merged network is one of the two *)
Lemma merge_one ra vi vj rb u : tracks ra vi -> tracks rb vj ->
  union_if_possible ra rb = Ok u -> is_defined u = true ->
  let p := apply_mask (get_from u) false in
  tracks u p ->
  first_of p = Z.min (first_of vi) (first_of vj) ->
  last_of p = Z.max (last_of vi) (last_of vj) ->
  alike p vi \/ alike p vj.
Proof.
  intros T Tj U D p Tu Fu Lu.
  pose proof (tr_vi _ _ T) as Wi. pose proof (tr_vi _ _ Tj) as Wj.
  pose proof (tr_size _ _ T) as Bi. pose proof (tr_size _ _ Tj) as Bj.
  pose proof (block_range vi Wi ltac:(lia)) as R1. pose proof (block_range vj Wj ltac:(lia)) as R2.
  pose proof (tr_mf _ _ Tu) as Gp.
  pose proof (union_spec ra rb (tr_wf _ _ T) (tr_wf _ _ Tj)
    (full_defined _ (tr_full _ _ T)) (full_defined _ (tr_full _ _ Tj))) as S.
  destruct (touching ra rb) eqn:TT.
  2:{ rewrite U in S. inversion S. subst u. discriminate. }
  destruct (fitsb _ _ && fitsb _ _) eqn:FF.
  2:{ rewrite U in S. discriminate. }
  destruct S as (u' & E' & _ & _ & _ & _ & _ & _ & GF & _). rewrite U in E'. injection E' as <-.
  rewrite GF in Gp. unfold union_from_mask in Gp. rewrite (tr_mf _ _ T), (tr_mf _ _ Tj) in Gp.
  assert (Sz : forall w, last_of w = first_of w + block_size (get_mask_size w) - 1) by reflexivity.
  pose proof (Sz p) as Sp. pose proof (Sz vi) as Si. pose proof (Sz vj) as Sj. clear Sz.
  assert (get_mask_size p = get_mask_size vi \/ get_mask_size p = get_mask_size vj) as [Z|Z] by lia;
    rewrite Z in Sp; [left|right]; unfold alike; lia.
Qed.

Definition contig (w : addr) : Prop := get_mask_size w <> -1.

Record order_facts (vi : addr) (kept rest : list addr)
    (vi' : addr) (after : list addr) (result' : bool) : Prop := mk_order {
  or_after : Forall (not_in vi') after;
  or_contig : Forall contig after /\ contig vi';
  or_grow : first_of vi' <= first_of vi /\ last_of vi <= last_of vi';
  or_from : forall d, not_in d vi -> Forall (not_in d) rest -> not_in d vi';
  or_false : result' = false -> Forall (fun w => not_in w vi) kept -> Forall (fun w => not_in w vi') after
}.

Lemma inner_order rest : forall ra vi kept result vi' after result',
  tracks ra vi -> Forall addr_wf rest ->
  Forall contig kept -> Forall (not_in vi) kept ->
  optimize_inner ra vi kept rest result = (vi', after, result', Ok tt) ->
  order_facts vi kept rest vi' after result'.
Proof.
  induction rest as [|vj rest IH]; intros ra vi kept result vi' after result' T WR GK NK E.
  - cbn [optimize_inner] in E. inversion E; subst.
    pose proof (tr_size _ _ T). constructor; auto.
    + split; auto. unfold contig. lia.
    + lia.
  - cbn [optimize_inner] in E. inversion WR as [|? ? Wj WR']; subst.
    destruct (from_cidr range_new vj) as [rb oc] eqn:FC.
    destruct oc as [[]| | |]; try (inversion E; fail).
    pose proof (from_cidr_tracks vj rb Wj FC) as Tj.
    destruct (union_if_possible ra rb) as [u| | |] eqn:U; try (inversion E; fail).
    pose proof (nested_merges ra vi vj rb u T Tj U) as NM.
    pose proof (tr_size _ _ Tj) as Bj.
    assert (Skip : is_defined u
       && (eq_ (apply_mask (get_from u) false) (get_from u)
           && eq_ (apply_mask (get_from u) true) (get_to u)) = false ->
      optimize_inner ra vi (kept ++ [vj]) rest result = (vi', after, result', Ok tt) ->
      order_facts vi kept (vj :: rest) vi' after result').
    { intros Q X.
      assert (N1 : not_in vi vj).
      { intros N. destruct NM as [D1 D2]; [now left|]. rewrite D1, D2 in Q. discriminate. }
      assert (N2 : not_in vj vi).
      { intros N. destruct NM as [D1 D2]; [now right|]. rewrite D1, D2 in Q. discriminate. }
      apply IH in X; auto.
      2:{ apply Forall_app. split; auto. constructor; auto. unfold contig. lia. }
      2:{ apply Forall_app. split; auto. }
      destruct X. constructor; auto.
      - intros d Dd DR. inversion DR; subst. auto.
      - intros R K. apply or_false0; auto. apply Forall_app; auto. }
    destruct (is_defined u) eqn:D; [|now apply Skip].
    destruct (eq_ (apply_mask (get_from u) false) (get_from u)
       && eq_ (apply_mask (get_from u) true) (get_to u)) eqn:Q; [|now apply Skip].
    clear Skip.
    destruct (merge_step ra vi vj rb u T Tj U D Q) as (Tu & Fu & Lu & Mu).
    pose proof (merge_one ra vi vj rb u T Tj U D Tu Fu Lu) as K.
    set (p := apply_mask (get_from u) false) in *.
    pose proof (inner_result_true _ _ _ _ _ _ _ _ E) as RT.
    apply IH in E; auto.
    2:{ eapply Forall_impl; [|exact NK]. unfold not_in. intros w Hw. rewrite Fu, Lu. lia. }
    destruct E. constructor; auto.
    + lia.
    + intros d Dd DR. inversion DR; subst. apply or_from0; auto.
      unfold alike, not_in in *. lia.
    + intros. congruence.
Qed.

(* ---------- the outer loop ---------- *)

Lemma outer_ok fuel : forall done rest result l o,
  (length rest <= fuel)%nat -> Forall addr_wf done -> Forall addr_wf rest ->
  optimize_outer fuel done rest result = (l, o) ->
  (forall x, addr_wf x -> (matched_by l x <-> matched_by (done ++ rest) x))
  /\ (length l <= length done + length rest)%nat
  /\ Forall addr_wf l
  /\ (forall b, o = Ok b -> (b = true <-> result = true \/ (length l < length done + length rest)%nat))
  /\ o <> OutOfFuel /\ o <> UB
  /\ (length l = (length done + length rest)%nat -> l = done ++ rest).
Proof.
  induction fuel as [|fuel IH]; intros done rest result l o F WD WR E.
  - destruct rest; [|cbn in F; lia]. cbn [optimize_outer] in E. inversion E; subst.
    rewrite app_nil_r. cbn [length].
    split; [tauto|]. split; [lia|]. split; auto. split; [|repeat split; congruence].
    intros b X. inversion X; subst. split; auto. intros [H|H]; auto. lia.
  - destruct rest as [|vi rest].
    { cbn [optimize_outer] in E. inversion E; subst.
      rewrite app_nil_r. cbn [length].
      split; [tauto|]. split; [lia|]. split; auto. split; [|repeat split; congruence].
      intros b X. inversion X; subst. split; auto. intros [H|H]; auto. lia. }
    cbn [optimize_outer] in E. inversion WR as [|? ? Wi WR']; subst.
    pose proof (from_cidr_spec range_new vi Wi) as FS.
    destruct (get_mask_size vi =? -1) eqn:G.
    { destruct FS as [_ FS]. rewrite FS in E. inversion E; subst.
      split; [tauto|]. rewrite app_length. split; [lia|]. split; [now apply Forall_app|].
      repeat split; congruence. }
    destruct FS as (n & u & _ & _ & _ & _ & FC & _). rewrite FC in E.
    pose proof (from_cidr_tracks vi u Wi FC) as T.
    destruct (optimize_inner u vi [] rest result) as [[[vi' after] result'] o'] eqn:I.
    pose proof (inner_ok rest _ _ _ _ _ _ _ _ T (Forall_nil _) WR' I) as IF.
    destruct IF as [IM IL IR [IW1 IW2] IS ISM]. cbn [app length plus] in *.
    assert (NO : o' <> OutOfFuel /\ o' <> UB).
    { clear - I T WR'. revert u vi T I. generalize (@nil addr) as kept. revert result.
      induction rest as [|vj rest IH]; intros result kept ra vi T I; cbn [optimize_inner] in I.
      - inversion I; subst. split; discriminate.
      - inversion WR' as [|? ? Wj WR]; subst.
        pose proof (from_cidr_spec range_new vj Wj) as FS.
        destruct (get_mask_size vj =? -1).
        { destruct FS as [_ FS]. rewrite FS in I. inversion I; subst. split; discriminate. }
        destruct FS as (n & rb & _ & _ & _ & _ & FC & _). rewrite FC in I.
        pose proof (from_cidr_tracks vj rb Wj FC) as Tj.
        pose proof (union_spec ra rb (tr_wf _ _ T) (tr_wf _ _ Tj)
          (full_defined _ (tr_full _ _ T)) (full_defined _ (tr_full _ _ Tj))) as S.
        assert (U : (exists u, union_if_possible ra rb = Ok u) \/ union_if_possible ra rb = Throw E_out_of_range).
        { destruct (touching ra rb); [|left; eauto]. destruct (_ && _); [|auto].
          destruct S as (u & ? & _). left; eauto. }
        destruct U as [[u U]|U].
        + rewrite U in I. destruct (is_defined u) eqn:D; [|now eapply IH in I].
          destruct (_ && _) eqn:Q; [|now eapply IH in I].
          destruct (merge_step ra vi vj rb u T Tj U D Q) as (Tu & _). now eapply IH in I.
        + rewrite U in I. inversion I; subst. split; discriminate. }
    assert (MM : forall x, addr_wf x -> (matched_by (done ++ vi' :: after) x <-> matched_by (done ++ vi :: rest) x)).
    { intros x Wx. rewrite !matched_app, IM by auto. tauto. }
    destruct o' as [[]|e| |]; try (now destruct NO).
    + apply IH in E; auto; [|cbn in F; lia|apply Forall_app; auto].
      destruct E as (E1 & E2 & E3 & E4 & E5 & E6 & E7).
      rewrite app_length in *. cbn [length] in *.
      split; [intros x Wx; rewrite E1, <- app_assoc by auto; now apply MM|].
      split; [lia|]. split; auto. split; [|split; auto; split; auto].
      * intros b B. rewrite (E4 b B), IR. split.
        -- intros [[H|H]|H]; auto; right; lia.
        -- intros [H|H]; auto.
           destruct (Nat.lt_ge_cases (length after) (length rest)); auto. right. lia.
      * intros H. rewrite E7 by lia. destruct ISM as [-> ->]; [lia|]. now rewrite <- app_assoc.
    + inversion E; subst. split; auto. rewrite app_length. cbn [length]. split; [lia|].
      split; [apply Forall_app; auto|]. split; [congruence|]. split; [congruence|]. split; [congruence|].
      intros H. destruct ISM as [-> ->]; [lia|]. reflexivity.
Qed.

Lemma outer_result_true fuel : forall done rest l b,
  optimize_outer fuel done rest true = (l, Ok b) -> b = true.
Proof.
  induction fuel; intros done rest l b E; destruct rest as [|vi rest]; cbn [optimize_outer] in E;
    try (now inversion E).
  destruct (from_cidr range_new vi) as [u oc]. destruct oc as [[]|e| |]; try (inversion E; fail).
  destruct (optimize_inner u vi [] rest true) as [[[vi' after] result'] o'] eqn:I.
  apply inner_result_true in I as R. subst. destruct o' as [[]|e| |]; try (inversion E; fail). eauto.
Qed.

(* pairs i < j *)
Lemma outer_order fuel : forall done rest result l b,
  Forall addr_wf rest ->
  Forall contig done ->
  ForallOrdPairs not_in done ->
  (forall d, In d done -> Forall (not_in d) rest) ->
  optimize_outer fuel done rest result = (l, Ok b) ->
  ForallOrdPairs not_in l /\ Forall contig l
  /\ (b = false -> ForallOrdPairs (fun x y => not_in y x) done ->
      (forall d, In d done -> Forall (fun w => not_in w d) rest) ->
      ForallOrdPairs (fun x y => not_in y x) l).
Proof.
  assert (APP : forall (R : addr -> addr -> Prop) l z, ForallOrdPairs R l -> (forall d, In d l -> R d z) ->
    ForallOrdPairs R (l ++ [z])).
  { clear. induction l as [|a l IH]; intros z H D; cbn [app]; [repeat constructor|].
    inversion H; subst. constructor.
    - apply Forall_app. split; auto. constructor; auto. apply D. now left.
    - apply IH; auto. intros d I. apply D. now right. }
  induction fuel as [|fuel IH]; intros done rest result l b WR GD OD DR E.
  - destruct rest; cbn [optimize_outer] in E; inversion E; subst. auto.
  - destruct rest as [|vi rest].
    { cbn [optimize_outer] in E. inversion E; subst. auto. }
    cbn [optimize_outer] in E. inversion WR as [|? ? Wi WR']; subst.
    destruct (from_cidr range_new vi) as [u oc] eqn:FC.
    destruct oc as [[]|e| |]; try (inversion E; fail).
    pose proof (from_cidr_tracks vi u Wi FC) as T.
    destruct (optimize_inner u vi [] rest result) as [[[vi' after] result'] o'] eqn:I.
    destruct o' as [[]|e| |]; try (inversion E; fail).
    pose proof (inner_ok rest _ _ _ _ _ _ _ _ T (Forall_nil _) WR' I) as [_ IL IR [IW1 IW2] IS ISM].
    cbn [app length plus] in *.
    pose proof (inner_order rest _ _ _ _ _ _ _ T WR' (Forall_nil _) (Forall_nil _) I) as [OA [OC1 OC2] OG OF OFF].
    assert (ND : forall d, In d done -> not_in d vi').
    { intros d ID. specialize (DR d ID). inversion DR; subst. auto. }
    assert (RF : b = false -> result' = false).
    { intros ->. destruct result'; auto. apply outer_result_true in E. discriminate. }
    apply IH in E; auto.
    + destruct E as (E1 & E2 & E3). split; auto. split; auto.
      intros B OD' DR'. specialize (RF B).
      assert (SM : vi' = vi /\ after = rest).
      { apply ISM. destruct (Nat.lt_ge_cases (length after) (length rest)); [|lia].
        assert (result' = true) by (apply IR; auto). congruence. }
      destruct SM as [-> ->]. apply E3; auto.
      * apply APP; auto. intros d ID. specialize (DR' d ID). now inversion DR'.
      * intros d ID. apply in_app_iff in ID as [ID|[<-|[]]]; auto.
        specialize (DR' d ID). now inversion DR'.
    + apply Forall_app. auto.
    + intros d ID. apply in_app_iff in ID as [ID|[<-|[]]]; auto.
      specialize (DR d ID). inversion DR; subst. rewrite Forall_forall in *. auto.
Qed.

(* ---------- when it cannot throw ---------- *)

Definition v4b (v : Z) : bool := (v4_base <=? v) && (v <? v4_base + 2 ^ 32).
(* one family: every network within IPv4, or none touching IPv4 with its ends *)
Definition one_family (f : bool) (a : addr) : Prop :=
  0 <= get_mask_size a <= 128
  /\ v4b (first_of a) = f /\ v4b (last_of a) = f
  /\ (f = true -> 96 <= get_mask_size a).

Lemma from_cidr_ok a : addr_wf a -> 0 <= get_mask_size a ->
  exists u, from_cidr range_new a = (u, Ok tt).
Proof.
  intros W G. pose proof (from_cidr_spec range_new a W) as FS.
  destruct (get_mask_size a =? -1) eqn:E; [lia|].
  destruct FS as (n & u & _ & _ & _ & _ & FC & _). eauto.
Qed.

Lemma min_pick f x y : v4b x = f -> v4b y = f -> v4b (Z.min x y) = f /\ v4b (Z.max x y) = f.
Proof. intros. destruct (Z.min_spec x y) as [[_ ->]|[_ ->]], (Z.max_spec x y) as [[_ ->]|[_ ->]]; auto. Qed.

Lemma family_union f ra vi rb vj : tracks ra vi -> tracks rb vj -> one_family f vi -> one_family f vj ->
  exists u, union_if_possible ra rb = Ok u.
Proof.
  intros T Tj (B & F & L & S) (Bj & Fj & Lj & Sj).
  pose proof (union_spec ra rb (tr_wf _ _ T) (tr_wf _ _ Tj)
    (full_defined _ (tr_full _ _ T)) (full_defined _ (tr_full _ _ Tj))) as U.
  destruct (touching ra rb); [|eauto].
  rewrite (tr_lo _ _ T), (tr_lo _ _ Tj), (tr_hi _ _ T), (tr_hi _ _ Tj) in U.
  assert (fitsb (union_from_mask ra rb) (Z.min (first_of vi) (first_of vj))
       && fitsb (union_to_mask ra rb) (Z.max (last_of vi) (last_of vj)) = true) as K.
  { unfold union_from_mask, union_to_mask, fitsb.
    rewrite (tr_mf _ _ T), (tr_mf _ _ Tj), (tr_mt _ _ T), (tr_mt _ _ Tj).
    fold (v4b (Z.min (first_of vi) (first_of vj))). fold (v4b (Z.max (last_of vi) (last_of vj))).
    destruct (min_pick f _ _ F Fj) as [-> _]. destruct (min_pick f _ _ L Lj) as [_ ->].
    destruct f; lia. }
  rewrite K in U. destruct U as (u & ? & _). eauto.
Qed.

Lemma family_inner f rest : forall ra vi kept result,
  tracks ra vi -> one_family f vi -> Forall addr_wf rest -> Forall (one_family f) rest ->
  exists vi' after result', optimize_inner ra vi kept rest result = (vi', after, result', Ok tt).
Proof.
  induction rest as [|vj rest IH]; intros ra vi kept result T P W R; cbn [optimize_inner]; [eauto|].
  inversion W as [|? ? Wj W']; subst. inversion R as [|? ? Pj R']; subst.
  destruct (from_cidr_ok vj Wj ltac:(apply Pj)) as [rb FC]. rewrite FC.
  pose proof (from_cidr_tracks vj rb Wj FC) as Tj.
  destruct (family_union f ra vi rb vj T Tj P Pj) as [u U]. rewrite U.
  destruct (is_defined u) eqn:D; [|now apply IH].
  destruct (_ && _) eqn:Q; [|now apply IH].
  destruct (merge_step ra vi vj rb u T Tj U D Q) as (Tu & Fu & Lu & _).
  pose proof (merge_one ra vi vj rb u T Tj U D Tu Fu Lu) as K.
  apply IH; auto. destruct P as (B & F & L & S), Pj as (Bj & Fj & Lj & Sj).
  set (p := apply_mask (get_from u) false) in *.
  pose proof (tr_size _ _ Tu) as Bp.
  split; auto. rewrite Fu, Lu.
  destruct (min_pick f _ _ F Fj) as [-> _]. destruct (min_pick f _ _ L Lj) as [_ ->].
  split; auto. split; auto. intros X. specialize (S X). specialize (Sj X).
  pose proof (tr_mf _ _ Tu) as Gp.
  pose proof (union_spec ra rb (tr_wf _ _ T) (tr_wf _ _ Tj)
    (full_defined _ (tr_full _ _ T)) (full_defined _ (tr_full _ _ Tj))) as Us.
  destruct (touching ra rb) eqn:TT.
  2:{ rewrite U in Us. inversion Us. subst u. discriminate. }
  destruct (fitsb _ _ && fitsb _ _) eqn:FF.
  2:{ rewrite U in Us. discriminate. }
  destruct Us as (u' & E' & _ & _ & _ & _ & _ & _ & GF & _). rewrite U in E'. injection E' as <-.
  rewrite GF in Gp. unfold union_from_mask in Gp. rewrite (tr_mf _ _ T), (tr_mf _ _ Tj) in Gp. lia.
Qed.

Lemma family_outer f fuel : forall done rest result,
  (length rest <= fuel)%nat -> Forall addr_wf rest -> Forall (one_family f) rest ->
  exists l b, optimize_outer fuel done rest result = (l, Ok b).
Proof.
  induction fuel as [|fuel IH]; intros done rest result F W R.
  - destruct rest; [|cbn in F; lia]. cbn. eauto.
  - destruct rest as [|vi rest]; [cbn; eauto|]. cbn [optimize_outer].
    inversion W as [|? ? Wi W']; subst. inversion R as [|? ? Pi R']; subst.
    destruct (from_cidr_ok vi Wi ltac:(apply Pi)) as [u FC]. rewrite FC.
    pose proof (from_cidr_tracks vi u Wi FC) as T.
    destruct (family_inner f rest u vi [] result T Pi W' R') as (vi' & after & result' & I).
    rewrite I. pose proof (inner_ok rest _ _ _ _ _ _ _ _ T (Forall_nil _) W' I) as [_ IL _ [IW _] IS _].
    cbn [app length plus] in *. apply IH; auto; [lia|].
    rewrite Forall_forall in *. auto.
Qed.

Lemma v4_block n v : 96 <= n <= 128 -> is_v4_value v ->
  v4b (block_first n v) = true /\ v4b (block_last n v) = true.
Proof.
  intros N V. unfold v4b, block_last, block_first, block_size, is_v4_value, v4_base in *.
  set (k := 2 ^ (128 - n)).
  assert (exists m, 2 ^ 32 = m * k /\ 0 < k /\ 0 < m) as (m & E & P & M).
  { exists (2 ^ (n - 96)). split; [unfold k; rewrite <- Z.pow_add_r by lia; f_equal; lia|].
    split; apply Z.pow_pos_nonneg; lia. }
  clearbody k.
  assert (L : 0xFFFF * m <= v / k).
  { apply Z.div_le_lower_bound; auto. rewrite E in V. nia. }
  assert (U : v / k < 0xFFFF * m + m).
  { apply Z.div_lt_upper_bound; auto. rewrite E in V. nia. }
  set (q := v / k) in *. clearbody q. clear V.
  rewrite E. nia.
Qed.
