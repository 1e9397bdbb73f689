(* Property C151: the test of two networks which the documentation of
   union_if_possible() suggests (addr_range.cpp:704-721). *)
From Coq Require Import Lia ZifyBool ZifyNat.
From Verif Require Import Base Addr Spec Range SpecRange.
From Verif Require AddrProofs AddrProofs2 AddrProofs3 RangeProofs RangeProofs2 PropRange.
Import AddrProofs AddrProofs2 AddrProofs3 RangeProofs RangeProofs2.
Local Open Scope Z_scope.

(* ---------- specification ---------- *)
(* The address a has a mask of n ones; the network has the numbers which agree
   with a in the first n bits. *)
Record network (a : addr) (n : Z) : Prop := mk_network {
  nw_wf : addr_wf a;
  nw_ones : 0 <= n <= 128;
  nw_mask : mask_value a = prefix_mask n
}.
Definition in_net (a : addr) (n v : Z) : Prop := v / 2 ^ (128 - n) = value a / 2 ^ (128 - n).
Definition included (a : addr) (n : Z) (b : addr) (m : Z) : Prop := forall v, in_net a n v -> in_net b m v.
(* The first address of b's network follows the last one of a's. *)
Definition followed (a : addr) (n : Z) (b : addr) (m : Z) : Prop :=
  exists v, in_net a n v /\ in_net b m (v + 1) /\ ~ in_net a n (v + 1) /\ ~ in_net b m v.
Definition lowest (a : addr) (n : Z) (b : addr) (m v : Z) : Prop :=
  (in_net a n v \/ in_net b m v) /\ forall w, in_net a n w \/ in_net b m w -> v <= w.
Definition highest (a : addr) (n : Z) (b : addr) (m v : Z) : Prop :=
  (in_net a n v \/ in_net b m v) /\ forall w, in_net a n w \/ in_net b m w -> w <= v.
(* The code of the documentation. *)
Definition documented (a b : addr) : res addr_range :=
  let '(ra, o1) := from_cidr range_new a in
  let! _ := o1 in
  let '(rb, o2) := from_cidr range_new b in
  let! _ := o2 in
  union_if_possible ra rb.

(* ---------- proofs ---------- *)
Lemma in_net_block a n v : 0 <= n <= 128 -> (in_net a n v <-> block_first n (value a) <= v <= block_last n (value a)).
Proof.
  intros N. unfold in_net, block_last, block_first, block_size. set (P := 2 ^ (128 - n)).
  assert (0 < P) by (apply Z.pow_pos_nonneg; lia). clearbody P.
  pose proof (Z.div_mod v P ltac:(lia)). pose proof (Z.mod_pos_bound v P ltac:(lia)). split; [intros <-|]; nia.
Qed.
Lemma pow_split n m : n <= m <= 128 -> exists k, 0 < k /\ block_size n = k * block_size m.
Proof.
  intros N. exists (2 ^ (m - n)). split; [apply Z.pow_pos_nonneg; lia|]. unfold block_size. rewrite <- Z.pow_add_r by lia.
  f_equal. lia.
Qed.
(* Two networks are nested or apart. *)
Lemma laminar n m x y : 0 <= n -> n <= m <= 128 ->
  block_first n x <= block_last m y -> block_first m y <= block_last n x ->
  block_first n x <= block_first m y /\ block_last m y <= block_last n x.
Proof.
  intros N M A B. destruct (pow_split n m M) as (k & K & E). unfold block_last, block_first in *. rewrite E in *.
  assert (0 < block_size m) as P by (apply block_pos; lia). set (b := block_size m) in *. clearbody b.
  set (q := x / (k * b)) in *. set (r := y / b) in *. clearbody q r. clear E.
  assert (q * k < r + 1) as X1 by (apply (Z.mul_lt_mono_pos_r b); [exact P|]; lia).
  assert (r < q * k + k) as X2 by (apply (Z.mul_lt_mono_pos_r b); [exact P|]; lia).
  assert (q * k * b <= r * b) by (apply Z.mul_le_mono_nonneg_r; lia).
  assert ((r + 1) * b <= (q * k + k) * b) by (apply Z.mul_le_mono_nonneg_r; lia). lia.
Qed.

Lemma documented_spec a n b m : network a n -> network b m ->
  exists ra rb, documented a b = union_if_possible ra rb /\ range_wf ra /\ range_wf rb /\ full ra /\ full rb
  /\ lo ra = block_first n (value a) /\ hi ra = block_last n (value a)
  /\ lo rb = block_first m (value b) /\ hi rb = block_last m (value b)
  /\ union_from_mask ra rb = Z.min n m /\ union_to_mask ra rb = Z.min n m.
Proof.
  assert (forall a n, network a n -> exists u, from_cidr range_new a = (u, Ok tt) /\ range_wf u /\ full u
    /\ lo u = block_first n (value a) /\ hi u = block_last n (value a)
    /\ get_mask_size (f_from u) = n /\ get_mask_size (f_to u) = n) as G.
  { intros c k [W O M]. pose proof (from_cidr_spec range_new c W) as S.
    assert (get_mask_size c = k) as SZ by (apply get_mask_size_iff; auto; lia). rewrite SZ in S.
    destruct (k =? -1) eqn:E; [lia|]. destruct S as (k' & u & _ & _ & <- & _ & S). exists u. tauto. }
  intros A B. destruct (G a n A) as (ra & EA & WA & FA & LA & HA & SA & TA). destruct (G b m B) as (rb & EB & WB & FB & LB & HB & SB & TB).
  exists ra, rb. split; [unfold documented; now rewrite EA, EB|].
  unfold union_from_mask, union_to_mask. rewrite SA, SB, TA, TB. tauto.
Qed.

Lemma lowest_is a n b m : 0 <= n <= 128 -> 0 <= m <= 128 ->
  lowest a n b m (Z.min (block_first n (value a)) (block_first m (value b))).
Proof.
  intros N M. pose proof (block_first_le n (value a) ltac:(lia)). pose proof (block_first_le m (value b) ltac:(lia)).
  split.
  - rewrite !in_net_block by assumption. lia.
  - intros w. rewrite !in_net_block by assumption. lia.
Qed.
Lemma highest_is a n b m : 0 <= n <= 128 -> 0 <= m <= 128 ->
  highest a n b m (Z.max (block_last n (value a)) (block_last m (value b))).
Proof.
  intros N M. pose proof (block_first_le n (value a) ltac:(lia)). pose proof (block_first_le m (value b) ltac:(lia)).
  split.
  - rewrite !in_net_block by assumption. lia.
  - intros w. rewrite !in_net_block by assumption. lia.
Qed.
Lemma related_iff a n b m : 0 <= n <= 128 -> 0 <= m <= 128 ->
  (included a n b m \/ included b m a n \/ followed a n b m \/ followed b m a n <->
   (block_first n (value a) <= block_last m (value b) /\ block_first m (value b) <= block_last n (value a))
   \/ block_first n (value a) = block_last m (value b) + 1 \/ block_first m (value b) = block_last n (value a) + 1).
Proof.
  intros N M. pose proof (block_first_le n (value a) ltac:(lia)) as PA. pose proof (block_first_le m (value b) ltac:(lia)) as PB.
  assert (forall a n b m, 0 <= n <= 128 -> 0 <= m <= 128 -> included a n b m ->
    block_first n (value a) <= block_last m (value b) /\ block_first m (value b) <= block_last n (value a)) as INC.
  { clear. intros a n b m N M I. pose proof (block_first_le n (value a) ltac:(lia)) as PA.
    specialize (I (value a)). rewrite !in_net_block in I by assumption. lia. }
  assert (forall a n b m, 0 <= n <= 128 -> 0 <= m <= 128 -> followed a n b m -> block_first m (value b) = block_last n (value a) + 1) as FOL.
  { clear. intros a n b m N M (v & A & B & C & D). pose proof (block_first_le n (value a) ltac:(lia)).
    pose proof (block_first_le m (value b) ltac:(lia)).
    rewrite !in_net_block in A, B, C, D by assumption. lia. }
  split.
  - intros [I|[I|[F|F]]].
    + left. now apply INC.
    + left. destruct (INC b m a n M N I). tauto.
    + right. right. now apply FOL.
    + right. left. now apply FOL.
  - intros [[A B]|[A|A]].
    + destruct (Z_le_gt_dec n m) as [L|L].
      * right. left. destruct (laminar n m (value a) (value b)) as [X Y]; [lia|lia|exact A|exact B|].
        intros v. rewrite !in_net_block by assumption. lia.
      * left. destruct (laminar m n (value b) (value a)) as [X Y]; [lia|lia|exact B|exact A|].
        intros v. rewrite !in_net_block by assumption. lia.
    + right. right. right. exists (block_last m (value b)). rewrite !in_net_block by assumption. lia.
    + right. right. left. exists (block_last n (value a)). rewrite !in_net_block by assumption. lia.
Qed.

(* What the documented test tells of any two networks. *)
Theorem C151_exactly : forall a n b m, network a n -> network b m ->
  let related := included a n b m \/ included b m a n \/ followed a n b m \/ followed b m a n in
  let misfit := Z.min n m < 96 /\ exists v, is_v4_value v /\ (lowest a n b m v \/ highest a n b m v) in
  (~ related -> exists u, documented a b = Ok u /\ is_defined u = false)
  /\ (related -> misfit -> documented a b = Throw E_out_of_range)
  /\ (related -> ~ misfit -> exists u, documented a b = Ok u /\ is_defined u = true
      /\ forall v, element u v <-> in_net a n v \/ in_net b m v).
Proof.
  intros a n b m A B related misfit. pose proof (nw_ones _ _ A) as NA. pose proof (nw_ones _ _ B) as NB.
  destruct (documented_spec a n b m A B) as (ra & rb & E & Wa & Wb & Fa & Fb & La & Ha & Lb & Hb & MF & MT).
  rewrite E. assert (defined ra) as Da by (left; apply Fa). assert (defined rb) as Db by (left; apply Fb).
  pose proof (union_spec ra rb Wa Wb Da Db) as S. rewrite MF, MT in S.
  assert (touching ra rb = true <-> related) as T.
  { unfold related. rewrite (related_iff a n b m NA NB). unfold touching. rewrite La, Ha, Lb, Hb. lia. }
  assert (misfit <-> fitsb (Z.min n m) (Z.min (lo ra) (lo rb)) && fitsb (Z.min n m) (Z.max (hi ra) (hi rb)) = false) as MI.
  { pose proof (lowest_is a n b m NA NB) as LO. pose proof (highest_is a n b m NA NB) as HI.
    assert (forall v, lowest a n b m v -> v = Z.min (lo ra) (lo rb)) as LU.
    { intros v [V1 V2]. rewrite La, Lb. destruct LO as [L1 L2]. apply Z.le_antisymm; [now apply V2|now apply L2]. }
    assert (forall v, highest a n b m v -> v = Z.max (hi ra) (hi rb)) as HU.
    { intros v [V1 V2]. rewrite Ha, Hb. destruct HI as [L1 L2]. apply Z.le_antisymm; [now apply L2|now apply V2]. }
    rewrite <- La, <- Lb in LO. rewrite <- Ha, <- Hb in HI. unfold misfit, fitsb, is_v4_value.
    set (x := Z.min (lo ra) (lo rb)) in *. set (z := Z.max (hi ra) (hi rb)) in *. set (k := Z.min n m).
    assert (k <= 128) by (subst k; lia). assert (0 <= k) by (subst k; lia). clearbody x z k. change v4_base with 281470681743360. change (281470681743360 + 2 ^ 32) with 281474976710656.
    assert (forall w, ((if (281470681743360 <=? w) && (w <? 281474976710656) then 96 else 0) <=? k) && (k <=? 128) = false ->
      (k < 96 /\ 281470681743360 <= w < 281474976710656) \/ k < 0) as FB by (intros w; destruct ((_ <=? w) && _) eqn:?; lia).
    assert (forall w, k < 96 -> 281470681743360 <= w < 281474976710656 ->
      ((if (281470681743360 <=? w) && (w <? 281474976710656) then 96 else 0) <=? k) && (k <=? 128) = false) as FC
      by (intros w ? ?; destruct ((_ <=? w) && _) eqn:?; lia).
    clear - LO HI LU HU H H0 FB FC. split.
    - intros (K & v & V & [X|X]); [apply LU in X|apply HU in X]; subst v;
        [rewrite (FC x) by assumption; reflexivity|rewrite (FC z) by assumption; apply andb_false_r].
    - intros X. apply andb_false_iff in X. destruct X as [X|X]; apply FB in X; (split; [lia|]).
      + exists x. split; [lia|now left].
      + exists z. split; [lia|now right]. }
  destruct (touching ra rb) eqn:TE.
  - assert related as R by now apply T. split; [intros X; now elim X|].
    destruct (_ && _) eqn:FI.
    + split; [intros _ X; apply MI in X; discriminate|]. intros _ _. destruct S as (u & EU & Wu & HF & _ & LU & HU & _).
      exists u. split; [exact EU|]. assert (defined u) as Du by now left. split; [now apply is_defined_spec|].
      destruct (PropRange.C29_union_elements ra rb u Wa Wb Da Db EU Du) as [_ X]. intros v. rewrite X.
      unfold element. rewrite La, Ha, Lb, Hb. rewrite !in_net_block by assumption. tauto.
    + split; [intros _ _; exact S|]. intros _ X. elim X. now apply MI.
  - split; [intros _; exists range_new; split; [exact S|reflexivity]|].
    split; intros X; apply T in X; discriminate.
Qed.
Print Assumptions C151_exactly.

(* As documented, for networks of one family which are not next to each other.
   Missing: neighbours, and networks with fewer than 96 ones. *)
Theorem C151_documented_partial : forall a n b m, network a n -> network b m ->
  ~ followed a n b m -> ~ followed b m a n ->
  96 <= n /\ 96 <= m ->
  exists u, documented a b = Ok u /\ (is_defined u = true <-> included a n b m \/ included b m a n).
Proof.
  intros a n b m A B F1 F2 N. destruct (C151_exactly a n b m A B) as (X & _ & Y). cbv zeta in X, Y.
  pose proof (nw_ones _ _ A) as NA. pose proof (nw_ones _ _ B) as NB.
  assert ({touching_dec | (touching_dec = true <-> (included a n b m \/ included b m a n \/ followed a n b m \/ followed b m a n))}) as [d D].
  { exists (((block_first n (value a) <=? block_last m (value b)) && (block_first m (value b) <=? block_last n (value a)))
      || (block_first n (value a) =? block_last m (value b) + 1) || (block_first m (value b) =? block_last n (value a) + 1)).
    rewrite related_iff by assumption. lia. }
  destruct d.
  - destruct (Y (proj1 D eq_refl)) as (u & E & U & _); [intros [K _]; lia|]. exists u. split; [exact E|].
    split; [intros _|tauto]. destruct (proj1 D eq_refl) as [I|[I|[I|I]]]; tauto.
  - destruct X as (u & E & U); [intros R; apply D in R; discriminate|]. exists u. split; [exact E|]. rewrite U.
    split; [discriminate|]. intros I. exfalso. assert (false = true) by (apply D; tauto). discriminate.
Qed.
Print Assumptions C151_documented_partial.

(* 10.0.0.0/25 and 10.0.0.128/25: told to be included, and they are not. *)
Theorem C151_neighbours_refuted : exists a b n m u, network a n /\ network b m /\ documented a b = Ok u
  /\ is_defined u = true /\ ~ included a n b m /\ ~ included b m a n.
Proof.
  exists (PropRange.net4 10 0 0 0 25), (PropRange.net4 10 0 0 128 25), 121, 121.
  destruct (C151_exactly (PropRange.net4 10 0 0 0 25) 121 (PropRange.net4 10 0 0 128 25) 121) as (_ & _ & Y).
  1, 2: constructor; [PropRange.wfa|lia|vm_compute; reflexivity].
  destruct Y as (u & E & U & _).
  - right. right. left. exists (value (PropRange.net4 10 0 0 127 25)). unfold in_net. vm_compute. repeat split; discriminate.
  - intros [K _]. lia.
  - exists u. split; [constructor; [PropRange.wfa|lia|vm_compute; reflexivity]|].
    split; [constructor; [PropRange.wfa|lia|vm_compute; reflexivity]|]. split; [exact E|]. split; [exact U|].
    split; intros I.
    + specialize (I (value (PropRange.net4 10 0 0 0 25)) eq_refl). vm_compute in I. discriminate.
    + specialize (I (value (PropRange.net4 10 0 0 128 25)) eq_refl). vm_compute in I. discriminate.
Qed.
Print Assumptions C151_neighbours_refuted.

(* ::/80 has ::1, and the test throws: its last address is
   ::ffff:255.255.255.255. *)
Theorem C151_exception_refuted : exists a b n m, network a n /\ network b m /\ included b m a n
  /\ documented a b = Throw E_out_of_range.
Proof.
  exists (PropRange.net 0 80), (PropRange.net 1 128), 80, 128.
  assert (network (PropRange.net 0 80) 80) as A by (constructor; [PropRange.wfa|lia|vm_compute; reflexivity]).
  assert (network (PropRange.net 1 128) 128) as B by (constructor; [PropRange.wfa|lia|vm_compute; reflexivity]).
  assert (included (PropRange.net 1 128) 128 (PropRange.net 0 80) 80) as I.
  { intros v V. unfold in_net in *. change (value (PropRange.net 1 128)) with 1 in V. change (value (PropRange.net 0 80)) with 0.
    change (2 ^ (128 - 128)) with 1 in V. rewrite !Z.div_1_r in V. subst v. reflexivity. }
  split; [exact A|]. split; [exact B|]. split; [exact I|].
  apply (C151_exactly _ _ _ _ A B); [right; now left|]. split; [lia|]. exists (2 ^ 48 - 1). split; [unfold is_v4_value, v4_base; lia|].
  right. replace (2 ^ 48 - 1) with (Z.max (block_last 80 (value (PropRange.net 0 80))) (block_last 128 (value (PropRange.net 1 128)))) by (vm_compute; reflexivity).
  apply highest_is; lia.
Qed.
Print Assumptions C151_exception_refuted.

Example C151_witness : network (PropRange.net4 10 1 2 3 24) 120 /\ network (PropRange.net4 10 0 0 0 8) 104
  /\ included (PropRange.net4 10 1 2 3 24) 120 (PropRange.net4 10 0 0 0 8) 104
  /\ ~ followed (PropRange.net4 10 1 2 3 24) 120 (PropRange.net4 10 0 0 0 8) 104
  /\ ~ followed (PropRange.net4 10 0 0 0 8) 104 (PropRange.net4 10 1 2 3 24) 120.
Proof.
  assert (included (PropRange.net4 10 1 2 3 24) 120 (PropRange.net4 10 0 0 0 8) 104) as I.
  { intros v. rewrite !in_net_block by lia. 
    set (x := block_first 120 _). vm_compute in x. set (y := block_last 120 _). vm_compute in y.
    set (z := block_first 104 _). vm_compute in z. set (t := block_last 104 _). vm_compute in t. subst x y z t. lia. }
  split; [constructor; [PropRange.wfa|lia|vm_compute; reflexivity]|].
  split; [constructor; [PropRange.wfa|lia|vm_compute; reflexivity]|]. split; [exact I|].
  split; intros (v & A & B & C & D); [apply D; now apply I|apply C; now apply I].
Qed.
