(* C169: two networks put together into one. *)
From Coq Require Import Lia ZifyBool ZifyNat.
From Verif Require Import Base Addr Spec Range SpecRange.
From Verif Require AddrProofs AddrProofs2 AddrProofs3 RangeProofs RangeProofs2 PropRange PropNetUnion.
Import AddrProofs AddrProofs2 AddrProofs3 RangeProofs RangeProofs2 PropNetUnion.
Local Open Scope Z_scope.

(* The two halves of one network: they agree in all bits of the mask but the
   last one. *)
Definition halves (a : addr) (n : Z) (b : addr) (m : Z) : Prop :=
  n = m /\ 1 <= n /\ value a / 2 ^ (128 - (n - 1)) = value b / 2 ^ (128 - (n - 1))
  /\ value a / 2 ^ (128 - n) <> value b / 2 ^ (128 - n).
(* One network has exactly the addresses of both. *)
Definition one_network (a : addr) (n : Z) (b : addr) (m : Z) : Prop :=
  included a n b m \/ included b m a n \/ halves a n b m.
(* union_if_possible() must set a mask of fewer than 96 ones on an address which
   is an IPv4 address. *)
Definition misfit (a : addr) (n : Z) (b : addr) (m : Z) : Prop :=
  Z.min n m < 96 /\ exists v, is_v4_value v /\ (lowest a n b m v \/ highest a n b m v).
Definition neighbours (a : addr) (n : Z) (b : addr) (m : Z) : Prop := followed a n b m \/ followed b m a n.
(* from_cidr() twice, union_if_possible(), to_cidr(). *)
Definition aggregate (a b c : addr) : addr * res bool :=
  match documented a b with
  | Ok u => to_cidr u c
  | Throw x => (c, Throw x)
  | UB => (c, UB)
  | OutOfFuel => (c, OutOfFuel)
  end.

Lemma pow2_sum i j k : 0 <= i -> 0 <= j -> 0 <= k -> 2 ^ i + 2 ^ j = 2 ^ k -> i = j /\ k = i + 1.
Proof.
  assert (forall i j k, 0 <= i -> i <= j -> 0 <= k -> 2 ^ i + 2 ^ j = 2 ^ k -> i = j /\ k = i + 1) as G.
  { clear. intros i j k I J K E.
    assert (0 < 2 ^ i) by (apply Z.pow_pos_nonneg; lia). assert (2 ^ i <= 2 ^ j) by (apply Z.pow_le_mono_r; lia).
    assert (2 ^ (j + 1) = 2 * 2 ^ j) as S by (rewrite Z.pow_add_r by lia; change (2 ^ 1) with 2; lia).
    assert (2 ^ j < 2 ^ k) as L by lia. apply Z.pow_lt_mono_r_iff in L; [|lia|lia].
    assert (2 ^ k <= 2 ^ (j + 1)) as U by lia. apply Z.pow_le_mono_r_iff in U; [|lia|lia].
    assert (k = j + 1) as -> by lia. assert (2 ^ i = 2 ^ j) as Q by lia. apply Z.pow_inj_r in Q; lia. }
  intros I J K E. destruct (Z_le_gt_dec i j) as [L|L]; [now apply G|].
  destruct (G j i k) as [-> ->]; lia.
Qed.

(* aligned neighbouring blocks whose union is an aligned block *)
Lemma halves_iff a n b m : 0 <= n <= 128 -> 0 <= m <= 128 ->
  (halves a n b m <-> exists k, 0 <= k <= 128
     /\ (block_first n (value a) = block_last m (value b) + 1 \/ block_first m (value b) = block_last n (value a) + 1)
     /\ let f := Z.min (block_first n (value a)) (block_first m (value b)) in
        f = block_first k f /\ Z.max (block_last n (value a)) (block_last m (value b)) = block_last k f).
Proof.
  intros N M. unfold block_last, block_first, block_size, halves. set (x := value a). set (z := value b). clearbody x z.
  split.
  - intros (-> & N1 & E & D). exists (m - 1). split; [lia|].
    replace (2 ^ (128 - (m - 1))) with (2 * 2 ^ (128 - m)) in * by (replace (128 - (m - 1)) with (128 - m + 1) by lia; rewrite Z.pow_add_r by lia; change (2 ^ 1) with 2; lia).
    assert (0 < 2 ^ (128 - m)) as P by (apply Z.pow_pos_nonneg; lia). set (w := 2 ^ (128 - m)) in *. clearbody w.
    rewrite !(Z.mul_comm 2 w), <- !Z.div_div in E by lia. set (q := x / w) in *. set (s := z / w) in *. clearbody q s.
    pose proof (Z.div_mod q 2 ltac:(lia)). pose proof (Z.mod_pos_bound q 2 ltac:(lia)).
    pose proof (Z.div_mod s 2 ltac:(lia)). pose proof (Z.mod_pos_bound s 2 ltac:(lia)).
    assert (q = s + 1 /\ s = 2 * (s / 2) \/ s = q + 1 /\ q = 2 * (q / 2)) as [[-> S]|[-> S]] by lia.
    + split; [left; lia|]. cbv zeta. rewrite Z.min_r, Z.max_l by lia.
      assert (s * w / (2 * w) = s / 2) as -> by (rewrite (Z.mul_comm 2 w), <- Z.div_div by lia; rewrite Z.div_mul by lia; reflexivity).
      split; [rewrite S at 1; lia|]. rewrite S at 1. lia.
    + split; [right; lia|]. cbv zeta. rewrite Z.min_l, Z.max_r by lia.
      assert (q * w / (2 * w) = q / 2) as -> by (rewrite (Z.mul_comm 2 w), <- Z.div_div by lia; rewrite Z.div_mul by lia; reflexivity).
      split; [rewrite S at 1; lia|]. rewrite S at 1. lia.
  - intros (k & K & T & F & L). cbv zeta in F, L.
    assert (0 < 2 ^ (128 - n)) by (apply Z.pow_pos_nonneg; lia). assert (0 < 2 ^ (128 - m)) by (apply Z.pow_pos_nonneg; lia).
    assert (2 ^ (128 - n) + 2 ^ (128 - m) = 2 ^ (128 - k)) as S by (destruct T as [T|T]; [rewrite Z.min_r in * by lia|rewrite Z.min_l in * by lia]; lia).
    apply pow2_sum in S; [|lia|lia|lia]. destruct S as [S1 S2]. assert (m = n) as -> by lia. assert (k = n - 1) as -> by lia.
    split; [reflexivity|]. split; [lia|]. clear S1 S2 L.
    replace (2 ^ (128 - (n - 1))) with (2 ^ (128 - n) * 2) in * by (replace (128 - (n - 1)) with (128 - n + 1) by lia; rewrite Z.pow_add_r by lia; reflexivity).
    set (w := 2 ^ (128 - n)) in *. clearbody w. rewrite <- !Z.div_div by lia. set (q := x / w) in *. set (s := z / w) in *. clearbody q s.
    assert (q = s + 1 \/ s = q + 1) as [->| ->].
    { destruct T as [T|T]; [left|right]; apply (Z.mul_reg_r _ _ w); lia. }
    + rewrite Z.min_r in F by lia. rewrite <- Z.div_div in F by lia. rewrite Z.div_mul in F by lia.
      assert (s = s / 2 * 2) as S by (apply (Z.mul_reg_r _ _ w); lia). split; [|lia].
      rewrite S. rewrite Z.div_add_l by lia. rewrite Z.div_mul by lia. change (1 / 2) with 0. lia.
    + rewrite Z.min_l in F by lia. rewrite <- Z.div_div in F by lia. rewrite Z.div_mul in F by lia.
      assert (q = q / 2 * 2) as S by (apply (Z.mul_reg_r _ _ w); lia). split; [|lia].
      rewrite S. rewrite Z.div_add_l by lia. rewrite Z.div_mul by lia. change (1 / 2) with 0. lia.
Qed.

(* What comes of any two networks. *)
Theorem C169_exactly : forall a n b m c, network a n -> network b m -> addr_wf c ->
  (one_network a n b m -> ~ misfit a n b m -> exists d k, aggregate a b c = (d, Ok true) /\ network d k
     /\ (forall v, in_net d k v <-> in_net a n v \/ in_net b m v) /\ (halves a n b m -> k = n - 1))
  /\ (one_network a n b m \/ neighbours a n b m -> misfit a n b m -> aggregate a b c = (c, Throw E_out_of_range))
  /\ (~ one_network a n b m -> ~ (neighbours a n b m /\ misfit a n b m) -> aggregate a b c = (c, Ok false)).
Proof.
  intros a n b m c A B Wc. pose proof (nw_ones _ _ A) as NA. pose proof (nw_ones _ _ B) as NB.
  destruct (C151_exactly a n b m A B) as (X1 & X2 & X3). cbv zeta in X1, X2, X3.
  destruct (documented_spec a n b m A B) as (ra & rb & E & Wa & Wb & Fa & Fb & La & Ha & Lb & Hb & MF & MT).
  assert (defined ra) as Da by (left; apply Fa). assert (defined rb) as Db by (left; apply Fb).
  assert (halves a n b m -> followed a n b m \/ followed b m a n) as HF.
  { intros H. apply halves_iff in H; [|assumption|assumption]. destruct H as (k & _ & T & _).
    pose proof (block_first_le n (value a) ltac:(lia)). pose proof (block_first_le m (value b) ltac:(lia)).
    destruct T as [T|T]; [right; exists (block_last m (value b))|left; exists (block_last n (value a))]; rewrite !in_net_block by assumption; lia. }
  assert (one_network a n b m \/ neighbours a n b m <-> included a n b m \/ included b m a n \/ followed a n b m \/ followed b m a n) as REL.
  { unfold one_network, neighbours. clear - HF. tauto. }
  assert (forall u, documented a b = Ok u -> is_defined u = true ->
    range_wf u /\ full u /\ lo u = Z.min (lo ra) (lo rb) /\ hi u = Z.max (hi ra) (hi rb)) as SHAPE.
  { intros u EU DU. pose proof (union_spec ra rb Wa Wb Da Db) as S. rewrite E in EU.
    destruct (touching ra rb); [destruct (_ && _)|].
    - destruct S as (u' & E' & Wu & F1 & F2 & L & H & _). rewrite E' in EU. injection EU as <-.
      split; [exact Wu|]. split; [split; [exact F1|apply F2; now left]|]. now split.
    - rewrite EU in S. discriminate.
    - rewrite EU in S. injection S as ->. discriminate DU. }
  assert (forall u, documented a b = Ok u -> is_defined u = true -> one_network a n b m ->
    exists k, 0 <= k <= 128 /\ lo u = block_first k (lo u) /\ hi u = block_last k (lo u)) as BLOCK.
  { intros u EU DU ON. destruct (SHAPE u EU DU) as (Wu & Fu & Lu & Hu). rewrite Lu, Hu, La, Lb, Ha, Hb.
    pose proof (block_first_le n (value a) ltac:(lia)) as P1. pose proof (block_first_le m (value b) ltac:(lia)) as P2.
    assert (forall a n b m, 0 <= n <= 128 -> 0 <= m <= 128 -> included a n b m ->
      block_first m (value b) <= block_first n (value a) /\ block_last n (value a) <= block_last m (value b)) as INC.
    { clear. intros a n b m N M I. pose proof (block_first_le n (value a) ltac:(lia)) as PA.
      pose proof (I (block_first n (value a))) as I1. pose proof (I (block_last n (value a))) as I2. rewrite !in_net_block in I1, I2 by assumption. lia. }
    destruct ON as [I|[I|H]].
    - apply INC in I; [|assumption|assumption]. exists m. rewrite Z.min_r, Z.max_r by lia. rewrite block_first_first, block_last_first by lia. now split.
    - apply INC in I; [|assumption|assumption]. exists n. rewrite Z.min_l, Z.max_l by lia. rewrite block_first_first, block_last_first by lia. now split.
    - apply halves_iff in H; [|assumption|assumption]. destruct H as (k & K & _ & H). exists k. now split. }
  unfold aggregate. split; [|split].
  - intros ON NM. destruct X3 as (u & EU & DU & _); [apply REL; now left|exact NM|]. rewrite EU.
    destruct (BLOCK u EU DU ON) as (k & K & B1 & B2). destruct (SHAPE u EU DU) as (Wu & Fu & Lu & Hu).
    pose proof (block_first_le n (value a) ltac:(lia)) as P1. pose proof (block_first_le m (value b) ltac:(lia)) as P2.
    destruct (to_cidr_spec u c Wu Wc) as [(k' & d & _ & _ & K' & C1 & C2 & EC & Wd & Vd & Md & _)|[[C|[C|C]] _]].
    + exists d, k'. split; [exact EC|]. split; [constructor; assumption|].
      assert (forall v, in_net d k' v <-> in_net a n v \/ in_net b m v) as EL.
      { intros v. rewrite !in_net_block by assumption. rewrite Vd, <- C1, <- C2, Lu, Hu, La, Ha, Lb, Hb.
        destruct ON as [I|[I|H]].
        - pose proof (I (block_first n (value a))) as I1. pose proof (I (block_last n (value a))) as I2. rewrite !in_net_block in I1, I2 by assumption. lia.
        - pose proof (I (block_first m (value b))) as I1. pose proof (I (block_last m (value b))) as I2. rewrite !in_net_block in I1, I2 by assumption. lia.
        - apply halves_iff in H; [|assumption|assumption]. destruct H as (_ & _ & T & _). lia. }
      split; [exact EL|]. intros H. pose proof H as (<- & N1 & _).
      assert (n <= 128) by lia. apply halves_iff in H; [|assumption|assumption]. destruct H as (_ & _ & T & _).
      assert (2 ^ (128 - n) + 2 ^ (128 - n) = 2 ^ (128 - k')) as S.
      { rewrite Lu, Hu, La, Ha, Lb, Hb in *. unfold block_last at 3 in C2. rewrite <- C1 in C2. unfold block_last, block_size in *. lia. }
      apply pow2_sum in S; lia.
    + now elim C.
    + unfold block_last in *. rewrite Lu, Hu, La, Ha, Lb, Hb in C. pose proof (block_pos n ltac:(lia)). pose proof (block_pos m ltac:(lia)). lia.
    + now elim (C k K).
  - intros R MS. rewrite X2; [reflexivity|now apply REL|exact MS].
  - intros NO NM.
    assert (exists u, documented a b = Ok u) as [u EU].
    { assert ({t | t = true <-> (included a n b m \/ included b m a n \/ followed a n b m \/ followed b m a n)}) as [t T].
      { exists (((block_first n (value a) <=? block_last m (value b)) && (block_first m (value b) <=? block_last n (value a)))
          || (block_first n (value a) =? block_last m (value b) + 1) || (block_first m (value b) =? block_last n (value a) + 1)).
        rewrite related_iff by assumption. lia. }
      destruct t.
      - destruct X3 as (u & EU & _); [now apply T| |now exists u]. intros MS. apply NM. split; [|exact MS].
        destruct (proj2 REL (proj1 T eq_refl)) as [O|O]; [now elim NO|exact O].
      - destruct X1 as (u & EU & _); [intros Y; apply T in Y; discriminate|now exists u]. }
    rewrite EU. destruct (is_defined u) eqn:DU.
    + destruct (SHAPE u EU DU) as (Wu & Fu & Lu & Hu).
      destruct (to_cidr_spec u c Wu Wc) as [(k & d & _ & _ & K & C1 & C2 & _)|[_ EC]]; [exfalso|exact EC].
      apply NO. rewrite Lu, La, Lb in C1. rewrite Lu, Hu, La, Ha, Lb, Hb in C2.
      assert (included a n b m \/ included b m a n \/ followed a n b m \/ followed b m a n) as R.
      { pose proof (union_spec ra rb Wa Wb Da Db) as S. apply related_iff; [assumption|assumption|]. rewrite E in EU.
        destruct (touching ra rb) eqn:T; [unfold touching in T; rewrite La, Ha, Lb, Hb in T; lia|].
        rewrite EU in S. injection S as ->. discriminate DU. }
      unfold one_network. destruct R as [R|[R|R]]; [auto|auto|]. right. right. apply halves_iff; [assumption|assumption|]. exists k. split; [exact K|].
      split; [|now split]. clear - R NA NB. destruct R as [(v & P & Q & R & S)|(v & P & Q & R & S)];
        pose proof (block_first_le n (value a) ltac:(lia)); pose proof (block_first_le m (value b) ltac:(lia));
        rewrite !in_net_block in P, Q, R, S by assumption; lia.
    + unfold to_cidr. assert (is_range u = false) as ->; [|reflexivity].
      unfold is_defined in DU. unfold is_range. now destruct (f_has_from u), (f_has_to u).
Qed.
Print Assumptions C169_exactly.

(* The halves of a network with 96 ones or more, of IPv4 addresses say, always
   give the network. *)
Theorem C169_halves : forall a b n c, network a n -> network b n -> halves a n b n -> addr_wf c -> 96 <= n ->
  exists d, aggregate a b c = (d, Ok true) /\ network d (n - 1)
    /\ forall x, addr_wf x -> match_ d x false = match_ a x false || match_ b x false.
Proof.
  intros a b n c A B H W N. destruct (C169_exactly a n b n c A B W) as (X & _).
  destruct X as (d & k & E & D & EL & K); [right; now right| |].
  - intros [M _]. lia.
  - specialize (K H) as ->. exists d. split; [exact E|]. split; [exact D|]. intros x Wx.
    assert (forall a n, network a n -> match_ a x false = true <-> in_net a n (value x)) as MB.
    { clear - Wx. intros a n [Wa N M]. rewrite (match_block a x n Wa Wx N M), in_net_block by assumption. lia. }
    pose proof (MB _ _ A). pose proof (MB _ _ B). pose proof (MB _ _ D). pose proof (EL (value x)).
    destruct (match_ d x false), (match_ a x false), (match_ b x false); cbn; try reflexivity; exfalso; intuition discriminate.
Qed.
Print Assumptions C169_halves.

(* ::/81 and ::8000:0:0/81 are the halves of ::/80: an exception. *)
Theorem C169_exception : exists a b n c, network a n /\ network b n /\ halves a n b n /\ addr_wf c
  /\ aggregate a b c = (c, Throw E_out_of_range).
Proof.
  exists (PropRange.net 0 81), (PropRange.net (2 ^ 47) 81), 81, addr_new.
  assert (network (PropRange.net 0 81) 81) as A by (constructor; [PropRange.wfa|lia|vm_compute; reflexivity]).
  assert (network (PropRange.net (2 ^ 47) 81) 81) as B by (constructor; [PropRange.wfa|lia|vm_compute; reflexivity]).
  assert (halves (PropRange.net 0 81) 81 (PropRange.net (2 ^ 47) 81) 81) as H.
  { split; [reflexivity|]. split; [lia|]. split; [vm_compute; reflexivity|vm_compute; discriminate]. }
  split; [exact A|]. split; [exact B|]. split; [exact H|]. split; [exact new_wf|].
  apply (C169_exactly _ 81 _ 81 addr_new A B new_wf); [left; right; now right|]. split; [lia|]. exists (2 ^ 48 - 1). split; [unfold is_v4_value, v4_base; lia|].
  right. replace (2 ^ 48 - 1) with (Z.max (block_last 81 (value (PropRange.net 0 81))) (block_last 81 (value (PropRange.net (2 ^ 47) 81)))) by (vm_compute; reflexivity).
  apply highest_is; lia.
Qed.
Print Assumptions C169_exception.

(* usable cases: 10.0.0.0/25 and 10.0.0.128/25; neighbours of different sizes *)
Example C169_witness : network (PropRange.net4 10 0 0 7 25) 121 /\ network (PropRange.net4 10 0 0 128 25) 121
  /\ halves (PropRange.net4 10 0 0 7 25) 121 (PropRange.net4 10 0 0 128 25) 121 /\ 96 <= 121
  /\ (exists d, aggregate (PropRange.net4 10 0 0 7 25) (PropRange.net4 10 0 0 128 25) addr_new = (d, Ok true)
      /\ value d = v4_base + 10 * 2 ^ 24 /\ get_mask_size d = 120)
  /\ snd (aggregate (PropRange.net4 10 0 0 128 25) (PropRange.net4 10 0 1 0 25) addr_new) = Ok false
  /\ snd (aggregate (PropRange.net4 10 0 0 0 25) (PropRange.net4 10 0 0 128 26) addr_new) = Ok false.
Proof.
  split; [constructor; [PropRange.wfa|lia|vm_compute; reflexivity]|].
  split; [constructor; [PropRange.wfa|lia|vm_compute; reflexivity]|].
  split; [split; [reflexivity|]; split; [lia|]; split; [vm_compute; reflexivity|vm_compute; discriminate]|]. split; [lia|].
  split; [eexists; split; [vm_compute; reflexivity|split; vm_compute; reflexivity]|]. split; vm_compute; reflexivity.
Qed.
