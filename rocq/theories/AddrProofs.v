From Verif Require Import Base Addr Spec.
From Coq Require Import ZifyBool ZifyNat.
Local Open Scope Z_scope.
Ltac Zify.zify_post_hook ::= Z.div_mod_to_equations.

(* ---------- numbers and bytes ---------- *)

Lemma pow256_pos n : 0 < 256 ^ Z.of_nat n.
Proof. apply Z.pow_pos_nonneg; lia. Qed.

Lemma pow256_S n : 256 ^ Z.of_nat (S n) = 256 * 256 ^ Z.of_nat n.
Proof. rewrite Nat2Z.inj_succ, Z.pow_succ_r; lia. Qed.

Lemma num_range l : Forall is_byte l -> 0 <= num l < 256 ^ Z.of_nat (length l).
Proof.
  induction 1 as [|b r Hb Hr IH]; cbn [num length].
  - cbn; lia.
  - rewrite pow256_S. pose proof (pow256_pos (length r)). unfold is_byte in Hb. nia.
Qed.

Lemma num_app l1 l2 :
  num (l1 ++ l2) = num l1 * 256 ^ Z.of_nat (length l2) + num l2.
Proof.
  induction l1 as [|b r IH]; cbn [num app]; [lia|].
  rewrite IH, app_length, Nat2Z.inj_add, Z.pow_add_r by lia. ring.
Qed.

Lemma num_inj l1 l2 :
  Forall is_byte l1 -> Forall is_byte l2 -> length l1 = length l2 ->
  num l1 = num l2 -> l1 = l2.
Proof.
  intros H1; revert l2; induction H1 as [|b r Hb Hr IH];
    intros [|c s] H2 Hl E; cbn [length] in Hl; try discriminate; auto.
  inversion H2 as [|? ? Hc Hs]; subst.
  injection Hl as Hl. cbn [num] in E. rewrite Hl in E. unfold is_byte in *.
  pose proof (num_range _ Hr) as R1. pose proof (num_range _ Hs) as R2.
  rewrite Hl in R1. pose proof (pow256_pos (length s)).
  assert (b = c) by nia. subst. f_equal. apply IH; auto. lia.
Qed.

Lemma range128 l : bytes16 l -> 0 <= num l < 2 ^ 128.
Proof.
  intros [Hl Hb]. pose proof (num_range _ Hb) as R. rewrite Hl in R.
  change (256 ^ Z.of_nat 16) with (2 ^ 128) in R. exact R.
Qed.

Lemma value_range a : addr_wf a -> 0 <= value a < 2 ^ 128.
Proof. intros W. apply range128, (wf_ip _ W). Qed.

Lemma mask_value_range a : addr_wf a -> 0 <= mask_value a < 2 ^ 128.
Proof. intros W. apply range128, (wf_mask _ W). Qed.

(* memcmp is the numeric order *)
Lemma memcmp_num l1 l2 :
  Forall is_byte l1 -> Forall is_byte l2 -> length l1 = length l2 ->
  (memcmp l1 l2 = 0 /\ num l1 = num l2)
  \/ (memcmp l1 l2 = -1 /\ num l1 < num l2)
  \/ (memcmp l1 l2 = 1 /\ num l1 > num l2).
Proof.
  intros H1; revert l2; induction H1 as [|b r Hb Hr IH];
    intros [|c s] H2 Hl; cbn [length] in Hl; try discriminate; cbn [memcmp num]; auto.
  inversion H2 as [|? ? Hc H3]; subst.
  injection Hl as Hl. rewrite Hl.
  pose proof (num_range _ Hr) as R1. pose proof (num_range _ H3) as R2.
  rewrite Hl in R1. pose proof (pow256_pos (length s)).
  destruct (b <? c) eqn:E1; [right; left; split; auto; nia|].
  destruct (c <? b) eqn:E2; [right; right; split; auto; nia|].
  assert (b = c) by lia. subst.
  destruct (IH s H3 Hl) as [[-> ->]|[[-> ?]|[-> ?]]]; [left|right;left|right;right]; split; auto; lia.
Qed.

Lemma cmp_value a b : addr_wf a -> addr_wf b ->
  (memcmp (s6 a) (s6 b) = 0 /\ value a = value b)
  \/ (memcmp (s6 a) (s6 b) = -1 /\ value a < value b)
  \/ (memcmp (s6 a) (s6 b) = 1 /\ value a > value b).
Proof.
  intros [? ? ? [L1 B1] ? ? ?] [? ? ? [L2 B2] ? ? ?].
  apply memcmp_num; auto. congruence.
Qed.

Lemma eq_value a b : addr_wf a -> addr_wf b -> eq_ a b = (value a =? value b).
Proof. intros Wa Wb. unfold eq_. destruct (cmp_value a b Wa Wb) as [[-> ?]|[[-> ?]|[-> ?]]]; lia. Qed.
Lemma ne_value a b : addr_wf a -> addr_wf b -> ne_ a b = negb (value a =? value b).
Proof. intros Wa Wb. unfold ne_. destruct (cmp_value a b Wa Wb) as [[-> ?]|[[-> ?]|[-> ?]]]; lia. Qed.
Lemma lt_value a b : addr_wf a -> addr_wf b -> lt_ a b = (value a <? value b).
Proof. intros Wa Wb. unfold lt_. destruct (cmp_value a b Wa Wb) as [[-> ?]|[[-> ?]|[-> ?]]]; lia. Qed.
Lemma le_value a b : addr_wf a -> addr_wf b -> le_ a b = (value a <=? value b).
Proof. intros Wa Wb. unfold le_. destruct (cmp_value a b Wa Wb) as [[-> ?]|[[-> ?]|[-> ?]]]; lia. Qed.
Lemma gt_value a b : addr_wf a -> addr_wf b -> gt_ a b = (value a >? value b).
Proof. intros Wa Wb. unfold gt_. destruct (cmp_value a b Wa Wb) as [[-> ?]|[[-> ?]|[-> ?]]]; lia. Qed.
Lemma ge_value a b : addr_wf a -> addr_wf b -> ge_ a b = (value a >=? value b).
Proof. intros Wa Wb. unfold ge_. destruct (cmp_value a b Wa Wb) as [[-> ?]|[[-> ?]|[-> ?]]]; lia. Qed.

Lemma value_inj a b : addr_wf a -> addr_wf b -> value a = value b -> s6 a = s6 b.
Proof.
  intros [? ? ? [L1 B1] ? ? ?] [? ? ? [L2 B2] ? ? ?] E.
  apply num_inj; auto. congruence.
Qed.

(* ---------- bit splitting ---------- *)

Lemma split_testbit k hi lo n : 0 <= k -> 0 <= lo < 2 ^ k -> 0 <= n ->
  Z.testbit (hi * 2 ^ k + lo) n =
  if n <? k then Z.testbit lo n else Z.testbit hi (n - k).
Proof.
  intros Hk Hlo Hn. destruct (n <? k) eqn:E.
  - rewrite <- (Z.mod_pow2_bits_low _ k) by lia.
    rewrite Z.add_comm, Z.mod_add by lia. rewrite Z.mod_small by lia. reflexivity.
  - replace n with ((n - k) + k) at 1 by lia. rewrite <- (Z.div_pow2_bits _ k) by lia.
    rewrite Z.div_add_l by lia. rewrite Z.div_small by lia. now rewrite Z.add_0_r.
Qed.

Lemma land_bound k x y : 0 <= k -> 0 <= x < 2 ^ k -> 0 <= Z.land x y < 2 ^ k.
Proof.
  intros Hk Hx.
  assert (E : Z.land x y mod 2 ^ k = Z.land x y).
  { rewrite <- Z.land_ones, (Z.land_comm x), <- Z.land_assoc by lia.
    rewrite Z.land_ones, Z.mod_small by lia. reflexivity. }
  rewrite <- E. apply Z.mod_pos_bound. lia.
Qed.

Lemma lor_bound k x y : 0 <= k -> 0 <= x < 2 ^ k -> 0 <= y < 2 ^ k -> 0 <= Z.lor x y < 2 ^ k.
Proof.
  intros Hk Hx Hy.
  assert (E : Z.lor x y mod 2 ^ k = Z.lor x y).
  { rewrite <- Z.land_ones, Z.land_lor_distr_l by lia.
    rewrite !Z.land_ones, !Z.mod_small by lia. reflexivity. }
  rewrite <- E. apply Z.mod_pos_bound. lia.
Qed.

Lemma land_split k a b x y : 0 <= k -> 0 <= x < 2 ^ k -> 0 <= y < 2 ^ k ->
  Z.land (a * 2 ^ k + x) (b * 2 ^ k + y) = Z.land a b * 2 ^ k + Z.land x y.
Proof.
  intros Hk Hx Hy.
  pose proof (land_bound k x y Hk Hx).
  apply Z.bits_inj'; intros n Hn.
  rewrite Z.land_spec, !split_testbit by lia.
  destruct (n <? k); now rewrite Z.land_spec.
Qed.

Lemma lor_split k a b x y : 0 <= k -> 0 <= x < 2 ^ k -> 0 <= y < 2 ^ k ->
  Z.lor (a * 2 ^ k + x) (b * 2 ^ k + y) = Z.lor a b * 2 ^ k + Z.lor x y.
Proof.
  intros Hk Hx Hy.
  pose proof (lor_bound k x y Hk Hx Hy).
  apply Z.bits_inj'; intros n Hn.
  rewrite Z.lor_spec, !split_testbit by lia.
  destruct (n <? k); now rewrite Z.lor_spec.
Qed.

Lemma pow256 n : 256 ^ Z.of_nat n = 2 ^ (8 * Z.of_nat n).
Proof. rewrite Z.pow_mul_r by lia. reflexivity. Qed.

Lemma num_map2_land l1 l2 :
  Forall is_byte l1 -> Forall is_byte l2 -> length l1 = length l2 ->
  num (map2 Z.land l1 l2) = Z.land (num l1) (num l2)
  /\ Forall is_byte (map2 Z.land l1 l2) /\ length (map2 Z.land l1 l2) = length l1.
Proof.
  intros H1; revert l2; induction H1 as [|b r Hb Hr IH];
    intros [|c s] H2 Hl; cbn [length] in Hl; try discriminate; cbn [map2 num].
  - repeat split; auto.
  - inversion H2 as [|? ? Hc H4]; subst. injection Hl as Hl.
    destruct (IH s H4 Hl) as (E & F & L).
    pose proof (num_range _ Hr) as R1. pose proof (num_range _ H4) as R2.
    rewrite L, E, Hl in *. rewrite pow256 in *.
    repeat split.
    + now rewrite land_split by lia.
    + constructor; auto. unfold is_byte in *. apply (land_bound 8); lia.
    + cbn [length]. lia.
Qed.

(* ---------- codec ---------- *)

Lemma to_uint128_fold l : forall r,
  Forall is_byte l -> 0 <= r ->
  r * 256 ^ Z.of_nat (length l) + num l < 2 ^ 128 ->
  fold_left (fun r b => Z.lor (u128 (Z.shiftl r 8)) b) l r
  = r * 256 ^ Z.of_nat (length l) + num l.
Proof.
  induction l as [|b l IH]; intros r H Hr Hlt; cbn [fold_left num length] in *.
  - cbn. lia.
  - inversion H as [|? ? Hb Hl]; subst. rewrite pow256_S in *.
    pose proof (num_range _ Hl). pose proof (pow256_pos (length l)).
    unfold is_byte in Hb.
    assert (S1 : Z.lor (u128 (Z.shiftl r 8)) b = r * 256 + b).
    { unfold u128. rewrite Z.shiftl_mul_pow2 by lia.
      assert (r * 2 ^ 8 < 2 ^ 128) by (change (2^8) with 256; nia).
      rewrite Z.mod_small by lia.
      replace (r * 2 ^ 8) with (r * 2 ^ 8 + 0) by lia.
      replace b with (0 * 2 ^ 8 + b) at 1 by lia.
      rewrite lor_split by lia. rewrite Z.lor_0_r, Z.lor_0_l. lia. }
    rewrite S1, IH; auto; try lia; nia.
Qed.

Lemma ip_to_uint128_value a : addr_wf a -> ip_to_uint128 a = value a.
Proof.
  intros W. unfold ip_to_uint128, value. destruct (wf_ip _ W) as [L B].
  rewrite to_uint128_fold; auto; try lia.
  pose proof (range128 _ (wf_ip _ W)). lia.
Qed.

Lemma from_uint128_loop_spec n : forall u acc,
  0 <= u -> Forall is_byte acc ->
  let l := from_uint128_loop n u acc in
  length l = (n + length acc)%nat /\ Forall is_byte l
  /\ num l = (u mod 256 ^ Z.of_nat n) * 256 ^ Z.of_nat (length acc) + num acc.
Proof.
  induction n as [|n IH]; intros u acc Hu Ha; cbn [from_uint128_loop].
  - cbn [Z.of_nat]. rewrite Z.pow_0_r, Z.mod_1_r. cbn. auto.
  - destruct (IH (Z.shiftr u 8) (u8 u :: acc)) as (L & B & N).
    + apply Z.shiftr_nonneg. lia.
    + constructor; auto. unfold is_byte, u8. change (2^8) with 256. lia.
    + cbn zeta in *. cbn [length] in *. repeat split; auto; try lia.
      rewrite N, Z.shiftr_div_pow2 by lia. cbn [num]. unfold u8.
      change (2 ^ 8) with 256. rewrite !pow256_S.
      pose proof (pow256_pos n). rewrite (Z.rem_mul_r u 256) by lia.
      ring.
Qed.

Lemma with_s6_same a l : same_but_ip a (with_s6 a l).
Proof. now constructor. Qed.

Lemma ip_from_same a u : same_but_ip a (ip_from_uint128 a u).
Proof. apply with_s6_same. Qed.

Lemma ip_from_spec a u : 0 <= u < 2 ^ 128 ->
  bytes16 (s6 (ip_from_uint128 a u)) /\ value (ip_from_uint128 a u) = u.
Proof.
  intros Hu. destruct (from_uint128_loop_spec 16 u []) as (L & B & N); [lia|auto|].
  split; [split; auto|].
  unfold value. etransitivity; [exact N|].
  change (256 ^ Z.of_nat 16) with (2 ^ 128). rewrite Z.mod_small by lia. cbn. lia.
Qed.

Lemma wf_same a b : addr_wf a -> same_but_ip a b -> bytes16 (s6 b) -> addr_wf b.
Proof.
  intros [] [] ?. constructor; try congruence; auto.
Qed.

Lemma ip_from_wf a u : addr_wf a -> 0 <= u < 2 ^ 128 -> addr_wf (ip_from_uint128 a u).
Proof.
  intros W H. eapply wf_same; eauto using ip_from_same. now apply ip_from_spec.
Qed.

Lemma same_ext a b : same_but_ip a b -> s6 a = s6 b -> a = b.
Proof.
  destruct a as [[] ? ? ? ? ? ? ? ?], b as [[] ? ? ? ? ? ? ? ?].
  unfold s6. intros []; cbn in *. intros. now subst.
Qed.

Lemma same_sym a b : same_but_ip a b -> same_but_ip b a.
Proof. intros []; constructor; auto. Qed.
Lemma same_trans a b c : same_but_ip a b -> same_but_ip b c -> same_but_ip a c.
Proof. intros [] []; constructor; congruence. Qed.
Lemma same_refl a : same_but_ip a a.
Proof. now constructor. Qed.

Lemma codec_roundtrip a : addr_wf a -> ip_from_uint128 a (ip_to_uint128 a) = a.
Proof.
  intros W. symmetry. apply same_ext; [apply ip_from_same|].
  pose proof (value_range _ W).
  rewrite ip_to_uint128_value by auto.
  destruct (ip_from_spec a (value a)) as [B N]; [lia|].
  apply value_inj; auto. apply ip_from_wf; auto.
Qed.

(* ---------- arithmetic ---------- *)

Lemma sat_add_spec x y : 0 <= x < 2^128 -> 0 <= y -> saturated_add x y = clamp 0 LAST (x + y).
Proof. unfold saturated_add, clamp, LAST. intros. destruct (_ >? _) eqn:E; lia. Qed.
Lemma sat_sub_spec x y : 0 <= x < 2^128 -> 0 <= y -> saturated_subtract x y = clamp 0 LAST (x - y).
Proof. unfold saturated_subtract, clamp, LAST. intros. destruct (_ <? _) eqn:E; lia. Qed.
Lemma clamp_range x : 0 <= clamp 0 LAST x < 2 ^ 128.
Proof. unfold clamp, LAST. lia. Qed.

Lemma moved_add a n : addr_wf a -> 0 <= n ->
  moved a n (ip_from_uint128 a (saturated_add (ip_to_uint128 a) n)).
Proof.
  intros W Hn. rewrite ip_to_uint128_value by auto. pose proof (value_range _ W).
  rewrite sat_add_spec by lia. pose proof (clamp_range (value a + n)).
  split; [now apply ip_from_wf|]. split; [apply ip_from_same|]. now apply ip_from_spec.
Qed.

Lemma moved_sub a n : addr_wf a -> 0 <= n ->
  moved a (- n) (ip_from_uint128 a (saturated_subtract (ip_to_uint128 a) n)).
Proof.
  intros W Hn. rewrite ip_to_uint128_value by auto. pose proof (value_range _ W).
  rewrite sat_sub_spec by lia. pose proof (clamp_range (value a - n)).
  split; [now apply ip_from_wf|]. split; [apply ip_from_same|].
  rewrite Z.add_opp_r. now apply ip_from_spec.
Qed.

Lemma neg_int_ok n : is_int n -> n < 0 -> n <> INT_MIN -> neg_int n = Ok (- n).
Proof.
  unfold neg_int, is_int, INT_MIN, INT_MAX, u32. intros.
  replace (n =? - 2 ^ 31) with false by lia. now rewrite Z.mod_small by lia.
Qed.

Lemma incr_moved a : addr_wf a -> moved a 1 (incr a).
Proof. intros. apply moved_add; auto; lia. Qed.
Lemma decr_moved a : addr_wf a -> moved a (-1) (decr a).
Proof. intros. apply moved_sub; auto; lia. Qed.

Lemma add_int_moved a n : addr_wf a -> is_int n -> n <> INT_MIN ->
  exists b, add_int a n = Ok b /\ moved a n b.
Proof.
  intros W Hn Hm. unfold add_int. destruct (n <? 0) eqn:E.
  - rewrite neg_int_ok by (auto; lia). cbn [rbind]. eexists; split; [reflexivity|].
    replace n with (- - n) at 1 by lia. apply moved_sub; auto; lia.
  - eexists; split; [reflexivity|]. apply moved_add; auto; lia.
Qed.

Lemma sub_int_moved a n : addr_wf a -> is_int n -> n <> INT_MIN ->
  exists b, sub_int a n = Ok b /\ moved a (- n) b.
Proof.
  intros W Hn Hm. unfold sub_int. destruct (n <? 0) eqn:E.
  - rewrite neg_int_ok by (auto; lia). cbn [rbind]. eexists; split; [reflexivity|].
    apply moved_add; auto; lia.
  - eexists; split; [reflexivity|]. apply moved_sub; auto; lia.
Qed.

Lemma add_assign_moved a n : addr_wf a -> is_int n -> n <> INT_MIN ->
  exists b, add_assign a n = (b, Ok tt) /\ moved a n b.
Proof.
  intros W Hn Hm. unfold add_assign. destruct (n <? 0) eqn:E.
  - rewrite neg_int_ok by (auto; lia). eexists; split; [reflexivity|].
    replace n with (- - n) at 1 by lia. apply moved_sub; auto; lia.
  - eexists; split; [reflexivity|]. apply moved_add; auto; lia.
Qed.

Lemma sub_assign_moved a n : addr_wf a -> is_int n -> n <> INT_MIN ->
  exists b, sub_assign a n = (b, Ok tt) /\ moved a (- n) b.
Proof.
  intros W Hn Hm. unfold sub_assign. destruct (n <? 0) eqn:E.
  - rewrite neg_int_ok by (auto; lia). eexists; split; [reflexivity|].
    apply moved_add; auto; lia.
  - eexists; split; [reflexivity|]. apply moved_sub; auto; lia.
Qed.

Lemma s128_u128 x : s128 (u128 x) = s128 x.
Proof.
  unfold s128, u128. f_equal.
  rewrite Z.add_mod_idemp_l by lia. reflexivity.
Qed.

Lemma sub_addr_exact a b : addr_wf a -> addr_wf b ->
  - 2 ^ 127 <= value a - value b < 2 ^ 127 -> sub_addr a b = value a - value b.
Proof.
  intros Wa Wb H. unfold sub_addr. rewrite !ip_to_uint128_value by auto.
  rewrite s128_u128. unfold s128. rewrite Z.mod_small by lia. lia.
Qed.

Lemma sub_addr_mod a b : addr_wf a -> addr_wf b ->
  - 2 ^ 127 <= sub_addr a b < 2 ^ 127
  /\ (sub_addr a b) mod 2 ^ 128 = (value a - value b) mod 2 ^ 128.
Proof.
  intros Wa Wb. unfold sub_addr. rewrite !ip_to_uint128_value by auto.
  rewrite s128_u128. unfold s128. split; [lia|].
  rewrite Zminus_mod_idemp_l. f_equal. lia.
Qed.

Lemma is_next_value a b : addr_wf a -> addr_wf b ->
  is_next a b = true <-> value b = value a + 1.
Proof.
  intros Wa Wb. unfold is_next, u128. rewrite !ip_to_uint128_value by auto.
  pose proof (value_range _ Wa). pose proof (value_range _ Wb).
  change 0xFFFFFFFFFFFFFFFFFFFFFFFFFFFFFFFF with (2 ^ 128 - 1). lia.
Qed.

Lemma is_previous_value a b : addr_wf a -> addr_wf b ->
  is_previous a b = true <-> value b = value a - 1.
Proof.
  intros Wa Wb. unfold is_previous, u128. rewrite !ip_to_uint128_value by auto.
  pose proof (value_range _ Wa). pose proof (value_range _ Wb). lia.
Qed.
