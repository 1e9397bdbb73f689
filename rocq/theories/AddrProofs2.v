From Verif Require Import Base Addr Spec AddrProofs.
From Coq Require Import ZifyBool ZifyNat.
Local Open Scope Z_scope.
Ltac Zify.zify_post_hook ::= Z.div_mod_to_equations.

(* ---------- explicit bytes ---------- *)

Lemma bytes16_explicit l : bytes16 l ->
  exists b0 b1 b2 b3 b4 b5 b6 b7 b8 b9 b10 b11 b12 b13 b14 b15,
  l = [b0;b1;b2;b3;b4;b5;b6;b7;b8;b9;b10;b11;b12;b13;b14;b15]
  /\ is_byte b0 /\ is_byte b1 /\ is_byte b2 /\ is_byte b3
  /\ is_byte b4 /\ is_byte b5 /\ is_byte b6 /\ is_byte b7
  /\ is_byte b8 /\ is_byte b9 /\ is_byte b10 /\ is_byte b11
  /\ is_byte b12 /\ is_byte b13 /\ is_byte b14 /\ is_byte b15.
Proof.
  intros [L B].
  do 17 (destruct l as [|? l]; try discriminate L).
  repeat match goal with H : Forall is_byte (_ :: _) |- _ => inversion H; clear H; subst end.
  do 16 eexists. split; [reflexivity|]. repeat split; try apply H1; 
    repeat match goal with H : is_byte _ |- _ => destruct H end; assumption.
Qed.

Ltac explode l H :=
  let E := fresh "E" in
  destruct (bytes16_explicit l H) as
    (b0 & b1 & b2 & b3 & b4 & b5 & b6 & b7 & b8 & b9 & b10 & b11 & b12 & b13 & b14 & b15
     & E & H0 & H1 & H2 & H3 & H4 & H5 & H6 & H7 & H8 & H9 & H10 & H11 & H12 & H13 & H14 & H15);
  unfold is_byte in *.

Definition num16 b0 b1 b2 b3 b4 b5 b6 b7 b8 b9 b10 b11 b12 b13 b14 b15 : Z :=
  b0 * 2^120 + b1 * 2^112 + b2 * 2^104 + b3 * 2^96
  + b4 * 2^88 + b5 * 2^80 + b6 * 2^72 + b7 * 2^64
  + b8 * 2^56 + b9 * 2^48 + b10 * 2^40 + b11 * 2^32
  + b12 * 2^24 + b13 * 2^16 + b14 * 2^8 + b15.

Lemma num_explicit b0 b1 b2 b3 b4 b5 b6 b7 b8 b9 b10 b11 b12 b13 b14 b15 :
  num [b0;b1;b2;b3;b4;b5;b6;b7;b8;b9;b10;b11;b12;b13;b14;b15]
  = num16 b0 b1 b2 b3 b4 b5 b6 b7 b8 b9 b10 b11 b12 b13 b14 b15.
Proof. unfold num16. cbn [num length]. cbn. lia. Qed.

(* ---------- IPv4 ---------- *)

Lemma is_ipv4_value a : addr_wf a -> (is_ipv4 a = true <-> is_v4_value (value a)).
Proof.
  intros W. unfold is_ipv4, is_v4_value, v4_base, value.
  pose proof (wf_ip _ W) as Hb. explode (s6 a) Hb. rewrite E.
  unfold load32, load16, at_. cbn [nth Nat.mul Nat.add].
  rewrite num_explicit. unfold num16. clear E. split; intros H; lia.
Qed.

Lemma is_ipv4_bool a : addr_wf a ->
  is_ipv4 a = (v4_base <=? value a) && (value a <? v4_base + 2 ^ 32).
Proof.
  intros W. pose proof (is_ipv4_value a W) as H. unfold is_v4_value in H.
  destruct (is_ipv4 a); lia.
Qed.

Lemma is_default_value a : addr_wf a ->
  (is_default a = true <-> value a = 0 \/ value a = v4_base).
Proof.
  intros W. unfold is_default, v4_base, value.
  pose proof (wf_ip _ W) as Hb. explode (s6 a) Hb. rewrite E.
  unfold load32, load16, at_. cbn [nth Nat.mul Nat.add].
  rewrite num_explicit. unfold num16. clear E. split; intros H; lia.
Qed.

Lemma u8_byte x : is_byte (u8 x).
Proof. unfold u8, is_byte. change (2 ^ 8) with 256. lia. Qed.

Lemma bswap32_range x : 0 <= bswap32 x < 2 ^ 32.
Proof. unfold bswap32. lia. Qed.
Lemma bswap16_range x : 0 <= bswap16 x < 2 ^ 16.
Proof. unfold bswap16. lia. Qed.
Lemma bswap16_invol x : 0 <= x < 2 ^ 16 -> bswap16 (bswap16 x) = x.
Proof. unfold bswap16. lia. Qed.

Definition v4_bytes (x : Z) : list Z :=
  [0;0;0;0;0;0;0;0;0;0;255;255; u8 x; u8 (x / 2^8); u8 (x / 2^16); u8 (x / 2^24)].

Lemma set_ipv4_bytes x :
  store32 (store16 (zeroes 16) 5 65535) 3 x = v4_bytes x.
Proof. reflexivity. Qed.

Lemma v4_bytes_ok x : bytes16 (v4_bytes x).
Proof.
  split; [reflexivity|]. unfold v4_bytes.
  repeat constructor; unfold is_byte; try lia; apply u8_byte.
Qed.

Lemma v4_bytes_num x : 0 <= x < 2 ^ 32 -> num (v4_bytes x) = v4_base + bswap32 x.
Proof.
  intros H. unfold v4_bytes. rewrite num_explicit. unfold num16, v4_base, bswap32, u8.
  change (2 ^ 8) with 256. lia.
Qed.

Lemma load32_v4_bytes x : 0 <= x < 2 ^ 32 -> load32 (v4_bytes x) 3 = x.
Proof.
  intros H. unfold load32, at_, v4_bytes. cbn [nth Nat.mul Nat.add]. unfold u8.
  change (2 ^ 8) with 256. lia.
Qed.

Lemma set_ipv4_spec a x : addr_wf a -> sockaddr_in_ok x -> sin_family x = AF_INET ->
  exists a', set_ipv4 a x = (a', Ok tt) /\ addr_wf a'
  /\ value a' = v4_base + bswap32 (s_addr x)
  /\ get_ipv4 a' = Ok x.
Proof.
  intros W (F & P & S) Hf. unfold set_ipv4. rewrite Hf, Z.eqb_refl. cbn [negb].
  rewrite set_ipv4_bytes. eexists. split; [reflexivity|].
  assert (W' : addr_wf (address_changed (with_address a
      (mk_in6 AF_INET6 (sin_port x) 0 (v4_bytes (s_addr x)) 0)))).
  { destruct W. constructor; cbn; auto; try lia. apply v4_bytes_ok. }
  split; auto. split; [apply v4_bytes_num; auto|].
  unfold get_ipv4.
  replace (is_ipv4 _) with true.
  - cbn [s6 f_address address_changed with_private_network with_address sin6_addr sin6_port].
    unfold s6; cbn. rewrite load32_v4_bytes by auto. destruct x; cbn in *. now subst.
  - symmetry. apply is_ipv4_value; auto. unfold is_v4_value.
    replace (value _) with (v4_base + bswap32 (s_addr x)).
    + pose proof (bswap32_range (s_addr x)). lia.
    + symmetry. apply v4_bytes_num; auto.
Qed.

(* ---------- masks ---------- *)

Lemma map2_length {A B C} (f : A -> B -> C) l1 l2 :
  length l1 = length l2 -> length (map2 f l1 l2) = length l1.
Proof. revert l2; induction l1; intros [|? ?]; cbn; intros; try discriminate; auto. Qed.

Lemma lor_lnot_u8 b m : is_byte b -> is_byte m ->
  u8 (Z.lor b (Z.lnot m)) = Z.lor b (255 - m) /\ is_byte (Z.lor b (255 - m)).
Proof.
  unfold is_byte. intros Hb Hm. unfold u8. rewrite <- Z.land_ones by lia.
  rewrite Z.land_lor_distr_l. rewrite !Z.land_ones by lia.
  rewrite (Z.mod_small b) by lia.
  replace (Z.lnot m mod 2 ^ 8) with (255 - m).
  - split; auto. apply (lor_bound 8); lia.
  - unfold Z.lnot. change (2 ^ 8) with 256. lia.
Qed.

Lemma num_map2_lor l1 l2 :
  Forall is_byte l1 -> Forall is_byte l2 -> length l1 = length l2 ->
  let l := map2 (fun b m => u8 (Z.lor b (Z.lnot m))) l1 l2 in
  num l = Z.lor (num l1) (256 ^ Z.of_nat (length l2) - 1 - num l2)
  /\ Forall is_byte l /\ length l = length l1.
Proof.
  intros H1; revert l2; induction H1 as [|b r Hb Hr IH];
    intros [|c s] H2 Hl; cbn [length] in Hl; try discriminate; cbn [map2 num].
  - repeat split; auto.
  - inversion H2 as [|? ? Hc H4]; subst. injection Hl as Hl.
    destruct (IH s H4 Hl) as (E & F & L). cbn zeta in *.
    destruct (lor_lnot_u8 b c Hb Hc) as [U UB].
    pose proof (num_range _ Hr) as R1. pose proof (num_range _ H4) as R2.
    rewrite L, E, Hl, U in *. cbn [length]. rewrite pow256_S.
    repeat split.
    + replace (256 * 256 ^ Z.of_nat (length s) - 1 - (c * 256 ^ Z.of_nat (length s) + num s))
        with ((255 - c) * 256 ^ Z.of_nat (length s) + (256 ^ Z.of_nat (length s) - 1 - num s)) by ring.
      rewrite pow256 in *. rewrite lor_split by lia. reflexivity.
    + constructor; auto.
    + lia.
Qed.

Lemma apply_mask_same a i : same_but_ip a (apply_mask a i).
Proof. apply with_s6_same. Qed.

Lemma apply_mask_false a : addr_wf a ->
  addr_wf (apply_mask a false) /\ value (apply_mask a false) = Z.land (value a) (mask_value a).
Proof.
  intros W. destruct (wf_ip _ W) as [L1 B1]. destruct (wf_mask _ W) as [L2 B2].
  destruct (num_map2_land (s6 a) (f_mask a) B1 B2 ltac:(congruence)) as (N & B & L).
  assert (bytes16 (s6 (apply_mask a false))).
  { split; auto. etransitivity; [exact L|auto]. }
  split; [|exact N].
  eapply wf_same; eauto using apply_mask_same.
Qed.

Lemma apply_mask_true a : addr_wf a ->
  addr_wf (apply_mask a true) /\ value (apply_mask a true) = Z.lor (value a) (LAST - mask_value a).
Proof.
  intros W. destruct (wf_ip _ W) as [L1 B1]. destruct (wf_mask _ W) as [L2 B2].
  destruct (num_map2_lor (s6 a) (f_mask a) B1 B2 ltac:(congruence)) as (N & B & L).
  assert (bytes16 (s6 (apply_mask a true))).
  { split; auto. etransitivity; [exact L|auto]. }
  split.
  - eapply wf_same; eauto using apply_mask_same.
  - etransitivity; [exact N|]. rewrite L2. unfold LAST, value, mask_value.
    change (256 ^ Z.of_nat 16) with (2 ^ 128). f_equal; lia.
Qed.

Lemma testbit_LAST_minus m i : 0 <= m < 2 ^ 128 -> 0 <= i < 128 ->
  Z.testbit (LAST - m) i = negb (Z.testbit m i).
Proof.
  intros Hm Hi. replace (LAST - m) with (Z.lnot m mod 2 ^ 128).
  - rewrite Z.mod_pow2_bits_low by lia. rewrite Z.lnot_spec by lia. reflexivity.
  - unfold Z.lnot, LAST. lia.
Qed.

Lemma bits128_eq x y : 0 <= x < 2 ^ 128 -> 0 <= y < 2 ^ 128 ->
  (forall i, 0 <= i < 128 -> Z.testbit x i = Z.testbit y i) -> x = y.
Proof.
  intros Hx Hy H. apply Z.bits_inj'. intros n Hn.
  destruct (Z.lt_ge_cases n 128); [auto|].
  rewrite !Z.bits_above_log2; auto; try lia.
  - destruct (Z.eq_dec y 0) as [->|]; [cbn; lia|]. assert (Z.log2 y < 128) by (apply Z.log2_lt_pow2; lia). lia.
  - destruct (Z.eq_dec x 0) as [->|]; [cbn; lia|]. assert (Z.log2 x < 128) by (apply Z.log2_lt_pow2; lia). lia.
Qed.

(* prefix masks *)
Lemma prefix_mask_split n : 0 <= n <= 128 -> prefix_mask n = (2 ^ n - 1) * 2 ^ (128 - n) + 0.
Proof.
  intros Hn. unfold prefix_mask.
  replace 128 with (n + (128 - n)) at 1 by lia. rewrite Z.pow_add_r by lia. ring.
Qed.

Lemma prefix_mask_range n : 0 <= n <= 128 -> 0 <= prefix_mask n < 2 ^ 128.
Proof.
  intros Hn. unfold prefix_mask.
  assert (0 < 2 ^ (128 - n) <= 2 ^ 128) by (split; [lia|apply Z.pow_le_mono_r; lia]). lia.
Qed.

Lemma land_prefix v n : 0 <= v < 2 ^ 128 -> 0 <= n <= 128 ->
  Z.land v (prefix_mask n) = block_first n v.
Proof.
  intros Hv Hn. unfold block_first, block_size.
  assert (0 < 2 ^ (128 - n)) by lia.
  rewrite prefix_mask_split by lia.
  rewrite (Z.div_mod v (2 ^ (128 - n))) at 1 by lia.
  rewrite (Z.mul_comm (2 ^ (128 - n)) (v / _)).
  rewrite land_split; try lia.
  rewrite Z.land_0_r, Z.add_0_r. f_equal.
  replace (2 ^ n - 1) with (Z.ones n) by (rewrite Z.ones_equiv; lia).
  rewrite Z.land_ones by lia. apply Z.mod_small.
  split; [apply Z.div_pos; lia|]. apply Z.div_lt_upper_bound; [lia|].
  rewrite <- Z.pow_add_r by lia. replace (128 - n + n) with 128 by lia. lia.
Qed.

Lemma lor_ones x k : 0 <= k -> 0 <= x < 2 ^ k -> Z.lor x (Z.ones k) = Z.ones k.
Proof.
  intros Hk Hx. replace x with (Z.land x (Z.ones k)).
  - apply Z.bits_inj'; intros i Hi. rewrite Z.lor_spec, Z.land_spec.
    destruct (Z.testbit x i), (Z.testbit (Z.ones k) i); reflexivity.
  - rewrite Z.land_ones, Z.mod_small; lia.
Qed.

Lemma lor_prefix v n : 0 <= v < 2 ^ 128 -> 0 <= n <= 128 ->
  Z.lor v (LAST - prefix_mask n) = block_last n v.
Proof.
  intros Hv Hn. unfold block_last, block_first, block_size, prefix_mask, LAST.
  assert (0 < 2 ^ (128 - n)) by lia.
  replace (2 ^ 128 - 1 - (2 ^ 128 - 2 ^ (128 - n))) with (0 * 2 ^ (128 - n) + Z.ones (128 - n))
    by (rewrite Z.ones_equiv; lia).
  pose proof (Z.mod_pos_bound v (2 ^ (128 - n))).
  rewrite (Z.div_mod v (2 ^ (128 - n))) at 1 by lia.
  rewrite (Z.mul_comm (2 ^ (128 - n)) (v / _)).
  rewrite lor_split; try lia.
  - rewrite Z.lor_0_r, lor_ones by lia. rewrite Z.ones_equiv. lia.
  - rewrite Z.ones_equiv. lia.
Qed.

(* set_mask_count *)
Definition count_check (n : nat) : bool :=
  let l := mask_count_bytes 16 (Z.of_nat n) in
  (num l =? prefix_mask (Z.of_nat n)) && forallb is_byteb l && (length l =? 16)%nat.

Lemma count_check_all : forallb count_check (seq 0 129) = true.
Proof. vm_compute. reflexivity. Qed.

Lemma is_byteb_spec b : is_byteb b = true <-> is_byte b.
Proof. unfold is_byteb, is_byte. lia. Qed.

Lemma mask_count_bytes_spec n : 0 <= n <= 128 ->
  bytes16 (mask_count_bytes 16 n) /\ num (mask_count_bytes 16 n) = prefix_mask n.
Proof.
  intros Hn. pose proof count_check_all as H. rewrite forallb_forall in H.
  specialize (H (Z.to_nat n)). unfold count_check in H. rewrite Z2Nat.id in H by lia.
  assert (I : In (Z.to_nat n) (seq 0 129)) by (apply in_seq; lia).
  specialize (H I). rewrite !andb_true_iff in H. destruct H as [[A B] C].
  apply Nat.eqb_eq in C. apply Z.eqb_eq in A. rewrite forallb_forall in B.
  repeat split; auto. apply Forall_forall. intros x Hx. now apply is_byteb_spec, B.
Qed.

(* get_mask_size *)
Lemma size_loop_found l : forall c, Forall is_byte l ->
  (num l = 0 /\ mask_size_loop l true c = c) \/ (num l <> 0 /\ mask_size_loop l true c = -1).
Proof.
  induction l as [|b r IH]; intros c H; cbn [num mask_size_loop].
  - left; auto.
  - inversion H as [|? ? Hb Hr]; subst. pose proof (num_range _ Hr).
    pose proof (pow256_pos (length r)). unfold is_byte in Hb.
    destruct (b =? 0) eqn:E; cbn [negb].
    + apply Z.eqb_eq in E. subst. rewrite Z.mul_0_l, Z.add_0_l. auto.
    + right. split; auto. nia.
Qed.

Definition ones_prefix (len : nat) (n : Z) : Z :=
  2 ^ (8 * Z.of_nat len) - 2 ^ (8 * Z.of_nat len - n).

Lemma pow_le a b : 0 <= a <= b -> 0 < 2 ^ a <= 2 ^ b.
Proof. intros. split; [lia|apply Z.pow_le_mono_r; lia]. Qed.

Lemma ones_prefix_small len n : 0 <= n <= 8 ->
  ones_prefix (S len) n = (256 - 2 ^ (8 - n)) * 256 ^ Z.of_nat len.
Proof.
  intros. unfold ones_prefix. rewrite pow256.
  replace (8 * Z.of_nat (S len)) with (8 + 8 * Z.of_nat len) by lia.
  replace (8 + 8 * Z.of_nat len - n) with ((8 - n) + 8 * Z.of_nat len) by lia.
  rewrite !Z.pow_add_r by lia. change (2 ^ 8) with 256. ring.
Qed.
Lemma ones_prefix_large len n : 8 <= n ->
  n <= 8 * Z.of_nat (S len) ->
  ones_prefix (S len) n = 255 * 256 ^ Z.of_nat len + ones_prefix len (n - 8).
Proof.
  intros. unfold ones_prefix. rewrite pow256.
  replace (8 * Z.of_nat (S len)) with (8 + 8 * Z.of_nat len) by lia.
  replace (8 + 8 * Z.of_nat len - n) with (8 * Z.of_nat len - (n - 8)) by lia.
  rewrite !Z.pow_add_r by lia. change (2 ^ 8) with 256. ring.
Qed.
Lemma ones_prefix_range len n : 0 <= n <= 8 * Z.of_nat len ->
  0 <= ones_prefix len n < 256 ^ Z.of_nat len.
Proof.
  intros. unfold ones_prefix. rewrite pow256.
  pose proof (pow_le (8 * Z.of_nat len - n) (8 * Z.of_nat len) ltac:(lia)). lia.
Qed.

Lemma split_unique b c x y w : 0 <= x < w -> 0 <= y < w -> b * w + x = c * w + y -> b = c /\ x = y.
Proof. intros. assert (b = c) by nia. subst. split; auto. lia. Qed.

Lemma split_unique0 b c x w : 0 <= x < w -> b * w + x = c * w -> b = c /\ x = 0.
Proof. intros. apply (split_unique b c x 0 w); lia. Qed.

Lemma small_cases n : 0 <= n <= 8 -> n = 0 \/ n = 1 \/ n = 2 \/ n = 3 \/ n = 4 \/ n = 5 \/ n = 6 \/ n = 7 \/ n = 8.
Proof. lia. Qed.

Lemma size_loop_spec l : forall c, 0 <= c -> Forall is_byte l ->
  (exists n, 0 <= n <= 8 * Z.of_nat (length l) /\ num l = ones_prefix (length l) n
     /\ mask_size_loop l false c = c + n)
  \/ ((forall n, 0 <= n <= 8 * Z.of_nat (length l) -> num l <> ones_prefix (length l) n)
      /\ mask_size_loop l false c = -1).
Proof.
  induction l as [|b r IH]; intros c Hc H.
  - left. exists 0. cbn. repeat split; lia.
  - inversion H as [|? ? Hb Hr]; subst. pose proof (num_range _ Hr) as R.
    pose proof (pow256_pos (length r)) as P. unfold is_byte in Hb.
    cbn [mask_size_loop num length].
    assert (NF : forall k, 0 <= k < 8 -> b = 256 - 2 ^ (8 - k) ->
      (exists n, 0 <= n <= 8 * Z.of_nat (S (length r))
         /\ b * 256 ^ Z.of_nat (length r) + num r = ones_prefix (S (length r)) n
         /\ mask_size_loop r true (c + k) = c + n)
      \/ ((forall n, 0 <= n <= 8 * Z.of_nat (S (length r)) ->
             b * 256 ^ Z.of_nat (length r) + num r <> ones_prefix (S (length r)) n)
          /\ mask_size_loop r true (c + k) = -1)).
    { intros k Hk Eb. destruct (size_loop_found r (c + k) Hr) as [[N L]|[N L]]; rewrite L.
      - left. exists k. repeat split; try lia. rewrite ones_prefix_small by lia. rewrite N, Eb. ring.
      - right. split; auto. intros n Hn E.
        destruct (Z.le_gt_cases n 8).
        + rewrite ones_prefix_small in E by lia.
          apply split_unique0 in E; try lia.
        + rewrite ones_prefix_large in E by lia.
          pose proof (ones_prefix_range (length r) (n - 8) ltac:(lia)).
          apply split_unique in E; try lia.
          assert (2 ^ 1 <= 2 ^ (8 - k)) by (apply Z.pow_le_mono_r; lia). lia. }
    unfold mask_byte.
    destruct (b =? 255) eqn:E255.
    { apply Z.eqb_eq in E255. subst b.
      destruct (IH (c + 8) ltac:(lia) Hr) as [(n & Hn & En & L)|[Hn L]]; rewrite L.
      - left. exists (n + 8). repeat split; try lia. rewrite ones_prefix_large by lia.
        replace (n + 8 - 8) with n by lia. lia.
      - right. split; auto. intros n Hn' E.
        destruct (Z.le_gt_cases 8 n).
        + rewrite ones_prefix_large in E by lia. apply (Hn (n - 8)); lia.
        + rewrite ones_prefix_small in E by lia.
          apply split_unique0 in E; try lia.
          assert (2 ^ 1 <= 2 ^ (8 - n)) by (apply Z.pow_le_mono_r; lia). lia. }
    destruct (b =? 254) eqn:E254; [apply (NF 7); cbn; lia|].
    destruct (b =? 252) eqn:E252; [apply (NF 6); cbn; lia|].
    destruct (b =? 248) eqn:E248; [apply (NF 5); cbn; lia|].
    destruct (b =? 240) eqn:E240; [apply (NF 4); cbn; lia|].
    destruct (b =? 224) eqn:E224; [apply (NF 3); cbn; lia|].
    destruct (b =? 192) eqn:E192; [apply (NF 2); cbn; lia|].
    destruct (b =? 128) eqn:E128; [apply (NF 1); cbn; lia|].
    destruct (b =? 0) eqn:E0; [apply (NF 0); cbn; lia|].
    right. split; auto. intros n Hn E.
    destruct (Z.le_gt_cases n 8).
    + rewrite ones_prefix_small in E by lia.
      apply split_unique0 in E; try lia. destruct E as [E _].
      destruct (small_cases n ltac:(lia)) as [->|[->|[->|[->|[->|[->|[->|[->| ->]]]]]]]];
        cbn in E; lia.
    + rewrite ones_prefix_large in E by lia.
      pose proof (ones_prefix_range (length r) (n - 8) ltac:(lia)).
      apply split_unique in E; try lia.
Qed.

Lemma get_mask_size_spec a : addr_wf a ->
  (exists n, 0 <= n <= 128 /\ mask_value a = prefix_mask n /\ get_mask_size a = n)
  \/ ((forall n, 0 <= n <= 128 -> mask_value a <> prefix_mask n) /\ get_mask_size a = -1).
Proof.
  intros W. destruct (wf_mask _ W) as [L B].
  destruct (size_loop_spec (f_mask a) 0 ltac:(lia) B) as [(n & Hn & E & S)|[Hn S]];
    rewrite L in *; unfold get_mask_size; rewrite S.
  - left. exists n. split; auto.
  - right. split; auto.
Qed.

Lemma prefix_mask_inj n m : 0 <= n <= 128 -> 0 <= m <= 128 -> prefix_mask n = prefix_mask m -> n = m.
Proof.
  intros Hn Hm E. unfold prefix_mask in E.
  assert (E2 : 2 ^ (128 - n) = 2 ^ (128 - m)) by lia.
  apply Z.pow_inj_r in E2; lia.
Qed.

Lemma get_mask_size_iff a n : addr_wf a -> 0 <= n ->
  (get_mask_size a = n <-> n <= 128 /\ mask_value a = prefix_mask n).
Proof.
  intros W Hn. destruct (get_mask_size_spec a W) as [(m & Hm & E & S)|[N S]]; rewrite S.
  - split; [intros; subst; split; auto; lia|]. intros [L E2]. apply prefix_mask_inj; lia.
  - split; [lia|]. intros [L E]. exfalso. apply (N n); auto.
Qed.

Lemma get_mask_size_minus1 a : addr_wf a ->
  (get_mask_size a = -1 <-> forall n, 0 <= n <= 128 -> mask_value a <> prefix_mask n).
Proof.
  intros W. destruct (get_mask_size_spec a W) as [(m & Hm & E & S)|[N S]]; rewrite S.
  - split; [lia|]. intros H. exfalso. apply (H m); auto.
  - split; auto.
Qed.

Lemma set_mask_count_spec a n : addr_wf a ->
  let lo := if is_ipv4 a then 96 else 0 in
  if (lo <=? n) && (n <=? 128)
  then exists b, set_mask_count a n = (b, Ok tt) /\ addr_wf b
       /\ mask_value b = prefix_mask n /\ get_mask_size b = n
       /\ is_mask_defined b = true /\ f_address b = f_address a
  else set_mask_count a n = (a, Throw E_out_of_range).
Proof.
  intros W lo. unfold set_mask_count. fold lo.
  assert (0 <= lo) by (subst lo; destruct (is_ipv4 a); lia).
  destruct ((lo <=? n) && (n <=? 128)) eqn:E.
  - replace ((n <? lo) || (n >? 128)) with false by lia.
    destruct (mask_count_bytes_spec n ltac:(lia)) as [B N].
    set (b := with_mask _ _).
    assert (W' : addr_wf b) by (destruct W; constructor; auto).
    exists b. split; [reflexivity|]. split; [exact W'|]. split; [exact N|].
    split; [|split; reflexivity].
    apply get_mask_size_iff; auto; [lia|]. split; [lia|exact N].
  - replace ((n <? lo) || (n >? 128)) with true by lia. reflexivity.
Qed.

(* match *)
Lemma match_bytes la : forall lm lb,
  length la = length lm -> length la = length lb ->
  forallb (fun x => x)
    (map2 (fun bm b2 => Z.land (fst bm) (snd bm) =? Z.land b2 (snd bm)) (combine la lm) lb) = true
  <-> map2 Z.land la lm = map2 Z.land lb lm.
Proof.
  induction la as [|a la IH]; intros [|m lm] [|b lb] H1 H2; try discriminate; cbn [combine map2 forallb].
  - tauto.
  - cbn [fst snd]. rewrite andb_true_iff, IH by (cbn in *; lia). split.
    + intros [E ->]. apply Z.eqb_eq in E. now rewrite E.
    + intros E. injection E as -> ->. split; auto. apply Z.eqb_refl.
Qed.

Lemma match_land a b : addr_wf a -> addr_wf b ->
  (match_ a b false = true
   <-> Z.land (value a) (mask_value a) = Z.land (value b) (mask_value a)).
Proof.
  intros Wa Wb. destruct (wf_ip _ Wa) as [L1 B1]. destruct (wf_mask _ Wa) as [L2 B2].
  destruct (wf_ip _ Wb) as [L3 B3].
  unfold match_. cbn [andb]. rewrite match_bytes by congruence.
  destruct (num_map2_land (s6 a) (f_mask a) B1 B2 ltac:(congruence)) as (N & B & L).
  destruct (num_map2_land (s6 b) (f_mask a) B3 B2 ltac:(congruence)) as (N' & B' & L').
  unfold value, mask_value. rewrite <- N, <- N'. split; [intros ->; auto|].
  intros E. apply num_inj; auto. congruence.
Qed.

Lemma land_eq_bits x y m : 0 <= x < 2 ^ 128 -> 0 <= y < 2 ^ 128 ->
  (Z.land x m = Z.land y m <->
   forall i, 0 <= i < 128 -> Z.testbit m i = true -> Z.testbit x i = Z.testbit y i).
Proof.
  intros Hx Hy. split.
  - intros E i Hi Hm. assert (F : Z.testbit (Z.land x m) i = Z.testbit (Z.land y m) i) by now rewrite E.
    rewrite !Z.land_spec, Hm, !andb_true_r in F. exact F.
  - intros H. apply bits128_eq; try (apply (land_bound 128); lia).
    intros i Hi. rewrite !Z.land_spec. destruct (Z.testbit m i) eqn:E.
    + now rewrite (H i Hi E).
    + now rewrite !andb_false_r.
Qed.

Lemma match_bits a b : addr_wf a -> addr_wf b ->
  (match_ a b false = true <->
   forall i, 0 <= i < 128 -> Z.testbit (mask_value a) i = true ->
     Z.testbit (value a) i = Z.testbit (value b) i).
Proof.
  intros Wa Wb. rewrite match_land by auto. apply land_eq_bits; now apply value_range.
Qed.

Lemma match_any a b : addr_wf a -> addr_wf b ->
  match_ a b true = is_default a || match_ a b false.
Proof. intros. unfold match_. cbn. destruct (is_default a); auto. Qed.

Lemma match_block a b n : addr_wf a -> addr_wf b -> 0 <= n <= 128 -> mask_value a = prefix_mask n ->
  (match_ a b false = true <-> block_first n (value a) <= value b <= block_last n (value a)).
Proof.
  intros Wa Wb Hn Hm. rewrite match_land by auto.
  pose proof (value_range _ Wa). pose proof (value_range _ Wb).
  rewrite Hm, !land_prefix by auto.
  unfold block_last, block_first, block_size.
  assert (P : 0 < 2 ^ (128 - n)) by lia.
  set (w := 2 ^ (128 - n)) in *. clearbody w.
  pose proof (Z.div_mod (value b) w ltac:(lia)). pose proof (Z.mod_pos_bound (value b) w ltac:(lia)).
  pose proof (Z.div_mod (value a) w ltac:(lia)). pose proof (Z.mod_pos_bound (value a) w ltac:(lia)).
  set (q := value b / w) in *. set (p := value a / w) in *.
  set (r := value b mod w) in *. set (t := value a mod w) in *. clearbody p q r t.
  split; intros HH.
  - assert (p = q) by nia. subst q. lia.
  - assert (p = q) by nia. now subst q.
Qed.

