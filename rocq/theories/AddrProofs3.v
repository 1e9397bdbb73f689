From Verif Require Import Base Addr Spec AddrProofs AddrProofs2.
From Coq Require Import ZifyBool ZifyNat.
Local Open Scope Z_scope.
Ltac Zify.zify_post_hook ::= Z.div_mod_to_equations.

(* ---------- network types ---------- *)

(* land with a mask of w - k leading ones keeps the high part *)
Lemma land_high w k x : 0 <= k <= w -> 0 <= x < 2 ^ w ->
  Z.land x (2 ^ w - 2 ^ k) = x / 2 ^ k * 2 ^ k.
Proof.
  intros Hk Hx. assert (0 < 2 ^ k) by lia.
  replace (2 ^ w - 2 ^ k) with ((2 ^ (w - k) - 1) * 2 ^ k + 0).
  2: { rewrite Z.mul_sub_distr_r, <- Z.pow_add_r by lia. replace (w - k + k) with w by lia. lia. }
  pose proof (Z.mod_pos_bound x (2 ^ k)).
  rewrite (Z.div_mod x (2 ^ k)) at 1 by lia.
  rewrite (Z.mul_comm (2 ^ k) (x / _)).
  rewrite land_split by lia. rewrite Z.land_0_r, Z.add_0_r. f_equal.
  replace (2 ^ (w - k) - 1) with (Z.ones (w - k)) by (rewrite Z.ones_equiv; lia).
  rewrite Z.land_ones by lia. apply Z.mod_small.
  split; [apply Z.div_pos; lia|]. apply Z.div_lt_upper_bound; [lia|].
  rewrite <- Z.pow_add_r by lia. replace (k + (w - k)) with w by lia. lia.
Qed.

Lemma land_high_eqb w k x c : 0 <= k <= w -> 0 <= x < 2 ^ w -> c mod 2 ^ k = 0 ->
  (Z.land x (2 ^ w - 2 ^ k) =? c) = (x / 2 ^ k =? c / 2 ^ k).
Proof.
  intros Hk Hx Hc. rewrite (land_high w k x) by auto.
  assert (0 < 2 ^ k) by lia. pose proof (Z.div_mod c (2 ^ k) ltac:(lia)).
  set (q := x / 2 ^ k) in *. set (p := c / 2 ^ k) in *. clearbody p q. rewrite Hc in *. 
  destruct (q =? p) eqn:E.
  - apply Z.eqb_eq in E. subst. apply Z.eqb_eq. lia.
  - apply Z.eqb_neq in E. apply Z.eqb_neq. nia.
Qed.

Lemma type4_table x : 0 <= x < 2 ^ 32 ->
  (if (Z.land x 0xFF000000 =? 0x0A000000)
     || (Z.land x 0xFFF00000 =? 0xAC100000)
     || (Z.land x 0xFFFF0000 =? 0xC0A80000)
  then NETWORK_TYPE_PRIVATE
  else if Z.land x 0xFFC00000 =? 0x64400000 then NETWORK_TYPE_CARRIER
  else if Z.land x 0xFFFF0000 =? 0xA9FE0000 then NETWORK_TYPE_LINK_LOCAL
  else if Z.land x 0xF0000000 =? 0xE0000000 then NETWORK_TYPE_MULTICAST
  else if Z.land x 0xFF000000 =? 0x7F000000 then NETWORK_TYPE_LOOPBACK
  else if x =? 0 then NETWORK_TYPE_ANY
  else NETWORK_TYPE_UNKNOWN) = net_lookup 32 x table4.
Proof.
  intros Hx.
  change 0xFF000000 with (2 ^ 32 - 2 ^ 24). change 0xFFF00000 with (2 ^ 32 - 2 ^ 20).
  change 0xFFFF0000 with (2 ^ 32 - 2 ^ 16). change 0xFFC00000 with (2 ^ 32 - 2 ^ 22).
  change 0xF0000000 with (2 ^ 32 - 2 ^ 28).
  rewrite !land_high_eqb by (auto; try lia; reflexivity).
  unfold table4, net_lookup, in_net.
  change (x / 2 ^ (32 - 32) =? quad 0 0 0 0 / 2 ^ (32 - 32)) with (x / 1 =? 0).
  rewrite Z.div_1_r.
  change (32 - 8) with 24. change (32 - 12) with 20. change (32 - 16) with 16.
  change (32 - 10) with 22. change (32 - 4) with 28.
  change (quad 10 0 0 0) with 0x0A000000. change (quad 172 16 0 0) with 0xAC100000.
  change (quad 192 168 0 0) with 0xC0A80000. change (quad 100 64 0 0) with 0x64400000.
  change (quad 169 254 0 0) with 0xA9FE0000. change (quad 224 0 0 0) with 0xE0000000.
  change (quad 127 0 0 0) with 0x7F000000.
  destruct (x / 2 ^ 24 =? 0x0A000000 / 2 ^ 24); cbn [orb]; auto.
  destruct (x / 2 ^ 20 =? 0xAC100000 / 2 ^ 20); cbn [orb]; auto.
Qed.

(* 0xFFx1, 0xFFx2 scopes: all 65536 prefixes *)
Definition scope_check (p : Z) : bool :=
  Bool.eqb (Z.land p 0xFF0F =? 0xFF02) (existsb (fun x => p =? 0xFF02 + 16 * x) nibbles)
  && Bool.eqb (Z.land p 0xFF0F =? 0xFF01) (existsb (fun x => p =? 0xFF01 + 16 * x) nibbles).

Fixpoint zrange (n : nat) (p : Z) : list Z :=
  match n with O => [] | S k => p :: zrange k (p + 1) end.
Lemma zrange_in n : forall p x, p <= x < p + Z.of_nat n -> In x (zrange n p).
Proof.
  induction n as [|n IH]; intros p x H; [lia|]. cbn [zrange].
  destruct (Z.eq_dec p x); [left; auto|right; apply IH; lia].
Qed.
Lemma scope_check_hi : forallb (fun h => forallb (fun l => scope_check (256 * h + l)) (zrange 256 0)) (zrange 256 0) = true.
Proof. vm_compute. reflexivity. Qed.
Lemma scope_spec p : 0 <= p < 2 ^ 16 ->
  (Z.land p 0xFF0F =? 0xFF02) = existsb (fun x => p =? 0xFF02 + 16 * x) nibbles
  /\ (Z.land p 0xFF0F =? 0xFF01) = existsb (fun x => p =? 0xFF01 + 16 * x) nibbles.
Proof.
  intros H. pose proof scope_check_hi as S. rewrite forallb_forall in S.
  specialize (S (p / 256) ltac:(apply zrange_in; lia)). rewrite forallb_forall in S.
  specialize (S (p mod 256) ltac:(apply zrange_in; lia)).
  rewrite <- Z.div_mod in S by lia. unfold scope_check in S.
  rewrite andb_true_iff, !eqb_true_iff in S. exact S.
Qed.

Lemma in_net_group0 h v : in_net 128 (group0 h) 16 v = (v / 2 ^ 112 =? h).
Proof. unfold in_net, group0. change (128 - 16) with 112. now rewrite Z.div_mul by lia. Qed.

Lemma existsb_ext' {A} (f g : A -> bool) l : (forall x, f x = g x) -> existsb f l = existsb g l.
Proof. intros H. induction l; cbn; auto. now rewrite H, IHl. Qed.

Lemma div_eq v w q r : 0 < w -> 0 <= r < w -> v = q * w + r -> v / w = q.
Proof. intros. symmetry. apply (Z.div_unique v w q r); lia. Qed.

Lemma div_112_120 v : v / 2 ^ 120 = v / 2 ^ 112 / 2 ^ 8.
Proof. rewrite Z.div_div by lia. reflexivity. Qed.
Lemma div_112_118 v : v / 2 ^ 118 = v / 2 ^ 112 / 2 ^ 6.
Proof. rewrite Z.div_div by lia. reflexivity. Qed.
Lemma div_96_108 v : v / 2 ^ 108 = v / 2 ^ 96 / 2 ^ 12.
Proof. rewrite Z.div_div by lia. reflexivity. Qed.

Lemma I_128 c v : in_net 128 c 128 v = (v =? c).
Proof. unfold in_net. change (2 ^ (128 - 128)) with 1. now rewrite !Z.div_1_r. Qed.
Lemma I_FD v : in_net 128 (group0 0xFD00) 8 v = (v / 2 ^ 112 / 2 ^ 8 =? 253).
Proof. unfold in_net. change (128 - 8) with 120. rewrite <- div_112_120. f_equal. Qed.
Lemma I_FE v : in_net 128 (group0 0xFE80) 10 v = (v / 2 ^ 112 / 2 ^ 6 =? 1018).
Proof. unfold in_net. change (128 - 10) with 118. rewrite <- div_112_118. f_equal. Qed.
Lemma I_FF v : in_net 128 (group0 0xFF00) 8 v = (v / 2 ^ 112 / 2 ^ 8 =? 255).
Proof. unfold in_net. change (128 - 8) with 120. rewrite <- div_112_120. f_equal. Qed.
Lemma I_DB v : in_net 128 (group0 0x2001 + 0x0DB8 * 2 ^ 96) 32 v = (v / 2 ^ 96 =? 0x2001 * 65536 + 0x0DB8).
Proof. unfold in_net. change (128 - 32) with 96. f_equal. Qed.
Lemma I_3F v : in_net 128 (group0 0x3FFF) 20 v = (v / 2 ^ 96 / 2 ^ 12 =? 0x3FFF * 16).
Proof. unfold in_net. change (128 - 20) with 108. rewrite <- div_96_108. f_equal. Qed.

(* the decision tree of the code on numbers *)
Definition tree6 (v p n : Z) : network_type_t :=
  if v =? 0 then NETWORK_TYPE_ANY
  else if Z.land p 0xFF00 =? 0xFD00 then NETWORK_TYPE_PRIVATE
  else if (Z.land p 0xFFC0 =? 0xFE80) || (Z.land p 0xFF0F =? 0xFF02)
  then NETWORK_TYPE_LINK_LOCAL
  else if (Z.land p 0xFF0F =? 0xFF01) || (v =? 1)
  then NETWORK_TYPE_LOOPBACK
  else if Z.land p 0xFF00 =? 0xFF00 then NETWORK_TYPE_MULTICAST
  else if p =? 0x2001 then
    if n =? 0x0DB8 then NETWORK_TYPE_DOCUMENTATION else NETWORK_TYPE_UNKNOWN
  else if p =? 0x3FFF then
    if Z.land n 0xF000 =? 0 then NETWORK_TYPE_DOCUMENTATION
    else NETWORK_TYPE_UNKNOWN
  else NETWORK_TYPE_UNKNOWN.

Lemma land_FF00 p : 0 <= p < 2 ^ 16 -> (Z.land p 0xFF00 =? 0xFF00) = (p / 2 ^ 8 =? 255).
Proof. intros. exact (land_high_eqb 16 8 p 0xFF00 ltac:(lia) H eq_refl). Qed.
Lemma land_FD00 p : 0 <= p < 2 ^ 16 -> (Z.land p 0xFF00 =? 0xFD00) = (p / 2 ^ 8 =? 253).
Proof. intros. exact (land_high_eqb 16 8 p 0xFD00 ltac:(lia) H eq_refl). Qed.
Lemma land_FFC0 p : 0 <= p < 2 ^ 16 -> (Z.land p 0xFFC0 =? 0xFE80) = (p / 2 ^ 6 =? 1018).
Proof. intros. exact (land_high_eqb 16 6 p 0xFE80 ltac:(lia) H eq_refl). Qed.
Lemma land_F000 p : 0 <= p < 2 ^ 16 -> (Z.land p 0xF000 =? 0) = (p / 2 ^ 12 =? 0).
Proof. intros. exact (land_high_eqb 16 12 p 0 ltac:(lia) H eq_refl). Qed.

Lemma lookup_scope v base ty (rest : net_table) :
  net_lookup 128 v (map (fun x => (group0 (base + 16 * x), 16, ty)) nibbles ++ rest)
  = if existsb (fun x => v / 2 ^ 112 =? base + 16 * x) nibbles then ty else net_lookup 128 v rest.
Proof.
  induction nibbles as [|x r IH]; [reflexivity|].
  cbn [map app net_lookup existsb]. rewrite in_net_group0.
  destruct (v / 2 ^ 112 =? base + 16 * x); cbn [orb]; auto.
Qed.

Lemma pn_doc p n : 0 <= n < 2 ^ 16 ->
  (p * 65536 + n =? 0x2001 * 65536 + 0x0DB8) = (p =? 0x2001) && (n =? 0x0DB8).
Proof. lia. Qed.
Lemma pn_doc2 p n : 0 <= n < 2 ^ 16 ->
  ((p * 65536 + n) / 2 ^ 12 =? 0x3FFF * 16) = (p =? 0x3FFF) && (n / 2 ^ 12 =? 0).
Proof. lia. Qed.

Lemma tree6_table v p n : 0 <= p < 2 ^ 16 -> 0 <= n < 2 ^ 16 ->
  v / 2 ^ 112 = p -> v / 2 ^ 96 = p * 65536 + n ->
  tree6 v p n = net_lookup 128 v table6.
Proof.
  intros Hp Hn D112 D96. unfold table6.
  change (?a :: ?b :: ?c :: ?d :: [] ++ ?r) with (a :: b :: c :: d :: r).
  cbn [app net_lookup].
  rewrite !I_128, I_FD, I_FE, !lookup_scope.
  cbn [net_lookup]. rewrite I_FF, I_DB, I_3F, D96, D112, pn_doc, pn_doc2 by auto.
  unfold tree6. rewrite land_FF00, land_FD00, land_FFC0, land_F000 by auto.
  destruct (scope_spec p Hp) as [S2 S1]. rewrite S2, S1.
  destruct (v =? 0); auto.
  destruct (v =? 1) eqn:V1.
  { assert (P0 : p = 0) by (apply Z.eqb_eq in V1; rewrite <- D112, V1; reflexivity).
    rewrite P0. reflexivity. }
  rewrite orb_false_r.
  destruct (p / 2 ^ 8 =? 253); auto.
  destruct (p / 2 ^ 6 =? 1018); cbn [orb]; auto.
  destruct (existsb (fun x => p =? 0xFF02 + 16 * x) nibbles); auto.
  destruct (existsb (fun x => p =? 0xFF01 + 16 * x) nibbles); auto.
  destruct (p / 2 ^ 8 =? 255); auto.
  destruct (p =? 0x2001) eqn:P1; cbn [andb].
  - destruct (n =? 0x0DB8); auto. replace (p =? 0x3FFF) with false by (clear - P1; lia). reflexivity.
  - destruct (p =? 0x3FFF); cbn [andb]; auto.
Qed.

Lemma words6 b0 b1 b2 b3 b4 b5 b6 b7 b8 b9 b10 b11 b12 b13 b14 b15 v :
  is_byte b0 -> is_byte b1 -> is_byte b2 -> is_byte b3 ->
  is_byte b4 -> is_byte b5 -> is_byte b6 -> is_byte b7 ->
  is_byte b8 -> is_byte b9 -> is_byte b10 -> is_byte b11 ->
  is_byte b12 -> is_byte b13 -> is_byte b14 -> is_byte b15 ->
  v = num16 b0 b1 b2 b3 b4 b5 b6 b7 b8 b9 b10 b11 b12 b13 b14 b15 ->
  let l := [b0;b1;b2;b3;b4;b5;b6;b7;b8;b9;b10;b11;b12;b13;b14;b15] in
  (load32 l 0 =? 0) && (load32 l 1 =? 0) && (load32 l 2 =? 0) && (load32 l 3 =? 0) = (v =? 0)
  /\ (load32 l 0 =? 0) && (load32 l 1 =? 0) && (load32 l 2 =? 0)
     && (load16 l 6 =? 0) && (load16 l 7 =? 256) = (v =? 1)
  /\ bswap16 (load16 l 0) = b0 * 256 + b1
  /\ bswap16 (load16 l 1) = b2 * 256 + b3
  /\ v / 2 ^ 112 = b0 * 256 + b1
  /\ v / 2 ^ 96 = (b0 * 256 + b1) * 65536 + (b2 * 256 + b3).
Proof.
  unfold is_byte, num16. intros H0 H1 H2 H3 H4 H5 H6 H7 H8 H9 H10 H11 H12 H13 H14 H15 Ev.
  cbv zeta. unfold bswap16, load32, load16, at_. cbn [nth Nat.mul Nat.add].
  repeat split.
  - lia.
  - lia.
  - clear Ev. change (2 ^ 8) with 256. lia.
  - clear Ev. change (2 ^ 8) with 256. lia.
  - symmetry. apply (Z.div_unique v _ _ (v - (b0 * 256 + b1) * 2 ^ 112)); lia.
  - symmetry.
    apply (Z.div_unique v _ _ (v - ((b0 * 256 + b1) * 65536 + (b2 * 256 + b3)) * 2 ^ 96)); lia.
Qed.

Lemma network6 l : bytes16 l -> network_type6 l = net_lookup 128 (num l) table6.
Proof.
  intros Hb. destruct (bytes16_explicit l Hb) as
    (b0 & b1 & b2 & b3 & b4 & b5 & b6 & b7 & b8 & b9 & b10 & b11 & b12 & b13 & b14 & b15
     & E & H0 & H1 & H2 & H3 & H4 & H5 & H6 & H7 & H8 & H9 & H10 & H11 & H12 & H13 & H14 & H15).
  assert (Ev : num l = num16 b0 b1 b2 b3 b4 b5 b6 b7 b8 b9 b10 b11 b12 b13 b14 b15)
    by (rewrite E; apply num_explicit).
  destruct (words6 b0 b1 b2 b3 b4 b5 b6 b7 b8 b9 b10 b11 b12 b13 b14 b15 (num l)
     H0 H1 H2 H3 H4 H5 H6 H7 H8 H9 H10 H11 H12 H13 H14 H15 Ev)
    as (Any & Loop & Pre & Nxt & D1 & D2).
  rewrite <- E in *. unfold is_byte in *.
  rewrite <- (tree6_table (num l) (b0 * 256 + b1) (b2 * 256 + b3)); auto; try lia.
  unfold network_type6, tree6. change (bswap16 1) with 256.
  rewrite Any, Loop, Pre, Nxt. reflexivity.
Qed.

Lemma bswap32_le a b c d : 0 <= a < 256 -> 0 <= b < 256 -> 0 <= c < 256 -> 0 <= d < 256 ->
  bswap32 (a + 2 ^ 8 * b + 2 ^ 16 * c + 2 ^ 24 * d) = a * 2 ^ 24 + b * 2 ^ 16 + c * 2 ^ 8 + d.
Proof. intros. unfold bswap32. lia. Qed.

Lemma words4 b0 b1 b2 b3 b4 b5 b6 b7 b8 b9 b10 b11 b12 b13 b14 b15 v :
  is_byte b0 -> is_byte b1 -> is_byte b2 -> is_byte b3 ->
  is_byte b4 -> is_byte b5 -> is_byte b6 -> is_byte b7 ->
  is_byte b8 -> is_byte b9 -> is_byte b10 -> is_byte b11 ->
  is_byte b12 -> is_byte b13 -> is_byte b14 -> is_byte b15 ->
  v = num16 b0 b1 b2 b3 b4 b5 b6 b7 b8 b9 b10 b11 b12 b13 b14 b15 ->
  0xFFFF * 2 ^ 32 <= v < 0xFFFF * 2 ^ 32 + 2 ^ 32 ->
  bswap32 (load32 [b0;b1;b2;b3;b4;b5;b6;b7;b8;b9;b10;b11;b12;b13;b14;b15] 3)
  = v - 0xFFFF * 2 ^ 32.
Proof.
  unfold is_byte, num16. intros H0 H1 H2 H3 H4 H5 H6 H7 H8 H9 H10 H11 H12 H13 H14 H15 Ev H.
  unfold load32, at_. cbn [nth Nat.mul Nat.add].
  rewrite bswap32_le by assumption. lia.
Qed.

Lemma low32_value a : addr_wf a -> is_v4_value (value a) ->
  bswap32 (load32 (s6 a) 3) = value a - v4_base.
Proof.
  intros W H. unfold value in *.
  destruct (bytes16_explicit (s6 a) (wf_ip _ W)) as
    (b0 & b1 & b2 & b3 & b4 & b5 & b6 & b7 & b8 & b9 & b10 & b11 & b12 & b13 & b14 & b15
     & E & H0 & H1 & H2 & H3 & H4 & H5 & H6 & H7 & H8 & H9 & H10 & H11 & H12 & H13 & H14 & H15).
  rewrite E in H |- *.
  exact (words4 b0 b1 b2 b3 b4 b5 b6 b7 b8 b9 b10 b11 b12 b13 b14 b15 _
     H0 H1 H2 H3 H4 H5 H6 H7 H8 H9 H10 H11 H12 H13 H14 H15 (num_explicit _ _ _ _ _ _ _ _ _ _ _ _ _ _ _ _) H).
Qed.

Lemma network4 a : addr_wf a -> is_v4_value (value a) ->
  network_type4 (s6 a) = net_lookup 32 (value a - v4_base) table4.
Proof.
  intros W H. pose proof (low32_value a W H) as E. unfold network_type4.
  rewrite E. unfold is_v4_value in H. generalize dependent (value a). intros v E H.
  apply type4_table. lia.
Qed.

Lemma network_type_spec a : addr_wf a -> f_private_network a = NETWORK_TYPE_UNDEFINED ->
  snd (get_network_type a) = spec_network_type (value a).
Proof.
  intros W H. unfold get_network_type. rewrite H. cbn [snd].
  unfold spec_network_type. rewrite <- is_ipv4_bool by auto.
  destruct (is_ipv4 a) eqn:E.
  - apply network4; auto. now apply is_ipv4_value.
  - apply network6. apply (wf_ip _ W).
Qed.

Lemma spec_network_defined v : spec_network_type v <> NETWORK_TYPE_UNDEFINED.
Proof.
  assert (forall w t, Forall (fun e => snd e <> NETWORK_TYPE_UNDEFINED) t ->
    net_lookup w v t <> NETWORK_TYPE_UNDEFINED) as L.
  { intros w t. induction 1 as [|[[net n] ty] r H Hr IH]; cbn [net_lookup]; [discriminate|].
    destruct (in_net w net n v); auto. }
  assert (forall w v t, Forall (fun e => snd e <> NETWORK_TYPE_UNDEFINED) t ->
    net_lookup w v t <> NETWORK_TYPE_UNDEFINED) as L'.
  { intros w v' t. induction 1 as [|[[net n] ty] r H Hr IH]; cbn [net_lookup]; [discriminate|].
    destruct (in_net w net n v'); auto. }
  unfold spec_network_type.
  destruct (_ && _); apply L'; repeat constructor; discriminate.
Qed.

(* repeated queries agree; the query changes nothing observable but the memo *)
Lemma get_network_type_again a : addr_wf a ->
  snd (get_network_type (fst (get_network_type a))) = snd (get_network_type a).
Proof.
  intros W. unfold get_network_type at 2 3.
  destruct (f_private_network a) eqn:E; cbn [fst snd];
    try (unfold get_network_type; rewrite E; reflexivity).
  pose proof (network_type_spec a W E) as S. unfold get_network_type in S. rewrite E in S. cbn [snd] in S.
  unfold get_network_type. cbn [f_private_network with_private_network].
  rewrite S. pose proof (spec_network_defined (value a)).
  destruct (spec_network_type (value a)); auto; congruence.
Qed.

(* ---------- ports ---------- *)

Lemma set_port_spec a p : addr_wf a ->
  if (0 <=? p) && (p <=? 65535)
  then exists b, set_port a p = (b, Ok tt) /\ addr_wf b /\ get_port b = p
       /\ is_port_defined b = true /\ s6 b = s6 a /\ f_mask b = f_mask a
  else set_port a p = (a, Throw E_invalid_argument).
Proof.
  intros W. unfold set_port. destruct ((0 <=? p) && (p <=? 65535)) eqn:E.
  - replace ((p >? 65535) || (p <? 0)) with false by lia.
    eexists. split; [reflexivity|]. pose proof (bswap16_range p).
    split; [|split; [|split; [|split]]]; try reflexivity.
    + destruct W. constructor; cbn; auto.
    + unfold get_port. cbn. apply bswap16_invol. lia.
  - now replace ((p >? 65535) || (p <? 0)) with true by lia.
Qed.

Lemma get_port_range a : 0 <= get_port a <= 65535.
Proof. unfold get_port. pose proof (bswap16_range (sin6_port (f_address a))). lia. Qed.

Lemma set_port_wf a p b r : addr_wf a -> set_port a p = (b, r) -> addr_wf b.
Proof.
  intros W E. pose proof (set_port_spec a p W) as S.
  destruct ((0 <=? p) && (p <=? 65535)).
  - destruct S as (c & E' & Wc & _). congruence.
  - congruence.
Qed.

Lemma set_port_str_wf y a p b r : addr_wf a -> set_port_str y a p = (b, r) -> addr_wf b.
Proof.
  intros W. unfold set_port_str.
  destruct (convert_string y p) as [v|].
  - destruct (set_port a (s32 v)) as [a' r'] eqn:E. intros H; inversion H; subst.
    eapply set_port_wf; eauto.
  - destruct (get_protocol_name y a) as [n|e| |]; [|intros H; inversion H; now subst..].
    destruct (getservbyname y p n) as [sp| |]; [|intros H; inversion H; now subst..].
    destruct (set_port a (bswap16 sp)) as [a' r'] eqn:E. intros H; inversion H; subst.
    eapply set_port_wf; eauto.
Qed.

Lemma s32_id v : is_int v -> s32 v = v.
Proof. unfold is_int, INT_MIN, INT_MAX, s32. intros. lia. Qed.

(* numeric strings within int *)
Lemma set_port_str_int y a s v : addr_wf a -> convert_string y s = Some v -> is_int v ->
  if (0 <=? v) && (v <=? 65535)
  then exists b, set_port_str y a s = (b, Ok true) /\ get_port b = v /\ is_port_defined b = true
  else set_port_str y a s = (a, Throw E_invalid_argument).
Proof.
  intros W C I. unfold set_port_str. rewrite C, s32_id by auto.
  pose proof (set_port_spec a v W) as S. destruct ((0 <=? v) && (v <=? 65535)).
  - destruct S as (b & -> & ? & ? & ? & _). exists b. auto.
  - now rewrite S.
Qed.

Lemma set_port_str_service y a s sp proto : addr_wf a ->
  convert_string y s = None -> get_protocol_name y a = Ok proto ->
  getservbyname y s proto = Found sp ->
  exists b, set_port_str y a s = (b, Ok true) /\ get_port b = bswap16 sp /\ is_port_defined b = true.
Proof.
  intros W C P G. unfold set_port_str. rewrite C, P, G.
  pose proof (set_port_spec a (bswap16 sp) W) as S. pose proof (bswap16_range sp).
  replace ((0 <=? bswap16 sp) && (bswap16 sp <=? 65535)) with true in S by lia.
  destruct S as (b & -> & ? & ? & ? & _). exists b. auto.
Qed.

Lemma set_port_str_unknown y a s proto :
  convert_string y s = None -> get_protocol_name y a = Ok proto ->
  (forall sp, getservbyname y s proto <> Found sp) ->
  set_port_str y a s = (a, Ok false).
Proof.
  intros C P G. unfold set_port_str. rewrite C, P.
  destruct (getservbyname y s proto); auto. exfalso. now apply (G a0).
Qed.

(* ---------- protocol, reachable states ---------- *)

Lemma set_protocol_wf a p b r : addr_wf a -> set_protocol a p = (b, r) -> addr_wf b.
Proof.
  intros W. unfold set_protocol.
  destruct ((p =? IPPROTO_IP) || (p =? IPPROTO_TCP) || (p =? IPPROTO_UDP)) eqn:E.
  - assert (protocol_ok p) by (unfold protocol_ok; lia).
    destruct (negb (p =? f_protocol a)); intros H'; inversion H'; subst; auto.
    destruct W; constructor; auto.
  - intros H; inversion H; now subst.
Qed.

Lemma set_ipv4_wf a x b r : addr_wf a -> sockaddr_in_ok x -> set_ipv4 a x = (b, r) -> addr_wf b.
Proof.
  intros W (F & P & S). unfold set_ipv4. destruct (negb _).
  - intros H; inversion H; now subst.
  - intros H; inversion H; subst. destruct W. constructor; cbn [address_changed with_private_network with_address f_address sin6_family sin6_port sin6_flowinfo sin6_addr sin6_scope_id s6 f_mask f_protocol]; auto; try lia.
    unfold s6; cbn. apply v4_bytes_ok.
Qed.

Lemma set_ipv6_wf a x b r : addr_wf a -> sockaddr_in6_ok x -> set_ipv6 a x = (b, r) -> addr_wf b.
Proof.
  intros W (F & P & Fl & A & S). unfold set_ipv6. destruct (sin6_family x =? AF_INET6) eqn:E; cbn [negb].
  - intros H; inversion H; subst. apply Z.eqb_eq in E. destruct W. constructor; cbn; auto.
  - intros H; inversion H; now subst.
Qed.

Lemma with_protocol_wf a p : addr_wf a -> protocol_ok p -> addr_wf (with_protocol a p).
Proof. intros [] ?. constructor; auto. Qed.

Lemma set_from_socket_wf a s n t b r : addr_wf a -> opt_ok sockname_ok n ->
  set_from_socket a s n t = (b, r) -> addr_wf b.
Proof.
  intros W Hn. unfold set_from_socket.
  destruct (s <? 0); [intros H; inversion H; now subst|].
  destruct n as [n|]; [|intros H; inversion H; now subst].
  destruct (match n with SN_in _ => _ | SN_in6 _ => _ | SN_other => _ end) as [a1 r1] eqn:E1.
  assert (W1 : addr_wf a1).
  { destruct n as [x|x|]; cbn [opt_ok sockname_ok] in Hn.
    - eapply set_ipv4_wf; [exact W| |exact E1]. destruct Hn as (? & ? & ?).
      unfold sockaddr_in_ok, AF_INET; cbn [sin_family sin_port s_addr]. lia.
    - eapply set_ipv6_wf; [exact W| |exact E1]. destruct Hn as (? & ? & ? & ? & ?).
      unfold sockaddr_in6_ok, AF_INET6; cbn [sin6_family sin6_port sin6_flowinfo sin6_addr sin6_scope_id].
      split; [lia|auto].
    - inversion E1; now subst. }
  destruct r1 as [u|e| |]; [|intros H; inversion H; now subst..].
  destruct t as [t|]; [|intros H; inversion H; now subst].
  destruct (t =? SOCK_STREAM).
  { intros H; inversion H; subst. apply with_protocol_wf; auto. unfold protocol_ok; auto. }
  destruct (t =? SOCK_DGRAM); intros H; inversion H; subst; auto.
  apply with_protocol_wf; auto. unfold protocol_ok; auto.
Qed.

Lemma recvfrom_wf a s n t p4 p6 b r : addr_wf a -> opt_ok sockname_ok n ->
  opt_ok sockaddr_in_ok p4 -> opt_ok sockaddr_in6_ok p6 ->
  recvfrom a s n t p4 p6 = (b, r) -> addr_wf b.
Proof.
  intros W Hn H4 H6. unfold recvfrom.
  destruct (set_from_socket a s n t) as [a1 r1] eqn:E.
  pose proof (set_from_socket_wf _ _ _ _ _ _ W Hn E) as W1.
  destruct r1 as [u|e| |]; [|intros H; inversion H; now subst..].
  destruct (negb _); [intros H; inversion H; now subst|].
  destruct (is_ipv4 a1).
  - destruct p4 as [p|]; [|intros H; inversion H; now subst]. now apply set_ipv4_wf.
  - destruct p6 as [p|]; [|intros H; inversion H; now subst]. now apply set_ipv6_wf.
Qed.

Lemma moved_wf a n b : moved a n b -> addr_wf b.
Proof. now intros [? _]. Qed.

Lemma step_wf y a op b r : addr_wf a -> addr_op_ok op ->
  addr_step y a op = (b, r) -> addr_wf b.
Proof.
  intros W Hop. destruct op; cbn [addr_op_ok addr_step] in *;
    try (intros H; inversion H; subst; destruct W; constructor; assumption).
  - now apply set_ipv4_wf.
  - apply set_ipv4_wf; auto. destruct W. pose proof (bswap32_range (127 * 2 ^ 24 + 1)).
    unfold sockaddr_in_ok, AF_INET; cbn [sin_family sin_port s_addr]. lia.
  - now apply set_ipv6_wf.
  - apply set_ipv6_wf; auto. destruct W.
    unfold sockaddr_in6_ok, AF_INET6; cbn [sin6_family sin6_port sin6_flowinfo sin6_addr sin6_scope_id].
    split; [lia|]. split; [auto|]. split; [lia|]. split; [|lia].
    split; [reflexivity|]. cbn. repeat constructor; unfold is_byte; lia.
  - now apply set_port_wf.
  - unfold drop_result. destruct (set_port_str y a p) as [a' r'] eqn:E. cbn.
    intros H; inversion H; subst. eapply set_port_str_wf; eauto.
  - now apply set_protocol_wf.
  - unfold set_protocol_str. destruct p as [s|]; [|intros H; inversion H; now subst].
    destruct (getprotobyname y s); [now apply set_protocol_wf|intros H; inversion H; now subst..].
  - pose proof (set_mask_count_spec a n W) as S. cbn zeta in S.
    destruct ((_ <=? n) && (n <=? 128)).
    + destruct S as (c & E & Wc & _). intros. congruence.
    + intros. congruence.
  - intros H; inversion H; subst. destruct inversed; [now apply apply_mask_true|now apply apply_mask_false].
  - intros H; inversion H; subst. now apply ip_from_wf.
  - intros H; inversion H; subst. unfold get_network_type.
    destruct (f_private_network a); cbn [fst]; auto. destruct W; constructor; assumption.
  - intros H; inversion H; subst. eapply moved_wf, incr_moved; auto.
  - intros H; inversion H; subst. eapply moved_wf, decr_moved; auto.
  - unfold add_assign. destruct (n <? 0) eqn:E.
    + unfold neg_int. destruct (n =? INT_MIN) eqn:M; intros H; inversion H; subst; auto.
      eapply moved_wf, moved_sub; auto. unfold u32. lia.
    + intros H; inversion H; subst. eapply moved_wf, moved_add; auto. lia.
  - unfold sub_assign. destruct (n <? 0) eqn:E.
    + unfold neg_int. destruct (n =? INT_MIN) eqn:M; intros H; inversion H; subst; auto.
      eapply moved_wf, moved_add; auto. unfold u32. lia.
    + intros H; inversion H; subst. eapply moved_wf, moved_sub; auto. lia.
  - now apply set_from_socket_wf.
  - destruct Hop as (? & ? & ?). now apply recvfrom_wf.
Qed.

Lemma new_wf : addr_wf addr_new.
Proof.
  constructor; cbn; try lia; try (repeat split; cbn; try reflexivity; repeat constructor; unfold is_byte; lia).
Qed.

Lemma reachable_wf y a : reachable y a -> addr_wf a.
Proof. induction 1; [apply new_wf|eapply step_wf; eauto]. Qed.

(* every operation which replaces the address forgets the memo *)
Lemma set_ipv4_memo a x b : set_ipv4 a x = (b, Ok tt) -> f_private_network b = NETWORK_TYPE_UNDEFINED.
Proof. unfold set_ipv4. destruct (negb _); intros H; inversion H; subst; reflexivity. Qed.
Lemma set_ipv6_memo a x b : set_ipv6 a x = (b, Ok tt) -> f_private_network b = NETWORK_TYPE_UNDEFINED.
Proof. unfold set_ipv6. destruct (negb _); intros H; inversion H; subst; reflexivity. Qed.
