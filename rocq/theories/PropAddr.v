(* Properties C01-C19 of the addr class. *)
From Verif Require Import Base Addr Spec.
From Verif Require AddrProofs AddrProofs2 AddrProofs3 AddrProofs4.
From Coq Require Import ZifyBool.
Import AddrProofs AddrProofs2 AddrProofs3 AddrProofs4.
Local Open Scope Z_scope.
Ltac Zify.zify_post_hook ::= Z.div_mod_to_equations.

(* Witnesses: 192.168.3.17 port 443 with a /24 mask and 2001:db8::1:ffff. *)
Definition w4 : addr :=
  set_mask (fst (set_port (fst (set_ipv4 addr_new
    (mk_in AF_INET 0 (bswap32 (quad 192 168 3 17))))) 443))
    [255;255;255;255;255;255;255;255;255;255;255;255;255;255;255;0].
Definition w6 : addr :=
  fst (set_ipv6 addr_new (mk_in6 AF_INET6 (bswap16 53) 7
    [32;1;13;184;0;0;0;0;0;0;0;0;0;1;255;255] 3)).
Lemma w4_wf : addr_wf w4. Proof. now apply addr_wfb_ok. Qed.
Lemma w6_wf : addr_wf w6. Proof. now apply addr_wfb_ok. Qed.

(* ---------- C01 ---------- *)
Theorem C01_to_uint128_is_the_value : forall a, addr_wf a -> ip_to_uint128 a = value a.
Proof. exact ip_to_uint128_value. Qed.
Print Assumptions C01_to_uint128_is_the_value.

Theorem C01_from_then_to : forall a u, addr_wf a -> 0 <= u < 2 ^ 128 ->
  addr_wf (ip_from_uint128 a u)
  /\ value (ip_from_uint128 a u) = u
  /\ ip_to_uint128 (ip_from_uint128 a u) = u
  /\ same_but_ip a (ip_from_uint128 a u).
Proof.
  intros a u W H. pose proof (ip_from_wf a u W H) as W'.
  split; auto. rewrite ip_to_uint128_value by auto.
  split; [now apply ip_from_spec|]. split; [now apply ip_from_spec|apply ip_from_same].
Qed.
Print Assumptions C01_from_then_to.

Theorem C01_to_then_from : forall a, addr_wf a -> ip_from_uint128 a (ip_to_uint128 a) = a.
Proof. exact codec_roundtrip. Qed.
Print Assumptions C01_to_then_from.

Example C01_witness : addr_wf w6 /\ ip_to_uint128 w6 = 0x20010db800000000000000000001ffff
  /\ 0 <= 0x0123456789abcdef0123456789abcdef < 2 ^ 128
  /\ s6 (ip_from_uint128 w4 0x0123456789abcdef0123456789abcdef)
     = [1;35;69;103;137;171;205;239;1;35;69;103;137;171;205;239].
Proof. split; [apply w6_wf|]. vm_compute. repeat split; congruence. Qed.

(* ---------- C02 ---------- *)
Theorem C02_comparisons_are_the_numeric_order : forall a b, addr_wf a -> addr_wf b ->
  (eq_ a b = true <-> value a = value b)
  /\ (ne_ a b = true <-> value a <> value b)
  /\ (lt_ a b = true <-> value a < value b)
  /\ (le_ a b = true <-> value a <= value b)
  /\ (gt_ a b = true <-> value a > value b)
  /\ (ge_ a b = true <-> value a >= value b).
Proof.
  intros a b Wa Wb.
  rewrite eq_value, ne_value, lt_value, le_value, gt_value, ge_value by auto. lia.
Qed.
Print Assumptions C02_comparisons_are_the_numeric_order.

(* Equal addresses have the same 16 bytes, whatever the other fields are, and
   the order looks at nothing but the address bytes. *)
Theorem C02_equality_is_byte_equality : forall a b, addr_wf a -> addr_wf b ->
  (eq_ a b = true <-> s6 a = s6 b).
Proof.
  intros a b Wa Wb. rewrite eq_value by auto. split; intros H.
  - apply value_inj; auto. lia.
  - unfold value. rewrite H. lia.
Qed.
Print Assumptions C02_equality_is_byte_equality.

Theorem C02_other_fields_ignored : forall a a' b b', s6 a = s6 a' -> s6 b = s6 b' ->
  eq_ a b = eq_ a' b' /\ ne_ a b = ne_ a' b' /\ lt_ a b = lt_ a' b'
  /\ le_ a b = le_ a' b' /\ gt_ a b = gt_ a' b' /\ ge_ a b = ge_ a' b'.
Proof.
  intros a a' b b' E F. unfold eq_, ne_, lt_, le_, gt_, ge_. rewrite E, F. repeat split.
Qed.
Print Assumptions C02_other_fields_ignored.

Example C02_witness : addr_wf w4 /\ addr_wf w6 /\ value w4 < value w6
  /\ lt_ w4 w6 = true /\ ge_ w4 w6 = false /\ s6 w4 = s6 (set_hostname w4 (lit "x")).
Proof. split; [apply w4_wf|split; [apply w6_wf|]]. vm_compute. repeat split. Qed.

(* ---------- C03 ---------- *)
Theorem C03_offsets_saturate : forall a, addr_wf a ->
  moved a 1 (incr a) /\ moved a (-1) (decr a)
  /\ forall n, is_int n -> n <> INT_MIN ->
       (exists b, add_int a n = Ok b /\ moved a n b)
       /\ (exists b, sub_int a n = Ok b /\ moved a (- n) b)
       /\ (exists b, add_assign a n = (b, Ok tt) /\ moved a n b)
       /\ (exists b, sub_assign a n = (b, Ok tt) /\ moved a (- n) b).
Proof.
  intros a W. split; [now apply incr_moved|]. split; [now apply decr_moved|].
  intros n I N. repeat split; auto using add_int_moved, sub_int_moved, add_assign_moved, sub_assign_moved.
Qed.
Print Assumptions C03_offsets_saturate.

Theorem C03_int_min_is_undefined : forall a,
  add_int a INT_MIN = UB /\ sub_int a INT_MIN = UB
  /\ snd (add_assign a INT_MIN) = UB /\ snd (sub_assign a INT_MIN) = UB.
Proof. intros. repeat split. Qed.
Print Assumptions C03_int_min_is_undefined.

Example C03_witness : addr_wf w4 /\ is_int (-5) /\ -5 <> INT_MIN
  /\ exists b, add_int w4 (-5) = Ok b /\ value b = v4_base + quad 192 168 3 12.
Proof.
  split; [apply w4_wf|]. split; [unfold is_int, INT_MIN, INT_MAX; lia|].
  split; [unfold INT_MIN; lia|]. eexists. split; [reflexivity|]. vm_compute. reflexivity.
Qed.
Example C03_witness_clamped :
  value (decr addr_new) = 0 /\ value (incr (ip_from_uint128 w6 LAST)) = LAST.
Proof. vm_compute. auto. Qed.

(* ---------- C04 ---------- *)
Theorem C04_difference : forall a b, addr_wf a -> addr_wf b ->
  (- 2 ^ 127 <= value a - value b < 2 ^ 127 -> sub_addr a b = value a - value b)
  /\ - 2 ^ 127 <= sub_addr a b < 2 ^ 127
  /\ (sub_addr a b) mod 2 ^ 128 = (value a - value b) mod 2 ^ 128.
Proof.
  intros a b Wa Wb. split; [now apply sub_addr_exact|now apply sub_addr_mod].
Qed.
Print Assumptions C04_difference.

Theorem C04_add_back : forall a b, addr_wf a -> addr_wf b ->
  INT_MIN < value a - value b <= INT_MAX ->
  exists c, add_int b (sub_addr a b) = Ok c /\ eq_ c a = true.
Proof.
  intros a b Wa Wb H. unfold INT_MIN, INT_MAX in H.
  rewrite sub_addr_exact by (auto; lia).
  destruct (add_int_moved b (value a - value b) Wb) as (c & E & Wc & _ & V).
  - unfold is_int, INT_MIN, INT_MAX. lia.
  - unfold INT_MIN. lia.
  - exists c. split; auto. rewrite eq_value by auto. rewrite V.
    pose proof (value_range _ Wa). unfold clamp, LAST. lia.
Qed.
Print Assumptions C04_add_back.

Example C04_witness : addr_wf w4 /\ addr_wf (ip_from_uint128 w4 (v4_base + quad 192 168 4 1))
  /\ sub_addr w4 (ip_from_uint128 w4 (v4_base + quad 192 168 4 1)) = -240.
Proof. split; [apply w4_wf|]. split; [now apply addr_wfb_ok|]. vm_compute. reflexivity. Qed.

(* ---------- C05 ---------- *)
Theorem C05_adjacency : forall a b, addr_wf a -> addr_wf b ->
  (is_next a b = true <-> value b = value a + 1)
  /\ (is_previous a b = true <-> value b = value a - 1)
  /\ is_next a b = is_previous b a.
Proof.
  intros a b Wa Wb. pose proof (is_next_value a b Wa Wb). pose proof (is_previous_value a b Wa Wb).
  pose proof (is_previous_value b a Wb Wa).
  split; auto. split; auto. destruct (is_next a b), (is_previous b a); lia.
Qed.
Print Assumptions C05_adjacency.

Theorem C05_ends : forall a b, addr_wf a -> addr_wf b ->
  (value a = LAST -> is_next a b = false) /\ (value a = 0 -> is_previous a b = false).
Proof.
  intros a b Wa Wb. pose proof (is_next_value a b Wa Wb). pose proof (is_previous_value a b Wa Wb).
  pose proof (value_range _ Wb). unfold LAST. split; intros; [destruct (is_next a b)|destruct (is_previous a b)]; lia.
Qed.
Print Assumptions C05_ends.

Example C05_witness : addr_wf w4 /\ addr_wf (incr w4) /\ is_next w4 (incr w4) = true
  /\ is_previous w4 (incr w4) = false /\ value (ip_from_uint128 w4 LAST) = LAST.
Proof. split; [apply w4_wf|]. split; [now apply addr_wfb_ok|]. vm_compute. auto. Qed.

(* ---------- C06 ---------- *)
Theorem C06_set_get_ipv4 : forall a x, addr_wf a -> sockaddr_in_ok x -> sin_family x = AF_INET ->
  exists b, set_ipv4 a x = (b, Ok tt) /\ addr_wf b
    /\ is_ipv4 b = true /\ get_family b = AF_INET
    /\ get_ipv4 b = Ok x
    /\ value b = v4_base + bswap32 (s_addr x).
Proof.
  intros a x W S F. destruct (set_ipv4_spec a x W S F) as (b & E & Wb & V & G).
  exists b. assert (I : is_ipv4 b = true).
  { unfold get_ipv4 in G. destruct (is_ipv4 b); congruence. }
  unfold get_family. rewrite I. auto 10.
Qed.
Print Assumptions C06_set_get_ipv4.

Theorem C06_get_ipv4_domain : forall a, addr_wf a ->
  (is_v4_value (value a) -> is_ipv4 a = true /\ exists x, get_ipv4 a = Ok x
     /\ sin_family x = AF_INET /\ bswap16 (sin_port x) = get_port a
     /\ v4_base + bswap32 (s_addr x) = value a)
  /\ (~ is_v4_value (value a) -> is_ipv4 a = false /\ get_ipv4 a = Throw E_invalid_state).
Proof.
  intros a W. pose proof (is_ipv4_value a W) as I. unfold get_ipv4. split; intros H.
  - replace (is_ipv4 a) with true by (symmetry; tauto). split; auto. eexists. split; [reflexivity|].
    cbn [sin_family sin_port s_addr]. rewrite low32_value by auto. repeat split; auto. lia.
  - destruct (is_ipv4 a); [tauto|auto].
Qed.
Print Assumptions C06_get_ipv4_domain.

Theorem C06_injective : forall a x y bx by_, addr_wf a ->
  sockaddr_in_ok x -> sockaddr_in_ok y ->
  set_ipv4 a x = (bx, Ok tt) -> set_ipv4 a y = (by_, Ok tt) ->
  eq_ bx by_ = true -> s_addr x = s_addr y.
Proof.
  intros a x y bx by_ W Sx Sy Ex Ey E.
  assert (F : forall z b, set_ipv4 a z = (b, Ok tt) -> sin_family z = AF_INET).
  { unfold set_ipv4. intros z b. destruct (sin_family z =? AF_INET) eqn:F; cbn [negb]; [lia|discriminate]. }
  destruct (set_ipv4_spec a x W Sx (F _ _ Ex)) as (b1 & E1 & W1 & V1 & _).
  destruct (set_ipv4_spec a y W Sy (F _ _ Ey)) as (b2 & E2 & W2 & V2 & _).
  assert (b1 = bx) by congruence. assert (b2 = by_) by congruence. subst.
  rewrite eq_value in E by auto. rewrite V1, V2 in E.
  destruct Sx as (_ & _ & Rx). destruct Sy as (_ & _ & Ry).
  assert (B : bswap32 (s_addr x) = bswap32 (s_addr y)) by lia.
  rewrite <- (load32_v4_bytes _ Rx), <- (load32_v4_bytes _ Ry). f_equal.
  apply num_inj; try apply v4_bytes_ok; auto.
  rewrite !v4_bytes_num by auto. lia.
Qed.
Print Assumptions C06_injective.

Theorem C06_other_family_rejected : forall a x, sin_family x <> AF_INET ->
  set_ipv4 a x = (a, Throw E_invalid_argument).
Proof.
  intros a x H. unfold set_ipv4. now replace (sin_family x =? AF_INET) with false by lia.
Qed.
Print Assumptions C06_other_family_rejected.

Example C06_witness : addr_wf w6 /\ sockaddr_in_ok (mk_in AF_INET (bswap16 80) (bswap32 (quad 1 2 3 4)))
  /\ value (fst (set_ipv4 w6 (mk_in AF_INET (bswap16 80) (bswap32 (quad 1 2 3 4)))))
     = v4_base + quad 1 2 3 4.
Proof.
  split; [apply w6_wf|]. split; [|vm_compute; reflexivity].
  unfold sockaddr_in_ok. vm_compute. repeat split; congruence.
Qed.

(* ---------- C07 ---------- *)
Theorem C07_set_get_ipv6 : forall a x, addr_wf a -> sockaddr_in6_ok x ->
  (sin6_family x = AF_INET6 ->
     exists b, set_ipv6 a x = (b, Ok tt) /\ addr_wf b /\ get_ipv6 b = x
       /\ get_port b = bswap16 (sin6_port x) /\ f_mask b = f_mask a
       /\ get_protocol b = get_protocol a)
  /\ (sin6_family x <> AF_INET6 -> set_ipv6 a x = (a, Throw E_invalid_argument)).
Proof.
  intros a x W S. split; intros F.
  - unfold set_ipv6. rewrite F, Z.eqb_refl. cbn [negb]. eexists. split; [reflexivity|].
    split; [|repeat split].
    eapply (set_ipv6_wf a x _ (Ok tt)); eauto. unfold set_ipv6. now rewrite F.
  - unfold set_ipv6. now replace (sin6_family x =? AF_INET6) with false by lia.
Qed.
Print Assumptions C07_set_get_ipv6.

Example C07_witness : addr_wf w4 /\ sockaddr_in6_ok (get_ipv6 w6)
  /\ get_ipv6 (fst (set_ipv6 w4 (get_ipv6 w6))) = get_ipv6 w6.
Proof.
  split; [apply w4_wf|]. split; [|reflexivity]. destruct w6_wf.
  unfold get_ipv6, sockaddr_in6_ok. split; [rewrite wf_family; vm_compute; split; congruence|auto].
Qed.

(* ---------- C08 ---------- *)
Theorem C08_mask_count_round_trip : forall a n, addr_wf a ->
  ((if is_ipv4 a then 96 else 0) <= n <= 128 ->
     exists b, set_mask_count a n = (b, Ok tt) /\ addr_wf b
       /\ mask_value b = prefix_mask n /\ get_mask_size b = n
       /\ is_mask_defined b = true /\ get_ipv6 b = get_ipv6 a)
  /\ (~ ((if is_ipv4 a then 96 else 0) <= n <= 128) ->
      set_mask_count a n = (a, Throw E_out_of_range)).
Proof.
  intros a n W. pose proof (set_mask_count_spec a n W) as S. cbv zeta in S.
  split; intros H.
  - destruct (_ && _) eqn:E in S; [exact S|lia].
  - destruct (_ && _) eqn:E in S; [lia|exact S].
Qed.
Print Assumptions C08_mask_count_round_trip.

Example C08_witness : addr_wf w4 /\ addr_wf w6
  /\ f_mask (fst (set_mask_count w6 53)) = [255;255;255;255;255;255;248;0;0;0;0;0;0;0;0;0]
  /\ snd (set_mask_count w4 95) = Throw E_out_of_range
  /\ get_mask_size (fst (set_mask_count w4 117)) = 117.
Proof. split; [apply w4_wf|split; [apply w6_wf|]]. vm_compute. auto. Qed.

(* ---------- C09 ---------- *)
Theorem C09_mask_size_characterisation : forall a, addr_wf a ->
  (forall n, 0 <= n -> (get_mask_size a = n <-> n <= 128 /\ mask_value a = prefix_mask n))
  /\ (get_mask_size a = -1 <-> forall n, 0 <= n <= 128 -> mask_value a <> prefix_mask n)
  /\ -1 <= get_mask_size a <= 128.
Proof.
  intros a W. split; [|split].
  - intros n H. now apply get_mask_size_iff.
  - now apply get_mask_size_minus1.
  - destruct (get_mask_size_spec a W) as [(n & H & _ & ->)|[_ ->]]; lia.
Qed.
Print Assumptions C09_mask_size_characterisation.

Example C09_witness : addr_wf w4 /\ get_mask_size w4 = 120
  /\ addr_wf (set_mask w4 [255;0;255;0;0;0;0;0;0;0;0;0;0;0;0;0])
  /\ get_mask_size (set_mask w4 [255;0;255;0;0;0;0;0;0;0;0;0;0;0;0;0]) = -1.
Proof. split; [apply w4_wf|]. split; [reflexivity|]. split; [now apply addr_wfb_ok|reflexivity]. Qed.

(* ---------- C10 ---------- *)
Theorem C10_apply_mask_bits : forall a, addr_wf a ->
  let net := apply_mask a false in let brd := apply_mask a true in
  addr_wf net /\ addr_wf brd /\ same_but_ip a net /\ same_but_ip a brd
  /\ forall i, 0 <= i < 128 ->
       Z.testbit (value net) i = (Z.testbit (value a) i && Z.testbit (mask_value a) i)
       /\ Z.testbit (value brd) i = (Z.testbit (value a) i || negb (Z.testbit (mask_value a) i)).
Proof.
  intros a W net brd. destruct (apply_mask_false a W) as [W1 V1].
  destruct (apply_mask_true a W) as [W2 V2].
  split; auto. split; auto. split; [apply apply_mask_same|]. split; [apply apply_mask_same|].
  intros i Hi. unfold net, brd. rewrite V1, V2, Z.land_spec, Z.lor_spec, testbit_LAST_minus; auto.
  now apply mask_value_range.
Qed.
Print Assumptions C10_apply_mask_bits.

Theorem C10_apply_mask_idempotent : forall a i, addr_wf a ->
  apply_mask (apply_mask a i) i = apply_mask a i.
Proof.
  intros a i W. symmetry. apply same_ext; [apply apply_mask_same|].
  destruct i.
  - destruct (apply_mask_true a W) as [W1 V1]. destruct (apply_mask_true _ W1) as [W2 V2].
    apply value_inj; auto. rewrite V2, V1.
    change (mask_value (apply_mask a true)) with (mask_value a).
    rewrite <- Z.lor_assoc, Z.lor_diag. reflexivity.
  - destruct (apply_mask_false a W) as [W1 V1]. destruct (apply_mask_false _ W1) as [W2 V2].
    apply value_inj; auto. rewrite V2, V1.
    change (mask_value (apply_mask a false)) with (mask_value a).
    rewrite <- Z.land_assoc, Z.land_diag. reflexivity.
Qed.
Print Assumptions C10_apply_mask_idempotent.

Theorem C10_apply_mask_block : forall a n, addr_wf a -> 0 <= n <= 128 -> get_mask_size a = n ->
  value (apply_mask a false) = block_first n (value a)
  /\ value (apply_mask a true) = block_last n (value a)
  /\ block_first n (value a) <= value a <= block_last n (value a).
Proof.
  intros a n W H S. apply get_mask_size_iff in S; [|auto|lia]. destruct S as [_ S].
  destruct (apply_mask_false a W) as [_ ->]. destruct (apply_mask_true a W) as [_ ->].
  pose proof (value_range a W). rewrite S.
  split; [now apply land_prefix|]. split; [now apply lor_prefix|].
  unfold block_last, block_first, block_size. assert (0 < 2 ^ (128 - n)) by lia.
  pose proof (Z.div_mod (value a) (2 ^ (128 - n)) ltac:(lia)).
  pose proof (Z.mod_pos_bound (value a) (2 ^ (128 - n)) ltac:(lia)). nia.
Qed.
Print Assumptions C10_apply_mask_block.

Example C10_witness : addr_wf w4 /\ get_mask_size w4 = 120
  /\ value (apply_mask w4 false) = v4_base + quad 192 168 3 0
  /\ value (apply_mask w4 true) = v4_base + quad 192 168 3 255.
Proof. split; [apply w4_wf|]. vm_compute. auto. Qed.

(* ---------- C11 ---------- *)
Theorem C11_match_bits : forall net ip, addr_wf net -> addr_wf ip ->
  (match_ net ip false = true <->
   forall i, 0 <= i < 128 -> Z.testbit (mask_value net) i = true ->
     Z.testbit (value net) i = Z.testbit (value ip) i).
Proof. exact match_bits. Qed.
Print Assumptions C11_match_bits.

Theorem C11_match_block : forall net ip n, addr_wf net -> addr_wf ip ->
  0 <= n <= 128 -> get_mask_size net = n ->
  (match_ net ip false = true
   <-> block_first n (value net) <= value ip <= block_last n (value net)).
Proof.
  intros net ip n Wn Wi H S. apply get_mask_size_iff in S; [|auto|lia].
  apply match_block; tauto.
Qed.
Print Assumptions C11_match_block.

Theorem C11_match_any : forall net ip, addr_wf net -> addr_wf ip ->
  (match_ net ip true = true
   <-> value net = 0 \/ value net = v4_base \/ match_ net ip false = true).
Proof.
  intros net ip Wn Wi. rewrite match_any by auto. rewrite orb_true_iff, is_default_value by auto. tauto.
Qed.
Print Assumptions C11_match_any.

Example C11_witness : addr_wf w4 /\ get_mask_size w4 = 120
  /\ match_ w4 (ip_from_uint128 w4 (v4_base + quad 192 168 3 200)) false = true
  /\ match_ w4 (ip_from_uint128 w4 (v4_base + quad 192 168 4 200)) false = false
  /\ match_ addr_new w6 false = false /\ match_ addr_new w6 true = true.
Proof. split; [apply w4_wf|]. vm_compute. auto 10. Qed.

(* ---------- C12 ---------- *)
Theorem C12_network_type_table : forall a, addr_wf a ->
  f_private_network a = NETWORK_TYPE_UNDEFINED ->
  snd (get_network_type a) = spec_network_type (value a)
  /\ snd (get_network_type a) <> NETWORK_TYPE_UNDEFINED.
Proof.
  intros a W H. rewrite (network_type_spec a W H). split; auto. apply spec_network_defined.
Qed.
Print Assumptions C12_network_type_table.

(* The memo is forgotten whenever an address is set, so the hypothesis of
   C12_network_type_table holds after set_ipv4() and set_ipv6(); asking twice
   gives the same answer. *)
Theorem C12_applies_after_setters : forall a x y b c,
  (set_ipv4 a x = (b, Ok tt) -> f_private_network b = NETWORK_TYPE_UNDEFINED)
  /\ (set_ipv6 a y = (c, Ok tt) -> f_private_network c = NETWORK_TYPE_UNDEFINED).
Proof. intros. split; [apply set_ipv4_memo|apply set_ipv6_memo]. Qed.
Print Assumptions C12_applies_after_setters.

Theorem C12_query_twice : forall a, addr_wf a ->
  snd (get_network_type (fst (get_network_type a))) = snd (get_network_type a).
Proof. exact get_network_type_again. Qed.
Print Assumptions C12_query_twice.

Example C12_witness : addr_wf w4 /\ f_private_network w4 = NETWORK_TYPE_UNDEFINED
  /\ snd (get_network_type w4) = NETWORK_TYPE_PRIVATE
  /\ snd (get_network_type w6) = NETWORK_TYPE_DOCUMENTATION
  /\ spec_network_type (v4_base + quad 100 127 255 255) = NETWORK_TYPE_CARRIER
  /\ spec_network_type (v4_base + quad 100 128 0 0) = NETWORK_TYPE_PUBLIC
  /\ spec_network_type (group0 0xFF32) = NETWORK_TYPE_LINK_LOCAL.
Proof. split; [apply w4_wf|]. vm_compute. auto 10. Qed.

(* ---------- C13 ---------- *)
(* False of the code: apply_mask(), ip_from_uint128(), ++, --, += and -= keep
   the remembered type of the previous address. *)
Theorem C13_type_is_current_refuted : forall y, exists a,
  reachable y a /\ snd (get_network_type a) <> spec_network_type (value a).
Proof.
  intros y. exists stale_3. split; [apply stale_reachable|].
  destruct stale_wrong as (-> & -> & _). discriminate.
Qed.
Print Assumptions C13_type_is_current_refuted.

Theorem C13_type_is_current_partial : forall y a,
  reachable_without_in_place y a -> snd (get_network_type a) = spec_network_type (value a).
Proof. exact type_current. Qed.
Print Assumptions C13_type_is_current_partial.

Example C13_witness : forall y, reachable_without_in_place y
    (fst (get_network_type (fst (set_ipv4_loopback addr_new)))).
Proof.
  intros y.
  eapply (rwip_step y _ Op_get_network_type _ (Ok tt)); [|exact I|reflexivity|reflexivity|discriminate].
  eapply (rwip_step y _ Op_set_ipv4_loopback _ (Ok tt)); [constructor|exact I|reflexivity|reflexivity|discriminate].
Qed.

(* ---------- C14 ---------- *)
Theorem C14_port_round_trip : forall a p, addr_wf a ->
  (0 <= p <= 65535 -> exists b, set_port a p = (b, Ok tt) /\ addr_wf b /\ get_port b = p
     /\ is_port_defined b = true /\ s6 b = s6 a /\ get_mask b = get_mask a
     /\ sin6_flowinfo (get_ipv6 b) = sin6_flowinfo (get_ipv6 a)
     /\ sin6_scope_id (get_ipv6 b) = sin6_scope_id (get_ipv6 a)
     /\ get_protocol b = get_protocol a /\ f_private_network b = f_private_network a
     /\ is_mask_defined b = is_mask_defined a /\ is_protocol_defined b = is_protocol_defined a
     /\ f_interface b = f_interface a /\ f_hostname b = f_hostname a)
  /\ (~ 0 <= p <= 65535 -> set_port a p = (a, Throw E_invalid_argument))
  /\ 0 <= get_port a <= 65535.
Proof.
  intros a p W. pose proof (set_port_spec a p W) as S.
  split; [|split; [|apply get_port_range]]; intros H.
  - destruct (_ && _) eqn:E in S; [|lia]. destruct S as (b & Eb & Wb & G & D & _).
    exists b. split; auto. split; auto. split; auto. split; auto.
    unfold set_port in Eb. destruct (_ || _) in Eb; inversion Eb; subst. repeat split.
  - destruct (_ && _) eqn:E in S; [lia|exact S].
Qed.
Print Assumptions C14_port_round_trip.

Example C14_witness : addr_wf w6 /\ get_port (fst (set_port w6 65535)) = 65535
  /\ get_port w6 = 53 /\ is_port_defined w6 = false /\ snd (set_port w6 65536) = Throw E_invalid_argument.
Proof. split; [apply w6_wf|]. vm_compute. auto. Qed.

(* ---------- C15 ---------- *)
(* False of the code: the 64 bit value is narrowed to int first, so 2^32 + 80
   is accepted as port 80. *)
Theorem C15_numeric_port_string_refuted : forall y, converts_decimals y ->
  exists s v a b, decimal s v /\ ~ 0 <= v <= 65535 /\ addr_wf a
    /\ set_port_str y a s = (b, Ok true) /\ get_port b = 80.
Proof.
  intros y C. exists (lit "4294967376"), 4294967376, addr_new.
  assert (D : decimal (lit "4294967376") 4294967376).
  { split; [discriminate|]. split; vm_compute; reflexivity. }
  eexists. split; [exact D|]. split; [lia|]. split; [apply new_wf|].
  unfold set_port_str. rewrite (C _ _ D) by lia.
  change (s32 4294967376) with 80. split; reflexivity.
Qed.
Print Assumptions C15_numeric_port_string_refuted.

(* Missing: decimal strings whose value is above INT_MAX. *)
Theorem C15_numeric_port_string_partial : forall y a s v, converts_decimals y -> addr_wf a ->
  decimal s v -> v <= INT_MAX ->
  (0 <= v <= 65535 -> exists b, set_port_str y a s = (b, Ok true)
     /\ get_port b = v /\ is_port_defined b = true)
  /\ (65535 < v -> set_port_str y a s = (a, Throw E_invalid_argument)).
Proof.
  intros y a s v C W D H. unfold INT_MAX in H.
  assert (V0 : 0 <= v).
  { destruct D as (_ & D & <-). unfold decimal_value.
    assert (G : forall l acc, forallb is_digit l = true -> 0 <= acc ->
      0 <= fold_left (fun v c => v * 10 + (c - 48)) l acc).
    { induction l as [|c r IH]; intros acc F A; cbn [fold_left]; auto.
      cbn [forallb] in F. apply andb_true_iff in F. destruct F as [F1 F2].
      apply IH; auto. unfold is_digit in F1. lia. }
    apply G; auto. lia. }
  pose proof (set_port_str_int y a s v W (C s v D ltac:(lia)) ltac:(unfold is_int, INT_MIN, INT_MAX; lia)) as S.
  split; intros R; destruct (_ && _) eqn:E in S; try lia; exact S.
Qed.
Print Assumptions C15_numeric_port_string_partial.

(* Names: a known service gives its port, an unknown one changes nothing. *)
Theorem C15_service_names : forall y a s proto, addr_wf a ->
  convert_string y s = None -> get_protocol_name y a = Ok proto ->
  (forall sp, getservbyname y s proto = Found sp ->
     exists b, set_port_str y a s = (b, Ok true) /\ get_port b = bswap16 sp
       /\ is_port_defined b = true)
  /\ ((forall sp, getservbyname y s proto <> Found sp) -> set_port_str y a s = (a, Ok false)).
Proof.
  intros y a s proto W C P. split.
  - intros sp G. eapply set_port_str_service; eauto.
  - intros G. eapply set_port_str_unknown; eauto.
Qed.
Print Assumptions C15_service_names.

Example C15_witness : converts_decimals ref_sys /\ addr_wf w4 /\ decimal (lit "8080") 8080
  /\ get_port (fst (set_port_str ref_sys w4 (lit "8080"))) = 8080
  /\ convert_string ref_sys (lit "http") = None
  /\ get_protocol_name ref_sys w4 = Ok (lit "tcp")
  /\ get_port (fst (set_port_str ref_sys w4 (lit "http"))) = 80
  /\ set_port_str ref_sys w4 (lit "foo") = (w4, Ok false).
Proof.
  split; [apply ref_sys_converts|]. split; [apply w4_wf|].
  split; [split; [discriminate|split; reflexivity]|]. vm_compute. auto 10.
Qed.

(* ---------- C16 ---------- *)
Theorem C16_protocol_invariant : forall y a, reachable y a ->
  get_protocol a = IPPROTO_IP \/ get_protocol a = IPPROTO_TCP \/ get_protocol a = IPPROTO_UDP.
Proof. intros y a R. apply (wf_protocol _ (reachable_wf y a R)). Qed.
Print Assumptions C16_protocol_invariant.

Theorem C16_set_protocol : forall a p, addr_wf a ->
  (protocol_ok p -> exists b, set_protocol a p = (b, Ok tt) /\ get_protocol b = p
     /\ get_ipv6 b = get_ipv6 a /\ get_mask b = get_mask a)
  /\ (~ protocol_ok p -> set_protocol a p = (a, Throw E_invalid_argument)).
Proof.
  intros a p W. destruct (set_protocol_ok_spec a p W) as [[P (b & E & G & A & M & _)]|[P E]].
  - split; [intros _; exists b; auto|tauto].
  - split; [tauto|auto].
Qed.
Print Assumptions C16_set_protocol.

Example C16_witness : forall y,
  reachable y (fst (set_protocol addr_new IPPROTO_UDP))
  /\ get_protocol (fst (set_protocol addr_new IPPROTO_UDP)) = IPPROTO_UDP
  /\ snd (set_protocol addr_new 1) = Throw E_invalid_argument.
Proof.
  intros y. split; [|split; reflexivity].
  eapply (reach_step y _ (Op_set_protocol IPPROTO_UDP) _ (Ok tt)); [constructor| |reflexivity|discriminate].
  cbn [addr_op_ok]; unfold is_int, INT_MIN, INT_MAX, IPPROTO_UDP. lia.
Qed.

(* ---------- C17 ---------- *)
(* False of the code: on a fresh object set_protocol(IPPROTO_TCP) does
   nothing because TCP is already the default. *)
Theorem C17_set_protocol_defines_refuted : exists b,
  set_protocol addr_new IPPROTO_TCP = (b, Ok tt) /\ is_protocol_defined b = false.
Proof. eexists. split; reflexivity. Qed.
Print Assumptions C17_set_protocol_defines_refuted.

Theorem C17_set_protocol_defines_partial : forall a p b, addr_wf a ->
  set_protocol a p = (b, Ok tt) ->
  (is_protocol_defined b = true <-> is_protocol_defined a = true \/ p <> get_protocol a).
Proof.
  intros a p b W E. destruct (set_protocol_ok_spec a p W) as [[_ (c & E' & _ & _ & _ & D)]|[_ E']].
  - assert (c = b) by congruence. subst. rewrite D, orb_true_iff, negb_true_iff, Z.eqb_neq. tauto.
  - congruence.
Qed.
Print Assumptions C17_set_protocol_defines_partial.

Example C17_witness : exists b, set_protocol addr_new IPPROTO_UDP = (b, Ok tt)
  /\ is_protocol_defined b = true.
Proof. eexists. split; reflexivity. Qed.

(* ---------- C18 ---------- *)
Theorem C18_object_invariant : forall y a, reachable y a -> addr_wf a.
Proof. exact reachable_wf. Qed.
Print Assumptions C18_object_invariant.

Theorem C18_undefined_behaviour : forall y a op b r, reachable y a -> addr_op_ok op ->
  addr_step y a op = (b, r) -> (r = UB <-> out_of_contract y a op) /\ r <> OutOfFuel.
Proof. intros y a op b r _ H E. destruct (step_ub y a op b r H E). auto. Qed.
Print Assumptions C18_undefined_behaviour.

Example C18_witness : forall y, reachable y stale_3 /\ addr_op_ok (Op_add_assign (-7))
  /\ snd (addr_step y stale_3 (Op_add_assign (-7))) = Ok tt
  /\ snd (addr_step y stale_3 (Op_add_assign INT_MIN)) = UB.
Proof.
  intros y. split; [apply stale_reachable|]. split; [|split; reflexivity].
  cbn [addr_op_ok]; unfold is_int, INT_MIN, INT_MAX. lia.
Qed.

(* ---------- C19 ---------- *)
Theorem C19_lan_wan_disjoint : forall a x y,
  ~ (snd (is_lan a x) = true /\ snd (is_wan a y) = true).
Proof. intros a x y [H1 H2]. eapply lan_wan_disjoint; eauto. Qed.
Print Assumptions C19_lan_wan_disjoint.

Theorem C19_predicates : forall y a, reachable_without_in_place y a ->
  (forall f, snd (is_lan a f) = true <->
     spec_network_type (value a) = NETWORK_TYPE_PRIVATE
     \/ spec_network_type (value a) = NETWORK_TYPE_LOOPBACK
     \/ (f = true /\ (spec_network_type (value a) = NETWORK_TYPE_CARRIER
                      \/ spec_network_type (value a) = NETWORK_TYPE_LINK_LOCAL
                      \/ spec_network_type (value a) = NETWORK_TYPE_MULTICAST)))
  /\ (forall f, snd (is_wan a f) = true <->
     spec_network_type (value a) = NETWORK_TYPE_PUBLIC
     \/ (f = true /\ spec_network_type (value a) = NETWORK_TYPE_ANY))
  /\ (snd (is_valid a) = false <-> spec_network_type (value a) = NETWORK_TYPE_DOCUMENTATION)
  /\ (is_default a = true <-> spec_network_type (value a) = NETWORK_TYPE_ANY).
Proof.
  intros y a R. destruct (rwip_inv y a R) as [W M].
  split; [|split; [|split]].
  - intros f. rewrite lan_spec by auto.
    destruct (spec_network_type (value a)), f; intuition congruence.
  - intros f. rewrite wan_spec by auto. unfold NETWORK_TYPE_PUBLIC.
    destruct (spec_network_type (value a)), f; intuition congruence.
  - now apply valid_spec.
  - rewrite is_default_value by auto. rewrite any_value by now apply value_range. tauto.
Qed.
Print Assumptions C19_predicates.

Example C19_witness : forall y,
  reachable_without_in_place y (fst (set_ipv4_loopback addr_new))
  /\ snd (is_lan (fst (set_ipv4_loopback addr_new)) false) = true
  /\ snd (is_wan addr_new true) = true /\ snd (is_wan addr_new false) = false
  /\ snd (is_valid w6) = false.
Proof.
  intros y. split; [|vm_compute; auto].
  eapply (rwip_step y _ Op_set_ipv4_loopback _ (Ok tt)); [constructor|exact I|reflexivity|reflexivity|discriminate].
Qed.
