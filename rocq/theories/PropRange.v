(* Properties C24-C36: address ranges. *)
From Verif Require Import Base Addr Spec Range SpecRange.
From Verif Require AddrProofs AddrProofs2 AddrProofs3 AddrProofs4 RangeProofs RangeProofs2.
From Coq Require Import ZifyBool ZifyNat.
Import AddrProofs AddrProofs2 AddrProofs3 AddrProofs4 RangeProofs RangeProofs2.
Local Open Scope Z_scope.
Ltac Zify.zify_post_hook ::= Z.div_mod_to_equations.

(* Witnesses: networks given by number and mask size. *)
Definition net (v n : Z) : addr := fst (set_mask_count (ip_from_uint128 addr_new v) n).
Definition net4 (a b c d n : Z) : addr := net (v4_base + quad a b c d) (96 + n).
Definition range_of (a b : addr) : addr_range := mk_range true true a b.
Definition only_from (a : addr) : addr_range := mk_range true false a addr_new.
Definition only_to (a : addr) : addr_range := mk_range false true addr_new a.

Definition range_wfb (r : addr_range) : bool := addr_wfb (f_from r) && addr_wfb (f_to r).
Lemma range_wfb_ok r : range_wfb r = true -> range_wf r.
Proof. intros H. apply andb_true_iff in H as [A B]. split; now apply addr_wfb_ok. Qed.
Ltac wfr := apply range_wfb_ok; vm_compute; reflexivity.
Ltac wfa := apply addr_wfb_ok; vm_compute; reflexivity.

(* 10.0.0.5-10.0.0.20, 10.0.0.10-10.0.0.30, 10.0.0.21-10.0.0.25 *)
Definition r1 := range_of (net4 10 0 0 5 32) (net4 10 0 0 20 32).
Definition r2 := range_of (net4 10 0 0 10 32) (net4 10 0 0 30 32).
Definition r3 := range_of (net4 10 0 0 21 32) (net4 10 0 0 25 32).
Definition r_empty := range_of (net4 10 0 0 9 32) (net4 10 0 0 3 32).
Definition r_six := range_of (net (group0 0x2001) 128) (net (group0 0x2001 + 7) 128).

(* ---------- C24 ---------- *)
Theorem C24_empty_iff_inverted : forall r, range_wf r ->
  (is_empty r = true <-> full r /\ value (f_from r) > value (f_to r)).
Proof.
  intros r W. split.
  - intros E. destruct (is_range r) eqn:R.
    + apply is_range_spec in R. split; auto. destruct (full_lo_hi r R) as [<- <-].
      rewrite is_empty_spec in E by auto using full_defined. lia.
    + unfold is_empty in E. rewrite R in E. discriminate.
  - intros [F G]. rewrite is_empty_spec by auto using full_defined.
    destruct (full_lo_hi r F) as [-> ->]. lia.
Qed.
Print Assumptions C24_empty_iff_inverted.

Theorem C24_is_in : forall r x, range_wf r -> addr_wf x -> full r ->
  exists b, is_in r x = Ok b
  /\ (b = true <-> value (f_from r) <= value x <= value (f_to r)).
Proof.
  intros r x W X F. rewrite is_in_spec by auto. eexists; split; [reflexivity|].
  destruct (full_lo_hi r F) as [-> ->]. lia.
Qed.
Print Assumptions C24_is_in.

Theorem C24_is_in_throws_iff_an_end_is_missing : forall r x,
  (is_in r x = Throw E_invalid_state <-> f_has_from r = false \/ f_has_to r = false)
  /\ (f_has_from r = true -> f_has_to r = true -> exists b, is_in r x = Ok b).
Proof.
  intros r x. unfold is_in, is_range.
  destruct (f_has_from r), (f_has_to r); cbn [andb negb];
    (split; [split; [|auto]; try discriminate; intros; auto|]); try discriminate;
    destruct (le_ (f_from r) (f_to r)); eauto; try discriminate; intuition discriminate.
Qed.
Print Assumptions C24_is_in_throws_iff_an_end_is_missing.

Theorem C24_match : forall r x, range_wf r -> addr_wf x -> defined r ->
  exists b, range_match r x = Ok b
  /\ (full r -> (b = true <-> value (f_from r) <= value x <= value (f_to r)))
  /\ (~ full r -> let a := if f_has_from r then f_from r else f_to r in
        (b = true <-> forall i, 0 <= i < 128 -> Z.testbit (mask_value a) i = true ->
                        Z.testbit (value a) i = Z.testbit (value x) i)).
Proof.
  intros r x W X D. destruct (is_range r) eqn:R.
  - apply is_range_spec in R. rewrite range_match_full by auto. eexists; split; [reflexivity|].
    split; [intros _; destruct (full_lo_hi r R) as [-> ->]; lia|]. intros N. now elim N.
  - assert (N : ~ full r) by (intros F; apply is_range_spec in F; congruence).
    rewrite range_match_single by auto. eexists; split; [reflexivity|].
    split; [intros F; now elim N|]. intros _. apply match_bits; auto.
    destruct W. now destruct (f_has_from r).
Qed.
Print Assumptions C24_match.

Example C24_witness :
  range_wf r1 /\ full r1 /\ is_empty r1 = false /\ range_wf r_empty /\ is_empty r_empty = true
  /\ is_in r1 (net4 10 0 0 20 32) = Ok true /\ is_in r1 (net4 10 0 0 21 32) = Ok false
  /\ range_wf (only_to (net4 10 0 0 0 24)) /\ ~ full (only_to (net4 10 0 0 0 24))
  /\ defined (only_to (net4 10 0 0 0 24))
  /\ range_match (only_to (net4 10 0 0 0 24)) (net4 10 0 0 77 32) = Ok true
  /\ range_match (only_to (net4 10 0 0 0 24)) (net4 10 0 1 77 32) = Ok false.
Proof.
  split; [wfr|]. split; [split; reflexivity|]. split; [reflexivity|]. split; [wfr|].
  split; [reflexivity|]. split; [reflexivity|]. split; [reflexivity|]. split; [wfr|].
  split; [intros [H _]; discriminate|]. split; [now right|]. split; reflexivity.
Qed.

(* ---------- C25 ---------- *)
(* Missing: the range with neither end, see the refutation. *)
Theorem C25_empty_matches_nothing_partial : forall r x, range_wf r -> addr_wf x -> full r ->
  value (f_from r) > value (f_to r) -> range_match r x = Ok false.
Proof.
  intros r x W X F H. rewrite range_match_full by auto.
  destruct (full_lo_hi r F) as [-> ->]. f_equal. lia.
Qed.
Print Assumptions C25_empty_matches_nothing_partial.

Theorem C25_undefined_matches_the_null_address_refuted :
  forall x, addr_wf x ->
  (range_match range_new x = Ok true <-> value x = 0)
  /\ (exists y, addr_wf y /\ value y = 0).
Proof.
  intros x W. split.
  - rewrite range_match_single by (intros [H _]; discriminate).
    cbn [range_new f_has_from f_to].
    assert (M : mask_value addr_new = prefix_mask 128) by reflexivity.
    pose proof (match_block addr_new x 128 new_wf W ltac:(lia) M) as B.
    assert (block_first 128 (value addr_new) = 0) as E1 by reflexivity.
    assert (block_last 128 (value addr_new) = 0) as E2 by reflexivity.
    rewrite E1, E2 in B. split.
    + intros H. injection H as H. apply B in H. lia.
    + intros H. f_equal. apply B. lia.
  - exists addr_new. split; [apply new_wf|reflexivity].
Qed.
Print Assumptions C25_undefined_matches_the_null_address_refuted.

Example C25_witness : range_wf r_empty /\ full r_empty /\ value (f_from r_empty) > value (f_to r_empty)
  /\ range_match range_new addr_new = Ok true.
Proof. split; [wfr|]. split; [split; reflexivity|]. split; [vm_compute; auto|reflexivity]. Qed.

(* ---------- C26 ---------- *)
(* Missing: inverted ranges, the whole 128 bit space and ranges of exactly
   2^127 addresses, see the refutations. *)
Theorem C26_size_partial : forall r, range_wf r ->
  (~ defined r -> size r = Ok 0)
  /\ (defined r -> ~ full r -> size r = Ok 1)
  /\ (full r -> value (f_from r) <= value (f_to r) ->
      value (f_to r) - value (f_from r) <> 2 ^ 127 - 1 ->
      value (f_to r) - value (f_from r) <> 2 ^ 128 - 1 ->
      size r = Ok (Z.min (value (f_to r) - value (f_from r) + 1) (2 ^ 64 - 1))).
Proof.
  intros r W. split; [apply size_undefined|]. split; [intros; now apply size_single|].
  intros F. destruct (full_lo_hi r F) as [L H]. rewrite <- L, <- H.
  intros. now apply size_nonempty.
Qed.
Print Assumptions C26_size_partial.

(* Exactly which full ranges get a wrong answer. *)
Theorem C26_wrong_sizes_refuted : forall r, range_wf r -> full r ->
  (value (f_from r) = 0 /\ value (f_to r) = LAST -> size r = Ok 0)
  /\ (value (f_to r) - value (f_from r) = 2 ^ 127 - 1 -> size r = UB)
  /\ (value (f_from r) - value (f_to r) = 2 ^ 127 + 1 -> size r = UB)
  /\ (value (f_from r) = value (f_to r) + 1 -> size r = Ok 0)
  /\ (value (f_from r) > value (f_to r) + 1 -> value (f_from r) - value (f_to r) <> 2 ^ 127 + 1 ->
      value (f_from r) - value (f_to r) <= 2 ^ 128 - 2 ^ 64 -> size r = Ok (2 ^ 64 - 1)).
Proof.
  intros r W F. destruct (full_lo_hi r F) as [L H]. rewrite <- L, <- H.
  pose proof (lo_range r W). pose proof (hi_range r W).
  destruct (size_general r W F) as (d & D & M & ->). unfold LAST, u128, SIZE_MAX.
  remember (hi r - lo r) as k. assert (K : - 2 ^ 128 < k < 2 ^ 128) by lia.
  assert (d = k \/ d = k - 2 ^ 128 \/ d = k + 2 ^ 128) as V by lia. clear M.
  assert (P : (lo r = 0 /\ hi r = 2 ^ 128 - 1 <-> k = 2 ^ 128 - 1)) by lia.
  assert (lo r = hi r + 1 <-> k = -1) as -> by lia.
  assert (lo r > hi r + 1 <-> k < -1) as -> by lia.
  assert (lo r - hi r = - k) as -> by lia. rewrite P.
  clear P Heqk H0 H1 L H.
  repeat split; intros; destruct (d =? 2 ^ 127 - 1) eqn:E; try reflexivity; try (exfalso; lia);
    f_equal; lia.
Qed.
Print Assumptions C26_wrong_sizes_refuted.

Example C26_witness : range_wf r1 /\ full r1 /\ size r1 = Ok 16
  /\ size r_six = Ok 8 /\ size (only_from (net4 10 0 0 1 32)) = Ok 1
  /\ range_wf r_empty /\ size r_empty = Ok (2 ^ 64 - 1)
  /\ size (range_of (net 0 128) (net LAST 128)) = Ok 0
  /\ size (range_of (net 0 128) (net (2 ^ 127 - 1) 128)) = UB.
Proof.
  split; [wfr|]. split; [split; reflexivity|]. split; [reflexivity|]. split; [reflexivity|].
  split; [reflexivity|]. split; [wfr|]. split; reflexivity || (split; reflexivity).
Qed.

(* ---------- C27 ---------- *)
(* Missing: ranges ending with the last 128 bit address, inverted ranges and
   the ranges without a right size, see the refutations. *)
Theorem C27_to_addresses_partial : forall r limit fuel, range_wf r -> full r ->
  value (f_from r) <= value (f_to r) -> value (f_to r) < LAST ->
  value (f_to r) - value (f_from r) <> 2 ^ 127 - 1 ->
  limit < 2 ^ 64 - 1 ->
  let n := value (f_to r) - value (f_from r) + 1 in
  (n > limit -> to_addresses fuel r limit = Throw E_out_of_range)
  /\ (n <= limit -> n <= Z.of_nat fuel ->
      exists l, to_addresses fuel r limit = Ok l
      /\ map value l = map (fun i => value (f_from r) + Z.of_nat i) (seq 0 (Z.to_nat n))
      /\ Forall (fun a => addr_wf a /\ same_but_ip (f_from r) a) l).
Proof.
  intros r limit fuel W F N L X B n.
  destruct (C26_size_partial r W) as (_ & _ & S). specialize (S F N X).
  unfold to_addresses. rewrite S by (unfold LAST in *; pose proof (value_range _ (wf_from r W)); lia).
  cbn [rbind]. fold n. destruct F as [F1 F2]. unfold has_from, has_to. rewrite F1, F2. cbn [andb].
  split; intros H.
  - destruct (_ >? limit) eqn:E; [reflexivity|lia].
  - intros G. destruct (_ >? limit) eqn:E; [lia|].
    destruct W as [W1 W2].
    rewrite (loop_enum (f_to r) W2 L (Z.to_nat (n - 1))) by (auto; lia).
    eexists; split; [reflexivity|].
    replace (Datatypes.S (Z.to_nat (n - 1))) with (Z.to_nat n) by lia.
    apply enum_spec; auto. lia.
Qed.
Print Assumptions C27_to_addresses_partial.

Theorem C27_single_and_undefined : forall r limit fuel, ~ full r ->
  (defined r -> 1 <= limit -> to_addresses fuel r limit = Ok [if f_has_from r then f_from r else f_to r])
  /\ (defined r -> limit < 1 -> to_addresses fuel r limit = Throw E_out_of_range)
  /\ (~ defined r -> 0 <= limit -> to_addresses fuel r limit = Ok []).
Proof.
  intros r limit fuel N. unfold to_addresses. split; [|split].
  - intros D L. rewrite size_single by auto. cbn [rbind]. destruct (1 >? limit) eqn:E; [lia|].
    unfold defined, full, has_from, has_to in *. destruct (f_has_from r), (f_has_to r); auto.
    now elim N. destruct D; discriminate.
  - intros D L. rewrite size_single by auto. cbn [rbind]. destruct (1 >? limit) eqn:E; [auto|lia].
  - intros D L. rewrite size_undefined by auto. cbn [rbind]. destruct (0 >? limit) eqn:E; [lia|].
    unfold defined, full, has_from, has_to in *. destruct (f_has_from r), (f_has_to r); auto; intuition congruence.
Qed.
Print Assumptions C27_single_and_undefined.

(* With an end at the last address the loop never ends... *)
Theorem C27_never_terminates_refuted : forall r limit, range_wf r -> full r ->
  0 < value (f_from r) -> value (f_to r) = LAST -> 2 ^ 128 - value (f_from r) <= limit ->
  limit < 2 ^ 64 - 1 ->
  size r = Ok (2 ^ 128 - value (f_from r))
  /\ forall fuel, to_addresses fuel r limit = OutOfFuel.
Proof.
  intros r limit W F N T L B.
  pose proof (value_range _ (wf_from r W)) as V.
  destruct (C26_size_partial r W) as (_ & _ & S). specialize (S F).
  unfold to_addresses. rewrite S; unfold LAST in *; try lia. split; [f_equal; lia|].
  intros fuel. cbn [rbind]. destruct (_ >? limit) eqn:E; [lia|].
  destruct F as [F1 F2]. unfold has_from, has_to. rewrite F1, F2. cbn [andb].
  apply loop_forever; apply W || auto.
Qed.
Print Assumptions C27_never_terminates_refuted.

(* ... and an inverted range whose ends are neighbours, which has no address,
   gives one. *)
Theorem C27_inverted_neighbours_refuted : forall r limit fuel, range_wf r -> full r ->
  value (f_from r) = value (f_to r) + 1 -> value (f_from r) < LAST -> 0 <= limit ->
  to_addresses (S fuel) r limit = Ok [f_from r].
Proof.
  intros r limit fuel W F E M L. unfold to_addresses.
  destruct (C26_wrong_sizes_refuted r W F) as (_ & _ & _ & S & _). rewrite (S E). cbn [rbind].
  destruct (0 >? limit) eqn:X; [lia|]. destruct F as [F1 F2]. unfold has_from, has_to. rewrite F1, F2.
  cbn [andb to_addresses_loop]. destruct W as [W1 W2].
  destruct (incr_value _ W1 M) as (Wi & _ & Vi). rewrite le_value, Vi by auto.
  destruct (_ <=? _) eqn:Y; [lia|reflexivity].
Qed.
Print Assumptions C27_inverted_neighbours_refuted.

(* A vector of ranges: the limit applies to the total, the result is the
   concatenation. *)
Definition zsum (l : list Z) : Z := fold_right Z.add 0 l.
Lemma total_size_spec ranges sizes : Forall2 (fun r s => size r = Ok s) ranges sizes ->
  Forall (fun s => 0 <= s) sizes -> forall acc, 0 <= acc -> acc + zsum sizes < 2 ^ 64 ->
  total_size ranges acc = Ok (acc + zsum sizes).
Proof.
  induction 1 as [|r s ranges sizes E H IH]; intros P acc A B; cbn [total_size zsum fold_right] in *.
  - f_equal. lia.
  - fold (zsum sizes) in *. inversion P as [|? ? P1 P2]; subst. rewrite E. cbn [rbind].
    assert (0 <= zsum sizes).
    { clear -P2. induction P2; cbn; [lia|]. fold (zsum l). lia. }
    unfold u64. rewrite Z.mod_small by lia. rewrite IH by (auto; lia). f_equal. lia.
Qed.
Theorem C27_vector_partial : forall ranges sizes limit fuel,
  Forall2 (fun r s => size r = Ok s) ranges sizes -> Forall (fun s => 0 <= s) sizes ->
  zsum sizes < 2 ^ 64 ->
  (zsum sizes > limit -> to_addresses_vector fuel ranges limit = Throw E_out_of_range)
  /\ (zsum sizes <= limit -> forall ls,
      Forall2 (fun r l => to_addresses fuel r limit = Ok l) ranges ls ->
      to_addresses_vector fuel ranges limit = Ok (concat ls)).
Proof.
  intros ranges sizes limit fuel H P B. unfold to_addresses_vector.
  rewrite (total_size_spec ranges sizes H P 0) by lia. cbn [rbind]. rewrite Z.add_0_l.
  split; intros L.
  - destruct (_ >? _) eqn:E; [reflexivity|lia].
  - intros ls F. destruct (_ >? _) eqn:E; [lia|]. clear -F.
    induction F as [|r l rs ls E F IH]; [reflexivity|]. cbn [to_addresses_all concat].
    rewrite E. cbn [rbind]. rewrite IH. reflexivity.
Qed.
Print Assumptions C27_vector_partial.

(* The total is computed modulo 2^64: this vector has 2^64 addresses and is
   not rejected with a limit of 2^63 + 1. *)
Theorem C27_vector_total_wraps_refuted : exists ranges sizes,
  Forall range_wf ranges /\ Forall2 (fun r s => size r = Ok s) ranges sizes
  /\ zsum sizes = 2 ^ 64
  /\ forall fuel limit, 2 ^ 63 <= limit < 2 ^ 64 ->
     to_addresses_vector fuel ranges limit = to_addresses_all fuel ranges limit.
Proof.
  exists [range_of (net 0 128) (net (2 ^ 63 - 1) 128); range_of (net (2 ^ 70) 128) (net (2 ^ 70 + 2 ^ 63 - 1) 128)].
  exists [2 ^ 63; 2 ^ 63].
  split; [constructor; [wfr|constructor; [wfr|constructor]]|].
  split; [repeat (constructor; [vm_compute; reflexivity|]); constructor|].
  split; [reflexivity|]. intros fuel limit L. unfold to_addresses_vector.
  match goal with |- (let! _ := ?t in _) = _ => assert (t = Ok 0) as -> by (vm_compute; reflexivity) end.
  cbn [rbind]. destruct (0 >? limit) eqn:E; [lia|reflexivity].
Qed.
Print Assumptions C27_vector_total_wraps_refuted.

Example C27_witness : exists l, to_addresses 20 r1 100 = Ok l /\ length l = 16%nat
  /\ to_addresses 20 r1 15 = Throw E_out_of_range
  /\ value (f_from r1) <= value (f_to r1) < LAST.
Proof. eexists. split; [vm_compute; reflexivity|]. vm_compute. repeat split; congruence. Qed.
Example C27_witness_forever :
  let r := range_of (net (LAST - 3) 128) (net LAST 128) in
  range_wf r /\ full r /\ 0 < value (f_from r) /\ value (f_to r) = LAST
  /\ 2 ^ 128 - value (f_from r) <= 1000.
Proof. split; [wfr|]. split; [split; reflexivity|]. vm_compute. repeat split; congruence. Qed.

(* ---------- C28 ---------- *)
Theorem C28_intersection : forall l r, range_wf l -> range_wf r -> full l -> full r ->
  let i := intersection l r in
  range_wf i /\ full i
  /\ (forall v, element i v <-> element l v /\ element r v)
  /\ (forall x, addr_wf x -> (is_in i x = Ok true <-> is_in l x = Ok true /\ is_in r x = Ok true))
  /\ (is_empty i = true <-> forall v, ~ (element l v /\ element r v)).
Proof.
  intros l r Wl Wr Fl Fr i. destruct (intersection_spec l r Wl Wr Fl Fr) as (Wi & Fi & L & H).
  fold i in Wi, Fi, L, H.
  assert (E : forall v, element i v <-> element l v /\ element r v).
  { intros v. unfold element. pose proof (full_defined _ Fi) as Di. pose proof (full_defined _ Fl) as Dl.
    pose proof (full_defined _ Fr) as Dr. unfold defined in *. rewrite L, H.
    assert (Z.max (lo l) (lo r) <= v <= Z.min (hi l) (hi r)
            <-> lo l <= v <= hi l /\ lo r <= v <= hi r) by lia. tauto. }
  split; auto. split; auto. split; auto. split.
  - intros x Wx. rewrite !is_in_spec by auto. rewrite L, H.
    split; [intros Q; injection Q as Q; split; f_equal; lia|].
    intros [A B]. injection A as A. injection B as B. f_equal. lia.
  - rewrite is_empty_spec by auto using full_defined. split.
    + intros Q v X. apply E in X. destruct X as [_ X]. lia.
    + intros Q. destruct (lo i >? hi i) eqn:G; auto. exfalso. apply (Q (lo i)). apply E.
      split; [now apply full_defined|lia].
Qed.
Print Assumptions C28_intersection.

Example C28_witness : range_wf r1 /\ range_wf r2 /\ full r1 /\ full r2
  /\ size (intersection r1 r2) = Ok 11 /\ is_empty (intersection r1 r3) = true.
Proof.
  split; [wfr|]. split; [wfr|]. split; [split; reflexivity|]. split; [split; reflexivity|].
  split; reflexivity.
Qed.

(* ---------- C29 ---------- *)
(* The masks the union needs: the smaller of both masks at each end must be a
   CIDR mask, and one of at least 96 bits if that end is an IPv4 address. *)
Definition mask_fits (n v : Z) : Prop := 0 <= n <= 128 /\ (is_v4_value v -> 96 <= n).
Definition union_masks_ok (l r : addr_range) : Prop :=
  mask_fits (Z.min (get_mask_size (f_from l)) (get_mask_size (f_from r))) (Z.min (lo l) (lo r))
  /\ mask_fits (Z.min (get_mask_size (f_to l)) (get_mask_size (f_to r))) (Z.max (hi l) (hi r)).

Lemma fits_iff n v : fitsb n v = true <-> mask_fits n v.
Proof.
  unfold fitsb, mask_fits, is_v4_value.
  destruct ((v4_base <=? v) && (v <? v4_base + 2 ^ 32)) eqn:E; lia.
Qed.
Lemma masks_ok_iff l r :
  fitsb (union_from_mask l r) (Z.min (lo l) (lo r))
  && fitsb (union_to_mask l r) (Z.max (hi l) (hi r)) = true <-> union_masks_ok l r.
Proof. rewrite andb_true_iff, !fits_iff. reflexivity. Qed.

(* The elements of the union, whatever the ranges (even inverted ones). *)
Theorem C29_union_elements : forall l r u, range_wf l -> range_wf r -> defined l -> defined r ->
  union_if_possible l r = Ok u -> defined u ->
  range_wf u /\ forall v, element u v <-> element l v \/ element r v.
Proof.
  intros l r u Wl Wr Dl Dr E D. pose proof (union_spec l r Wl Wr Dl Dr) as S.
  destruct (touching l r) eqn:T.
  - destruct (_ && _) eqn:M.
    + destruct S as (u' & E' & Wu & HF & HT & L & H & _). rewrite E in E'. injection E' as <-.
      split; auto. intros v. now apply touching_elements.
    + rewrite E in S. discriminate.
  - rewrite E in S. injection S as ->. destruct D; discriminate.
Qed.
Print Assumptions C29_union_elements.

Lemma interval_touching l r : nonempty l -> nonempty r ->
  ((exists a b, forall v, (element l v \/ element r v) <-> a <= v <= b) <-> touching l r = true).
Proof.
  intros [Dl Nl] [Dr Nr]. unfold element, touching. fold (defined l) (defined r). split.
  - intros (a & b & H).
    pose proof (proj1 (H (lo l)) ltac:(left; split; auto; lia)).
    pose proof (proj1 (H (hi l)) ltac:(left; split; auto; lia)).
    pose proof (proj1 (H (lo r)) ltac:(right; split; auto; lia)).
    pose proof (proj1 (H (hi r)) ltac:(right; split; auto; lia)).
    destruct (_ || _) eqn:T; auto. exfalso.
    destruct (Z_lt_ge_dec (hi l) (lo r)).
    + pose proof (proj2 (H (hi l + 1)) ltac:(lia)) as [[_ ?]|[_ ?]]; lia.
    + pose proof (proj2 (H (hi r + 1)) ltac:(lia)) as [[_ ?]|[_ ?]]; lia.
  - intros T. exists (Z.min (lo l) (lo r)), (Z.max (hi l) (hi r)). intros v.
    assert (lo l <= v <= hi l \/ lo r <= v <= hi r <-> Z.min (lo l) (lo r) <= v <= Z.max (hi l) (hi r)) by lia.
    tauto.
Qed.

(* For two ranges which are not empty: defined exactly when the union of the
   two sets is an interval. *)
Theorem C29_union_defined_iff_interval : forall l r, range_wf l -> range_wf r ->
  nonempty l -> nonempty r ->
  let interval := exists a b, forall v, (element l v \/ element r v) <-> a <= v <= b in
  (~ interval -> union_if_possible l r = Ok range_new)
  /\ (interval -> union_masks_ok l r -> exists u, union_if_possible l r = Ok u /\ defined u)
  /\ (interval -> ~ union_masks_ok l r -> union_if_possible l r = Throw E_out_of_range).
Proof.
  intros l r Wl Wr Nl Nr interval. unfold interval. rewrite interval_touching by auto.
  pose proof (union_spec l r Wl Wr (proj1 Nl) (proj1 Nr)) as S.
  pose proof (masks_ok_iff l r) as M.
  destruct (touching l r); [|repeat split; intros; auto; discriminate].
  split; [intros H; now elim H|].
  destruct (_ && _).
  - destruct S as (u & E & _ & HF & _). split; intros _ H.
    + exists u. split; auto. now left.
    + elim H. now apply M.
  - split; intros _ H; auto. apply M in H. discriminate.
Qed.
Print Assumptions C29_union_defined_iff_interval.

(* An address range parsed without a mask has masks of all ones at both ends:
   then nothing throws. *)
Theorem C29_full_masks_never_throw : forall l r, range_wf l -> range_wf r -> defined l -> defined r ->
  (forall a, In a [f_from l; f_to l; f_from r; f_to r] -> mask_value a = LAST) ->
  exists u, union_if_possible l r = Ok u.
Proof.
  intros l r Wl Wr Dl Dr H. pose proof (union_spec l r Wl Wr Dl Dr) as S.
  destruct (touching l r); [|eauto].
  assert (G : forall a, addr_wf a -> mask_value a = LAST -> get_mask_size a = 128).
  { intros a Wa Ma. apply get_mask_size_iff; auto. lia. split; [lia|]. rewrite Ma. reflexivity. }
  destruct Wl as [L1 L2], Wr as [R1 R2].
  assert (fitsb (union_from_mask l r) (Z.min (lo l) (lo r))
    && fitsb (union_to_mask l r) (Z.max (hi l) (hi r)) = true) as E.
  { unfold union_from_mask, union_to_mask. rewrite !G by (auto; apply H; cbn; auto).
    change (Z.min 128 128) with 128. unfold fitsb.
    destruct (_ && (Z.min _ _ <? _)), (_ && (Z.max _ _ <? _)); reflexivity. }
  rewrite E in S. destruct S as (u & ? & _). eauto.
Qed.
Print Assumptions C29_full_masks_never_throw.

Example C29_witness : range_wf r1 /\ range_wf r2 /\ range_wf r3 /\ nonempty r1 /\ nonempty r2
  /\ union_masks_ok r1 r2 /\ union_masks_ok r1 r3
  /\ (exists u, union_if_possible r1 r2 = Ok u /\ size u = Ok 26)
  /\ (exists u, union_if_possible r1 r3 = Ok u /\ size u = Ok 21)
  /\ union_if_possible r1 (only_from (net4 10 0 0 3 32)) = Ok range_new
  /\ (exists u, union_if_possible r1 (only_to (net4 10 0 0 4 32)) = Ok u /\ size u = Ok 17).
Proof.
  split; [wfr|]. split; [wfr|]. split; [wfr|].
  split; [split; [left; reflexivity|vm_compute; congruence]|].
  split; [split; [left; reflexivity|vm_compute; congruence]|].
  split; [apply masks_ok_iff; vm_compute; reflexivity|].
  split; [apply masks_ok_iff; vm_compute; reflexivity|].
  split; [eexists; split; [vm_compute; reflexivity|vm_compute; reflexivity]|].
  split; [eexists; split; [vm_compute; reflexivity|vm_compute; reflexivity]|].
  split; [vm_compute; reflexivity|].
  eexists; split; [vm_compute; reflexivity|vm_compute; reflexivity].
Qed.

(* ---------- C30 ---------- *)
Theorem C30_compare_means_what_it_says : forall l r mixed, range_wf l -> range_wf r ->
  meaning (compare l r mixed) l r.
Proof. intros. now apply compare_meaning. Qed.
Print Assumptions C30_compare_means_what_it_says.

(* The family results appear iff the ranges are not mixed, both not empty, and
   exactly one is an IPv4 range. *)
Theorem C30_families : forall l r, range_wf l -> range_wf r -> nonempty l -> nonempty r ->
  (compare l r false = COMPARE_IPV4_VS_IPV6 <-> all_v4 l /\ ~ all_v4 r)
  /\ (compare l r false = COMPARE_IPV6_VS_IPV4 <-> ~ all_v4 l /\ all_v4 r)
  /\ compare l r true <> COMPARE_IPV4_VS_IPV6 /\ compare l r true <> COMPARE_IPV6_VS_IPV4
  /\ ((all_v4 l <-> all_v4 r) -> compare l r false = compare l r true).
Proof.
  intros l r Wl Wr Nl Nr. unfold compare.
  rewrite (proj2 (is_defined_spec l) (proj1 Nl)), (proj2 (is_defined_spec r) (proj1 Nr)).
  rewrite (proj2 (nonempty_bool l Wl (proj1 Nl)) Nl), (proj2 (nonempty_bool r Wr (proj1 Nr)) Nr).
  cbn [negb orb].
  pose proof (is_ipv4_range l Wl Nl) as Il. pose proof (is_ipv4_range r Wr Nr) as Ir.
  assert (C1 : compare_intervals l r <> COMPARE_IPV4_VS_IPV6).
  { unfold compare_intervals. repeat match goal with |- context [if ?b then _ else _] => destruct b end; discriminate. }
  assert (C2 : compare_intervals l r <> COMPARE_IPV6_VS_IPV4).
  { unfold compare_intervals. repeat match goal with |- context [if ?b then _ else _] => destruct b end; discriminate. }
  rewrite <- Il, <- Ir. clear Il Ir.
  destruct (range_is_ipv4 l), (range_is_ipv4 r); cbn [negb];
    (split; [|split; [|split; [|split]]]); auto; try (split; intros);
    try (repeat split; congruence); try tauto; intuition congruence.
Qed.
Print Assumptions C30_families.

Theorem C30_mirror : forall l r mixed, range_wf l -> range_wf r ->
  compare r l mixed = mirror (compare l r mixed).
Proof. intros. now apply compare_mirror. Qed.
Print Assumptions C30_mirror.

Example C30_witness :
  compare r1 r2 false = COMPARE_OVERLAP_SMALL_VS_LARGE /\ compare r2 r1 true = COMPARE_OVERLAP_LARGE_VS_SMALL
  /\ compare r1 r3 false = COMPARE_PRECEDES /\ compare r3 r2 true = COMPARE_INCLUDES
  /\ compare r2 r3 true = COMPARE_INCLUDED /\ compare r1 r1 false = COMPARE_EQUAL
  /\ compare r1 r_six false = COMPARE_IPV4_VS_IPV6 /\ compare r_six r1 true = COMPARE_LARGER
  /\ compare r1 r_empty false = COMPARE_FIRST /\ compare r_empty r1 false = COMPARE_LAST
  /\ compare range_new r1 false = COMPARE_UNORDERED /\ range_wf r_six /\ nonempty r_six.
Proof.
  do 11 (split; [vm_compute; reflexivity|]). split; [wfr|]. split; [left; reflexivity|vm_compute; congruence].
Qed.

(* ---------- C31 ---------- *)
Definition equivalent (l r : addr_range) : Prop := range_lt l r = false /\ range_lt r l = false.
Theorem C31_strict_weak_order : forall a b c,
  range_wf a -> range_wf b -> range_wf c -> defined a -> defined b -> defined c ->
  range_lt a a = false
  /\ (range_lt a b = true -> range_lt b a = false)
  /\ (range_lt a b = true -> range_lt b c = true -> range_lt a c = true)
  /\ (equivalent a b -> equivalent b c -> equivalent a c).
Proof.
  intros a b c Wa Wb Wc Da Db Dc. unfold equivalent. rewrite !range_lt_spec by auto. unfold range_ltb.
  generalize (lo a) (hi a) (lo b) (hi b) (lo c) (hi c). clear. intros a1 a2 b1 b2 c1 c2.
  repeat match goal with |- context [?x >? ?y] => destruct (x >? y) eqn:? end; lia.
Qed.
Print Assumptions C31_strict_weak_order.

(* ... and which order it is. *)
Theorem C31_order : forall a b, range_wf a -> range_wf b -> defined a -> defined b ->
  (range_lt a b = true <->
   nonempty a /\ (~ nonempty b \/ lo a < lo b \/ (lo a = lo b /\ hi b < hi a))).
Proof.
  intros a b Wa Wb Da Db. rewrite range_lt_spec by auto. unfold range_ltb.
  assert (Na : nonempty a <-> lo a <= hi a) by (unfold nonempty; tauto).
  assert (Nb : nonempty b <-> lo b <= hi b) by (unfold nonempty; tauto).
  rewrite Na, Nb. clear.
  destruct (lo a >? hi a) eqn:E1; [|destruct (lo b >? hi b) eqn:E2]; lia.
Qed.
Print Assumptions C31_order.

Example C31_witness : range_lt r1 r2 = true /\ range_lt r2 r3 = true /\ range_lt r3 r_empty = true
  /\ defined r_empty /\ range_wf r_empty /\ range_wf r1 /\ range_wf r2 /\ range_wf r3.
Proof.
  do 3 (split; [vm_compute; reflexivity|]). split; [now left|]. repeat (split; [wfr|]). wfr.
Qed.

(* ---------- C32 ---------- *)
Theorem C32_from_cidr : forall r a, addr_wf a ->
  (contiguous a -> exists u, from_cidr r a = (u, Ok tt) /\ range_wf u /\ full u
     /\ forall x, addr_wf x -> (range_match u x = Ok true <-> match_ a x false = true))
  /\ (~ contiguous a -> from_cidr r a = (r, Throw E_unsupported_as_range)).
Proof.
  intros r a W. pose proof (from_cidr_spec r a W) as S.
  destruct (get_mask_size a =? -1).
  - destruct S as [N E]. split; auto. intros C. now elim N.
  - destruct S as (n & u & C & B & _ & M & E & Wu & Fu & L & H & _). split; [|intros N; now elim N].
    intros _. exists u. split; auto. split; auto. split; auto.
    intros x Wx. rewrite range_match_full by auto. rewrite (match_block a x n W Wx B M), <- L, <- H.
    split; [intros Q; injection Q as Q|intros; f_equal]; lia.
Qed.
Print Assumptions C32_from_cidr.

Example C32_witness : addr_wf (net4 192 168 5 77 24) /\ contiguous (net4 192 168 5 77 24)
  /\ size (fst (from_cidr range_new (net4 192 168 5 77 24))) = Ok 256
  /\ addr_wf (set_mask addr_new [255;0;255;0;0;0;0;0;0;0;0;0;0;0;0;0])
  /\ get_mask_size (set_mask addr_new [255;0;255;0;0;0;0;0;0;0;0;0;0;0;0;0]) = -1.
Proof.
  split; [wfa|]. split; [exists 120; split; [lia|vm_compute; reflexivity]|].
  split; [vm_compute; reflexivity|]. split; [wfa|reflexivity].
Qed.

(* ---------- C33 ---------- *)
(* The elements of the range are exactly a block of 2^k addresses aligned on
   2^k. *)
Definition is_cidr_block (r : addr_range) (c first : Z) : Prop :=
  0 <= c <= 128 /\ first mod 2 ^ (128 - c) = 0
  /\ forall v, element r v <-> first <= v < first + 2 ^ (128 - c).

Lemma block_iff r c : full r -> lo r <= hi r -> 0 <= c <= 128 ->
  ((lo r = block_first c (lo r) /\ hi r = block_last c (lo r)) <-> exists f, is_cidr_block r c f).
Proof.
  intros F N C. unfold is_cidr_block, block_last, block_first, block_size.
  assert (P : 0 < 2 ^ (128 - c)) by (apply Z.pow_pos_nonneg; lia).
  set (k := 2 ^ (128 - c)) in *. clearbody k. pose proof (full_defined _ F) as D. unfold defined in D.
  pose proof (Z.div_mod (lo r) k ltac:(lia)) as DM. rewrite (Z.mul_comm k) in DM.
  set (q := lo r / k * k) in *. clearbody q. unfold element. split.
  - intros [E1 E2]. exists (lo r). split; auto. split; [clear -DM E1; lia|].
    intros v. assert (lo r <= v <= hi r <-> lo r <= v < lo r + k) by lia. tauto.
  - intros (f & _ & A & B).
    pose proof (proj2 (B f) ltac:(lia)) as [_ B1].
    pose proof (proj2 (B (f + k - 1)) ltac:(lia)) as [_ B2].
    pose proof (proj1 (B (lo r)) ltac:(split; auto; lia)) as B3.
    pose proof (proj1 (B (hi r)) ltac:(split; auto; lia)) as B4.
    assert (f = lo r) by lia. subst f. rewrite A in DM. lia.
Qed.

Theorem C33_to_cidr : forall r a, range_wf r -> addr_wf a ->
  (full r -> (exists c f, is_cidr_block r c f) ->
   exists a' u, to_cidr r a = (a', Ok true) /\ addr_wf a'
   /\ value a' = value (f_from r) /\ contiguous a'
   /\ from_cidr range_new a' = (u, Ok tt) /\ full u
   /\ forall v, element u v <-> element r v)
  /\ (~ (full r /\ exists c f, is_cidr_block r c f) -> to_cidr r a = (a, Ok false)).
Proof.
  intros r a W Wa.
  assert (BN : forall c f, is_cidr_block r c f -> lo r <= hi r).
  { intros c f (C & A & B). pose proof (proj2 (B f)) as X.
    assert (P : 0 < 2 ^ (128 - c)) by (apply Z.pow_pos_nonneg; lia).
    destruct X as [_ X]; lia. }
  destruct (to_cidr_spec r a W Wa) as [(c & a' & F & N & C & B1 & B2 & E & W' & V & M & G)|[H E]].
  - split.
    + intros _ _. pose proof (from_cidr_spec range_new a' W') as S. rewrite G in S.
      destruct (c =? -1) eqn:X; [lia|].
      destruct S as (n & u & Cn & _ & Gn & _ & Eu & Wu & Fu & L & HH & _).
      rewrite <- Gn, V in L, HH. rewrite <- B1 in L. rewrite <- B2 in HH.
      exists a', u. split; auto. split; auto. split; [rewrite V; now apply full_lo_hi|]. split; auto.
      split; auto. split; auto.
      intros v. unfold element. rewrite L, HH. pose proof (full_defined _ F). pose proof (full_defined _ Fu).
      unfold defined in *. tauto.
    + intros Q. elim Q. split; auto. exists c. apply block_iff; auto.
  - split; auto. intros F (c & f & B). exfalso. pose proof (BN c f B) as N.
    destruct H as [H|[H|H]]; [now apply H|lia|]. apply (H c); [apply B|].
    apply block_iff; auto. apply B. now exists f.
Qed.
Print Assumptions C33_to_cidr.

Theorem C33_to_cidr_never_throws : forall r a, range_wf r -> addr_wf a ->
  exists b, snd (to_cidr r a) = Ok b.
Proof.
  intros r a W Wa.
  destruct (to_cidr_spec r a W Wa) as [(c & a' & _ & _ & _ & _ & _ & E & _)|[_ E]]; rewrite E; cbn; eauto.
Qed.
Print Assumptions C33_to_cidr_never_throws.

(* from_cidr() then to_cidr() gives the network back. *)
Theorem C33_round_trip : forall a b u, addr_wf a -> addr_wf b -> from_cidr range_new a = (u, Ok tt) ->
  exists a', to_cidr u b = (a', Ok true) /\ value a' = value (apply_mask a false)
  /\ mask_value a' = mask_value a.
Proof.
  intros a b u W Wb E. pose proof (from_cidr_spec range_new a W) as S.
  destruct (get_mask_size a =? -1); [destruct S as [_ S]; rewrite S in E; discriminate|].
  destruct S as (n & u' & _ & B & _ & M & E' & Wu & Fu & L & H & _).
  rewrite E in E'. apply (f_equal fst) in E'. cbn [fst] in E'. subst u'.
  pose proof (block_first_le n (value a) ltac:(lia)) as BL.
  destruct (to_cidr_spec u b Wu Wb) as [(c & a' & _ & N & C & B1 & B2 & Eu & W' & V & M' & G)|[X _]].
  - exists a'. split; auto. split.
    + destruct (apply_mask_false a W) as [_ ->]. rewrite V, L, M, land_prefix by (auto; now apply value_range).
      reflexivity.
    + rewrite M, M'. f_equal.
      assert (block_size c = block_size n).
      { unfold block_last in H, B2. rewrite <- B1 in B2. rewrite <- L in H. lia. }
      unfold block_size in H0. apply Z.pow_inj_r in H0; lia.
  - exfalso. destruct X as [X|[X|X]]; [now apply X|lia|].
    apply (X n B). rewrite L, H. split.
    + now rewrite block_first_first by lia.
    + now rewrite block_last_first by lia.
Qed.
Print Assumptions C33_round_trip.

Example C33_witness :
  let r := range_of (net4 10 1 2 64 32) (net4 10 1 2 127 32) in
  range_wf r /\ full r /\ is_cidr_block r 122 (v4_base + quad 10 1 2 64)
  /\ mask_value (fst (to_cidr r addr_new)) = prefix_mask 122
  /\ to_cidr r1 addr_new = (addr_new, Ok false).
Proof.
  intros r. split; [wfr|]. split; [split; reflexivity|]. split.
  - split; [lia|]. split; [vm_compute; reflexivity|].
    intros v. unfold element.
    assert (lo r = v4_base + quad 10 1 2 64) as -> by (vm_compute; reflexivity).
    assert (hi r = v4_base + quad 10 1 2 64 + 2 ^ (128 - 122) - 1) as -> by (vm_compute; reflexivity).
    assert (f_has_from r = true) by reflexivity.
    generalize (v4_base + quad 10 1 2 64). intros z. change (2 ^ (128 - 122)) with 64.
    assert (z <= v <= z + 64 - 1 <-> z <= v < z + 64) by lia. tauto.
  - split; vm_compute; reflexivity.
Qed.

(* ---------- C34 ---------- *)
Theorem C34_address_match_ranges : forall v x,
  exists b, address_match_ranges v x = Ok b
  /\ (b = true <-> exists r, In r v /\ range_match r x = Ok true).
Proof. exact address_match_ranges_spec. Qed.
Print Assumptions C34_address_match_ranges.

Example C34_witness : address_match_ranges [r_empty; r1; r_six] (net4 10 0 0 20 32) = Ok true
  /\ address_match_ranges [r_empty; r1; r_six] (net4 10 0 0 21 32) = Ok false.
Proof. split; vm_compute; reflexivity. Qed.

(* ---------- C35 ---------- *)
(* Whatever the outcome: also after an exception the vector still stands for
   the same set. *)
Theorem C35_set_preserved : forall v l o, Forall addr_wf v -> optimize_vector v = (l, o) ->
  (forall x, addr_wf x -> (matched_by l x <-> matched_by v x))
  /\ Forall addr_wf l /\ (length l <= length v)%nat
  /\ (forall b, o = Ok b -> (b = true <-> (length l < length v)%nat))
  /\ (o = Ok false -> l = v)
  /\ o <> UB /\ o <> OutOfFuel.
Proof.
  intros v l o W E. destruct (outer_ok (length v) [] v false l o) as (A & B & C & D & F & G & H); auto.
  cbn [app length plus] in *. split; auto. split; auto. split; auto. split.
  - intros b X. rewrite (D b X). split; [intros [Y|Y]; [discriminate|auto]|auto].
  - split; auto. intros X. apply H. specialize (D false X).
    destruct (Nat.lt_ge_cases (length l) (length v)); [|lia].
    assert (false = true) by (apply D; auto). discriminate.
Qed.
Print Assumptions C35_set_preserved.

(* When it cannot throw: networks of IPv4 addresses only, or networks none of
   which starts or ends with an IPv4 address. *)
Theorem C35_no_exception : forall v, Forall addr_wf v -> Forall contiguous v ->
  (Forall (fun a => is_v4_value (value a) /\ 96 <= get_mask_size a) v
   \/ Forall (fun a => ~ is_v4_value (value (apply_mask a false))
                     /\ ~ is_v4_value (value (apply_mask a true))) v) ->
  exists l b, optimize_vector v = (l, Ok b).
Proof.
  intros v W C H.
  assert (exists f, Forall (one_family f) v) as [f K].
  { destruct H as [H|H]; [exists true|exists false]; rewrite Forall_forall in *; intros a I;
      specialize (W a I); specialize (C a I); specialize (H a I);
      destruct (contiguous_size a W) as [(_ & B & M)|[N _]]; try (now elim N).
    - destruct (v4_block (get_mask_size a) (value a)) as [X Y]; [lia|tauto|].
      split; auto. split; auto. split; auto. tauto.
    - split; auto. destruct (apply_mask_false a W) as [_ V1]. destruct (apply_mask_true a W) as [_ V2].
      rewrite M, land_prefix in V1 by (auto; now apply value_range).
      rewrite M, lor_prefix in V2 by (auto; now apply value_range).
      fold (first_of a) in V1. fold (last_of a) in V2. rewrite V1, V2 in H.
      unfold is_v4_value, v4b in *. split; [lia|]. split; [lia|discriminate]. }
  unfold optimize_vector. now apply (family_outer f).
Qed.
Print Assumptions C35_no_exception.

(* Otherwise it may throw although every mask is a CIDR mask. *)
Theorem C35_may_throw : exists v, Forall addr_wf v /\ Forall contiguous v
  /\ optimize_vector v = (v, Throw E_out_of_range).
Proof.
  exists [net4 255 255 255 255 32; net (2 ^ 48) 80].
  split; [repeat (constructor; [wfa|]); constructor|]. split.
  - constructor; [exists 128; split; [lia|vm_compute; reflexivity]|].
    constructor; [exists 80; split; [lia|vm_compute; reflexivity]|]. constructor.
  - vm_compute. reflexivity.
Qed.
Print Assumptions C35_may_throw.

Example C35_witness :
  let v := [net4 10 0 0 7 32; net4 10 0 0 0 24; net4 10 0 1 0 24; net4 10 0 1 3 32] in
  Forall addr_wf v /\ Forall (fun a => is_v4_value (value a) /\ 96 <= get_mask_size a) v
  /\ snd (optimize_vector v) = Ok true /\ length (fst (optimize_vector v)) = 2%nat.
Proof.
  intros v. split; [repeat (constructor; [wfa|]); constructor|].
  split; [repeat (constructor; [vm_compute; repeat split; congruence|]); constructor|].
  split; vm_compute; reflexivity.
Qed.

(* ---------- C36 ---------- *)
(* Missing: elements included in an earlier element which grew after they were
   compared, see the refutation.  An element is never included in a later
   one, and a call which returns false certifies that nothing is included in
   anything: calling until false removes every included network. *)
Theorem C36_no_later_superset_partial : forall v l b, Forall addr_wf v ->
  optimize_vector v = (l, Ok b) ->
  forall i j x y, (i < j)%nat -> nth_error l i = Some x -> nth_error l j = Some y ->
  ~ included x y /\ (b = false -> ~ included y x).
Proof.
  intros v l b W E.
  destruct (outer_order (length v) [] v false l b W (Forall_nil _)) as (O1 & G & O2);
    [constructor|intros d []|exact E|].
  destruct (C35_set_preserved v l (Ok b) W E) as (_ & WL & _).
  specialize (O2 : b = false -> _ -> _ -> _).
  assert (O3 : b = false -> ForallOrdPairs (fun x y => not_in y x) l).
  { intros B. apply O2; auto; [constructor|intros d []]. }
  clear O2 E W.
  assert (K : forall (R : addr -> addr -> Prop) l, ForallOrdPairs R l -> forall i j x y, (i < j)%nat ->
    nth_error l i = Some x -> nth_error l j = Some y -> R x y).
  { clear. induction 1 as [|a l F H IH]; intros i j x y I X Y; [destruct i; discriminate|].
    destruct j; [lia|]. destruct i; cbn in X, Y.
    - injection X as <-. rewrite Forall_forall in F. apply F. now apply nth_error_In in Y.
    - eapply IH; [|exact X|exact Y]. lia. }
  intros i j x y I X Y.
  rewrite Forall_forall in *. apply nth_error_In in X as IX. apply nth_error_In in Y as IY.
  rewrite !included_iff by (auto; now apply G).
  split; [now apply (K _ _ O1 i j x y)|]. intros B. now apply (K _ _ (O3 B) i j x y).
Qed.
Print Assumptions C36_no_later_superset_partial.

Theorem C36_included_network_left_refuted : exists v l, Forall addr_wf v
  /\ optimize_vector v = (l, Ok true)
  /\ exists x y, nth_error l 0 = Some x /\ nth_error l 1 = Some y /\ included y x.
Proof.
  exists [net4 10 0 0 1 32; net4 10 0 0 2 32; net4 10 0 0 0 24]. eexists.
  split; [repeat (constructor; [wfa|]); constructor|]. split; [vm_compute; reflexivity|].
  do 2 eexists. split; [reflexivity|]. split; [reflexivity|].
  apply included_iff; [wfa|wfa|vm_compute; congruence|vm_compute; congruence|].
  vm_compute. split; congruence.
Qed.
Print Assumptions C36_included_network_left_refuted.

Example C36_witness :
  let v := [net4 10 0 0 0 24; net4 10 0 1 0 24; net (group0 0x2001) 16] in
  Forall addr_wf v /\ optimize_vector v = (v, Ok false).
Proof.
  intros v. split; [repeat (constructor; [wfa|]); constructor|]. vm_compute. reflexivity.
Qed.

(* ---------- C74 ---------- *)
(* Each end moves to the other side together with its presence. *)
Theorem C74_swap : forall r,
  has_from (swap_from_to r) = has_to r /\ has_to (swap_from_to r) = has_from r
  /\ get_from (swap_from_to r) = get_to r /\ get_to (swap_from_to r) = get_from r
  /\ swap_from_to (swap_from_to r) = r.
Proof. intros []. repeat split. Qed.
Print Assumptions C74_swap.

(* An empty range becomes the range between the two ends, a range with one end
   stands for the same address, and a range of several addresses is emptied. *)
Theorem C74_swap_fixes_empty : forall r, range_wf r ->
  (full r -> is_empty r = true ->
     is_empty (swap_from_to r) = false
     /\ forall v, element (swap_from_to r) v <-> value (get_to r) <= v <= value (get_from r))
  /\ (full r -> lo r < hi r -> is_empty (swap_from_to r) = true)
  /\ (~ full r -> forall v, element (swap_from_to r) v <-> element r v).
Proof.
  intros r W.
  assert (range_wf (swap_from_to r)) as W' by (destruct W; now split).
  split; [|split].
  - intros [F T] E.
    assert (defined r) as D by now left. assert (defined (swap_from_to r)) as D' by now left.
    assert (lo (swap_from_to r) = hi r /\ hi (swap_from_to r) = lo r) as [L H].
    { unfold lo, hi, swap_from_to. cbn [f_has_from f_has_to f_from f_to]. now rewrite F, T. }
    assert (hi r < lo r) as X.
    { pose proof (nonempty_bool r W D) as N. destruct (Z_lt_le_dec (hi r) (lo r)); [assumption|].
      assert (is_empty r = false) by (apply N; now split). congruence. }
    split.
    + apply nonempty_bool; auto. split; [exact D'|lia].
    + intros v. unfold element. rewrite L, H. unfold hi, lo, get_to, get_from. rewrite F, T.
      cbn [f_has_from f_has_to swap_from_to]. tauto.
  - intros [F T] X. assert (defined (swap_from_to r)) as D' by now left.
    destruct (is_empty (swap_from_to r)) eqn:E; [reflexivity|]. exfalso. apply nonempty_bool in E; auto.
    destruct E as [_ E]. revert E X. unfold lo, hi, swap_from_to. cbn [f_has_from f_has_to f_from f_to].
    rewrite F, T. lia.
  - intros N v. unfold element, lo, hi, swap_from_to, full in *. cbn [f_has_from f_has_to f_from f_to].
    destruct (f_has_from r), (f_has_to r); tauto || (intuition lia).
Qed.
Print Assumptions C74_swap_fixes_empty.

Example C74_witness : range_wf r_empty /\ full r_empty /\ is_empty r_empty = true
  /\ count (swap_from_to r_empty) = 7
  /\ has_to (swap_from_to (only_from (net4 10 0 0 5 32))) = true /\ has_from (swap_from_to (only_from (net4 10 0 0 5 32))) = false.
Proof. split; [wfr|]. split; [now split|]. vm_compute. auto. Qed.
