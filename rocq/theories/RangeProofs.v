From Verif Require Import Base Addr Spec Range SpecRange.
From Verif Require Import AddrProofs AddrProofs2 AddrProofs3.
From Coq Require Import ZifyBool ZifyNat.
Local Open Scope Z_scope.
Ltac Zify.zify_post_hook ::= Z.div_mod_to_equations.

(* ---------- ends ---------- *)

Lemma eff_from_ok r : range_wf r -> addr_wf (eff_from r) /\ value (eff_from r) = lo r.
Proof. intros [A B]. unfold eff_from, lo. destruct (f_has_from r); auto. Qed.

Lemma eff_to_ok r : range_wf r -> addr_wf (eff_to r) /\ value (eff_to r) = hi r.
Proof. intros [A B]. unfold eff_to, hi. destruct (f_has_to r); auto. Qed.

Lemma lo_range r : range_wf r -> 0 <= lo r < 2 ^ 128.
Proof. intros W. destruct (eff_from_ok r W) as [A <-]. now apply value_range. Qed.

Lemma hi_range r : range_wf r -> 0 <= hi r < 2 ^ 128.
Proof. intros W. destruct (eff_to_ok r W) as [A <-]. now apply value_range. Qed.

Lemma single_lo_hi r : is_range r = false -> defined r -> lo r = hi r.
Proof.
  unfold is_range, defined, lo, hi. destruct (f_has_from r), (f_has_to r); cbn; intros; auto; try easy.
  destruct H0; discriminate.
Qed.

Lemma is_defined_spec r : is_defined r = true <-> defined r.
Proof. unfold is_defined, defined. now rewrite orb_true_iff. Qed.

Lemma is_range_spec r : is_range r = true <-> full r.
Proof. unfold is_range, full. now rewrite andb_true_iff. Qed.

Lemma full_lo_hi r : full r -> lo r = value (f_from r) /\ hi r = value (f_to r).
Proof. intros [A B]. unfold lo, hi. now rewrite A, B. Qed.

Lemma full_defined r : full r -> defined r.
Proof. intros [A B]. now left. Qed.

Lemma is_empty_spec r : range_wf r -> defined r ->
  is_empty r = (lo r >? hi r).
Proof.
  intros W D. unfold is_empty. destruct (is_range r) eqn:R; cbn [negb].
  - pose proof (proj1 (is_range_spec r) R) as F. destruct (full_lo_hi r F) as [-> ->].
    destruct W. now apply gt_value.
  - rewrite (single_lo_hi r R D). symmetry. lia.
Qed.

Lemma nonempty_bool r : range_wf r -> defined r -> (is_empty r = false <-> nonempty r).
Proof.
  intros W D. rewrite is_empty_spec by auto. unfold nonempty. split; intros; [split; auto|]; lia.
Qed.

Lemma element_nonempty r v : element r v -> nonempty r.
Proof. intros [D H]. split; auto. lia. Qed.

(* ---------- is_in, match ---------- *)

Lemma is_in_spec r x : range_wf r -> addr_wf x -> full r ->
  is_in r x = Ok ((lo r <=? value x) && (value x <=? hi r)).
Proof.
  intros [A B] X F. unfold is_in. rewrite (proj2 (is_range_spec r) F). cbn [negb].
  destruct (full_lo_hi r F) as [-> ->].
  rewrite le_value, ge_value, le_value by auto.
  destruct (value (f_from r) <=? value (f_to r)) eqn:E; f_equal; lia.
Qed.

Lemma range_match_full r x : range_wf r -> addr_wf x -> full r ->
  range_match r x = Ok ((lo r <=? value x) && (value x <=? hi r)).
Proof.
  intros W X F. unfold range_match. rewrite is_empty_spec by auto using full_defined.
  rewrite (proj2 (is_range_spec r) F).
  destruct (lo r >? hi r) eqn:E.
  - f_equal. lia.
  - now apply is_in_spec.
Qed.

Lemma range_match_single r x : ~ full r ->
  range_match r x = Ok (match_ (if f_has_from r then f_from r else f_to r) x false).
Proof.
  intros F. unfold range_match, is_empty.
  destruct (is_range r) eqn:R. { elim F. now apply is_range_spec. }
  cbn [negb]. unfold has_from. now destruct (f_has_from r).
Qed.

Lemma range_match_ok r x : exists b, range_match r x = Ok b.
Proof.
  unfold range_match, is_in. destruct (is_empty r); eauto.
  destruct (is_range r); cbn [negb]; eauto.
  - destruct (le_ _ _); eauto.
  - destruct (has_from r); eauto.
Qed.

Lemma is_ipv4_range r : range_wf r -> nonempty r -> (range_is_ipv4 r = true <-> all_v4 r).
Proof.
  intros W [D N]. unfold range_is_ipv4, all_v4, element.
  pose proof (is_ipv4_bool _ (wf_from r W)) as A. pose proof (is_ipv4_bool _ (wf_to r W)) as B.
  unfold lo, hi, is_v4_value, defined in *.
  destruct (f_has_from r), (f_has_to r); cbn [andb]; rewrite ?A, ?B.
  - split; intros H.
    + intros v Hv. lia.
    + pose proof (H (value (f_from r)) ltac:(split; auto; lia)).
      pose proof (H (value (f_to r)) ltac:(split; auto; lia)). lia.
  - split; intros H.
    + intros v Hv. lia.
    + pose proof (H (value (f_from r)) ltac:(split; auto; lia)). lia.
  - split; intros H.
    + intros v Hv. lia.
    + pose proof (H (value (f_to r)) ltac:(split; auto; lia)). lia.
  - destruct D; discriminate.
Qed.

(* ---------- size ---------- *)

Lemma size_full r : range_wf r -> full r ->
  - 2 ^ 127 <= hi r - lo r < 2 ^ 127 - 1 ->
  size r = Ok (Z.min (u128 (hi r - lo r + 1)) SIZE_MAX).
Proof.
  intros [A B] F H. unfold size, has_from, has_to. destruct F as [F1 F2] eqn:EF.
  destruct (full_lo_hi r F) as [L R]. rewrite L, R in *. rewrite F1, F2. cbn [andb].
  rewrite sub_addr_exact by (auto; lia).
  destruct (_ =? 2 ^ 127 - 1) eqn:E; [lia|reflexivity].
Qed.

Lemma size_general r : range_wf r -> full r ->
  (exists d, - 2 ^ 127 <= d < 2 ^ 127 /\ d mod 2 ^ 128 = (hi r - lo r) mod 2 ^ 128
    /\ size r = if d =? 2 ^ 127 - 1 then UB else Ok (Z.min (u128 (d + 1)) SIZE_MAX)).
Proof.
  intros [A B] F. destruct (full_lo_hi r F) as [-> ->]. destruct F as [F1 F2].
  exists (sub_addr (f_to r) (f_from r)).
  destruct (sub_addr_mod (f_to r) (f_from r) B A) as [H1 H2].
  split; auto. split; auto. unfold size, has_from, has_to. now rewrite F1, F2.
Qed.

Lemma size_nonempty r : range_wf r -> full r -> lo r <= hi r ->
  hi r - lo r <> 2 ^ 127 - 1 -> hi r - lo r <> LAST ->
  size r = Ok (Z.min (hi r - lo r + 1) SIZE_MAX).
Proof.
  intros W F N N1 N2. destruct (size_general r W F) as (d & D & M & ->).
  pose proof (lo_range r W). pose proof (hi_range r W).
  remember (hi r - lo r) as k. assert (0 <= k < 2 ^ 128 - 1) by (unfold LAST in *; lia).
  clear Heqk. unfold u128, LAST in *.
  assert (d = k \/ d = k - 2 ^ 128) as [->| ->] by lia.
  - destruct (k =? 2 ^ 127 - 1) eqn:E; [lia|]. f_equal. f_equal. lia.
  - destruct (k - 2 ^ 128 =? 2 ^ 127 - 1) eqn:E; [lia|]. f_equal. f_equal. lia.
Qed.

Lemma size_single r : ~ full r -> defined r -> size r = Ok 1.
Proof.
  unfold full, defined, size, has_from, has_to. destruct (f_has_from r), (f_has_to r); cbn; intuition congruence.
Qed.

Lemma size_undefined r : ~ defined r -> size r = Ok 0.
Proof.
  unfold full, defined, size, has_from, has_to. destruct (f_has_from r), (f_has_to r); cbn; intuition congruence.
Qed.

(* ---------- to_addresses ---------- *)

(* the list produced from a with n more addresses *)
Fixpoint enum (n : nat) (a : addr) : list addr :=
  match n with O => [] | S k => a :: enum k (incr a) end.

Lemma incr_value a : addr_wf a -> value a < LAST ->
  addr_wf (incr a) /\ same_but_ip a (incr a) /\ value (incr a) = value a + 1.
Proof.
  intros W L. destruct (incr_moved a W) as (W' & S & V). repeat split; auto; try apply S; try apply W'.
  rewrite V. pose proof (value_range a W). unfold clamp. lia.
Qed.

Lemma loop_enum to : addr_wf to -> value to < LAST -> forall n fuel a,
  addr_wf a -> value a <= value to -> Z.of_nat n = value to - value a ->
  (n < fuel)%nat ->
  to_addresses_loop fuel a to = Ok (enum (S n) a).
Proof.
  intros Wt Lt. induction n as [|n IH]; intros fuel a W L N F.
  - destruct fuel; [lia|]. cbn [to_addresses_loop].
    destruct (incr_value a W) as (W' & S & V); [lia|].
    rewrite le_value by auto. rewrite V. destruct (_ <=? _) eqn:E; [lia|reflexivity].
  - destruct fuel; [lia|]. cbn [to_addresses_loop].
    destruct (incr_value a W) as (W' & S & V); [lia|].
    rewrite le_value by auto. rewrite V. destruct (_ <=? _) eqn:E; [|lia].
    rewrite IH by (auto; lia). reflexivity.
Qed.

Lemma enum_spec n : forall a, addr_wf a -> value a + Z.of_nat n <= LAST + 1 ->
  map value (enum n a) = map (fun i => value a + Z.of_nat i) (seq 0 n)
  /\ Forall (fun b => addr_wf b /\ same_but_ip a b) (enum n a).
Proof.
  induction n as [|n IH]; intros a W L; cbn [enum map seq].
  - split; auto.
  - destruct n as [|n'].
    { cbn. split; [f_equal; lia|]. constructor; [|constructor]. split; auto using same_refl. }
    destruct (incr_value a W) as (W' & S & V); [lia|].
    destruct (IH (incr a) W') as [E F]; [lia|]. split.
    + rewrite E. f_equal; [lia|]. rewrite <- seq_shift, map_map. apply map_ext. intros. rewrite V. lia.
    + constructor; [split; auto using same_refl|].
      eapply Forall_impl; [|exact F]. intros b [? ?]. split; auto. eapply same_trans; eauto.
Qed.

Lemma loop_forever to : addr_wf to -> value to = LAST -> forall fuel a,
  addr_wf a -> to_addresses_loop fuel a to = OutOfFuel.
Proof.
  intros Wt Lt. induction fuel as [|k IH]; intros a W; auto.
  cbn [to_addresses_loop].
  destruct (incr_moved a W) as (W' & _ & _).
  rewrite le_value by auto. rewrite Lt. pose proof (value_range _ W').
  destruct (_ <=? _) eqn:E; [|unfold LAST in *; lia]. now rewrite IH.
Qed.

(* ---------- intersection ---------- *)

Lemma intersection_spec l r : range_wf l -> range_wf r -> full l -> full r ->
  let i := intersection l r in
  range_wf i /\ full i /\ lo i = Z.max (lo l) (lo r) /\ hi i = Z.min (hi l) (hi r).
Proof.
  intros [Wl1 Wl2] [Wr1 Wr2] Fl Fr i.
  destruct (full_lo_hi l Fl) as [-> ->]. destruct (full_lo_hi r Fr) as [-> ->].
  assert (full i) by (split; reflexivity).
  destruct (full_lo_hi i H) as [-> ->]. subst i.
  unfold intersection. cbn [set_to set_from f_from f_to range_new f_has_from f_has_to].
  rewrite gt_value, lt_value by auto.
  split; [|split; [exact H|]].
  - split; cbn [f_from f_to]; [destruct (_ >? _)|destruct (_ <? _)]; auto.
  - destruct (_ >? _) eqn:E1, (_ <? _) eqn:E2; lia.
Qed.

(* ---------- union ---------- *)

Definition touching (l r : addr_range) : bool :=
  ((lo l <=? hi r) && (lo r <=? hi l)) || (lo l =? hi r + 1) || (lo r =? hi l + 1).

Definition fitsb (n v : Z) : bool :=
  ((if (v4_base <=? v) && (v <? v4_base + 2 ^ 32) then 96 else 0) <=? n) && (n <=? 128).

Lemma is_next_bool a b : addr_wf a -> addr_wf b -> is_next a b = (value b =? value a + 1).
Proof.
  intros A B. pose proof (is_next_value a b A B). destruct (is_next a b); lia.
Qed.
Lemma is_previous_bool a b : addr_wf a -> addr_wf b -> is_previous a b = (value b =? value a - 1).
Proof.
  intros A B. pose proof (is_previous_value a b A B). destruct (is_previous a b); lia.
Qed.

Lemma set_mask_count_fits a n : addr_wf a ->
  if fitsb n (value a)
  then exists b, set_mask_count a n = (b, Ok tt) /\ addr_wf b /\ value b = value a
       /\ mask_value b = prefix_mask n /\ get_mask_size b = n /\ 0 <= n <= 128
  else set_mask_count a n = (a, Throw E_out_of_range).
Proof.
  intros W. pose proof (set_mask_count_spec a n W) as S. cbn zeta in S.
  rewrite (is_ipv4_bool a W) in S. unfold fitsb.
  destruct ((v4_base <=? value a) && (value a <? v4_base + 2 ^ 32));
    destruct (_ && (n <=? 128)) eqn:E; auto;
    destruct S as (b & E1 & W' & M & G & _ & A); exists b; repeat split; auto; try apply W';
    try (unfold value, s6; now rewrite A); lia.
Qed.

Definition union_from_mask (l r : addr_range) : Z :=
  Z.min (get_mask_size (f_from l)) (get_mask_size (f_from r)).
Definition union_to_mask (l r : addr_range) : Z :=
  Z.min (get_mask_size (f_to l)) (get_mask_size (f_to r)).

Lemma union_spec l r : range_wf l -> range_wf r -> defined l -> defined r ->
  if touching l r
  then if fitsb (union_from_mask l r) (Z.min (lo l) (lo r))
          && fitsb (union_to_mask l r) (Z.max (hi l) (hi r))
       then exists u, union_if_possible l r = Ok u /\ range_wf u /\ f_has_from u = true
            /\ (f_has_to u = true <-> full l \/ full r \/ lo l <> lo r)
            /\ lo u = Z.min (lo l) (lo r) /\ hi u = Z.max (hi l) (hi r)
            /\ mask_value (f_from u) = prefix_mask (union_from_mask l r)
            /\ get_mask_size (f_from u) = union_from_mask l r
            /\ (f_has_to u = true -> get_mask_size (f_to u) = union_to_mask l r)
       else union_if_possible l r = Throw E_out_of_range
  else union_if_possible l r = Ok range_new.
Proof.
  intros Wl Wr Dl Dr. unfold union_if_possible.
  rewrite (proj2 (is_defined_spec l) Dl). cbn [negb andb].
  destruct (eff_from_ok l Wl) as [W1 V1]. destruct (eff_to_ok l Wl) as [W2 V2].
  destruct (eff_from_ok r Wr) as [W3 V3]. destruct (eff_to_ok r Wr) as [W4 V4].
  pose proof (single_lo_hi l) as Sl. pose proof (single_lo_hi r) as Sr.
  pose proof (is_range_spec l) as Rl. pose proof (is_range_spec r) as Rr.
  fold (union_from_mask l r). fold (union_to_mask l r).
  set (mf := union_from_mask l r). set (mt := union_to_mask l r). clearbody mf mt.
  set (lf := eff_from l) in *. set (lt := eff_to l) in *. set (rf := eff_from r) in *. set (rt := eff_to r) in *.
  clearbody lf lt rf rt.
  rewrite !le_value, !ge_value, is_previous_bool, is_next_bool by auto.
  assert (((value lf <=? value rt) && (value lt >=? value rf)
    || (value lt >=? value rf) && (value lf <=? value rt)
    || (value rt =? value lf - 1) || (value rf =? value lt + 1)) = touching l r) as ->.
  { unfold touching. rewrite <- V1, <- V2, <- V3, <- V4. clear. lia. }
  destruct (touching l r) eqn:T; [|reflexivity].
  unfold touching in T.
  assert (exists f, (if lt_ lf rf then lf else rf) = f /\ addr_wf f /\ value f = Z.min (lo l) (lo r))
    as (f & -> & Wf & Vf).
  { eexists; split; [reflexivity|]. rewrite lt_value by auto. destruct (_ <? _) eqn:E; split; auto; lia. }
  assert (exists t, (if gt_ lt rt then lt else rt) = t /\ addr_wf t /\ value t = Z.max (hi l) (hi r))
    as (t & -> & Wt & Vt).
  { eexists; split; [reflexivity|]. rewrite gt_value by auto. destruct (_ >? _) eqn:E; split; auto; lia. }
  rewrite <- Vf, <- Vt.
  pose proof (set_mask_count_fits f mf Wf) as SF. pose proof (set_mask_count_fits t mt Wt) as ST.
  destruct (fitsb mf (value f)); cbn [andb].
  2:{ rewrite SF. reflexivity. }
  destruct SF as (f1 & -> & Wf1 & Vf1 & Mf1 & Gf1 & Bf1). cbn [rbind].
  destruct (fitsb mt (value t)).
  2:{ rewrite ST. reflexivity. }
  destruct ST as (t1 & -> & Wt1 & Vt1 & Mt1 & Gt1 & Bt1). cbn [rbind].
  rewrite ne_value by auto.
  clear W1 W2 W3 W4.
  destruct (is_range l || is_range r || negb (value f1 =? value t1)) eqn:C.
  - eexists; split; [reflexivity|]. split; [split; assumption|].
    split; [reflexivity|]. cbn [set_to set_from f_has_to f_has_from f_from f_to lo hi range_new].
    split; [|repeat split; auto].
    split; [intros _|reflexivity].
    destruct (is_range l) eqn:E1; [left; now apply Rl|].
    destruct (is_range r) eqn:E2; [right; left; now apply Rr|].
    right; right. cbn [orb] in C. specialize (Sl eq_refl Dl). specialize (Sr eq_refl Dr). lia.
  - eexists; split; [reflexivity|]. split; [split; auto using new_wf; apply new_wf|].
    split; [reflexivity|].
    cbn [set_to set_from f_has_to f_has_from f_from f_to lo hi range_new].
    destruct (is_range l) eqn:E1; [discriminate|].
    destruct (is_range r) eqn:E2; [discriminate|]. cbn [orb] in C.
    specialize (Sl eq_refl Dl). specialize (Sr eq_refl Dr).
    split; [|repeat split; auto; try congruence; lia].
    split; [discriminate|]. intros [H|[H|H]]; [apply Rl in H; discriminate|apply Rr in H; discriminate|lia].
Qed.

Lemma touching_elements l r u : defined l -> defined r -> touching l r = true ->
  defined u -> lo u = Z.min (lo l) (lo r) -> hi u = Z.max (hi l) (hi r) ->
  forall v, element u v <-> element l v \/ element r v.
Proof.
  intros Dl Dr T Du L H v. unfold element, touching, defined in *.
  assert (lo u <= v <= hi u <-> lo l <= v <= hi l \/ lo r <= v <= hi r) as R.
  { rewrite L, H. clear L H. generalize dependent (lo l). generalize dependent (hi l).
    generalize dependent (lo r). generalize dependent (hi r). clear. intros. lia. }
  tauto.
Qed.

(* ---------- compare ---------- *)

Lemma compare_intervals_spec l r : range_wf l -> range_wf r ->
  compare_intervals l r =
  if hi l <? lo r then if lo r =? hi l + 1 then COMPARE_PRECEDES else COMPARE_SMALLER
  else if lo l >? hi r then if hi r =? lo l - 1 then COMPARE_FOLLOWS else COMPARE_LARGER
  else if lo l <=? lo r then
    if hi l >=? hi r then
      if (lo l =? lo r) && (hi l =? hi r) then COMPARE_EQUAL else COMPARE_INCLUDED
    else if lo l =? lo r then COMPARE_INCLUDES else COMPARE_OVERLAP_SMALL_VS_LARGE
  else if hi l <=? hi r then COMPARE_INCLUDES else COMPARE_OVERLAP_LARGE_VS_SMALL.
Proof.
  intros Wl Wr. unfold compare_intervals.
  destruct (eff_from_ok l Wl) as [W1 <-]. destruct (eff_to_ok l Wl) as [W2 <-].
  destruct (eff_from_ok r Wr) as [W3 <-]. destruct (eff_to_ok r Wr) as [W4 <-].
  rewrite lt_value, is_next_bool, gt_value, is_previous_bool, !le_value, ge_value, !eq_value by auto.
  reflexivity.
Qed.

Lemma compare_intervals_meaning l r : range_wf l -> range_wf r -> nonempty l -> nonempty r ->
  meaning (compare_intervals l r) l r.
Proof.
  intros Wl Wr Nl Nr. rewrite compare_intervals_spec by auto.
  destruct Nl as [Dl Hl], Nr as [Dr Hr].
  assert (Nl : nonempty l) by (split; auto). assert (Nr : nonempty r) by (split; auto).
  destruct (hi l <? lo r) eqn:E1.
  { destruct (lo r =? hi l + 1) eqn:E2; cbn [meaning]; split; auto; split; auto; try lia.
    exists (hi l + 1). unfold element. split; intros v [_ Hv]; lia. }
  destruct (lo l >? hi r) eqn:E2.
  { destruct (hi r =? lo l - 1) eqn:E3; cbn [meaning]; split; auto; split; auto; try lia.
    exists (hi r + 1). unfold element. split; intros v [_ Hv]; lia. }
  destruct (lo l <=? lo r) eqn:E3.
  - destruct (hi l >=? hi r) eqn:E4.
    + destruct ((lo l =? lo r) && (hi l =? hi r)) eqn:E5; cbn [meaning]; split; auto; split; auto.
      * unfold element. intros v. unfold defined in *.
        assert (lo l <= v <= hi l <-> lo r <= v <= hi r) by lia. tauto.
      * split.
        { intros v [_ Hv]. split; auto. lia. }
        intros S. pose proof (S (lo l) ltac:(split; auto; lia)) as [_ ?].
        pose proof (S (hi l) ltac:(split; auto; lia)) as [_ ?]. lia.
    + destruct (lo l =? lo r) eqn:E5; cbn [meaning]; split; auto; split; auto.
      * split.
        { intros v [_ Hv]. split; auto. lia. }
        intros S. pose proof (S (hi r) ltac:(split; auto; lia)) as [_ ?]. lia.
      * split; [lia|]. split; [lia|]. exists (lo r). split; split; auto; lia.
  - destruct (hi l <=? hi r) eqn:E4; cbn [meaning]; split; auto; split; auto.
    + split.
      { intros v [_ Hv]. split; auto. lia. }
      intros S. pose proof (S (lo r) ltac:(split; auto; lia)) as [_ ?]. lia.
    + split; [lia|]. split; [lia|]. exists (lo l). split; split; auto; lia.
Qed.

Lemma not_is_defined r : is_defined r = false -> ~ defined r.
Proof. intros H D. apply is_defined_spec in D. congruence. Qed.

Lemma compare_meaning l r m : range_wf l -> range_wf r -> meaning (compare l r m) l r.
Proof.
  intros Wl Wr. unfold compare.
  destruct (is_defined l) eqn:Dl; cbn [negb orb]; [|left; now apply not_is_defined].
  destruct (is_defined r) eqn:Dr; cbn [negb orb]; [|right; left; now apply not_is_defined].
  apply is_defined_spec in Dl, Dr.
  pose proof (nonempty_bool l Wl Dl) as Nl. pose proof (nonempty_bool r Wr Dr) as Nr.
  destruct (is_empty l).
  { assert (~ nonempty l) by (intros X; apply Nl in X; discriminate).
    destruct (is_empty r); cbn [meaning].
    - right. right. split; auto. intros X; apply Nr in X; discriminate.
    - split; auto. now apply Nr. }
  destruct (is_empty r).
  { cbn [meaning]. split; [now apply Nl|]. split; auto. intros X; apply Nr in X; discriminate. }
  pose proof (proj1 Nl eq_refl) as Ml. pose proof (proj1 Nr eq_refl) as Mr.
  pose proof (is_ipv4_range l Wl Ml) as Il. pose proof (is_ipv4_range r Wr Mr) as Ir.
  pose proof (compare_intervals_meaning l r Wl Wr Ml Mr) as CI.
  destruct m; cbn [negb]; auto.
  destruct (range_is_ipv4 l), (range_is_ipv4 r); cbn [negb]; auto; cbn [meaning].
  - split; auto. split; auto. split; [now apply Il|]. intros X; apply Ir in X; discriminate.
  - split; auto. split; auto. split; [|now apply Ir]. intros X; apply Il in X; discriminate.
Qed.

Lemma compare_mirror l r m : range_wf l -> range_wf r -> compare r l m = mirror (compare l r m).
Proof.
  intros Wl Wr. unfold compare. rewrite (orb_comm (negb (is_defined r))).
  destruct (negb (is_defined l) || negb (is_defined r)) eqn:D; [reflexivity|].
  apply orb_false_iff in D as [Dl Dr]. apply negb_false_iff, is_defined_spec in Dl, Dr.
  destruct (is_empty l) eqn:El.
  { destruct (is_empty r); reflexivity. }
  destruct (is_empty r) eqn:Er; [reflexivity|].
  rewrite is_empty_spec in El, Er by auto.
  assert (M : compare_intervals r l = mirror (compare_intervals l r)).
  { rewrite !compare_intervals_spec by auto.
    repeat match goal with |- context [if ?b then _ else _] => destruct b eqn:? end; try reflexivity; lia. }
  destruct m; cbn [negb]; auto.
  destruct (range_is_ipv4 l), (range_is_ipv4 r); cbn [negb]; auto.
Qed.

(* ---------- operator < ---------- *)

(* non-empty before empty; then by first address; then the longer one first *)
Definition range_ltb (l r : addr_range) : bool :=
  if lo l >? hi l then false
  else if lo r >? hi r then true
  else (lo l <? lo r) || ((lo l =? lo r) && (hi r <? hi l)).

Lemma range_lt_spec l r : range_wf l -> range_wf r -> defined l -> defined r ->
  range_lt l r = range_ltb l r.
Proof.
  intros Wl Wr Dl Dr. unfold range_lt, range_ltb, compare.
  rewrite (proj2 (is_defined_spec l) Dl), (proj2 (is_defined_spec r) Dr). cbn [negb orb].
  rewrite !is_empty_spec by auto.
  destruct (lo l >? hi l) eqn:E1; destruct (lo r >? hi r) eqn:E2; auto.
  rewrite compare_intervals_spec by auto.
  repeat match goal with |- context [if ?b then _ else _] => destruct b eqn:? end; lia.
Qed.

(* ---------- from_cidr ---------- *)

Lemma contiguous_size a : addr_wf a ->
  (contiguous a /\ 0 <= get_mask_size a <= 128 /\ mask_value a = prefix_mask (get_mask_size a))
  \/ (~ contiguous a /\ get_mask_size a = -1).
Proof.
  intros W. destruct (get_mask_size_spec a W) as [(n & B & M & G)|[N G]].
  - left. rewrite G. split; [exists n; auto|]. auto.
  - right. split; auto. intros (n & B & M). now apply (N n B).
Qed.

Lemma from_cidr_spec r a : addr_wf a ->
  if get_mask_size a =? -1
  then ~ contiguous a /\ from_cidr r a = (r, Throw E_unsupported_as_range)
  else exists n u, contiguous a /\ 0 <= n <= 128 /\ get_mask_size a = n /\ mask_value a = prefix_mask n
    /\ from_cidr r a = (u, Ok tt)
    /\ range_wf u /\ full u
    /\ lo u = block_first n (value a) /\ hi u = block_last n (value a)
    /\ get_mask_size (f_from u) = n /\ get_mask_size (f_to u) = n
    /\ same_but_ip a (f_from u) /\ same_but_ip a (f_to u).
Proof.
  intros W. destruct (contiguous_size a W) as [(C & B & M)|[C G]].
  - destruct (get_mask_size a =? -1) eqn:E; [lia|].
    exists (get_mask_size a). eexists. split; auto. split; auto. split; auto. split; auto.
    unfold from_cidr. rewrite E. split; [reflexivity|].
    destruct (apply_mask_false a W) as [Wf Vf]. destruct (apply_mask_true a W) as [Wt Vt].
    split; [split; assumption|]. split; [split; reflexivity|]. unfold lo, hi.
    cbn [f_has_from f_has_to f_from f_to].
    rewrite Vf, Vt, M, land_prefix, lor_prefix by (auto; now apply value_range).
    split; auto. split; auto.
    pose proof (apply_mask_same a false) as S1. pose proof (apply_mask_same a true) as S2.
    split; [unfold get_mask_size; now rewrite <- (sb_mask _ _ S1)|].
    split; [unfold get_mask_size; now rewrite <- (sb_mask _ _ S2)|]. auto.
  - rewrite G. cbn. split; auto. unfold from_cidr. now rewrite G.
Qed.

(* ---------- to_cidr ---------- *)

Lemma land_bit x i : 0 <= i -> 0 <= x -> (Z.land x (2 ^ i) =? 0) = negb (Z.testbit x i).
Proof.
  intros I X. destruct (Z.testbit x i) eqn:T; cbn [negb].
  - apply Z.eqb_neq. intros H. assert (Z.testbit (Z.land x (2 ^ i)) i = true).
    { rewrite Z.land_spec, T, Z.pow2_bits_true by lia. reflexivity. }
    rewrite H, Z.bits_0 in H0. discriminate.
  - apply Z.eqb_eq. apply Z.bits_inj'. intros k K. rewrite Z.land_spec, Z.bits_0.
    rewrite Z.pow2_bits_eqb by lia. destruct (i =? k) eqn:E; [|apply andb_false_r].
    assert (i = k) by lia. subst. now rewrite T.
Qed.

Lemma land_bit_eq x y i : 0 <= i -> 0 <= x -> 0 <= y ->
  (Z.land x (2 ^ i) =? Z.land y (2 ^ i)) = Bool.eqb (Z.testbit x i) (Z.testbit y i).
Proof.
  intros I X Y.
  assert (H : forall z, 0 <= z -> Z.land z (2 ^ i) = if Z.testbit z i then 2 ^ i else 0).
  { intros z Z0. apply Z.bits_inj'. intros k K. rewrite Z.land_spec, Z.pow2_bits_eqb by lia.
    destruct (i =? k) eqn:E.
    - assert (i = k) by lia. subst. destruct (Z.testbit z k); cbn.
      + now rewrite Z.pow2_bits_true by lia.
      + now rewrite Z.bits_0.
    - rewrite andb_false_r. destruct (Z.testbit z i); [rewrite Z.pow2_bits_false by lia|rewrite Z.bits_0]; reflexivity. }
  rewrite !H by auto. clear H. assert (0 < 2 ^ i) by (apply Z.pow_pos_nonneg; lia).
  generalize dependent (2 ^ i). intros. destruct (Z.testbit x i), (Z.testbit y i); cbn [Bool.eqb]; lia.
Qed.

Lemma next_bit n : (n < 128)%nat -> (0 < n)%nat ->
  u128 (Z.shiftl (2 ^ (128 - Z.of_nat (S n))) 1) = 2 ^ (128 - Z.of_nat n).
Proof.
  intros N P. rewrite Z.shiftl_mul_pow2 by lia. rewrite <- Z.pow_add_r by lia.
  replace (128 - Z.of_nat (S n) + 1) with (128 - Z.of_nat n) by lia.
  unfold u128. apply Z.mod_small. split; [apply Z.pow_nonneg; lia|].
  apply Z.pow_lt_mono_r; lia.
Qed.

Lemma same_spec x y : 0 <= x -> 0 <= y -> forall n, (n <= 128)%nat ->
  (to_cidr_same n (2 ^ (128 - Z.of_nat n)) x y = true
   <-> forall i, 128 - Z.of_nat n <= i < 128 -> Z.testbit x i = Z.testbit y i).
Proof.
  intros X Y. induction n as [|n IH]; intros N.
  - split; [intros _ i I; lia|reflexivity].
  - cbn [to_cidr_same]. rewrite land_bit_eq by lia.
    assert (R : to_cidr_same n (u128 (Z.shiftl (2 ^ (128 - Z.of_nat (S n))) 1)) x y = true
      <-> forall i, 128 - Z.of_nat n <= i < 128 -> Z.testbit x i = Z.testbit y i).
    { destruct n; [split; [intros _ i I; lia|reflexivity]|].
      rewrite next_bit by lia. apply IH. lia. }
    destruct (Bool.eqb _ _) eqn:E; cbn [negb].
    + apply Bool.eqb_prop in E. rewrite R. split; intros H i I.
      * destruct (Z.eq_dec i (128 - Z.of_nat (S n))) as [->|]; auto. apply H. lia.
      * apply H. lia.
    + split; [discriminate|]. intros H. apply Bool.eqb_false_iff in E. elim E. apply H. lia.
Qed.

(* x and y are the first and last number of a block of 2^k numbers *)
Definition bits_block (k : Z) (x y : Z) : Prop :=
  (forall i, 0 <= i < k -> Z.testbit x i = false /\ Z.testbit y i = true)
  /\ (forall i, k <= i < 128 -> Z.testbit x i = Z.testbit y i).

Lemma loop_spec x y : 0 <= x -> 0 <= y -> forall n, (n <= 128)%nat ->
  (forall i, 0 <= i < 128 - Z.of_nat n -> Z.testbit x i = false /\ Z.testbit y i = true) ->
  match to_cidr_loop n (2 ^ (128 - Z.of_nat n)) (Z.of_nat n) x y with
  | Some c => 0 <= c <= 128 /\ bits_block (128 - c) x y
  | None => forall k, 0 <= k <= 128 -> ~ bits_block k x y
  end.
Proof.
  intros X Y. induction n as [|n IH]; intros N P.
  - cbn [to_cidr_loop]. split; [lia|]. split.
    + intros i I. apply P. lia.
    + intros i I. lia.
  - cbn [to_cidr_loop]. rewrite !land_bit by lia. rewrite negb_involutive.
    set (k := 128 - Z.of_nat (S n)) in *.
    destruct (Z.testbit x k || negb (Z.testbit y k)) eqn:E.
    + destruct (to_cidr_same (S n) (2 ^ k) x y) eqn:S.
      * split; [lia|]. split.
        { intros i I. apply P. lia. }
        { subst k. pose proof (proj1 (same_spec x y X Y _ N) S) as S2. intros i I. apply S2. lia. }
      * intros j J [B1 B2]. assert (to_cidr_same (Datatypes.S n) (2 ^ k) x y = true); [|congruence].
        apply (proj2 (same_spec x y X Y _ N)). intros i I. apply B2. fold k in I.
        destruct (Z_le_gt_dec j k); [lia|].
        destruct (B1 k) as [T1 T2]; [lia|]. rewrite T1, T2 in E. discriminate.
    + assert (R : match to_cidr_loop n (2 ^ (128 - Z.of_nat n)) (Z.of_nat n) x y with
        | Some c => 0 <= c <= 128 /\ bits_block (128 - c) x y
        | None => forall k, 0 <= k <= 128 -> ~ bits_block k x y
        end).
      { apply IH; [lia|]. intros i I. apply orb_false_iff in E as [E1 E2]. apply negb_false_iff in E2.
        destruct (Z.eq_dec i k) as [->|]; auto. apply P. lia. }
      replace (Z.of_nat (S n) - 1) with (Z.of_nat n) by lia.
      destruct n; [exact R|]. subst k. rewrite next_bit by lia. exact R.
Qed.

Lemma testbit_prefix c i : 0 <= c <= 128 -> 0 <= i < 128 ->
  Z.testbit (prefix_mask c) i = (128 - c <=? i).
Proof.
  intros C I. rewrite prefix_mask_split by auto.
  assert (0 < 2 ^ (128 - c)) by (apply Z.pow_pos_nonneg; lia).
  rewrite split_testbit by lia.
  destruct (i <? 128 - c) eqn:E.
  - rewrite Z.bits_0. lia.
  - replace (2 ^ c - 1) with (Z.ones c) by (rewrite Z.ones_equiv; lia).
    rewrite Z.ones_spec_low by lia. lia.
Qed.

Lemma bits_block_iff c x y : 0 <= c <= 128 -> 0 <= x < 2 ^ 128 -> 0 <= y < 2 ^ 128 ->
  (bits_block (128 - c) x y <-> x = block_first c x /\ y = block_last c x).
Proof.
  intros C X Y. rewrite <- land_prefix, <- lor_prefix by auto.
  pose proof (prefix_mask_range c C) as PR.
  split.
  - intros [B1 B2]. split; apply bits128_eq; auto.
    + apply land_bound; lia.
    + intros i I. rewrite Z.land_spec, testbit_prefix by auto.
      destruct (128 - c <=? i) eqn:E; [now rewrite andb_true_r|].
      rewrite andb_false_r. apply B1. lia.
    + apply lor_bound; unfold LAST; lia.
    + intros i I. rewrite Z.lor_spec, testbit_LAST_minus, testbit_prefix by auto.
      destruct (128 - c <=? i) eqn:E; cbn [negb].
      * rewrite orb_false_r. symmetry. apply B2. lia.
      * rewrite orb_true_r. apply B1. lia.
  - intros [E1 E2]. split; intros i I.
    + split.
      * rewrite E1, Z.land_spec, testbit_prefix by lia. destruct (128 - c <=? i) eqn:E; [lia|]. apply andb_false_r.
      * rewrite E2, Z.lor_spec, testbit_LAST_minus, testbit_prefix by lia.
        destruct (128 - c <=? i) eqn:E; [lia|]. apply orb_true_r.
    + rewrite E2, Z.lor_spec, testbit_LAST_minus, testbit_prefix by lia.
      destruct (128 - c <=? i) eqn:E; [|lia]. now rewrite orb_false_r.
Qed.

Lemma block_aligned_v4 c x : 0 <= c -> x = block_first c x ->
  v4_base <= x < v4_base + 2 ^ 32 -> 96 <= c.
Proof.
  intros C E V. destruct (Z_le_gt_dec 96 c); auto.
  unfold block_first, block_size in E.
  replace (128 - c) with (33 + (95 - c)) in E by lia. rewrite Z.pow_add_r in E by lia.
  remember (x / (2 ^ 33 * 2 ^ (95 - c)) * 2 ^ (95 - c)) as q.
  assert (x = q * 2 ^ 33) by (rewrite E at 1; subst q; ring).
  unfold v4_base in V. lia.
Qed.

Lemma to_cidr_spec r a : range_wf r -> addr_wf a ->
  (exists c a', full r /\ lo r <= hi r /\ 0 <= c <= 128
     /\ lo r = block_first c (lo r) /\ hi r = block_last c (lo r)
     /\ to_cidr r a = (a', Ok true) /\ addr_wf a' /\ value a' = lo r
     /\ mask_value a' = prefix_mask c /\ get_mask_size a' = c)
  \/ ((~ full r \/ hi r < lo r
       \/ forall c, 0 <= c <= 128 -> ~ (lo r = block_first c (lo r) /\ hi r = block_last c (lo r)))
      /\ to_cidr r a = (a, Ok false)).
Proof.
  intros W Wa. unfold to_cidr. pose proof (is_range_spec r) as R.
  destruct (is_range r) eqn:IR; cbn [negb orb].
  2:{ right. split; auto. left. intros F. apply R in F. discriminate. }
  assert (F : full r) by now apply R. rewrite is_empty_spec by auto using full_defined.
  destruct (lo r >? hi r) eqn:E.
  { right. split; auto. lia. }
  destruct (full_lo_hi r F) as [L H]. destruct W as [W1 W2].
  rewrite !ip_to_uint128_value by auto. rewrite <- L, <- H.
  assert (X : 0 <= lo r < 2 ^ 128) by (rewrite L; now apply value_range).
  assert (Y : 0 <= hi r < 2 ^ 128) by (rewrite H; now apply value_range).
  pose proof (loop_spec (lo r) (hi r) (proj1 X) (proj1 Y) 128 (le_n _)) as LS.
  change (2 ^ (128 - Z.of_nat 128)) with 1 in LS. change (Z.of_nat 128) with 128 in LS.
  specialize (LS ltac:(intros i I; lia)).
  destruct (to_cidr_loop 128 1 128 (lo r) (hi r)) as [c|].
  - destruct LS as [C B]. apply bits_block_iff in B; auto. destruct B as [B1 B2].
    left. pose proof (ip_from_wf a (lo r) Wa X) as Wf. pose proof (proj2 (ip_from_spec a (lo r) X)) as Vf.
    pose proof (set_mask_count_fits _ c Wf) as S. rewrite Vf in S.
    assert (fitsb c (lo r) = true) as FT.
    { unfold fitsb. destruct ((v4_base <=? lo r) && (lo r <? v4_base + 2 ^ 32)) eqn:V.
      - pose proof (block_aligned_v4 c (lo r) (proj1 C) B1). lia.
      - lia. }
    rewrite FT in S. destruct S as (b & -> & Wb & Vb & M & G & _).
    exists c, b. split; auto. split; [lia|]. auto 10.
  - right. split; auto. right. right. intros c C B. apply (LS (128 - c)); [lia|].
    apply bits_block_iff; auto.
Qed.

(* ---------- address_match_ranges ---------- *)

Lemma address_match_ranges_spec v x :
  exists b, address_match_ranges v x = Ok b
  /\ (b = true <-> exists r, In r v /\ range_match r x = Ok true).
Proof.
  induction v as [|r v IH].
  - exists false. split; auto. split; [discriminate|]. intros (r & [] & _).
  - cbn [address_match_ranges]. destruct (range_match_ok r x) as [b E]. rewrite E. cbn [rbind].
    destruct b.
    + exists true. split; auto. split; auto. intros _. exists r. split; auto. now left.
    + destruct IH as (b & -> & B). exists b. split; auto. rewrite B. split; intros (s & I & M).
      * exists s. split; auto. now right.
      * destruct I as [->|I]; [congruence|]. exists s. auto.
Qed.
