(* Sorting and merging do not look at is_port_defined(). *)
From Coq Require Import ZifyBool ZifyNat.
From Verif Require Import Base Addr Spec SpecText SpecRange Range Parser SpecParser SpecPort.
From Verif Require AddrProofs ParserProofs6.
Import AddrProofs ParserProofs6.
Local Open Scope Z_scope.

Record like (a b : addr) : Prop := mk_like {
  lk_s6 : s6 a = s6 b; lk_mask : f_mask a = f_mask b; lk_port : get_port a = get_port b;
  lk_protocol : get_protocol a = get_protocol b; lk_name : f_hostname a = f_hostname b }.
(* m: merging, which also looks at ends which are not there *)
Record twin (m : bool) (u v : addr_range) : Prop := mk_twin {
  tw_from : f_has_from u = f_has_from v; tw_to : f_has_to u = f_has_to v;
  tw_lf : f_has_from u = true -> like (f_from u) (f_from v); tw_lt : f_has_to u = true -> like (f_to u) (f_to v);
  tw_m : m = true -> f_has_from u = true /\ f_mask (f_to u) = f_mask (f_to v) }.

Section Two.
Variables a a2 b b2 : addr.
Hypothesis A : like a a2.
Hypothesis B : like b b2.
Lemma lk_lt : lt_ a b = lt_ a2 b2. Proof. unfold lt_. now rewrite (lk_s6 _ _ A), (lk_s6 _ _ B). Qed.
Lemma lk_gt : gt_ a b = gt_ a2 b2. Proof. unfold gt_. now rewrite (lk_s6 _ _ A), (lk_s6 _ _ B). Qed.
Lemma lk_le : le_ a b = le_ a2 b2. Proof. unfold le_. now rewrite (lk_s6 _ _ A), (lk_s6 _ _ B). Qed.
Lemma lk_ge : ge_ a b = ge_ a2 b2. Proof. unfold ge_. now rewrite (lk_s6 _ _ A), (lk_s6 _ _ B). Qed.
Lemma lk_eq : eq_ a b = eq_ a2 b2. Proof. unfold eq_. now rewrite (lk_s6 _ _ A), (lk_s6 _ _ B). Qed.
Lemma lk_ne : ne_ a b = ne_ a2 b2. Proof. unfold ne_. now rewrite (lk_s6 _ _ A), (lk_s6 _ _ B). Qed.
Lemma lk_next : is_next a b = is_next a2 b2. Proof. unfold is_next, ip_to_uint128. now rewrite (lk_s6 _ _ A), (lk_s6 _ _ B). Qed.
Lemma lk_prev : is_previous a b = is_previous a2 b2. Proof. unfold is_previous, ip_to_uint128. now rewrite (lk_s6 _ _ A), (lk_s6 _ _ B). Qed.
Lemma lk_four : is_ipv4 a = is_ipv4 a2. Proof. unfold is_ipv4. now rewrite (lk_s6 _ _ A). Qed.
End Two.
Lemma lk_count a a2 n : like a a2 -> snd (set_mask_count a n) = snd (set_mask_count a2 n) /\ like (fst (set_mask_count a n)) (fst (set_mask_count a2 n)).
Proof.
  intros A. unfold set_mask_count. rewrite <- (lk_four a a2 A). destruct (_ || _); cbn [fst snd]; (split; [reflexivity|]); [exact A|].
  destruct A as [A1 A2 A3 A4 A5]. constructor; [exact A1|reflexivity|exact A3|exact A4|exact A5].
Qed.

Section Ranges.
Variable m : bool.
Lemma tw_defined u v : twin m u v -> is_defined u = is_defined v.
Proof. intros T. unfold is_defined. now rewrite (tw_from _ _ _ T), (tw_to _ _ _ T). Qed.
Lemma tw_range u v : twin m u v -> is_range u = is_range v.
Proof. intros T. unfold is_range. now rewrite (tw_from _ _ _ T), (tw_to _ _ _ T). Qed.
Lemma tw_empty u v : twin m u v -> is_empty u = is_empty v.
Proof.
  intros T. unfold is_empty. rewrite <- (tw_range _ _ T). destruct (is_range u) eqn:E; cbn [negb]; [|reflexivity].
  unfold is_range in E. apply andb_prop in E as [E1 E2]. apply lk_gt; [exact (tw_lf _ _ _ T E1)|exact (tw_lt _ _ _ T E2)].
Qed.
Lemma tw_eff_from u v : twin m u v -> is_defined u = true -> like (eff_from u) (eff_from v).
Proof.
  intros T D. unfold eff_from, is_defined in *. rewrite <- (tw_from _ _ _ T). destruct (f_has_from u) eqn:E; [exact (tw_lf _ _ _ T E)|exact (tw_lt _ _ _ T D)].
Qed.
Lemma tw_eff_to u v : twin m u v -> is_defined u = true -> like (eff_to u) (eff_to v).
Proof.
  intros T D. unfold eff_to, is_defined in *. rewrite <- (tw_to _ _ _ T). destruct (f_has_to u) eqn:E; [exact (tw_lt _ _ _ T E)|]. rewrite orb_false_r in D. exact (tw_lf _ _ _ T D).
Qed.
Lemma tw_four u v : twin m u v -> range_is_ipv4 u = range_is_ipv4 v.
Proof.
  intros T. unfold range_is_ipv4. rewrite <- (tw_from _ _ _ T), <- (tw_to _ _ _ T).
  destruct (f_has_from u) eqn:E1, (f_has_to u) eqn:E2; cbn [andb];
    rewrite ?(lk_four _ _ (tw_lf _ _ _ T E1)), ?(lk_four _ _ (tw_lt _ _ _ T E2)); reflexivity.
Qed.
Lemma tw_compare u v u2 v2 b : twin m u u2 -> twin m v v2 -> compare u v b = compare u2 v2 b.
Proof.
  intros T S. unfold compare. rewrite <- (tw_defined _ _ T), <- (tw_defined _ _ S), <- (tw_empty _ _ T), <- (tw_empty _ _ S), <- (tw_four _ _ T), <- (tw_four _ _ S).
  destruct (is_defined u) eqn:DU; [|reflexivity]. destruct (is_defined v) eqn:DV; [|reflexivity].
  assert (compare_intervals u v = compare_intervals u2 v2) as ->; [|reflexivity].
  pose proof (tw_eff_from _ _ T DU) as F1. pose proof (tw_eff_to _ _ T DU) as F2. pose proof (tw_eff_from _ _ S DV) as F3. pose proof (tw_eff_to _ _ S DV) as F4.
  unfold compare_intervals. cbv zeta.
  rewrite ?(lk_lt _ _ _ _ F2 F3), ?(lk_next _ _ _ _ F2 F3), ?(lk_gt _ _ _ _ F1 F4), ?(lk_prev _ _ _ _ F1 F4), ?(lk_le _ _ _ _ F1 F3), ?(lk_ge _ _ _ _ F2 F4),
    ?(lk_eq _ _ _ _ F1 F3), ?(lk_eq _ _ _ _ F2 F4), ?(lk_le _ _ _ _ F2 F4), ?(lk_ge _ _ _ _ F1 F3), ?(lk_lt _ _ _ _ F1 F3), ?(lk_gt _ _ _ _ F2 F4). reflexivity.
Qed.
Lemma insert_twin lt : (forall u v u2 v2, twin m u u2 -> twin m v v2 -> lt u v = lt u2 v2) ->
  forall x x2, twin m x x2 -> forall l l2, Forall2 (twin m) l l2 -> Forall2 (twin m) (insert lt x l) (insert lt x2 l2).
Proof.
  intros L x x2 X l l2 F. induction F as [|z z2 l l2 Z F IH]; [constructor; [exact X|constructor]|].
  cbn [insert]. rewrite <- (L z x z2 x2 Z X). destruct (lt z x); constructor; auto.
Qed.
Lemma sort_twin lt : (forall u v u2 v2, twin m u u2 -> twin m v v2 -> lt u v = lt u2 v2) ->
  forall l l2, Forall2 (twin m) l l2 -> Forall2 (twin m) (stable_sort lt l) (stable_sort lt l2).
Proof. intros L l l2 F. induction F as [|x x2 l l2 X F IH]; [constructor|]. unfold stable_sort in *. cbn [fold_right]. now apply insert_twin. Qed.
Lemma lt_twin u v u2 v2 : twin m u u2 -> twin m v v2 -> range_lt u v = range_lt u2 v2.
Proof. intros T S. unfold range_lt. now rewrite (tw_compare _ _ _ _ true T S). Qed.
Lemma four_twin u v u2 v2 : twin m u u2 -> twin m v v2 -> v4_first u v = v4_first u2 v2.
Proof. intros T S. unfold v4_first. now rewrite (tw_compare _ _ _ _ false T S). Qed.
Lemma six_twin u v u2 v2 : twin m u u2 -> twin m v v2 -> v6_first u v = v6_first u2 v2.
Proof. intros T S. unfold v6_first. now rewrite (tw_compare _ _ _ _ false T S). Qed.
End Ranges.

(* ---------- merging ---------- *)
Definition twins (a b : res addr_range) : Prop :=
  match a, b with
  | Ok u, Ok v => is_defined u = false /\ u = v \/ twin true u v
  | Throw x, Throw z => x = z
  | UB, UB => True
  | OutOfFuel, OutOfFuel => True
  | _, _ => False
  end.
Lemma new_twin a b : like a b -> twin true (set_from range_new a) (set_from range_new b).
Proof. intros L. constructor; cbn; auto. discriminate. Qed.
Lemma both_twin a b c d : like a b -> like c d -> twin true (set_to (set_from range_new a) c) (set_to (set_from range_new b) d).
Proof. intros L M. constructor; cbn; auto. intros _. split; [reflexivity|exact (lk_mask _ _ M)]. Qed.
Lemma pick (c : bool) a b a2 b2 : like a a2 -> like b b2 -> like (if c then a else b) (if c then a2 else b2).
Proof. now destruct c. Qed.
Lemma union_twin u v u2 v2 : twin true u u2 -> twin true v v2 -> twins (union_if_possible u v) (union_if_possible u2 v2).
Proof.
  intros T S. destruct (tw_m _ _ _ T eq_refl) as [HU MU]. destruct (tw_m _ _ _ S eq_refl) as [HV MV].
  assert (is_defined u = true) as DU by (unfold is_defined; now rewrite HU). assert (is_defined v = true) as DV by (unfold is_defined; now rewrite HV).
  unfold union_if_possible. rewrite <- (tw_defined _ _ _ T), <- (tw_defined _ _ _ S), DU, DV, <- (tw_range _ _ _ T), <- (tw_range _ _ _ S). cbn [negb andb].
  pose proof (tw_eff_from _ _ _ T DU) as F1. pose proof (tw_eff_to _ _ _ T DU) as F2. pose proof (tw_eff_from _ _ _ S DV) as F3. pose proof (tw_eff_to _ _ _ S DV) as F4.
  cbv zeta. rewrite <- (lk_le _ _ _ _ F1 F4), <- (lk_ge _ _ _ _ F2 F3), <- (lk_prev _ _ _ _ F1 F4), <- (lk_next _ _ _ _ F2 F3), <- (lk_lt _ _ _ _ F1 F3), <- (lk_gt _ _ _ _ F2 F4).
  destruct (_ || _); [|left; split; reflexivity].
  assert (get_mask_size (f_from u) = get_mask_size (f_from u2)) as <- by (unfold get_mask_size; now rewrite (lk_mask _ _ (tw_lf _ _ _ T HU))).
  assert (get_mask_size (f_from v) = get_mask_size (f_from v2)) as <- by (unfold get_mask_size; now rewrite (lk_mask _ _ (tw_lf _ _ _ S HV))).
  assert (get_mask_size (f_to u) = get_mask_size (f_to u2)) as <- by (unfold get_mask_size; now rewrite MU).
  assert (get_mask_size (f_to v) = get_mask_size (f_to v2)) as <- by (unfold get_mask_size; now rewrite MV).
  pose proof (pick (lt_ (eff_from u) (eff_from v)) _ _ _ _ F1 F3) as PF. pose proof (pick (gt_ (eff_to u) (eff_to v)) _ _ _ _ F2 F4) as PT.
  set (from := if lt_ (eff_from u) (eff_from v) then eff_from u else eff_from v) in *.
  set (from2 := if lt_ (eff_from u) (eff_from v) then eff_from u2 else eff_from v2) in *.
  set (to := if gt_ (eff_to u) (eff_to v) then eff_to u else eff_to v) in *. set (to2 := if gt_ (eff_to u) (eff_to v) then eff_to u2 else eff_to v2) in *.
  destruct (lk_count from from2 (Z.min (get_mask_size (f_from u)) (get_mask_size (f_from v))) PF) as [O1 L1].
  destruct (lk_count to to2 (Z.min (get_mask_size (f_to u)) (get_mask_size (f_to v))) PT) as [O2 L2].
  destruct (set_mask_count from _) as [a1 o1]. destruct (set_mask_count from2 _) as [a2 o2]. destruct (set_mask_count to _) as [b1 q1]. destruct (set_mask_count to2 _) as [b2 q2].
  cbn [fst snd] in *. subst o2 q2. destruct o1 as [[]| | |]; cbn [rbind twins]; auto.
  destruct q1 as [[]| | |]; cbn [rbind twins]; auto.
  rewrite <- (lk_ne _ _ _ _ L1 L2). destruct (_ || _); right; [now apply both_twin|now apply new_twin].
Qed.
Definition twinsl (m : bool) (a b : res (list addr_range)) : Prop :=
  match a, b with
  | Ok l, Ok l2 => Forall2 (twin m) l l2
  | Throw x, Throw z => x = z
  | UB, UB => True
  | OutOfFuel, OutOfFuel => True
  | _, _ => False
  end.
Lemma merge_twin : forall rest cur cur2 rest2, twin true cur cur2 -> Forall2 (twin true) rest rest2 ->
  twinsl true (merge_from cur rest) (merge_from cur2 rest2).
Proof.
  induction rest as [|n rest IH]; intros cur cur2 rest2 C F; inversion F as [|? n2 ? rest3 N F2]; subst; cbn [merge_from].
  - cbn [twinsl]. constructor; [exact C|constructor].
  - pose proof (union_twin _ _ _ _ C N) as U. destruct (union_if_possible cur n) as [u|x| |], (union_if_possible cur2 n2) as [u2|x2| |]; cbn [twins rbind twinsl] in *; try tauto.
    assert (is_defined u && negb (is_empty u) = is_defined u2 && negb (is_empty u2)) as <-.
    { destruct U as [[_ <-]|U]; [reflexivity|]. now rewrite (tw_defined _ _ _ U), (tw_empty _ _ _ U). }
    destruct (is_defined u && negb (is_empty u)) eqn:E.
    + destruct U as [[D _]|U]; [rewrite D in E; discriminate|]. now apply IH.
    + pose proof (IH n n2 rest3 N F2) as M. destruct (merge_from n rest) as [l|x| |], (merge_from n2 rest3) as [l2|x2| |]; cbn [twinsl rbind] in *; try tauto. now constructor.
Qed.
Lemma arrange_twin sort l l2 : Forall2 (twin (negb (Z.land sort SORT_MERGE =? 0))) l l2 ->
  twinsl (negb (Z.land sort SORT_MERGE =? 0)) (arrange sort l) (arrange sort l2).
Proof.
  set (m := negb (Z.land sort SORT_MERGE =? 0)). intros F. unfold arrange. cbv zeta.
  set (k := if negb (Z.land sort (Z.lor SORT_FULL SORT_MERGE) =? 0) then stable_sort range_lt l else l).
  set (k2 := if negb (Z.land sort (Z.lor SORT_FULL SORT_MERGE) =? 0) then stable_sort range_lt l2 else l2).
  assert (Forall2 (twin m) k k2) as K.
  { unfold k, k2. destruct (negb (Z.land sort (Z.lor SORT_FULL SORT_MERGE) =? 0)); [|exact F]. apply sort_twin; [apply lt_twin|exact F]. }
  fold m. assert (twinsl m (if m then merge_all k else Ok k) (if m then merge_all k2 else Ok k2)) as M.
  { clearbody m. destruct m; [|exact K]. inversion K as [|c c2 r r2 C R E1 E2]; [constructor|]. cbn [merge_all]. now apply merge_twin. }
  destruct (if m then merge_all k else Ok k) as [a|x| |], (if m then merge_all k2 else Ok k2) as [b|z| |]; cbn [twinsl rbind] in *; try tauto.
  destruct (negb (Z.land sort SORT_IPV4_FIRST =? 0)); [apply sort_twin; [apply four_twin|exact M]|].
  destruct (negb (Z.land sort SORT_IPV6_FIRST =? 0)); [apply sort_twin; [apply six_twin|exact M]|exact M].
Qed.
Lemma aside_twin m r r2 : range_wf r -> range_wf r2 -> port_aside r r2 -> (m = true -> f_has_from r = true /\ f_mask (f_to r) = f_mask (f_to r2)) -> twin m r r2.
Proof.
  intros [W1 W2] [W3 W4] (H1 & H2 & H3 & H4) M.
  assert (forall a b, addr_wf a -> addr_wf b -> end_aside a b -> like a b) as K.
  { intros a b A B (E1 & E2 & E3 & E4 & E5). constructor; auto; [now apply value_inj|].
    destruct (wf_mask _ A) as [L1 B1], (wf_mask _ B) as [L2 B2]. apply num_inj; auto. congruence. }
  constructor; auto.
Qed.
Lemma twin_aside m r r2 : twin m r r2 -> port_aside r r2.
Proof.
  intros [H1 H2 H3 H4 _]. assert (forall a b, like a b -> end_aside a b) as K.
  { intros a b [E1 E2 E3 E4 E5]. unfold end_aside, value, mask_value. now rewrite E1, E2. }
  unfold port_aside, has_from, has_to, get_from, get_to. split; [exact H1|]. split; [exact H2|]. split; intros X; apply K; auto.
Qed.
