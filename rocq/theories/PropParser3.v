(* Properties C45 and C46: sorting and merging the parsed ranges. *)
From Coq Require Import ZifyBool ZifyNat Permutation Sorted.
From Verif Require Import Base Addr Spec Range SpecRange Inet SpecText Parser SpecParser.
From Verif Require AddrProofs AddrProofs2 AddrProofs4 RangeProofs ParserProofs ParserProofs2
  ParserProofs3 ParserProofs4 ParserProofs5 ParserProofs6 ParserProofs7 PropRange PropParser PropParser2.
Import AddrProofs AddrProofs2 AddrProofs4 RangeProofs ParserProofs ParserProofs2
  ParserProofs3 ParserProofs4 ParserProofs5 ParserProofs6 ParserProofs7 PropParser PropParser2.
Local Open Scope Z_scope.

Lemma no_empty_only sort : Z.land (Z.land sort SORT_NO_EMPTY) SORT_NO_EMPTY = Z.land sort SORT_NO_EMPTY.
Proof. now rewrite <- Z.land_assoc. Qed.
Lemma other_bits sort b : Z.land SORT_NO_EMPTY b = 0 -> Z.land (Z.land sort SORT_NO_EMPTY) b = 0.
Proof. intros H. now rewrite <- Z.land_assoc, H, Z.land_0_r. Qed.
Lemma without_sort_eq p : without_sort p = with_sort p (Z.land (f_sort p) SORT_NO_EMPTY).
Proof.
  unfold without_sort, set_sort_order, get_sort_order. rewrite other_bits by reflexivity. reflexivity.
Qed.
Lemma arrange_unsorted sort l : arrange (Z.land sort SORT_NO_EMPTY) l = Ok l.
Proof. unfold arrange. rewrite !other_bits by reflexivity. reflexivity. Qed.

Lemma two_parses y g s p : resolver_ok g -> exists ms re,
  parse y g s p = (with_errors p (f_error p ++ flat ms) (f_error_count p + Z.of_nat (length ms)), rbind re (arrange (f_sort p)))
  /\ parse y g s (without_sort p)
     = (with_errors (without_sort p) (f_error p ++ flat ms) (f_error_count p + Z.of_nat (length ms)), re)
  /\ (forall l0, re = Ok l0 -> Forall good l0).
Proof.
  intros R. rewrite without_sort_eq. set (q := with_sort p _).
  destruct (both_entries p q y g g eq_refl eq_refl eq_refl eq_refl eq_refl eq_refl eq_refl
    (eq_sym (no_empty_only (f_sort p))) (or_introl eq_refl) s) as (ms & re & E1 & E2).
  specialize (E1 (f_error p) (f_error_count p)). specialize (E2 (f_error p) (f_error_count p)).
  rewrite with_errors_id in E1. change (with_errors q (f_error p) (f_error_count p)) with q in E2.
  exists ms, re. split; [|split].
  - unfold parse, bind, ask, lift. rewrite E1. destruct re; reflexivity.
  - unfold parse, bind, ask, lift. rewrite E2. destruct re as [l| | |]; try reflexivity.
    cbn [f_sort with_errors q with_sort]. now rewrite arrange_unsorted.
  - intros l0 ->.
    destruct (wp_run p _ _ p (entries_made y g p s) (same_config_refl p)) as (ms' & r & E3 & _ & K).
    rewrite E3 in E1. assert (r = Ok l0) as -> by congruence. destruct (K R) as [_ K']. apply (ends_good (made y p)). now apply K'.
Qed.

(* ---------- C45 ---------- *)
(* Sorting never changes what is parsed, reported or thrown. *)
Theorem C45_same_outcome : forall y g s p p' r, resolver_ok g -> Z.land (get_sort_order p) SORT_MERGE = 0 ->
  parse y g s p = (p', r) ->
  exists p0 r0, parse y g s (without_sort p) = (p0, r0)
    /\ error_messages p0 = error_messages p' /\ error_count p0 = error_count p'
    /\ (forall l, r = Ok l -> exists l0, r0 = Ok l0 /\ Permutation l0 l)
    /\ (forall x, r = Throw x -> r0 = Throw x).
Proof.
  intros y g s p p' r R M E. destruct (two_parses y g s p R) as (ms & re & E1 & E2 & G).
  rewrite E1 in E. assert (p' = with_errors p (f_error p ++ flat ms) (f_error_count p + Z.of_nat (length ms))) as -> by congruence.
  assert (r = rbind re (arrange (f_sort p))) as -> by congruence.
  do 2 eexists. split; [exact E2|]. split; [reflexivity|]. split; [reflexivity|].
  destruct re as [l0|x| |]; cbn [rbind]; [|split; congruence..]. specialize (G l0 eq_refl).
  rewrite arrange_sorted by auto. split; [|discriminate]. intros l X. exists l0. split; [reflexivity|].
  assert (l = family_order (f_sort p) (if Z.land (f_sort p) SORT_FULL =? 0 then l0 else stable_sort range_lt l0)) as -> by congruence.
  eapply perm_trans; [|apply family_order_perm]. destruct (_ =? 0); [auto|apply stable_sort_perm].
Qed.
Print Assumptions C45_same_outcome.

(* The order of a full sort: the empty ranges last, the others by their first
   address, the longer one first. *)
Definition in_order (a b : addr_range) : Prop :=
  nonempty b -> nonempty a /\ (lo a < lo b \/ (lo a = lo b /\ hi b <= hi a)).
Lemma not_after_in_order a b : good a -> good b -> not_after range_lt a b -> in_order a b.
Proof.
  intros [Da Wa] [Db Wb] H N. unfold not_after in H. pose proof (PropRange.C31_order b a Wb Wa Db Da) as K.
  rewrite H in K. destruct (Z_lt_le_dec (hi a) (lo a)) as [E|E].
  - exfalso. assert (false = true) by (apply K; split; [exact N|]; left; intros [_ X]; lia). discriminate.
  - split; [now split|]. destruct (Z_lt_le_dec (lo b) (lo a)); [exfalso|].
    { assert (false = true) by (apply K; split; [exact N|]; right; left; lia). discriminate. }
    destruct (Z.eq_dec (lo a) (lo b)); [|lia]. right. split; [lia|].
    destruct (Z_lt_le_dec (hi a) (hi b)); [exfalso|assumption].
    assert (false = true) by (apply K; split; [exact N|]; right; right; lia). discriminate.
Qed.
Lemma sort_in_order l : Forall good l -> StronglySorted in_order (stable_sort range_lt l).
Proof.
  intros F. pose proof (Permutation_Forall (stable_sort_perm range_lt l) F) as F'.
  eapply sorted_weaken; [|apply (stable_sort_sorted range_lt good range_lt_asym range_lt_negtrans l F)].
  rewrite Forall_forall in F'. intros a b Ha Hb. apply not_after_in_order; auto.
Qed.
Lemma sorted_filter {A} (R : A -> A -> Prop) f l : StronglySorted R l -> StronglySorted R (filter f l).
Proof.
  induction 1 as [|a l S IH F]; [constructor|]. cbn [filter]. destruct (f a); [|exact IH]. constructor; [exact IH|].
  apply Forall_forall. intros x Hx. apply filter_In in Hx. rewrite Forall_forall in F. now apply F.
Qed.

Lemma parse_sorted y g s p p' l : resolver_ok g -> Z.land (get_sort_order p) SORT_MERGE = 0 ->
  parse y g s p = (p', Ok l) -> exists l0, snd (parse y g s (without_sort p)) = Ok l0 /\ Forall good l0
    /\ l = family_order (f_sort p) (if Z.land (f_sort p) SORT_FULL =? 0 then l0 else stable_sort range_lt l0).
Proof.
  intros R M E. destruct (two_parses y g s p R) as (ms & re & E1 & E2 & G). rewrite E1 in E.
  destruct re as [l0|x| |]; cbn [rbind] in E; try discriminate. specialize (G l0 eq_refl).
  exists l0. rewrite E2. split; [reflexivity|]. split; [exact G|]. rewrite arrange_sorted in E by auto. congruence.
Qed.

Theorem C45_full_sort : forall y g s p p' l, resolver_ok g -> Z.land (get_sort_order p) SORT_MERGE = 0 ->
  Z.land (get_sort_order p) SORT_FULL <> 0 ->
  Z.land (get_sort_order p) SORT_IPV4_FIRST = 0 -> Z.land (get_sort_order p) SORT_IPV6_FIRST = 0 ->
  parse y g s p = (p', Ok l) -> StronglySorted in_order l.
Proof.
  intros y g s p p' l R M F N4 N6 E. destruct (parse_sorted y g s p p' l R M E) as (l0 & _ & G & ->).
  unfold get_sort_order in *. unfold family_order. rewrite N4, N6. cbn [Z.eqb negb].
  replace (Z.land (f_sort p) SORT_FULL =? 0) with false by lia. now apply sort_in_order.
Qed.
Print Assumptions C45_full_sort.

(* The families, with everything else in the order it would have without the
   family flag; the empty ranges are last. *)
Theorem C45_families : forall y g s p p' l l0, resolver_ok g ->
  Z.land (get_sort_order p) SORT_MERGE = 0 -> Z.land (get_sort_order p) SORT_FULL = 0 ->
  parse y g s p = (p', Ok l) -> snd (parse y g s (without_sort p)) = Ok l0 ->
  (Z.land (get_sort_order p) SORT_IPV4_FIRST <> 0 ->
     l = filter is_four l0 ++ filter is_six l0 ++ filter is_empty l0)
  /\ (Z.land (get_sort_order p) SORT_IPV4_FIRST = 0 -> Z.land (get_sort_order p) SORT_IPV6_FIRST <> 0 ->
     l = filter is_six l0 ++ filter is_four l0 ++ filter is_empty l0)
  /\ (Z.land (get_sort_order p) SORT_IPV4_FIRST = 0 -> Z.land (get_sort_order p) SORT_IPV6_FIRST = 0 -> l = l0).
Proof.
  intros y g s p p' l l0 R M F E E0. destruct (parse_sorted y g s p p' l R M E) as (l1 & E1 & G & ->).
  assert (l1 = l0) as -> by congruence. unfold get_sort_order in *. rewrite F. cbn [Z.eqb]. unfold family_order.
  split; [|split].
  - intros H. now replace (Z.land (f_sort p) SORT_IPV4_FIRST =? 0) with false by lia.
  - intros H4 H6. rewrite H4. now replace (Z.land (f_sort p) SORT_IPV6_FIRST =? 0) with false by lia.
  - intros H4 H6. now rewrite H4, H6.
Qed.
Print Assumptions C45_families.

(* A full sort with a family flag sorts each family. *)
Theorem C45_full_sort_by_family : forall y g s p p' l, resolver_ok g ->
  Z.land (get_sort_order p) SORT_MERGE = 0 -> Z.land (get_sort_order p) SORT_FULL <> 0 ->
  Z.land (get_sort_order p) SORT_IPV4_FIRST <> 0 \/ Z.land (get_sort_order p) SORT_IPV6_FIRST <> 0 ->
  parse y g s p = (p', Ok l) ->
  exists four six e, Forall (fun r => is_four r = true) four /\ Forall (fun r => is_six r = true) six
    /\ Forall (fun r => is_empty r = true) e
    /\ StronglySorted in_order four /\ StronglySorted in_order six
    /\ l = (if Z.land (get_sort_order p) SORT_IPV4_FIRST =? 0 then six ++ four else four ++ six) ++ e.
Proof.
  intros y g s p p' l R M F H E. destruct (parse_sorted y g s p p' l R M E) as (l0 & _ & G & ->).
  unfold get_sort_order in *. replace (Z.land (f_sort p) SORT_FULL =? 0) with false by lia.
  set (l1 := stable_sort range_lt l0). pose proof (sort_in_order l0 G) as S. fold l1 in S.
  exists (filter is_four l1), (filter is_six l1), (filter is_empty l1).
  assert (forall f, Forall (fun r => f r = true) (filter f l1)) as X.
  { intros f. apply Forall_forall. intros r Hr. now apply filter_In in Hr. }
  do 3 (split; [apply X|]). split; [now apply sorted_filter|]. split; [now apply sorted_filter|].
  unfold family_order. destruct (Z.land (f_sort p) SORT_IPV4_FIRST =? 0) eqn:E4; cbn [negb].
  - replace (Z.land (f_sort p) SORT_IPV6_FIRST =? 0) with false by lia. cbn [negb]. now rewrite app_assoc.
  - now rewrite app_assoc.
Qed.
Print Assumptions C45_full_sort_by_family.

(* Witness: two families and an empty range. *)
Definition sorted_by (order : Z) : parser := fst (set_sort_order (with_allow commas ALLOW_ADDRESS_RANGE true) order).
Definition lows (r : parser * res (list addr_range)) : list Z :=
  match snd r with Ok l => map lo l | _ => [-1] end.
Definition mixed : str := lit "10.0.0.9,2001::,10.0.0.3,10.0.0.8-10.0.0.7,::5,10.0.0.3-10.0.0.4".
Definition q4 (n : Z) : Z := v4_base + quad 10 0 0 n.
Example C45_witness : resolver_ok no_answer
  /\ lows (parse ref_sys no_answer mixed (sorted_by 0)) = [q4 9; group0 0x2001; q4 3; q4 8; 5; q4 3]
  /\ lows (parse ref_sys no_answer mixed (sorted_by SORT_FULL)) = [5; q4 3; q4 3; q4 9; group0 0x2001; q4 8]
  /\ lows (parse ref_sys no_answer mixed (sorted_by SORT_IPV4_FIRST)) = [q4 9; q4 3; q4 3; group0 0x2001; 5; q4 8]
  /\ lows (parse ref_sys no_answer mixed (sorted_by SORT_IPV6_FIRST)) = [group0 0x2001; 5; q4 9; q4 3; q4 3; q4 8]
  /\ lows (parse ref_sys no_answer mixed (sorted_by (SORT_FULL + SORT_IPV6_FIRST)))
     = [5; group0 0x2001; q4 3; q4 3; q4 9; q4 8].
Proof. split; [apply no_answer_ok|]. vm_compute. repeat split. Qed.

(* ---------- C46 ---------- *)
(* Whatever the masks: when parse() returns, exactly the addresses of the
   unmerged ranges are covered and no two ranges overlap or touch. *)
Theorem C46_merge : forall y g s p p' l, resolver_ok g -> Z.land (get_sort_order p) SORT_MERGE <> 0 ->
  parse y g s p = (p', Ok l) ->
  exists p0 l0, parse y g s (without_sort p) = (p0, Ok l0)
    /\ error_messages p0 = error_messages p'
    /\ (forall v, covered l v <-> covered l0 v) /\ pairwise apart l.
Proof.
  intros y g s p p' l R M E. destruct (two_parses y g s p R) as (ms & re & E1 & E2 & G). rewrite E1 in E.
  assert (p' = with_errors p (f_error p ++ flat ms) (f_error_count p + Z.of_nat (length ms))) as -> by congruence.
  destruct re as [l0|x| |]; cbn [rbind] in E; try discriminate. specialize (G l0 eq_refl).
  do 2 eexists. split; [exact E2|]. split; [reflexivity|].
  destruct (arrange_merged (f_sort p) l0 l G M ltac:(congruence)) as (_ & C & A). now split.
Qed.
Print Assumptions C46_merge.

(* Without masks merging never fails. *)
Theorem C46_merge_succeeds : forall y g s p p0 l0, resolver_ok g -> get_allow p ALLOW_MASK = Ok false ->
  parse y g s (without_sort p) = (p0, Ok l0) -> exists p' l, parse y g s p = (p', Ok l).
Proof.
  intros y g s p p0 l0 R AM E. destruct (two_parses y g s p R) as (ms & re & E1 & E2 & G). rewrite E1.
  rewrite E2 in E. assert (re = Ok l0) as -> by congruence. cbn [rbind].
  assert (onesl l0) as O.
  { unfold parse, bind at 1 in E2. destruct (parse_entries y g s (without_sort p)) as [p1 [l1|x| |]] eqn:E3; try discriminate.
    allowed AM. assert (allow (without_sort p) ALLOW_MASK = false) as AM' by (rewrite without_sort_eq; exact AM).
    pose proof (entries_ones y g s (without_sort p) p1 l1 AM' E3) as O. unfold bind, ask, lift in E2.
    assert (f_sort p1 = f_sort (without_sort p)) as S.
    { apply (f_equal fst) in E2. cbn [fst] in E2. rewrite E2. reflexivity. }
    rewrite S, without_sort_eq in E2. cbn [f_sort with_sort] in E2. rewrite arrange_unsorted in E2. congruence. }
  destruct (arrange_ones (f_sort p) l0 O) as [l E4]. rewrite E4. eauto.
Qed.
Print Assumptions C46_merge_succeeds.

(* With a mask which is not made of leading ones merging throws. *)
Definition merging : parser := fst (set_sort_order
  (with_allow (with_allow (with_allow commas ALLOW_MASK true) ALLOW_ADDRESS_MASK true) ALLOW_ADDRESS_RANGE true) SORT_MERGE).
Definition odd_mask : resolver := fun _ _ _ _ _ =>
  GAI_list [mk_ai AF_INET 16 6 (mk_in AF_INET 0 (bswap32 (quad 255 0 255 0))) (mk_in6 0 0 0 [] 0)].
Theorem C46_masked_merge_may_throw : exists y g s p, resolver_ok g /\ parser_reachable y g p
  /\ (exists l0, snd (parse y g s (without_sort p)) = Ok l0 /\ length l0 = 2%nat)
  /\ exists x, snd (parse y g s p) = Throw x.
Proof.
  exists ref_sys, odd_mask, (lit "10.0.0.1/255.0.255.0,10.0.0.2/255.0.255.0"), merging. split.
  { intros ? ? ? ? ? l H. assert (l = [mk_ai AF_INET 16 6 (mk_in AF_INET 0 (bswap32 (quad 255 0 255 0))) (mk_in6 0 0 0 [] 0)])
      as -> by (unfold odd_mask in H; congruence).
    split; [discriminate|]. constructor; [|constructor]. split; [|discriminate]. intros _.
    unfold sockaddr_in_ok. vm_compute. repeat split; congruence. }
  split. { replace merging with (parser_run ref_sys odd_mask [P_set_sort_order SORT_MERGE; P_set_allow ALLOW_ADDRESS_RANGE true;
     P_set_allow ALLOW_ADDRESS_MASK true; P_set_allow ALLOW_MASK true; P_set_allow ALLOW_MULTI_ADDRESSES_SPACES true; P_set_allow ALLOW_MULTI_ADDRESSES_COMMAS true;
     P_set_allow ALLOW_ADDRESS_LOOKUP false]) by (vm_compute; reflexivity).
    apply run_reachable. }
  split; vm_compute; eauto.
Qed.
Print Assumptions C46_masked_merge_may_throw.

Definition bounds (r : parser * res (list addr_range)) : list (Z * Z) :=
  match snd r with Ok l => map (fun r => (lo r, hi r)) l | _ => [] end.
Example C46_witness :
  bounds (parse ref_sys no_answer (lit "10.0.0.9,10.0.0.1-10.0.0.3,::9,10.0.0.4,10.0.0.8-10.0.0.20") (sorted_by SORT_MERGE))
  = [(9, 9); (q4 1, q4 4); (q4 8, q4 20)]
  /\ get_allow (sorted_by SORT_MERGE) ALLOW_MASK = Ok false.
Proof. vm_compute. auto. Qed.
