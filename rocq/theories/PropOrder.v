(* C159: the order of the entries of a text. *)
From Coq Require Import ZifyBool ZifyNat Permutation Sorted.
From Verif Require Import Base Addr Spec Range SpecRange Inet SpecText Parser SpecParser SpecLanguage SpecComplaint.
From Verif Require AddrProofs AddrProofs2 AddrProofs4 RangeProofs ParserProofs ParserProofs2
  ParserProofs3 ParserProofs4 ParserProofs5 ParserProofs6 ParserProofs7 ParserProofs15 ParserProofs16 PropRange PropParser PropParser2 PropParser3 PropParser13
  OrderProofs OrderProofs2.
Import AddrProofs AddrProofs2 AddrProofs4 RangeProofs ParserProofs ParserProofs2
  ParserProofs3 ParserProofs4 ParserProofs5 ParserProofs6 ParserProofs7 ParserProofs15 PropParser PropParser2 PropParser3 PropParser13 OrderProofs OrderProofs2.
Local Open Scope Z_scope.

(* Two texts with the same entries, each as often, in any order. *)
Definition same_entries (p : parser) (s s' : str) : Prop :=
  exists ts ts', entries_of p s ts /\ entries_of p s' ts' /\ Permutation ts ts'.
(* Every entry of the first text is one of the second. *)
Definition more_entries (p : parser) (s s' : str) : Prop :=
  exists ts ts', entries_of p s ts /\ entries_of p s' ts' /\ incl ts ts'.
(* The bounds of the ranges which are not empty, in the order of the list. *)
Definition spans (l : list addr_range) : list (Z * Z) := map (fun r => (lo r, hi r)) (filter (fun r => negb (is_empty r)) l).

Lemma parse_of y g p s ts vs : resolver_ok g -> entries_of p s ts -> Forall2 (took y g (without_sort p)) ts vs ->
  parse y g s p = (with_errors p (f_error p ++ flat (said vs)) (f_error_count p + Z.of_nat (length (said vs))), arrange (f_sort p) (gave vs))
  /\ parse y g s (without_sort p) = (with_errors (without_sort p) (f_error p ++ flat (said vs)) (f_error_count p + Z.of_nat (length (said vs))), Ok (gave vs))
  /\ Forall good (gave vs).
Proof.
  intros R E V. destruct (two_parses y g s p R) as (ms & re & E1 & E2 & G).
  pose proof (unsorted_runs y g (without_sort p) s ts vs (without_sort_unsorted p) (without_sort_entries p s ts E) V) as E3.
  assert (f_error (without_sort p) = f_error p /\ f_error_count (without_sort p) = f_error_count p) as [X1 X2] by (now rewrite without_sort_eq).
  rewrite X1, X2 in E3. rewrite E2 in E3. assert (re = Ok (gave vs)) as -> by congruence. split; [|split].
  - rewrite E1. cbn [rbind]. f_equal. apply (f_equal fst) in E3. cbn [fst] in E3.
    pose proof (f_equal f_error E3) as Y1. pose proof (f_equal f_error_count E3) as Y2. cbn [f_error f_error_count with_errors] in Y1, Y2. now rewrite Y1, Y2.
  - rewrite E2. exact E3.
  - now apply G.
Qed.
Lemma parsed_of y g p s ts p1 l : resolver_ok g -> entries_of p s ts -> parse y g s p = (p1, Ok l) ->
  exists vs, Forall2 (took y g (without_sort p)) ts vs.
Proof.
  intros R E P. destruct (two_parses y g s p R) as (ms & re & E1 & E2 & G). rewrite E1 in P.
  destruct re as [l0|x| |]; cbn [rbind] in P; try discriminate.
  destruct (unsorted_run y g (without_sort p) s ts _ _ (without_sort_unsorted p) (without_sort_entries p s ts E) E2) as (vs & V & _). eauto.
Qed.
Lemma other_order y g p s s' p1 l : resolver_ok g -> same_entries p s s' -> parse y g s p = (p1, Ok l) ->
  exists ms ms' l0 l0', Permutation ms ms' /\ Permutation l0 l0' /\ Forall good l0 /\ Forall good l0'
    /\ p1 = with_errors p (f_error p ++ flat ms) (f_error_count p + Z.of_nat (length ms)) /\ arrange (f_sort p) l0 = Ok l
    /\ snd (parse y g s (without_sort p)) = Ok l0 /\ snd (parse y g s' (without_sort p)) = Ok l0'
    /\ parse y g s' p = (with_errors p (f_error p ++ flat ms') (f_error_count p + Z.of_nat (length ms')), arrange (f_sort p) l0').
Proof.
  intros R (ts & ts' & E & E' & P) EP. destruct (parsed_of y g p s ts p1 l R E EP) as [vs V].
  destruct (parse_of y g p s ts vs R E V) as (E1 & E2 & G).
  destruct (Permutation_Forall2 P V) as (vs' & PV & V'). destruct (parse_of y g p s' ts' vs' R E' V') as (E3 & E4 & G').
  exists (said vs), (said vs'), (gave vs), (gave vs'). split; [now apply said_perm|]. split; [now apply gave_perm|]. split; [exact G|]. split; [exact G'|].
  rewrite E1 in EP. split; [congruence|]. split; [congruence|]. split; [now rewrite E2|]. split; [now rewrite E4|]. exact E3.
Qed.
Lemma same_matches l l' x : Permutation l l' -> address_match_ranges l x = address_match_ranges l' x.
Proof.
  intros P. apply same_answer. split; intros (r & I & H); exists r; (split; [|exact H]).
  - now apply (Permutation_in _ P).
  - now apply (Permutation_in _ (Permutation_sym P)).
Qed.
Lemma logged_one p ms : logged p ms (with_errors p (f_error p ++ flat ms) (f_error_count p + Z.of_nat (length ms))).
Proof. split; [now destruct p|]. now split. Qed.

(* Unless the ranges are merged: the same ranges, the same messages and the
   same addresses which match, the order aside. *)
Theorem C159_order_partial : forall y g s s' p p1 l, resolver_ok g -> same_entries p s s' ->
  Z.land (get_sort_order p) SORT_MERGE = 0 -> parse y g s p = (p1, Ok l) ->
  exists p2 l', parse y g s' p = (p2, Ok l') /\ Permutation l l'
    /\ (exists ms ms', Permutation ms ms' /\ logged p ms p1 /\ logged p ms' p2)
    /\ forall x, address_match_ranges l x = address_match_ranges l' x.
Proof.
  intros y g s s' p p1 l R S M EP. destruct (other_order y g p s s' p1 l R S EP) as (ms & ms' & l0 & l0' & PM & PL & G & G' & -> & A & _ & _ & E).
  unfold get_sort_order in M. rewrite arrange_sorted in A by assumption. rewrite (arrange_sorted _ l0') in E by assumption.
  assert (forall a, Permutation a (family_order (f_sort p) (if Z.land (f_sort p) SORT_FULL =? 0 then a else stable_sort range_lt a))) as K.
  { intros a. eapply perm_trans; [|apply family_order_perm]. destruct (_ =? 0); [auto|apply stable_sort_perm]. }
  eexists _, _. split; [exact E|]. assert (Permutation l (family_order (f_sort p) (if Z.land (f_sort p) SORT_FULL =? 0 then l0' else stable_sort range_lt l0'))) as P.
  { assert (l = family_order (f_sort p) (if Z.land (f_sort p) SORT_FULL =? 0 then l0 else stable_sort range_lt l0)) as -> by congruence.
    eapply perm_trans; [apply Permutation_sym, K|]. eapply perm_trans; [exact PL|apply K]. }
  split; [exact P|]. split; [exists ms, ms'; split; [exact PM|]; split; apply logged_one|]. intros x. now apply same_matches.
Qed.
Print Assumptions C159_order_partial.

Lemma full_spans l l' f : Forall good l -> Permutation l l' -> (forall r, f r = true -> is_empty r = false) ->
  map (fun r => (lo r, hi r)) (filter f (stable_sort range_lt l)) = map (fun r => (lo r, hi r)) (filter f (stable_sort range_lt l')).
Proof.
  intros G P F. apply (same_spans _ _).
  - apply Forall_forall. intros r I. apply filter_In in I. destruct I as [I Fr].
    assert (good r) as Gr. { pose proof (Permutation_Forall (stable_sort_perm range_lt l) G) as H. rewrite Forall_forall in H. now apply H. }
    destruct Gr as [D W]. apply nonempty_bool; auto.
  - assert (Permutation (stable_sort range_lt l) (stable_sort range_lt l')) as Q.
    { eapply perm_trans; [apply Permutation_sym, stable_sort_perm|]. eapply perm_trans; [exact P|apply stable_sort_perm]. }
    clear - Q. induction Q; cbn [filter]; [auto| | |eapply perm_trans; eassumption].
    + destruct (f x); [now apply perm_skip|assumption].
    + destruct (f x), (f y); auto. apply perm_swap.
  - now apply sorted_filter, sort_in_order.
  - apply sorted_filter, sort_in_order. apply (Permutation_Forall P G).
Qed.

(* A full sort, by family or not: the ranges have the same bounds in the same
   order. *)
Theorem C159_full_sort : forall y g s s' p p1 l p2 l', resolver_ok g -> same_entries p s s' ->
  Z.land (get_sort_order p) SORT_MERGE = 0 -> Z.land (get_sort_order p) SORT_FULL <> 0 ->
  parse y g s p = (p1, Ok l) -> parse y g s' p = (p2, Ok l') -> spans l = spans l'.
Proof.
  intros y g s s' p p1 l p2 l' R S M F EP EP'. destruct (other_order y g p s s' p1 l R S EP) as (ms & ms' & l0 & l0' & _ & PL & G & G' & _ & A & _ & _ & E).
  unfold get_sort_order in *. rewrite arrange_sorted in A by assumption. rewrite (arrange_sorted _ l0') in E by assumption.
  replace (Z.land (f_sort p) SORT_FULL =? 0) with false in A, E by lia.
  assert (l = family_order (f_sort p) (stable_sort range_lt l0)) as -> by congruence.
  assert (l' = family_order (f_sort p) (stable_sort range_lt l0')) as -> by congruence.
  assert (forall f a, filter (fun r => negb (is_empty r)) (filter f a) = filter (fun r => negb (is_empty r) && f r) a) as FF.
  { intros f a. induction a as [|r a IH]; [reflexivity|]. cbn [filter]. destruct (f r); cbn [filter]; rewrite IH; destruct (is_empty r); reflexivity. }
  assert (forall a, filter (fun r => negb (is_empty r) && is_empty r) a = []) as FE.
  { intros a. induction a as [|r a IH]; [reflexivity|]. cbn [filter]. now destruct (is_empty r). }
  assert (forall f, map (fun r => (lo r, hi r)) (filter (fun r => negb (is_empty r) && f r) (stable_sort range_lt l0))
    = map (fun r => (lo r, hi r)) (filter (fun r => negb (is_empty r) && f r) (stable_sort range_lt l0'))) as K.
  { intros f. apply full_spans; auto. intros r. destruct (is_empty r); [discriminate|reflexivity]. }
  unfold family_order, spans. destruct (negb _); [|destruct (negb _)].
  - now rewrite !filter_app, !map_app, !FF, !FE, !K.
  - now rewrite !filter_app, !map_app, !FF, !FE, !K.
  - apply full_spans; auto. intros r. destruct (is_empty r); [discriminate|reflexivity].
Qed.
Print Assumptions C159_full_sort.

(* Merging: the same blocks, as long as both texts are merged. *)
Theorem C159_merge : forall y g s s' p p1 l p2 l', resolver_ok g -> same_entries p s s' ->
  Z.land (get_sort_order p) SORT_MERGE <> 0 -> parse y g s p = (p1, Ok l) -> parse y g s' p = (p2, Ok l') ->
  (exists ms ms', Permutation ms ms' /\ logged p ms p1 /\ logged p ms' p2)
  /\ (forall v, covered l v <-> covered l' v)
  /\ forall a b, In (a, b) (spans l) <-> In (a, b) (spans l').
Proof.
  intros y g s s' p p1 l p2 l' R S M EP EP'. destruct (other_order y g p s s' p1 l R S EP) as (ms & ms' & l0 & l0' & PM & PL & G & G' & -> & A & _ & _ & E).
  unfold get_sort_order in M. rewrite E in EP'. assert (arrange (f_sort p) l0' = Ok l') as A' by congruence.
  split. { exists ms, ms'. split; [exact PM|]. assert (p2 = with_errors p (f_error p ++ flat ms') (f_error_count p + Z.of_nat (length ms'))) as -> by congruence. split; apply logged_one. }
  destruct (arrange_merged _ _ _ G M A) as (GL & C & P). destruct (arrange_merged _ _ _ G' M A') as (GL' & C' & P').
  assert (forall v, covered l v <-> covered l' v) as CC.
  { intros v. rewrite C, C'. split; intros (r & I & H); exists r; (split; [|exact H]).
    - now apply (Permutation_in _ PL).
    - now apply (Permutation_in _ (Permutation_sym PL)). }
  split; [exact CC|].
  assert (forall a b m m', Forall good m -> Forall good m' -> pairwise apart m -> pairwise apart m' -> (forall v, covered m v <-> covered m' v) ->
    In (a, b) (spans m) -> In (a, b) (spans m')) as K.
  { clear. intros a b m m' G G' P P' C I. unfold spans in *. apply in_map_iff in I. destruct I as (r & Er & I). apply filter_In in I. destruct I as [I Ne].
    rewrite Forall_forall in G, G'. destruct (G r I) as [D W]. apply negb_true_iff in Ne. apply nonempty_bool in Ne; auto.
    destruct (same_blocks m m' P P' C r I Ne) as (r' & I' & Es). unfold span in Es. apply in_map_iff. exists r'. split; [congruence|].
    apply filter_In. split; [exact I'|]. destruct (G' r' I') as [D' W']. apply negb_true_iff. apply nonempty_bool; auto. split; [exact D'|].
    destruct Ne as [_ Ne]. assert (lo r' = lo r /\ hi r' = hi r) as [-> ->] by (split; congruence). exact Ne. }
  intros a b. split; apply K; auto. intros v. symmetry. apply CC.
Qed.
Print Assumptions C159_merge.

(* Without masks the order never matters. *)
Theorem C159_no_masks : forall y g s s' p p1 l, resolver_ok g -> same_entries p s s' ->
  get_allow p ALLOW_MASK = Ok false -> parse y g s p = (p1, Ok l) ->
  exists p2 l', parse y g s' p = (p2, Ok l') /\ error_count p1 = error_count p2
    /\ forall x, addr_wf x -> address_match_ranges l x = address_match_ranges l' x.
Proof.
  intros y g s s' p p1 l R S AM EP. destruct (other_order y g p s s' p1 l R S EP) as (ms & ms' & l0 & l0' & PM & PL & G & G' & -> & A & E0 & E0' & E).
  destruct (parse y g s (without_sort p)) as [q r] eqn:EQ. cbn [snd] in E0. subst r.
  destruct (parse y g s' (without_sort p)) as [q' r] eqn:EQ'. cbn [snd] in E0'. subst r.
  destruct (C46_merge_succeeds y g s' p q' l0' R AM EQ') as (p2 & l' & E2). exists p2, l'. split; [exact E2|]. rewrite E in E2.
  assert (p2 = with_errors p (f_error p ++ flat ms') (f_error_count p + Z.of_nat (length ms'))) as -> by congruence. split.
  { unfold error_count. cbn [f_error_count with_errors]. now rewrite (Permutation_length PM). }
  intros x Wx. rewrite (C140_no_masks_partial y g s p _ l q l0 R AM EP EQ x Wx).
  rewrite <- E in E2. rewrite E2 in E. rewrite (C140_no_masks_partial y g s' p _ l' q' l0' R AM E2 EQ' x Wx). now apply same_matches.
Qed.
Print Assumptions C159_no_masks.

(* Further entries, or the same ones again, never make an address stop
   matching. *)
Theorem C159_more_partial : forall y g s s' p p1 l p2 l', resolver_ok g -> more_entries p s s' ->
  Z.land (get_sort_order p) SORT_MERGE = 0 -> parse y g s p = (p1, Ok l) -> parse y g s' p = (p2, Ok l') ->
  incl l l' /\ forall x, address_match_ranges l x = Ok true -> address_match_ranges l' x = Ok true.
Proof.
  intros y g s s' p p1 l p2 l' R (ts & ts' & E & E' & I) M EP EP'. unfold get_sort_order in M.
  destruct (parsed_of y g p s ts p1 l R E EP) as [vs V]. destruct (parse_of y g p s ts vs R E V) as (E1 & _ & G).
  destruct (parsed_of y g p s' ts' p2 l' R E' EP') as [vs' V']. destruct (parse_of y g p s' ts' vs' R E' V') as (E1' & _ & G').
  rewrite E1 in EP. rewrite E1' in EP'. rewrite arrange_sorted in EP, EP' by assumption.
  assert (incl (gave vs) (gave vs')) as K.
  { intros r Ir. unfold gave in *. apply in_concat in Ir. destruct Ir as (a & Ia & Ir). apply in_map_iff in Ia. destruct Ia as (v & <- & Iv).
    assert (exists t, In t ts /\ took y g (without_sort p) t v) as (t & It & T).
    { clear - V Iv. induction V as [|t w ts vs T V IH]; [destruct Iv|]. destruct Iv as [->|Iv]; [exists t; split; [now left|exact T]|].
      destruct (IH Iv) as (t2 & A & B). exists t2. split; [now right|exact B]. }
    apply I in It. assert (exists w, In w vs' /\ took y g (without_sort p) t w) as (w & Iw & T2).
    { clear - V' It. induction V' as [|t0 w ts vs T V IH]; [destruct It|]. destruct It as [->|It]; [exists w; split; [now left|exact T]|].
      destruct (IH It) as (w2 & A & B). exists w2. split; [now right|exact B]. }
    destruct (does_once _ _ _ _ _ _ _ _ T T2) as [X _]. apply in_concat. exists (snd w). split; [apply in_map_iff; eauto|]. congruence. }
  assert (forall a, Permutation a (family_order (f_sort p) (if Z.land (f_sort p) SORT_FULL =? 0 then a else stable_sort range_lt a))) as Q.
  { intros a. eapply perm_trans; [|apply family_order_perm]. destruct (_ =? 0); [auto|apply stable_sort_perm]. }
  assert (incl l l') as L.
  { intros r Ir. assert (l = family_order (f_sort p) (if Z.land (f_sort p) SORT_FULL =? 0 then gave vs else stable_sort range_lt (gave vs))) as -> by congruence.
    assert (l' = family_order (f_sort p) (if Z.land (f_sort p) SORT_FULL =? 0 then gave vs' else stable_sort range_lt (gave vs'))) as -> by congruence.
    apply (Permutation_in _ (Q _)). apply K. now apply (Permutation_in _ (Permutation_sym (Q _))). }
  split; [exact L|]. intros x. destruct (PropRange.C34_address_match_ranges l x) as (b & -> & Hb).
  destruct (PropRange.C34_address_match_ranges l' x) as (b' & -> & Hb'). intros X. assert (b = true) as -> by congruence. f_equal.
  apply Hb'. destruct (proj1 Hb eq_refl) as (r & Ir & H). exists r. split; [now apply L|exact H].
Qed.
Print Assumptions C159_more_partial.

(* Merging with masks too, unless some range is empty: both texts are merged
   or neither, and the same addresses match. *)
Theorem C159_merge_partial : forall y g s s' p l0, resolver_ok g -> same_entries p s s' ->
  snd (parse y g s (without_sort p)) = Ok l0 -> (forall r, In r l0 -> is_empty r = false) ->
  (exists p1 l p2 l', parse y g s p = (p1, Ok l) /\ parse y g s' p = (p2, Ok l')
     /\ length l = length l' /\ forall x, addr_wf x -> address_match_ranges l x = address_match_ranges l' x)
  \/ exists p1 p2, parse y g s p = (p1, Throw E_out_of_range) /\ parse y g s' p = (p2, Throw E_out_of_range).
Proof.
  intros y g s s' p l0 R S E0 NE. pose proof S as (ts & ts' & E & E' & P). set (q := without_sort p) in *.
  destruct (parse y g s q) as [q1 r] eqn:EQ. cbn [snd] in E0. subst r.
  destruct (unsorted_run y g q s ts _ _ (without_sort_unsorted p) (without_sort_entries p s ts E) EQ) as (vs & V & _ & ->).
  destruct (parse_of y g p s ts vs R E V) as (E1 & _ & G). destruct (Permutation_Forall2 P V) as (vs' & PV & V').
  destruct (parse_of y g p s' ts' vs' R E' V') as (E3 & _ & G'). rewrite E1, E3.
  assert (Forall fine (gave vs)) as F.
  { pose proof (gave_to _ _ _ _ _ V) as T. apply Forall_forall. intros r I. rewrite Forall_forall in G, T. destruct (G r I) as [D W].
    constructor; [exact W| |now apply ones_size, T]. apply nonempty_bool; auto. }
  pose proof (gave_perm _ _ PV) as PG.
  destruct (Z.eq_dec (Z.land (f_sort p) SORT_MERGE) 0) as [M|M].
  - left. rewrite !arrange_sorted by assumption. eexists _, _, _, _. split; [reflexivity|]. split; [reflexivity|].
    assert (forall a, Permutation a (family_order (f_sort p) (if Z.land (f_sort p) SORT_FULL =? 0 then a else stable_sort range_lt a))) as Q.
    { intros a. eapply perm_trans; [|apply family_order_perm]. destruct (_ =? 0); [auto|apply stable_sort_perm]. }
    assert (Permutation (family_order (f_sort p) (if Z.land (f_sort p) SORT_FULL =? 0 then gave vs else stable_sort range_lt (gave vs)))
      (family_order (f_sort p) (if Z.land (f_sort p) SORT_FULL =? 0 then gave vs' else stable_sort range_lt (gave vs')))) as PP.
    { eapply perm_trans; [apply Permutation_sym, Q|]. eapply perm_trans; [exact PG|apply Q]. }
    split; [now apply Permutation_length|]. intros x _. now apply same_matches.
  - pose proof (arrange_other (f_sort p) _ _ F PG M) as A. pose proof (PropParser15.arrange_cause (f_sort p) _ G) as C.
    destruct (arrange (f_sort p) (gave vs)) as [a|e| |], (arrange (f_sort p) (gave vs')) as [b|e'| |]; try contradiction.
    + left. destruct A as (a0 & b0 & PA & PB & F2). eexists _, _, _, _. split; [reflexivity|]. split; [reflexivity|]. split.
      { rewrite <- (Permutation_length PA), <- (Permutation_length PB). clear - F2. induction F2; cbn [length]; congruence. }
      intros x Wx. rewrite <- (same_matches a0 a x PA), <- (same_matches b0 b x PB). clear - F2 Wx.
      induction F2 as [|u v a b U F2 IH]; [reflexivity|]. cbn [address_match_ranges]. rewrite (alike_match u v x Wx U).
      destruct (range_match v x) as [[]| | |]; cbn [rbind]; auto.
    + right. subst e'. destruct C as [-> _]. eauto.
Qed.
Print Assumptions C159_merge_partial.

(* Merging with an empty range: the empty ranges come last, and only the one
   which happens to be first of them can take the mask of its neighbour away. *)
Fixpoint comma_list (ts : list str) : str :=
  match ts with
  | [] => []
  | [t] => t
  | t :: rest => t ++ 44 :: comma_list rest
  end.
Lemma comma_entries p ts : separator p 44 -> nobody (starts_comment p) -> Forall (fun t => t <> [] /\ Forall (fun c => ~ separator p c) t) ts ->
  entries_of p (comma_list ts) ts.
Proof.
  intros S N F.
  assert (forall ts, Forall (fun t => t <> [] /\ Forall (fun c => ~ separator p c) t) ts ->
    pieces (separator p) (match ts with [] => [] | _ => 44 :: comma_list ts end) ts) as K.
  { clear F ts. induction ts as [|t ts IH]; intros F; [constructor; constructor|]. inversion F as [|? ? [NE Ft] F2]; subst.
    destruct ts as [|t2 ts].
    - cbn [comma_list]. replace (44 :: t) with ([44] ++ t ++ []) by now rewrite app_nil_r.
      apply pieces_one; [now constructor|exact NE|exact Ft|now left|constructor; constructor].
    - change (44 :: comma_list (t :: t2 :: ts)) with ([44] ++ t ++ (44 :: comma_list (t2 :: ts))).
      apply pieces_one; [now constructor|exact NE|exact Ft|right; eexists _, _; split; [reflexivity|exact S]|]. exact (IH F2). }
  assert (pieces (separator p) (comma_list ts) ts) as PS.
  { destruct ts as [|t ts]; [constructor; constructor|]. inversion F as [|? ? [NE Ft] F2]; subst. specialize (K _ F2).
    destruct ts as [|t2 ts].
    - cbn [comma_list]. replace t with ([] ++ t ++ []) at 1 by now rewrite app_nil_r.
      apply pieces_one; [constructor|exact NE|exact Ft|now left|exact K].
    - change (comma_list (t :: t2 :: ts)) with ([] ++ t ++ (44 :: comma_list (t2 :: ts))).
      apply pieces_one; [constructor|exact NE|exact Ft|right; eexists _, _; split; [reflexivity|exact S]|exact K]. }
  replace ts with (filter nonempty_str ts) at 2.
  - apply (each_piece p _ ts); [now exists 44|now left|exact PS|]. clear - N. induction ts; constructor; auto. split; [|now left].
    apply Forall_forall. intros c _. apply N.
  - clear - F. induction F as [|t ts [NE _] F IH]; [reflexivity|]. cbn [filter]. destruct t; [congruence|]. cbn [nonempty_str]. now rewrite IH.
Qed.
Lemma comma_texts p ts ts' : separators p = [44; 32] -> comment_chars p = [] -> forallb (fun t => nonempty_str t && negb (mem 44 t || mem 32 t)) ts = true ->
  Permutation ts ts' -> same_entries p (comma_list ts) (comma_list ts').
Proof.
  intros SE CE F P. exists ts, ts'.
  assert (separator p 44) as S by (apply mem_separators; now rewrite SE).
  assert (nobody (starts_comment p)) as N. { intros c X. apply mem_comments in X. now rewrite CE in X. }
  assert (Forall (fun t => t <> [] /\ Forall (fun c => ~ separator p c) t) ts) as FF.
  { rewrite forallb_forall in F. apply Forall_forall. intros t I. specialize (F t I). apply andb_prop in F as [F1 F2]. split; [intros ->; discriminate|].
    apply Forall_forall. intros c Ic X. apply mem_separators in X. rewrite SE in X. apply negb_true_iff in F2.
    assert (mem 44 t = true \/ mem 32 t = true) as [Y|Y]; [|rewrite Y in F2; discriminate|rewrite Y, orb_true_r in F2; discriminate].
    unfold mem in X. cbn [existsb] in X. assert (c = 44 \/ c = 32) as [->| ->] by lia; [left|right]; apply existsb_exists; eexists; (split; [exact Ic|]); reflexivity. }
  split; [now apply comma_entries|]. split; [|exact P]. apply comma_entries; auto. exact (Permutation_Forall P FF).
Qed.
Theorem C159_merge_refuted : exists y g s s' p x l l', resolver_ok g /\ addr_wf x /\ parser_reachable y g p
  /\ same_entries p s s' /\ parse y g s p = (p, Ok l) /\ parse y g s' p = (p, Ok l')
  /\ address_match_ranges l x = Ok true /\ address_match_ranges l' x = Ok false.
Proof.
  exists ref_sys, no_answer, (comma_list [lit "10.0.0.1/24"; lit "10.0.9.9-10.0.9.1"; lit "10.0.0.2-10.0.0.1"]),
    (comma_list [lit "10.0.0.1/24"; lit "10.0.0.2-10.0.0.1"; lit "10.0.9.9-10.0.9.1"]), masked_merge, (PropRange.net4 10 0 0 7 32).
  eexists _, _. split; [exact no_answer_ok|]. split; [PropRange.wfa|].
  split. { replace masked_merge with (parser_run ref_sys no_answer [P_set_sort_order SORT_MERGE; P_set_allow ALLOW_ADDRESS_RANGE true;
     P_set_allow ALLOW_MASK true; P_set_allow ALLOW_MULTI_ADDRESSES_SPACES true; P_set_allow ALLOW_MULTI_ADDRESSES_COMMAS true;
     P_set_allow ALLOW_ADDRESS_LOOKUP false]) by (vm_compute; reflexivity).
    apply run_reachable. }
  split. { apply comma_texts; [vm_compute; reflexivity..|]. apply perm_skip, perm_swap. }
  split; [vm_compute; reflexivity|]. split; [vm_compute; reflexivity|]. split; vm_compute; reflexivity.
Qed.
Print Assumptions C159_merge_refuted.

(* Concrete cases: a text with a bad entry, and its entries in another order;
   the same with the first entry twice. *)
Definition order_a : list str := [lit "10.0.0.9"; lit "10.0.0.300"; lit "::5"; lit "10.0.0.1/24"].
Definition order_b : list str := [lit "::5"; lit "10.0.0.1/24"; lit "10.0.0.300"; lit "10.0.0.9"].
Example C159_witness : same_entries masked (comma_list order_a) (comma_list order_b)
  /\ same_entries (fst (set_sort_order masked SORT_FULL)) (comma_list order_a) (comma_list order_b)
  /\ more_entries masked (comma_list order_b) (comma_list (lit "::5" :: order_a))
  /\ Z.land (get_sort_order masked) SORT_MERGE = 0
  /\ bounds (parse ref_sys no_answer (comma_list order_a) masked) = [(q4 9, q4 9); (5, 5); (q4 1, q4 1)]
  /\ bounds (parse ref_sys no_answer (comma_list order_b) masked) = [(5, 5); (q4 1, q4 1); (q4 9, q4 9)]
  /\ error_count (fst (parse ref_sys no_answer (comma_list order_a) masked)) = 1
  /\ bounds (parse ref_sys no_answer (comma_list order_b) (fst (set_sort_order masked SORT_FULL))) = [(5, 5); (q4 1, q4 1); (q4 9, q4 9)].
Proof.
  assert (Permutation order_a order_b) as P.
  { unfold order_a, order_b. eapply perm_trans; [apply (Permutation_app_comm [lit "10.0.0.9"; lit "10.0.0.300"] [lit "::5"; lit "10.0.0.1/24"])|].
    cbn [app]. do 2 apply perm_skip. apply perm_swap. }
  split; [apply comma_texts; auto; vm_compute; reflexivity|]. split; [apply comma_texts; auto; vm_compute; reflexivity|]. split.
  { destruct (comma_texts masked order_b order_b) as (t1 & t2 & E1 & _ & _); [vm_compute; reflexivity..|apply Permutation_refl|].
    exists order_b, (lit "::5" :: order_a).
    assert (separator masked 44) as S by (apply mem_separators; reflexivity).
    assert (nobody (starts_comment masked)) as N. { intros c X. apply mem_comments in X. discriminate. }
    assert (forall t, In t order_a -> t <> [] /\ Forall (fun c => ~ separator masked c) t) as K.
    { intros t I. split; [intros ->; repeat (destruct I as [I|I]; [discriminate|]); destruct I|]. apply Forall_forall. intros c Ic X. apply mem_separators in X.
      assert (forallb (fun t => forallb (fun c => negb (mem c (separators masked))) t) order_a = true) as Y by (vm_compute; reflexivity).
      rewrite forallb_forall in Y. specialize (Y t I). rewrite forallb_forall in Y. specialize (Y c Ic). now rewrite X in Y. }
    split; [|split].
    - apply comma_entries; auto. apply Forall_forall. intros t I. apply K. now apply (Permutation_in _ (Permutation_sym P)).
    - apply comma_entries; auto. constructor; [apply K; cbn; auto|]. apply Forall_forall. exact K.
    - intros t I. right. now apply (Permutation_in _ (Permutation_sym P)). }
  vm_compute. repeat split.
Qed.
(* Two networks and one of their addresses, merged; a list which cannot be. *)
Example C159_merge_witness : exists l0 p1 l, 
  same_entries masked_merge (comma_list [lit "10.0.0.1/24"; lit "10.0.0.1"; lit "10.0.0.1/16"]) (comma_list [lit "10.0.0.1"; lit "10.0.0.1/24"; lit "10.0.0.1/16"])
  /\ snd (parse ref_sys no_answer (comma_list [lit "10.0.0.1/24"; lit "10.0.0.1"; lit "10.0.0.1/16"]) (without_sort masked_merge)) = Ok l0
  /\ length l0 = 3%nat /\ (forall r, In r l0 -> is_empty r = false)
  /\ parse ref_sys no_answer (comma_list [lit "10.0.0.1/24"; lit "10.0.0.1"; lit "10.0.0.1/16"]) masked_merge = (p1, Ok l) /\ length l = 1%nat
  /\ snd (parse ref_sys no_answer (lit "::1:0:0:0/64,255.255.255.255") masked_merge) = Throw E_out_of_range.
Proof.
  eexists _, _, _. split. { apply comma_texts; [vm_compute; reflexivity..|apply perm_swap]. }
  split; [vm_compute; reflexivity|]. split; [reflexivity|].
  split. { intros r I. repeat (destruct I as [<-|I]; [vm_compute; reflexivity|]). destruct I. }
  split; [vm_compute; reflexivity|]. split; vm_compute; reflexivity.
Qed.
