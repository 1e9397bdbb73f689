(* C140: the sort order and the addresses which match. *)
From Coq Require Import ZifyBool ZifyNat Permutation.
From Verif Require Import Base Addr Spec Range SpecRange Inet SpecText Parser SpecParser.
From Verif Require AddrProofs AddrProofs2 AddrProofs3 AddrProofs4 RangeProofs RangeProofs2 ParserProofs ParserProofs2
  ParserProofs3 ParserProofs4 ParserProofs5 ParserProofs6 ParserProofs7 PropRange PropParser PropParser2 PropParser3.
Import AddrProofs AddrProofs2 AddrProofs3 AddrProofs4 RangeProofs RangeProofs2 ParserProofs ParserProofs2
  ParserProofs3 ParserProofs4 ParserProofs5 ParserProofs6 ParserProofs7 PropParser PropParser2 PropParser3.
Local Open Scope Z_scope.

Lemma same_answer l l' x :
  ((exists r, In r l /\ range_match r x = Ok true) <-> (exists r, In r l' /\ range_match r x = Ok true)) ->
  address_match_ranges l x = address_match_ranges l' x.
Proof.
  intros H. destruct (PropRange.C34_address_match_ranges l x) as (b & -> & Hb).
  destruct (PropRange.C34_address_match_ranges l' x) as (b' & -> & Hb'). rewrite H, <- Hb' in Hb.
  f_equal. destruct b, b'; auto; [symmetry|]; now apply Hb.
Qed.

(* Any order but merging, with or without masks. *)
Theorem C140_sorted : forall y g s p p' l p0 l0, resolver_ok g -> Z.land (get_sort_order p) SORT_MERGE = 0 ->
  parse y g s p = (p', Ok l) -> parse y g s (without_sort p) = (p0, Ok l0) ->
  forall x, address_match_ranges l x = address_match_ranges l0 x.
Proof.
  intros y g s p p' l p0 l0 R M E E0 x.
  destruct (C45_same_outcome y g s p p' _ R M E) as (p1 & r1 & E1 & _ & _ & P & _).
  destruct (P l eq_refl) as (l1 & -> & PP). assert (l1 = l0) as -> by congruence.
  apply same_answer. split; intros (r & I & H); exists r; (split; [|exact H]).
  - now apply (Permutation_in _ (Permutation_sym PP)).
  - now apply (Permutation_in _ PP).
Qed.
Print Assumptions C140_sorted.

Lemma merge_keeps_ones : forall rest cur l, ones cur -> Forall ones rest -> merge_from cur rest = Ok l -> Forall ones l.
Proof.
  induction rest as [|n rest IH]; intros cur l C F E; cbn [merge_from] in E; [assert (l = [cur]) as -> by congruence; auto|].
  inversion F as [|? ? F1 F2]; subst. destruct (union_ones cur n C F1) as (u & Eu & Ou). rewrite Eu in E. cbn [rbind] in E.
  destruct (is_defined u && negb (is_empty u)); [now apply (IH u)|].
  destruct (merge_from n rest) as [l1| | |] eqn:E1; cbn [rbind] in E; try discriminate.
  assert (l = cur :: l1) as -> by congruence. constructor; [exact C|]. now apply (IH n).
Qed.
Lemma arrange_keeps_ones sort l l' : Forall ones l -> arrange sort l = Ok l' -> Forall ones l'.
Proof.
  intros F E. unfold arrange in E.
  set (l1 := if negb (Z.land sort (Z.lor SORT_FULL SORT_MERGE) =? 0) then stable_sort range_lt l else l) in *.
  assert (Forall ones l1) as F1.
  { unfold l1. destruct (negb _); [|exact F]. apply (Permutation_Forall (stable_sort_perm range_lt l) F). }
  clearbody l1.
  destruct (if negb (Z.land sort SORT_MERGE =? 0) then merge_all l1 else Ok l1) as [l2| | |] eqn:E2; cbn [rbind] in E; try discriminate.
  assert (Forall ones l2) as F2.
  { destruct (negb (Z.land sort SORT_MERGE =? 0)); [|assert (l2 = l1) as -> by congruence; exact F1].
    destruct l1 as [|c l1]; [assert (l2 = []) as -> by (cbn in E2; congruence); constructor|].
    inversion F1; subst. now apply (merge_keeps_ones l1 c). }
  assert (forall lt, Forall ones (stable_sort lt l2)) as P.
  { intros lt. apply (Permutation_Forall (stable_sort_perm lt l2) F2). }
  destruct (negb (Z.land sort SORT_IPV4_FIRST =? 0)).
  { assert (l' = stable_sort v4_first l2) as -> by congruence. apply P. }
  destruct (negb (Z.land sort SORT_IPV6_FIRST =? 0)).
  { assert (l' = stable_sort v6_first l2) as -> by congruence. apply P. }
  assert (l' = l2) as -> by congruence. exact F2.
Qed.

Lemma ones_match r x : good r -> ones r -> addr_wf x -> (range_match r x = Ok true <-> element r (value x)).
Proof.
  intros [D W] [O1 O2] Wx.
  assert (K : full r \/ ~ full r). { unfold full. destruct (f_has_from r), (f_has_to r); intuition discriminate. }
  destruct K as [F|F].
  - rewrite range_match_full by auto. unfold element. unfold defined in D.
    destruct ((lo r <=? value x) && (value x <=? hi r)) eqn:B.
    + split; [intros _|reflexivity]. split; [exact D|lia].
    + split; [discriminate|]. intros [_ H]. lia.
  - rewrite range_match_single by auto. set (a := if f_has_from r then f_from r else f_to r).
    assert (addr_wf a /\ f_mask a = repeat 255 16) as [Wa Ma] by (unfold a; destruct W, (f_has_from r); auto).
    assert (lo r = value a /\ hi r = value a) as [L H].
    { unfold lo, hi, a, full, defined in *. destruct (f_has_from r), (f_has_to r); intuition discriminate. }
    assert (get_mask_size a = 128) as G by now apply ones_size.
    assert (first_of a = value a /\ last_of a = value a) as [A1 A2].
    { unfold last_of, first_of, block_last, block_first, block_size. rewrite G. change (2 ^ (128 - 128)) with 1. rewrite Z.div_1_r. lia. }
    pose proof (match_first_last a x Wa Wx ltac:(lia)) as MM. rewrite A1, A2 in MM. unfold element. rewrite L, H. unfold defined in D.
    split.
    + intros X. split; [exact D|]. apply MM. congruence.
    + intros [_ X]. f_equal. now apply MM.
Qed.

Lemma unmasked_ones y g s p p2 l0 : get_allow p ALLOW_MASK = Ok false -> parse y g s (without_sort p) = (p2, Ok l0) -> Forall ones l0.
Proof.
  intros AM E2. unfold parse, bind at 1 in E2. destruct (parse_entries y g s (without_sort p)) as [p1 [l1|e| |]] eqn:E3; try discriminate.
  allowed AM. assert (allow (without_sort p) ALLOW_MASK = false) as AM' by (rewrite without_sort_eq; exact AM).
  pose proof (entries_ones y g s (without_sort p) p1 l1 AM' E3) as O. unfold bind, ask, lift in E2.
  assert (f_sort p1 = f_sort (without_sort p)) as SS.
  { pose proof (entries_config y g s (without_sort p)) as C. rewrite E3 in C. now destruct C. }
  rewrite SS, without_sort_eq in E2. cbn [f_sort with_sort] in E2. rewrite arrange_unsorted in E2.
  assert (l1 = l0) as <- by congruence. exact O.
Qed.

(* Any order, merging included, without masks. *)
Theorem C140_no_masks_partial : forall y g s p p' l p0 l0, resolver_ok g -> get_allow p ALLOW_MASK = Ok false ->
  parse y g s p = (p', Ok l) -> parse y g s (without_sort p) = (p0, Ok l0) ->
  forall x, addr_wf x -> address_match_ranges l x = address_match_ranges l0 x.
Proof.
  intros y g s p p' l p0 l0 R AM E E0 x Wx.
  destruct (Z.eq_dec (Z.land (get_sort_order p) SORT_MERGE) 0) as [M|M]; [now apply (C140_sorted y g s p p' l p0 l0)|].
  destruct (two_parses y g s p R) as (ms & re & E1 & E2 & G).
  rewrite E2 in E0. assert (re = Ok l0) as -> by congruence. cbn [rbind] in E1. specialize (G l0 eq_refl).
  rewrite E1 in E. assert (arrange (f_sort p) l0 = Ok l) as EA by congruence.
  assert (Forall ones l0) as O0 by now apply (unmasked_ones y g s p _ l0 AM E2).
  pose proof (arrange_keeps_ones _ _ _ O0 EA) as O1.
  destruct (arrange_merged (f_sort p) l0 l G M EA) as (G1 & C & _).
  specialize (C (value x)). unfold covered in C. rewrite Forall_forall in *.
  apply same_answer. split; intros (r & I & H).
  - destruct (proj1 C) as (r0 & I0 & H0); [exists r; split; [exact I|apply ones_match; auto]|].
    exists r0. split; [exact I0|]. apply ones_match; auto.
  - destruct (proj2 C) as (r0 & I0 & H0); [exists r; split; [exact I|apply ones_match; auto]|].
    exists r0. split; [exact I0|]. apply ones_match; auto.
Qed.
Print Assumptions C140_no_masks_partial.

(* With masks, merging is harmless where there is nothing to merge: the same
   ranges come out, masks and ports included. *)
Lemma merge_separate : forall rest cur, Forall good (cur :: rest) -> Forall nonempty (cur :: rest) -> pairwise apart (cur :: rest) ->
  merge_from cur rest = Ok (cur :: rest).
Proof.
  induction rest as [|n rest IH]; intros cur G N P; cbn [merge_from]; [reflexivity|].
  inversion G as [|? ? [D W] G1]; subst. inversion N as [|? ? N0 N1]; subst. destruct P as [P0 P1].
  inversion G1 as [|? ? [D' W'] _]; subst. inversion N1 as [|? ? N' _]; subst. inversion P0 as [|? ? A _]; subst.
  specialize (A N0 N'). pose proof (union_spec cur n W W' D D') as U.
  assert (touching cur n = false) as T.
  { unfold touching. destruct N0 as [_ N0], N' as [_ N']. lia. }
  rewrite T in U. rewrite U. cbn [rbind is_defined range_new f_has_from f_has_to orb andb]. rewrite IH by auto. reflexivity.
Qed.
Theorem C140_separate : forall y g s p p0 l0, resolver_ok g ->
  parse y g s (without_sort p) = (p0, Ok l0) -> Forall nonempty l0 -> pairwise apart l0 ->
  exists p' l, parse y g s p = (p', Ok l) /\ Permutation l0 l
    /\ forall x, address_match_ranges l x = address_match_ranges l0 x.
Proof.
  intros y g s p p0 l0 R E0 N A.
  destruct (two_parses y g s p R) as (ms & re & E1 & E2 & G).
  rewrite E2 in E0. assert (re = Ok l0) as -> by congruence. cbn [rbind] in E1. specialize (G l0 eq_refl).
  assert (exists l, arrange (f_sort p) l0 = Ok l /\ Permutation l0 l) as (l & EA & P).
  { unfold arrange.
    set (l1 := if negb (Z.land (f_sort p) (Z.lor SORT_FULL SORT_MERGE) =? 0) then stable_sort range_lt l0 else l0).
    assert (Permutation l0 l1) as P1 by (unfold l1; destruct (negb _); [apply stable_sort_perm|auto]).
    clearbody l1.
    assert ((if negb (Z.land (f_sort p) SORT_MERGE =? 0) then merge_all l1 else Ok l1) = Ok l1) as ->.
    { destruct (negb _); [|reflexivity]. pose proof (Permutation_Forall P1 G) as G1. pose proof (Permutation_Forall P1 N) as N1.
      pose proof (pairwise_perm apart l0 l1 apart_sym P1 A) as A1. destruct l1 as [|c l1]; [reflexivity|].
      now apply merge_separate. }
    cbn [rbind]. destruct (negb _); [eexists; split; [reflexivity|eapply perm_trans; [exact P1|apply stable_sort_perm]]|].
    destruct (negb _); [eexists; split; [reflexivity|eapply perm_trans; [exact P1|apply stable_sort_perm]]|]. eauto. }
  rewrite EA in E1. do 2 eexists. split; [exact E1|]. split; [exact P|]. intros x.
  apply same_answer. split; intros (r & I & H); exists r; (split; [|exact H]).
  - now apply (Permutation_in _ (Permutation_sym P)).
  - now apply (Permutation_in _ P).
Qed.
Print Assumptions C140_separate.

(* With masks, two neighbours become a range of two addresses and the rest of
   their network is lost. *)
Definition masked : parser := with_allow (with_allow commas ALLOW_MASK true) ALLOW_ADDRESS_RANGE true.
Definition masked_merge : parser := fst (set_sort_order masked SORT_MERGE).
Theorem C140_masks_refuted : exists y g s p x l l0, resolver_ok g /\ addr_wf x
  /\ parser_reachable y g p /\ parse y g s p = (p, Ok l) /\ parse y g s (without_sort p) = (without_sort p, Ok l0)
  /\ address_match_ranges l x = Ok false /\ address_match_ranges l0 x = Ok true.
Proof.
  exists ref_sys, no_answer, (lit "10.0.0.1/24,10.0.0.2/24"), masked_merge, (PropRange.net4 10 0 0 7 32).
  eexists _, _. split; [exact no_answer_ok|]. split; [PropRange.wfa|].
  split. { replace masked_merge with (parser_run ref_sys no_answer [P_set_sort_order SORT_MERGE; P_set_allow ALLOW_ADDRESS_RANGE true;
     P_set_allow ALLOW_MASK true; P_set_allow ALLOW_MULTI_ADDRESSES_SPACES true; P_set_allow ALLOW_MULTI_ADDRESSES_COMMAS true;
     P_set_allow ALLOW_ADDRESS_LOOKUP false]) by (vm_compute; reflexivity).
    apply run_reachable. }
  split; [vm_compute; reflexivity|]. split; [vm_compute; reflexivity|]. split; vm_compute; reflexivity.
Qed.
Print Assumptions C140_masks_refuted.

Definition five (p : parser) : res bool :=
  match snd (parse ref_sys no_answer (lit "10.0.0.9,10.0.0.1-10.0.0.3,::9,10.0.0.4-10.0.0.6") p) with
  | Ok l => address_match_ranges l (PropRange.net4 10 0 0 5 32)
  | _ => UB
  end.
Example C140_witness : get_allow (sorted_by SORT_MERGE) ALLOW_MASK = Ok false
  /\ five (sorted_by SORT_MERGE) = Ok true /\ five (without_sort (sorted_by SORT_MERGE)) = Ok true
  /\ five (sorted_by SORT_FULL) = Ok true
  (* two networks which do not touch *)
  /\ exists a b, parse ref_sys no_answer (lit "10.0.1.0/24,10.0.0.1/24") (without_sort masked_merge) = (without_sort masked_merge, Ok [a; b])
     /\ Forall nonempty [a; b] /\ pairwise apart [a; b]
     /\ parse ref_sys no_answer (lit "10.0.1.0/24,10.0.0.1/24") masked_merge = (masked_merge, Ok [b; a]).
Proof.
  split; [vm_compute; reflexivity|]. do 3 (split; [vm_compute; reflexivity|]). eexists _, _. split; [vm_compute; reflexivity|].
  split. { repeat constructor; try (left; reflexivity); vm_compute; discriminate. }
  split. { cbn [pairwise]. split; [|split; [constructor|exact I]]. constructor; [|constructor]. intros _ _. right. vm_compute. reflexivity. }
  vm_compute. reflexivity.
Qed.
