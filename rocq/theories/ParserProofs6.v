(* Sorting and merging the parsed ranges. *)
From Coq Require Import ZifyBool ZifyNat Permutation Sorted.
From Verif Require Import Base Addr Spec AddrProofs AddrProofs2 Range SpecRange RangeProofs
  Inet Parser SpecParser ParserProofs ParserProofs2 ParserProofs3 ParserProofs5.
Local Open Scope Z_scope.

(* ---------- stable_sort ---------- *)

Section Sort.
Context {A : Type} (lt : A -> A -> bool).

Lemma insert_perm x l : Permutation (x :: l) (insert lt x l).
Proof.
  induction l as [|z l IH]; cbn [insert]; [auto|]. destruct (lt z x); [|auto].
  eapply perm_trans; [apply perm_swap|]. now apply perm_skip.
Qed.
Lemma stable_sort_perm l : Permutation l (stable_sort lt l).
Proof.
  induction l as [|x l IH]; [constructor|]. cbn [stable_sort fold_right].
  eapply perm_trans; [apply perm_skip, IH|]. apply insert_perm.
Qed.

(* elements of a class keep their order *)
Lemma insert_filter f x l : (forall a b, f a = true -> f b = true -> lt a b = false) ->
  filter f (insert lt x l) = filter f (x :: l).
Proof.
  intros H. induction l as [|z l IH]; [reflexivity|]. cbn [insert]. destruct (lt z x) eqn:E; [|reflexivity].
  cbn [filter] in *. rewrite IH. destruct (f x) eqn:Fx; [|reflexivity].
  destruct (f z) eqn:Fz; [|reflexivity]. rewrite H in E by assumption. discriminate.
Qed.
Lemma stable_sort_filter f l : (forall a b, f a = true -> f b = true -> lt a b = false) ->
  filter f (stable_sort lt l) = filter f l.
Proof.
  intros H. induction l as [|x l IH]; [reflexivity|]. cbn [stable_sort fold_right].
  rewrite insert_filter by assumption. cbn [filter]. unfold stable_sort in IH. now rewrite IH.
Qed.

Variable D : A -> Prop.
Hypothesis asym : forall a b, D a -> D b -> lt a b = true -> lt b a = false.
Hypothesis negtrans : forall a b c, D a -> D b -> D c ->
  lt b a = false -> lt c b = false -> lt c a = false.
Definition not_after (a b : A) : Prop := lt b a = false.

Lemma insert_sorted x l : D x -> Forall D l -> StronglySorted not_after l ->
  StronglySorted not_after (insert lt x l).
Proof.
  intros Hx F S. induction S as [|z l S IH Z]; cbn [insert]; [repeat constructor|].
  inversion F as [|? ? F1 F2]; subst. destruct (lt z x) eqn:E.
  - constructor; [now apply IH|]. rewrite <- (insert_perm x l). constructor; [|exact Z].
    now apply asym.
  - constructor; [now constructor|]. constructor; [exact E|].
    apply Forall_forall. intros w Hw. rewrite Forall_forall in Z, F2.
    apply (negtrans x z w); auto. now apply Z.
Qed.
Lemma stable_sort_sorted l : Forall D l -> StronglySorted not_after (stable_sort lt l).
Proof.
  intros F. induction F as [|x l Hx F IH]; [constructor|]. cbn [stable_sort fold_right].
  apply insert_sorted; auto. apply (Permutation_Forall (stable_sort_perm l) F).
Qed.
End Sort.

Lemma sorted_before {A} (R : A -> A -> Prop) l : StronglySorted R l ->
  forall a b c d e, l = a ++ b :: c ++ d :: e -> R b d.
Proof.
  intros S a. revert l S. induction a as [|x a IH]; intros l S b c d e ->.
  - inversion S as [|? ? S1 F]; subst. rewrite Forall_forall in F. apply F, in_elt.
  - inversion S; subst. eapply IH; [eassumption|reflexivity].
Qed.

(* ---------- the orders ---------- *)

Definition good (r : addr_range) : Prop := defined r /\ range_wf r.
Lemma ends_good P l : Forall (ends P) l -> Forall good l.
Proof. apply Forall_impl. intros r (D & W & _). now split. Qed.

Lemma range_lt_asym a b : good a -> good b -> range_lt a b = true -> range_lt b a = false.
Proof.
  intros [Da Wa] [Db Wb]. rewrite !range_lt_spec by auto. unfold range_ltb.
  generalize (lo a) (hi a) (lo b) (hi b). clear. intros a1 a2 b1 b2.
  repeat match goal with |- context [?x >? ?y] => destruct (x >? y) eqn:? end; lia.
Qed.
Lemma range_lt_negtrans a b c : good a -> good b -> good c ->
  range_lt b a = false -> range_lt c b = false -> range_lt c a = false.
Proof.
  intros [Da Wa] [Db Wb] [Dc Wc]. rewrite !range_lt_spec by auto. unfold range_ltb.
  generalize (lo a) (hi a) (lo b) (hi b) (lo c) (hi c). clear. intros a1 a2 b1 b2 c1 c2.
  repeat match goal with |- context [?x >? ?y] => destruct (x >? y) eqn:? end; lia.
Qed.

(* the families, in the order of v4_first / v6_first *)
Definition rank (four six : Z) (r : addr_range) : Z :=
  if is_empty r then 2 else if range_is_ipv4 r then four else six.

Lemma compare_intervals_no_family l r : let c := compare_intervals l r in
  c <> COMPARE_IPV4_VS_IPV6 /\ c <> COMPARE_IPV6_VS_IPV4 /\ c <> COMPARE_FIRST.
Proof.
  unfold compare_intervals. repeat match goal with |- context [if ?b then _ else _] => destruct b end;
    repeat split; discriminate.
Qed.
Lemma v4_first_rank a b : defined a -> defined b -> v4_first a b = (rank 0 1 a <? rank 0 1 b).
Proof.
  intros Da Db. unfold v4_first, compare, rank.
  rewrite (proj2 (is_defined_spec a) Da), (proj2 (is_defined_spec b) Db). cbn [negb orb].
  pose proof (compare_intervals_no_family a b) as (N1 & N2 & N3).
  destruct (is_empty a), (is_empty b), (range_is_ipv4 a), (range_is_ipv4 b); try reflexivity; cbn [negb];
    destruct (compare_intervals a b); try reflexivity; congruence.
Qed.
Lemma v6_first_rank a b : defined a -> defined b -> v6_first a b = (rank 1 0 a <? rank 1 0 b).
Proof.
  intros Da Db. unfold v6_first, compare, rank.
  rewrite (proj2 (is_defined_spec a) Da), (proj2 (is_defined_spec b) Db). cbn [negb orb].
  pose proof (compare_intervals_no_family a b) as (N1 & N2 & N3).
  destruct (is_empty a), (is_empty b), (range_is_ipv4 a), (range_is_ipv4 b); try reflexivity; cbn [negb];
    destruct (compare_intervals a b); try reflexivity; congruence.
Qed.

(* sorting by a rank of 0, 1, 2 *)
Lemma insert_ext {A} (lt1 lt2 : A -> A -> bool) x l : (forall z, In z l -> lt1 z x = lt2 z x) ->
  insert lt1 x l = insert lt2 x l.
Proof.
  induction l as [|z l IH]; intros H; [reflexivity|]. cbn [insert]. rewrite H by now left.
  destruct (lt2 z x); [|reflexivity]. f_equal. apply IH. intros w Hw. apply H. now right.
Qed.
Lemma stable_sort_ext {A} (lt1 lt2 : A -> A -> bool) l :
  (forall a b, In a l -> In b l -> lt1 a b = lt2 a b) -> stable_sort lt1 l = stable_sort lt2 l.
Proof.
  induction l as [|x l IH]; intros H; [reflexivity|]. cbn [stable_sort fold_right].
  unfold stable_sort in IH. rewrite IH by (intros a b Ha Hb; apply H; now right).
  apply insert_ext. intros z Hz. apply H; [|now left]. right.
  apply (Permutation_in _ (Permutation_sym (stable_sort_perm lt2 l))). exact Hz.
Qed.
Lemma sort_by_rank {A} (k : A -> Z) l : (forall a, 0 <= k a <= 2) ->
  stable_sort (fun a b => k a <? k b) l
  = filter (fun a => k a =? 0) l ++ filter (fun a => k a =? 1) l ++ filter (fun a => k a =? 2) l.
Proof.
  intros K. induction l as [|x l IH]; [reflexivity|]. cbn [stable_sort fold_right].
  unfold stable_sort in IH. rewrite IH. clear IH.
  assert (forall n m, Forall (fun a => k a < k x) n -> Forall (fun a => k a >= k x) m ->
    insert (fun a b => k a <? k b) x (n ++ m) = n ++ x :: m) as I.
  { intros n m Fn Fm. induction Fn as [|a n Ha Fn IHn]; cbn [app insert].
    - destruct m as [|b m]; [reflexivity|]. cbn [insert]. inversion Fm; subst.
      replace (k b <? k x) with false by lia. reflexivity.
    - replace (k a <? k x) with true by lia. now rewrite IHn. }
  assert (forall (P : A -> bool) (Q : A -> Prop), (forall a, P a = true -> Q a) -> Forall Q (filter P l)) as FF.
  { intros P Q H. apply Forall_forall. intros a Ha. apply filter_In in Ha. now apply H. }
  pose proof (K x) as Kx. cbn [filter].
  destruct (k x =? 0) eqn:E0; [|destruct (k x =? 1) eqn:E1].
  - replace (k x =? 1) with false by lia. replace (k x =? 2) with false by lia. cbn [app].
    apply (I []); [constructor|]. repeat (apply Forall_app; split); apply FF; intros; lia.
  - replace (k x =? 2) with false by lia.
    rewrite (I (filter (fun a => k a =? 0) l)); [reflexivity| |]; [apply FF; intros; lia|].
    apply Forall_app; split; apply FF; intros; lia.
  - replace (k x =? 2) with true by lia.
    rewrite (app_assoc (filter (fun a => k a =? 0) l)), I; [now rewrite <- app_assoc| |].
    + apply Forall_app; split; apply FF; intros; lia.
    + apply FF; intros; lia.
Qed.

Lemma v4_first_sort l : Forall good l ->
  stable_sort v4_first l = filter is_four l ++ filter is_six l ++ filter is_empty l.
Proof.
  intros F. rewrite (stable_sort_ext v4_first (fun a b => rank 0 1 a <? rank 0 1 b)).
  - rewrite sort_by_rank by (intros a; unfold rank; destruct (is_empty a), (range_is_ipv4 a); lia).
    f_equal; [|f_equal]; apply filter_ext; intros a; unfold rank, is_four, is_six;
      destruct (is_empty a), (range_is_ipv4 a); reflexivity.
  - intros a b Ha Hb. rewrite Forall_forall in F. apply v4_first_rank; now apply F.
Qed.
Lemma v6_first_sort l : Forall good l ->
  stable_sort v6_first l = filter is_six l ++ filter is_four l ++ filter is_empty l.
Proof.
  intros F. rewrite (stable_sort_ext v6_first (fun a b => rank 1 0 a <? rank 1 0 b)).
  - rewrite sort_by_rank by (intros a; unfold rank; destruct (is_empty a), (range_is_ipv4 a); lia).
    f_equal; [|f_equal]; apply filter_ext; intros a; unfold rank, is_four, is_six;
      destruct (is_empty a), (range_is_ipv4 a); reflexivity.
  - intros a b Ha Hb. rewrite Forall_forall in F. apply v6_first_rank; now apply F.
Qed.

(* ---------- merging ---------- *)


Lemma nonempty_element r : nonempty r <-> exists v, element r v.
Proof.
  split.
  - intros [D H]. exists (lo r). split; [exact D|lia].
  - intros [v [D H]]. split; [exact D|lia].
Qed.
Lemma covered_cons a l v : covered (a :: l) v <-> element a v \/ covered l v.
Proof.
  split.
  - intros (r & [->|H] & E); [now left|right; now exists r].
  - intros [H|(r & H & E)]; [exists a|exists r]; split; auto; [now left|now right].
Qed.

(* a before b in the sorted list *)
Definition ordered (a b : addr_range) : Prop := nonempty b -> nonempty a /\ lo a <= lo b.
Lemma not_after_ordered a b : good a -> good b -> not_after range_lt a b -> ordered a b.
Proof.
  intros [Da Wa] [Db Wb]. unfold not_after, ordered. rewrite range_lt_spec by auto. unfold range_ltb, nonempty.
  intros H [_ N]. split; [split; [exact Da|]|]; revert H N; generalize (lo a) (hi a) (lo b) (hi b); clear;
    intros a1 a2 b1 b2 H N; repeat match type of H with context [?x >? ?y] => destruct (x >? y) eqn:? end; lia.
Qed.

Lemma union_result cur n u : good cur -> good n -> union_if_possible cur n = Ok u ->
  (is_defined u && negb (is_empty u) = true /\ good u /\ lo u = Z.min (lo cur) (lo n)
     /\ (forall v, element u v <-> element cur v \/ element n v))
  \/ (is_defined u && negb (is_empty u) = false /\ ordered cur n /\ nonempty n -> hi cur + 1 < lo n)
     /\ is_defined u && negb (is_empty u) = false.
Proof.
  intros [Dc Wc] [Dn Wn] E. pose proof (union_spec cur n Wc Wn Dc Dn) as S.
  destruct (touching cur n) eqn:T.
  - destruct (_ && _) in S; [|congruence]. destruct S as (u' & E' & Wu & Fu & _ & L & H & _).
    assert (u' = u) as -> by congruence. assert (defined u) as Du by now left.
    pose proof (touching_elements cur n u Dc Dn T Du L H) as El.
    rewrite (proj2 (is_defined_spec u) Du). cbn [andb]. destruct (is_empty u) eqn:Em; cbn [negb].
    + right. split; [|reflexivity]. intros (_ & O & Nn). exfalso.
      destruct (proj1 (nonempty_element n) Nn) as [v Hv].
      assert (nonempty u) as Nu by (apply nonempty_element; exists v; apply El; now right).
      apply (nonempty_bool u Wu Du) in Nu. congruence.
    + left. repeat split; auto; try apply Wu; now apply El.
  - assert (u = range_new) as -> by congruence. right. split; [|reflexivity]. intros (_ & O & Nn).
    destruct (O Nn) as [Nc Le]. destruct Nc as [_ Nc], Nn as [_ Nn]. unfold touching in T.
    clear - T Le Nc Nn. lia.
Qed.

Lemma merge_spec : forall rest cur l, Forall good (cur :: rest) -> StronglySorted ordered (cur :: rest) ->
  merge_from cur rest = Ok l ->
  Forall good l
  /\ (forall v, covered l v <-> covered (cur :: rest) v)
  /\ StronglySorted (fun a b => nonempty b -> nonempty a /\ hi a + 1 < lo b) l
  /\ Forall (ordered cur) l.
Proof.
  induction rest as [|n rest IH]; intros cur l F S E; cbn [merge_from] in E.
  - assert (l = [cur]) as -> by congruence. split; [exact F|]. split; [tauto|].
    split; [repeat constructor|]. constructor; [|constructor]. intros N. split; [exact N|lia].
  - inversion F as [|? ? F1 F2]; subst. inversion F2 as [|? ? F3 F4]; subst.
    inversion S as [|? ? S1 S2]; subst. inversion S1 as [|? ? S3 S4]; subst. inversion S2 as [|? ? S5 S6]; subst.
    destruct (union_if_possible cur n) as [u| | |] eqn:U; cbn [rbind] in E; try discriminate.
    destruct (union_result cur n u F1 F3 U) as [(C & Gu & Lu & El)|[G C]]; rewrite C in E.
    + assert (forall b, ordered cur b -> ordered n b -> ordered u b) as Ob.
      { intros b O1 O2 Nb. destruct (O1 Nb) as [N1 L1]. split; [|lia].
        apply nonempty_element. apply nonempty_element in N1. destruct N1 as [v Hv]. exists v. apply El. now left. }
      destruct (IH u l) as (K1 & K2 & K3 & K4); [now constructor| |exact E|].
      { constructor; [exact S3|]. apply Forall_forall. intros b Hb. rewrite Forall_forall in S6, S4. apply Ob; auto. }
      split; [exact K1|]. split; [|split; [exact K3|]].
      * intros v. rewrite K2, !covered_cons, El. tauto.
      * apply Forall_forall. intros b Hb. rewrite Forall_forall in K4. intros Nb.
        destruct (K4 b Hb Nb) as [Nu Lb].
        assert (nonempty cur) as Nc.
        { apply nonempty_element in Nu. destruct Nu as [v Hv]. apply El in Hv.
          destruct Hv as [Hv|Hv]; [apply nonempty_element; eauto|]. apply S5. apply nonempty_element; eauto. }
        split; [exact Nc|].
        (* lo u is an element, hence not before cur *)
        assert (element u (lo u)) as Hl by (split; [apply Gu|destruct Nu; lia]).
        apply El in Hl. destruct Hl as [[_ Hl]|Hl]; [lia|].
        assert (nonempty n) as Nn by (apply nonempty_element; eauto). destruct (S5 Nn). destruct Hl as [_ Hl]. lia.
    + destruct (merge_from n rest) as [l'| | |] eqn:E2; cbn [rbind] in E; try discriminate.
      assert (l = cur :: l') as -> by congruence.
      destruct (IH n l') as (K1 & K2 & K3 & K4); [now constructor|now constructor|exact E2|].
      split; [now constructor|]. split; [|split].
      * intros v. rewrite covered_cons, K2, !covered_cons. tauto.
      * constructor; [exact K3|]. apply Forall_forall. intros b Hb Nb. rewrite Forall_forall in K4.
        destruct (K4 b Hb Nb) as [Nn Lb]. destruct (S5 Nn) as [Nc _]. split; [exact Nc|].
        assert (hi cur + 1 < lo n) by (apply G; auto). lia.
      * constructor; [intros N; split; [exact N|lia]|]. apply Forall_forall. intros b Hb Nb. rewrite Forall_forall in K4.
        destruct (K4 b Hb Nb) as [Nn Lb]. destruct (S5 Nn) as [Nc Lc]. split; [exact Nc|lia].
Qed.

Lemma sorted_weaken {A} (R S : A -> A -> Prop) l : (forall a b, In a l -> In b l -> R a b -> S a b) ->
  StronglySorted R l -> StronglySorted S l.
Proof.
  intros H K. induction K as [|a l K IH F]; constructor.
  - apply IH. intros; apply H; auto; now right.
  - apply Forall_forall. intros b Hb. rewrite Forall_forall in F. apply H; auto; [now left|now right].
Qed.

Lemma merge_all_spec l l' : Forall good l -> merge_all (stable_sort range_lt l) = Ok l' ->
  Forall good l' /\ (forall v, covered l' v <-> covered l v)
  /\ StronglySorted (fun a b => nonempty b -> nonempty a /\ hi a + 1 < lo b) l'.
Proof.
  intros F E. pose proof (stable_sort_perm range_lt l) as P.
  pose proof (Permutation_Forall P F) as F'.
  pose proof (stable_sort_sorted range_lt good range_lt_asym range_lt_negtrans l F) as S.
  assert (forall v, covered (stable_sort range_lt l) v <-> covered l v) as C.
  { intros v. split; intros (r & Hr & Er); exists r; split; auto.
    - now apply (Permutation_in _ (Permutation_sym P)).
    - now apply (Permutation_in _ P). }
  destruct (stable_sort range_lt l) as [|cur rest]; cbn [merge_all] in E.
  - assert (l' = []) as -> by congruence. split; [constructor|]. split; [exact C|constructor].
  - destruct (merge_spec rest cur l') as (K1 & K2 & K3 & _); auto.
    + eapply sorted_weaken; [|exact S]. intros a b Ha Hb. rewrite Forall_forall in F'. apply not_after_ordered; auto.
    + split; [exact K1|]. split; [|exact K3]. intros v. now rewrite K2.
Qed.

Lemma pairwise_perm {A} (R : A -> A -> Prop) l l' : (forall a b, R a b -> R b a) ->
  Permutation l l' -> pairwise R l -> pairwise R l'.
Proof.
  intros Sym P. induction P; cbn [pairwise]; intros H; auto.
  - destruct H as [H1 H2]. split; [now apply (Permutation_Forall P)|auto].
  - destruct H as (H1 & H2 & H3). inversion H1; subst. repeat split; auto.
Qed.
Lemma sorted_pairwise {A} (R S : A -> A -> Prop) l : (forall a b, R a b -> S a b) ->
  StronglySorted R l -> pairwise S l.
Proof.
  intros H K. induction K as [|a l K IH F]; cbn [pairwise]; [exact I|]. split; [|exact IH].
  eapply Forall_impl; [|exact F]. auto.
Qed.
Lemma apart_sym a b : apart a b -> apart b a.
Proof. unfold apart. intros H Nb Na. destruct (H Na Nb); auto. Qed.

(* ---------- arrange ---------- *)

Lemma lor_bit sort a b : (Z.land sort (Z.lor a b) =? 0) = (Z.land sort a =? 0) && (Z.land sort b =? 0).
Proof.
  rewrite Z.land_lor_distr_r.
  destruct (Z.land sort a =? 0) eqn:A, (Z.land sort b =? 0) eqn:B; cbn [andb].
  - replace (Z.land sort a) with 0 by lia. replace (Z.land sort b) with 0 by lia. reflexivity.
  - replace (Z.land sort a) with 0 by lia. rewrite Z.lor_0_l. exact B.
  - replace (Z.land sort b) with 0 by lia. rewrite Z.lor_0_r. exact A.
  - apply Z.eqb_neq. intros E. apply Z.lor_eq_0_iff in E. lia.
Qed.

Definition family_order (sort : Z) (l : list addr_range) : list addr_range :=
  if negb (Z.land sort SORT_IPV4_FIRST =? 0) then filter is_four l ++ filter is_six l ++ filter is_empty l
  else if negb (Z.land sort SORT_IPV6_FIRST =? 0) then filter is_six l ++ filter is_four l ++ filter is_empty l
  else l.

Lemma classes_perm l : Permutation l (filter is_four l ++ filter is_six l ++ filter is_empty l).
Proof.
  induction l as [|a l IH]; [constructor|]. cbn [filter]. unfold is_four at 1, is_six at 1.
  destruct (is_empty a), (range_is_ipv4 a); cbn [negb andb].
  1, 2: rewrite app_assoc; apply Permutation_cons_app; now rewrite <- app_assoc.
  - cbn [app]. now apply perm_skip.
  - now apply Permutation_cons_app.
Qed.
Lemma family_order_perm sort l : Permutation l (family_order sort l).
Proof.
  unfold family_order. destruct (negb _); [apply classes_perm|]. destruct (negb _); [|auto].
  eapply perm_trans; [apply classes_perm|]. rewrite !app_assoc. apply Permutation_app_tail, Permutation_app_comm.
Qed.
Lemma family_sort sort l : Forall good l ->
  (if negb (Z.land sort SORT_IPV4_FIRST =? 0) then Ok (stable_sort v4_first l)
   else if negb (Z.land sort SORT_IPV6_FIRST =? 0) then Ok (stable_sort v6_first l)
   else Ok l) = Ok (family_order sort l).
Proof.
  intros F. unfold family_order. destruct (negb _); [now rewrite v4_first_sort|].
  destruct (negb _); [now rewrite v6_first_sort|reflexivity].
Qed.

Lemma arrange_sorted sort l : Forall good l -> Z.land sort SORT_MERGE = 0 ->
  arrange sort l = Ok (family_order sort (if Z.land sort SORT_FULL =? 0 then l else stable_sort range_lt l)).
Proof.
  intros F M. unfold arrange. rewrite lor_bit, M. cbn [Z.eqb andb negb]. rewrite andb_true_r.
  destruct (Z.land sort SORT_FULL =? 0); cbn [negb rbind]; [now apply family_sort|].
  apply family_sort. apply (Permutation_Forall (stable_sort_perm range_lt l) F).
Qed.
Lemma arrange_merged sort l l' : Forall good l -> Z.land sort SORT_MERGE <> 0 -> arrange sort l = Ok l' ->
  Forall good l' /\ (forall v, covered l' v <-> covered l v) /\ pairwise apart l'.
Proof.
  intros F M E. unfold arrange in E. rewrite lor_bit in E. replace (Z.land sort SORT_MERGE =? 0) with false in E by lia.
  rewrite andb_false_r in E. cbn [negb] in E.
  destruct (merge_all (stable_sort range_lt l)) as [m| | |] eqn:Em; cbn [rbind] in E; try discriminate.
  destruct (merge_all_spec l m F Em) as (G & C & S). rewrite family_sort in E by exact G.
  assert (l' = family_order sort m) as -> by congruence. pose proof (family_order_perm sort m) as P.
  split; [now apply (Permutation_Forall P)|]. split.
  - intros v. rewrite <- C. split; intros (r & Hr & Er); exists r; split; auto.
    + now apply (Permutation_in _ (Permutation_sym P)).
    + now apply (Permutation_in _ P).
  - apply (pairwise_perm apart m); [apply apart_sym|exact P|]. eapply sorted_pairwise; [|exact S].
    intros a b H Na Nb. left. now apply H.
Qed.

(* ---------- no mask, no exception ---------- *)

Definition ones (r : addr_range) : Prop :=
  f_mask (f_from r) = repeat 255 16 /\ f_mask (f_to r) = repeat 255 16.

Lemma ones_size a : f_mask a = repeat 255 16 -> get_mask_size a = 128.
Proof. intros E. unfold get_mask_size. rewrite E. reflexivity. Qed.

Lemma set_mask_count_128 a : set_mask_count a 128 = (set_mask a (repeat 255 16), Ok tt).
Proof. unfold set_mask_count. destruct (is_ipv4 a); reflexivity. Qed.

Lemma union_ones l r : ones l -> ones r -> exists u, union_if_possible l r = Ok u /\ ones u.
Proof.
  intros [L1 L2] [R1 R2]. unfold union_if_possible. destruct (_ && _); [eexists; split; [reflexivity|now split]|].
  cbv zeta. match goal with |- context [if ?b then _ else Ok range_new] => destruct b end;
    [|eexists; split; [reflexivity|now split]].
  rewrite !ones_size by assumption. change (Z.min 128 128) with 128. rewrite !set_mask_count_128. cbn [rbind].
  match goal with |- context [if ?b then _ else _] => destruct b end; (eexists; split; [reflexivity|now split]).
Qed.
Lemma merge_ones : forall rest cur, ones cur -> Forall ones rest -> exists l, merge_from cur rest = Ok l.
Proof.
  induction rest as [|n rest IH]; intros cur C F; cbn [merge_from]; [eauto|]. inversion F as [|? ? F1 F2]; subst.
  destruct (union_ones cur n C F1) as (u & -> & Ou). cbn [rbind].
  destruct (is_defined u && negb (is_empty u)); [now apply IH|].
  destruct (IH n F1 F2) as [l ->]. cbn [rbind]. eauto.
Qed.
Lemma arrange_ones sort l : Forall ones l -> exists l', arrange sort l = Ok l'.
Proof.
  intros F. unfold arrange.
  set (l1 := if negb (Z.land sort (Z.lor SORT_FULL SORT_MERGE) =? 0) then stable_sort range_lt l else l).
  assert (Forall ones l1) as F1.
  { unfold l1. destruct (negb _); [|exact F]. apply (Permutation_Forall (stable_sort_perm range_lt l) F). }
  assert (exists l2, (if negb (Z.land sort SORT_MERGE =? 0) then merge_all l1 else Ok l1) = Ok l2) as [l2 E].
  { clearbody l1. destruct (negb _); [|eauto]. destruct l1 as [|c l1]; [eexists; reflexivity|]. inversion F1; subst. now apply merge_ones. }
  rewrite E. cbn [rbind].
  destruct (negb (Z.land sort SORT_IPV4_FIRST =? 0)); [eauto|].
  destruct (negb (Z.land sort SORT_IPV6_FIRST =? 0)); eauto.
Qed.

(* results of a function *)
Definition yields {A} (m : M A) (Q : A -> Prop) : Prop := forall p p' a, m p = (p', Ok a) -> Q a.
Lemma yields_bind {A B} (m : M A) (f : A -> M B) R Q : yields m R -> (forall a, R a -> yields (f a) Q) ->
  yields (bind m f) Q.
Proof.
  intros H1 H2 p p' b E. unfold bind in E. destruct (m p) as [p1 [a|x| |]] eqn:Em; try discriminate.
  eapply H2; [|exact E]. eapply H1; exact Em.
Qed.
Lemma yields_any {A} (m : M A) : yields m (fun _ => True).
Proof. intros p p' a _. exact I. Qed.
Lemma yields_ret {A} (a : A) (Q : A -> Prop) : Q a -> yields (ret a) Q.
Proof. intros H p p' b E. unfold ret in E. congruence. Qed.
Lemma yields_lift {A} (r : res A) (Q : A -> Prop) : (forall a, r = Ok a -> Q a) -> yields (lift r) Q.
Proof. intros H p p' b E. unfold lift in E. apply H. congruence. Qed.
Lemma yields_fail {A} msg (P : A -> Prop) : yields (fail msg) (Forall P).
Proof. eapply yields_bind; [apply yields_any|]. intros _ _. apply yields_ret. constructor. Qed.

Ltac skip := eapply yields_bind; [apply yields_any|]; intros ? _.

Definition onesl := Forall ones.
Lemma ones_single r : ones r -> onesl [r].
Proof. intros H. constructor; [exact H|constructor]. Qed.

Lemma finish_ones a host proto dp r : f_mask a = repeat 255 16 ->
  (let a := set_hostname a host in
   let! a := if negb (proto =? -1) then on (set_protocol a proto) else Ok a in
   Ok (set_from range_new (set_port_defined a dp))) = Ok r -> ones r.
Proof.
  intros M. cbv zeta.
  assert (forall b, f_mask b = repeat 255 16 -> ones (set_from range_new (set_port_defined b dp))) as K.
  { intros b Hb. split; [exact Hb|reflexivity]. }
  destruct (negb (proto =? -1)); cbn [rbind].
  - unfold on, set_protocol.
    destruct (_ || _ || _); [|discriminate].
    match goal with |- context [if ?b then _ else _] => destruct b end; cbn [fst snd rbind]; intros E.
    + match type of E with Ok ?x = _ => assert (r = x) as -> by congruence end. apply K. exact M.
    + match type of E with Ok ?x = _ => assert (r = x) as -> by congruence end. apply K. exact M.
  - intros E. assert (r = set_from range_new (set_port_defined (set_hostname a host) dp)) as -> by congruence. now apply K.
Qed.
Lemma range4_ones in4 host proto dp r : range4 in4 host proto dp = Ok r -> ones r.
Proof.
  unfold range4, on, set_ipv4. destruct (negb _); [discriminate|]. cbn [fst snd rbind].
  apply finish_ones. reflexivity.
Qed.
Lemma range6_ones in6 host proto dp r : range6 in6 host proto dp = Ok r -> ones r.
Proof.
  unfold range6, on, set_ipv6. destruct (negb _); [discriminate|]. cbn [fst snd rbind].
  apply finish_ones. reflexivity.
Qed.

Lemma use_addrinfo_ones host dp : forall l first, yields (use_addrinfo l first host dp) onesl.
Proof.
  induction l as [|ai l IH]; intros first; cbn [use_addrinfo]; [apply yields_ret; constructor|].
  assert (forall r0, (forall r, r0 = Ok r -> ones r) -> 
    yields (do! r <- lift r0 in do! rs <- use_addrinfo l first host dp in ret (r :: rs)) onesl) as ADD.
  { intros r0 H0. eapply yields_bind; [apply yields_lift, H0|]. intros r Hr.
    eapply yields_bind; [apply IH|]. intros rs Hrs. apply yields_ret. now constructor. }
  destruct (ai_family ai =? AF_INET).
  { destruct (negb _); [skip; apply IH|]. apply ADD. intros r. apply range4_ones. }
  destruct (ai_family ai =? AF_INET6).
  { destruct (negb _); [skip; apply IH|]. apply ADD. intros r. apply range6_ones. }
  destruct first; [skip|]; apply IH.
Qed.
Lemma numeric_ones address port dp : yields (numeric_address address port dp) onesl.
Proof.
  unfold numeric_address. skip. destruct (inet_pton4 _); [|destruct (inet_pton6 _); [|apply yields_fail]].
  - eapply yields_bind; [apply yields_lift; intros r; apply range4_ones|]. intros r Hr. apply yields_ret. now apply ones_single.
  - eapply yields_bind; [apply yields_lift; intros r; apply range6_ones|]. intros r Hr. apply yields_ret. now apply ones_single.
Qed.
Lemma address_port_ones y g address port_str ipv6 : yields (parse_address_port y g address port_str ipv6) onesl.
Proof.
  unfold parse_address_port. skip. destruct (_ && _); [apply yields_fail|]. skip. skip.
  destruct (_ && _); [apply yields_fail|]. skip. skip. destruct a3.
  - skip. match goal with |- yields (match ?x with _ => _ end) _ => destruct x end; [apply yields_fail|apply use_addrinfo_ones].
  - skip. destruct (_ || _); [|apply numeric_ones]. destruct (convert_string _ _); [|apply yields_fail].
    destruct (_ || _); [apply yields_fail|]. destruct (_ && _); [apply yields_fail|apply numeric_ones].
Qed.
Lemma ignore_duplicates_ones y g address port_str ipv6 :
  yields (parse_address_port_ignore_duplicates y g address port_str ipv6) onesl.
Proof.
  eapply yields_bind; [apply address_port_ones|]. intros [|r l] F; [apply yields_ret; constructor|].
  inversion F; subst. eapply yields_bind.
  - apply yields_lift. intros l' E.
    destruct (drop_duplicates_ok (get_from r) l) as [[x E2]|(l2 & E2 & k & ->)]; [congruence|].
    assert (l' = skipn k l) as -> by congruence. instantiate (1 := onesl).
    apply Forall_forall. intros z Hz. unfold onesl in *. rewrite Forall_forall in H2. apply H2.
    rewrite <- (firstn_skipn k l). apply in_or_app. now right.
  - intros l' Fl. apply yields_ret. now constructor.
Qed.
Lemma range_end_ones y g text port_str msg ipv6 : yields (range_end y g text port_str msg ipv6)
  (fun o => match o with Some (Some r) => ones r | _ => True end).
Proof.
  unfold range_end. destruct text; [now apply yields_ret|].
  eapply yields_bind; [apply ignore_duplicates_ones|]. intros [|r [|r' l]] F.
  - now apply yields_ret.
  - apply yields_ret. now inversion F.
  - skip. now apply yields_ret.
Qed.
Lemma range_port_ones y g addresses port_str ipv6 :
  yields (parse_address_range_port y g addresses port_str ipv6) onesl.
Proof.
  unfold parse_address_range_port. skip.
  destruct (if a then find_char 45 addresses else None) as [p|]; [|apply address_port_ones].
  match goal with |- yields (if ?b then _ else _) _ => destruct b end; [apply yields_fail|].
  eapply yields_bind; [apply range_end_ones|]. intros [fr|] Hf; [|apply yields_ret; constructor].
  eapply yields_bind; [apply range_end_ones|]. intros [tr|] Ht; [|apply yields_ret; constructor].
  destruct fr as [f|], tr as [t|]; cbn [option_map].
  - skip. assert (ones (set_to f (get_to (swap_from_to t)))) as O.
    { destruct Hf, Ht. split; [assumption|]. cbn. assumption. }
    destruct (_ || _); apply yields_ret; [now apply ones_single|constructor].
  - apply yields_ret. now apply ones_single.
  - apply yields_ret. destruct Ht. apply ones_single. now split.
  - apply yields_lift. discriminate.
Qed.
Lemma address4_ones y g in_ : yields (parse_address4 y g in_) onesl.
Proof.
  unfold parse_address4. skip. skip. destruct (find_char 58 in_); [|apply range_port_ones].
  destruct (_ || _); [apply range_port_ones|apply yields_fail].
Qed.
Lemma address6_ones y g in_ colons : yields (parse_address6 y g in_ colons) onesl.
Proof.
  unfold parse_address6. skip. skip. destruct (match in_ with c :: _ => c =? 91 | [] => false end).
  - destruct (find_char 93 in_); [|apply yields_fail]. destruct (skipn _ in_); [apply range_port_ones|].
    destruct (negb _); [apply yields_fail|]. destruct (_ && _); [apply yields_fail|apply range_port_ones].
  - destruct (colons =? 1); [|apply range_port_ones].
    destruct (find_char 58 in_); [apply range_port_ones|]. apply yields_lift. discriminate.
Qed.
Lemma address_ones y g in_ mask : yields (parse_address y g in_ mask) (fun x => onesl (fst x)).
Proof.
  unfold parse_address.
  assert (yields (do! l <- parse_address6 y g in_ (count_char 58 in_) in ret (l, false)) (fun x => onesl (fst x))) as S.
  { eapply yields_bind; [apply address6_ones|]. intros l Hl. now apply yields_ret. }
  assert (yields (do! l <- parse_address4 y g in_ in ret (l, true)) (fun x => onesl (fst x))) as F.
  { eapply yields_bind; [apply address4_ones|]. intros l Hl. now apply yields_ret. }
  destruct (_ >=? 2); [exact S|].
  destruct in_ as [|c0 in_]; [|destruct (c0 =? 58)].
  1, 2: destruct mask as [|c mask];
    [skip; skip; repeat match goal with |- yields (match ?x with _ => _ end) _ => destruct x end; auto
    |destruct (c =? 91); [exact S|]; destruct (_ >? 32); auto].
  destruct (_ || _); [exact S|]. skip. skip. destruct (_ && _); [|exact F].
  destruct (find_char 58 _); [|exact F].
  match goal with |- yields (if ?b then _ else _) _ => destruct b end; auto.
Qed.

Lemma cidr_ones y g s p p' l : allow p ALLOW_MASK = false -> parse_cidr y g s p = (p', Ok l) -> onesl l.
Proof.
  intros AM E. unfold parse_cidr, bind at 1, allowed, ask in E. rewrite AM in E.
  assert (yields (do! am <- parse_address y g (trim_string s) [] in ret (fst am)) onesl) as Y.
  { eapply yields_bind; [apply address_ones|]. intros x Hx. now apply yields_ret. }
  exact (Y _ _ _ E).
Qed.
Lemma allow_config p q flag : same_config p q -> allow p flag = allow q flag.
Proof. intros []. unfold allow. congruence. Qed.
Lemma loop_ones y g seps comments newlines : forall fuel rest p p' l, allow p ALLOW_MASK = false ->
  parse_loop y g fuel seps comments newlines rest p = (p', Ok l) -> onesl l.
Proof.
  induction fuel as [|k IH]; intros rest p p' l AM E; cbn [parse_loop] in E;
    (destruct rest as [|c rest]; [unfold ret in E; assert (l = []) as -> by congruence; constructor|]); [discriminate|].
  destruct (split_at seps (c :: rest)) as [piece tail]. destruct piece as [|c1 piece]; [eapply IH; [exact AM|exact E]|].
  match type of E with (let (_, _) := ?x in _) _ = _ => destruct x as [text tail'] end.
  rewrite loop_turn in E.
  destruct ((match text with [] => ret [] | _ => parse_cidr y g text end) p) as [p1 [a|x| |]] eqn:E1; try discriminate.
  destruct (parse_loop y g k seps comments newlines (skipn 1 tail') p1) as [p2 [b|x| |]] eqn:E2; try discriminate.
  assert (l = a ++ b) as -> by congruence. apply Forall_app. split.
  - destruct text as [|t text]; [unfold ret in E1; assert (a = []) as -> by congruence; constructor|].
    eapply cidr_ones; eassumption.
  - eapply IH; [|exact E2]. rewrite <- AM. apply allow_config. destruct text as [|t text].
    + unfold ret in E1. assert (p1 = p) as -> by congruence. apply same_config_refl.
    + pose proof (cidr_config y g (t :: text) p) as C. rewrite E1 in C. exact C.
Qed.
Lemma entries_ones y g s p p' l : allow p ALLOW_MASK = false -> parse_entries y g s p = (p', Ok l) -> onesl l.
Proof.
  intros AM E. destruct (separators p) as [|c seps] eqn:S.
  - rewrite entries_single in E by exact S. eapply cidr_ones; eassumption.
  - rewrite entries_seps in E by (rewrite S; discriminate). eapply loop_ones; eassumption.
Qed.
