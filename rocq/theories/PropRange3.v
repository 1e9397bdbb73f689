(* Property C152: the intersection with ranges which have one end. *)
From Coq Require Import Lia ZifyBool ZifyNat.
From Verif Require Import Base Addr Spec Range SpecRange.
From Verif Require AddrProofs AddrProofs2 AddrProofs3 RangeProofs PropRange.
Import AddrProofs AddrProofs2 AddrProofs3 RangeProofs.
Local Open Scope Z_scope.

(* ---------- specification ---------- *)
(* An end which was not set is the address a range is made with. *)
Definition as_made (r : addr_range) : Prop :=
  range_wf r /\ (f_has_from r = false -> f_from r = addr_new) /\ (f_has_to r = false -> f_to r = addr_new).
Definition single (r : addr_range) (v : Z) : Prop :=
  f_has_from r = true /\ f_has_to r = false /\ value (f_from r) = v.
Definition end_only (r : addr_range) (v : Z) : Prop :=
  f_has_from r = false /\ f_has_to r = true /\ value (f_to r) = v.

(* ---------- proofs ---------- *)
Definition from_number (r : addr_range) : Z := if f_has_from r then value (f_from r) else 0.
Definition to_number (r : addr_range) : Z := if f_has_to r then value (f_to r) else 0.
Lemma new_value : value addr_new = 0. Proof. reflexivity. Qed.
Lemma from_value r : as_made r -> value (f_from r) = from_number r.
Proof. intros (_ & H & _). unfold from_number. destruct (f_has_from r); [reflexivity|]. now rewrite H. Qed.
Lemma to_value r : as_made r -> value (f_to r) = to_number r.
Proof. intros (_ & _ & H). unfold to_number. destruct (f_has_to r); [reflexivity|]. now rewrite H. Qed.

(* An end which is missing counts as :: . *)
Theorem C152_exactly : forall l r, as_made l -> as_made r ->
  full (intersection l r) /\ forall v, element (intersection l r) v <->
    Z.max (from_number l) (from_number r) <= v <= Z.min (to_number l) (to_number r).
Proof.
  intros l r L R. pose proof (from_value l L) as FL. pose proof (to_value l L) as TL.
  pose proof (from_value r R) as FR. pose proof (to_value r R) as TR.
  destruct L as ([L1 L2] & _), R as ([R1 R2] & _).
  split; [split; reflexivity|]. intros v. unfold element, lo, hi, intersection.
  cbn [set_to set_from f_from f_to range_new f_has_from f_has_to]. rewrite gt_value, lt_value by assumption.
  rewrite <- FL, <- TL, <- FR, <- TR.
  destruct (_ >? _) eqn:E1, (_ <? _) eqn:E2; split; intros X; (split; [now left|]) || idtac; lia.
Qed.
Print Assumptions C152_exactly.

(* A single address but :: has nothing in common with any range, not even with
   itself. *)
Theorem C152_single_address : forall l r a, as_made l -> as_made r -> single l a -> 0 < a ->
  is_empty (intersection l r) = true /\ is_empty (intersection r l) = true
  /\ forall v, ~ element (intersection l r) v /\ ~ element (intersection r l) v.
Proof.
  intros l r a L R (S1 & S2 & S3) A.
  assert (from_number l = a) as F by (unfold from_number; now rewrite S1).
  assert (to_number l = 0) as T by (unfold to_number; now rewrite S2).
  destruct (C152_exactly l r L R) as [F1 X]. destruct (C152_exactly r l R L) as [F2 Y].
  assert (forall v, ~ element (intersection l r) v) as N1 by (intros v; rewrite X; lia).
  assert (forall v, ~ element (intersection r l) v) as N2 by (intros v; rewrite Y; lia).
  assert (forall i, range_wf i -> full i -> (forall v, ~ element i v) -> is_empty i = true) as E.
  { intros i [W1 W2] [I1 I2] N. unfold is_empty, is_range, has_from, has_to. rewrite I1, I2. cbn [andb].
    rewrite gt_value by assumption. specialize (N (value (f_from i))). unfold element, lo, hi in N. rewrite I1, I2 in N.
    assert (~ (value (f_from i) <= value (f_to i))) by (intros Q; apply N; split; [now left|lia]).
    destruct (_ >? _) eqn:G; [reflexivity|]. rewrite Z.gtb_ltb in G. lia. }
  destruct L as ([L1 L2] & _), R as ([R1 R2] & _).
  split; [apply E; auto|split; [apply E; auto|split; auto]].
  - split; unfold intersection; cbn; [destruct (gt_ _ _)|destruct (lt_ _ _)]; assumption.
  - split; unfold intersection; cbn; [destruct (gt_ _ _)|destruct (lt_ _ _)]; assumption.
Qed.
Print Assumptions C152_single_address.

(* The address "-A" stands for everything up to A. *)
Theorem C152_end_only : forall l r a, as_made l -> as_made r -> end_only l a -> full r ->
  forall v, (element (intersection l r) v <-> element r v /\ v <= a)
         /\ (element (intersection r l) v <-> element r v /\ v <= a).
Proof.
  intros l r a L R (S1 & S2 & S3) [R1 R2] v.
  assert (from_number l = 0) as F by (unfold from_number; now rewrite S1).
  assert (to_number l = a) as T by (unfold to_number; now rewrite S2).
  destruct (C152_exactly l r L R) as [_ X]. destruct (C152_exactly r l R L) as [_ Y]. rewrite X, Y, F, T.
  pose proof (value_range _ (wf_from r (proj1 R))). unfold element, lo, hi, from_number, to_number. rewrite R1, R2.
  split; split; intros Q; (split; [split; [now left|lia]|lia]) || lia.
Qed.
Print Assumptions C152_end_only.

(* Right exactly when both have both ends, or the address is not one of the
   range. *)
Theorem C152_right_partial : forall l r a, as_made l -> as_made r -> single l a -> 0 < a -> defined r ->
  ((forall v, element (intersection l r) v <-> element l v /\ element r v) <-> ~ element r a).
Proof.
  intros l r a L R S A D. destruct (C152_single_address l r a L R S A) as (_ & _ & N). destruct S as (S1 & S2 & S3).
  assert (forall v, element l v <-> v = a) as EL.
  { intros v. unfold element, lo, hi. rewrite S1, S2, S3. split; [lia|]. intros ->. split; [now left|lia]. }
  split.
  - intros H I. apply (proj1 (N a)). apply H. split; [now apply EL|exact I].
  - intros I v. split; [intros X; now elim (proj1 (N v))|]. intros [V W]. apply EL in V. subst v. contradiction.
Qed.
Print Assumptions C152_right_partial.

Theorem C152_shared_refuted : exists l r v, as_made l /\ as_made r /\ element l v /\ element r v
  /\ is_empty (intersection l r) = true.
Proof.
  exists (PropRange.only_from (PropRange.net4 10 0 0 5 32)), (PropRange.range_of (PropRange.net4 10 0 0 0 32) (PropRange.net4 10 0 0 9 32)),
    (value (PropRange.net4 10 0 0 5 32)).
  split; [split; [PropRange.wfr|split; [discriminate|reflexivity]]|].
  split; [split; [PropRange.wfr|split; discriminate]|].
  split; [split; [now left|vm_compute; split; discriminate]|]. split; [split; [now left|vm_compute; split; discriminate]|].
  vm_compute. reflexivity.
Qed.
Print Assumptions C152_shared_refuted.
Theorem C152_added_refuted : exists l r v, as_made l /\ as_made r /\ ~ element l v /\ ~ element r v
  /\ element (intersection l r) v.
Proof.
  exists (PropRange.only_to (PropRange.net4 10 0 0 5 32)), (PropRange.only_to (PropRange.net4 10 0 0 9 32)), 1.
  split; [split; [PropRange.wfr|split; [reflexivity|discriminate]]|].
  split; [split; [PropRange.wfr|split; [reflexivity|discriminate]]|].
  split; [intros [_ [X _]]; revert X; vm_compute; congruence|]. split; [intros [_ [X _]]; revert X; vm_compute; congruence|].
  split; [now left|]. vm_compute. split; discriminate.
Qed.
Print Assumptions C152_added_refuted.

Example C152_witness : let l := PropRange.only_from (PropRange.net4 10 0 0 5 32) in
  let e := PropRange.only_to (PropRange.net4 10 0 0 5 32) in
  let r := PropRange.range_of (PropRange.net4 10 0 0 0 32) (PropRange.net4 10 0 0 9 32) in
  as_made l /\ as_made e /\ as_made r /\ full r /\ defined r /\ single l (value (f_from l)) /\ 0 < value (f_from l)
  /\ end_only e (value (f_to e)) /\ size (intersection e r) = Ok 6.
Proof.
  cbv zeta. split; [split; [PropRange.wfr|split; [discriminate|reflexivity]]|].
  split; [split; [PropRange.wfr|split; [reflexivity|discriminate]]|].
  split; [split; [PropRange.wfr|split; discriminate]|]. split; [split; reflexivity|]. split; [now left|].
  split; [repeat split|]. split; [vm_compute; reflexivity|]. split; [repeat split|]. vm_compute. reflexivity.
Qed.
