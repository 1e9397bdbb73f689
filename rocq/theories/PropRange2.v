(* C139: two calls of optimize_vector() remove every included network. *)
From Verif Require Import Base Addr Spec Range SpecRange.
From Verif Require AddrProofs AddrProofs2 AddrProofs3 AddrProofs4 RangeProofs RangeProofs2 RangeProofs3 PropRange.
From Coq Require Import ZifyBool ZifyNat.
Import AddrProofs AddrProofs2 AddrProofs3 AddrProofs4 RangeProofs RangeProofs2 RangeProofs3 PropRange.
Local Open Scope Z_scope.

(* What one call leaves: each network of the vector is included in one which
   is left, and each one which is left is (the same set of addresses as) one
   of the vector. *)
Theorem C139_one_call : forall v l b, Forall addr_wf v -> optimize_vector v = (l, Ok b) ->
  (forall a, In a v -> exists n, In n l /\ included a n)
  /\ (forall n, In n l -> exists a, In a v /\ included a n /\ included n a).
Proof.
  intros v l b W E. destruct (C35_set_preserved v l (Ok b) W E) as (_ & WL & _).
  destruct (outer_order (length v) [] v false l b W (Forall_nil _)) as (_ & CL & _);
    [constructor|intros d []|exact E|].
  destruct (outer_more (length v) [] v false l b W E) as (CV & H1 & H2). cbn [app] in H1, H2.
  rewrite Forall_forall in *. split.
  - intros a I. destruct (H1 a I) as (n & In' & C). exists n. split; auto. apply included_iff; auto.
    + now apply CV. + now apply CL.
  - intros n I. destruct (H2 n I) as (a & Ia & [A1 A2]). exists a. split; auto.
    split; apply included_iff; auto; try (now apply CV); try (now apply CL); lia.
Qed.
Print Assumptions C139_one_call.

(* After a second call no network is included in any other one, and a further
   call changes nothing. *)
Theorem C139_two_calls : forall v l1 b1 l2 b2, Forall addr_wf v ->
  optimize_vector v = (l1, Ok b1) -> optimize_vector l1 = (l2, Ok b2) ->
  (forall i j x y, i <> j -> nth_error l2 i = Some x -> nth_error l2 j = Some y -> ~ included x y)
  /\ (forall a, In a v -> exists n, In n l2 /\ included a n)
  /\ (forall n, In n l2 -> exists a, In a v /\ included a n /\ included n a)
  /\ (forall l3 o, optimize_vector l2 = (l3, o) -> l3 = l2 /\ o <> Ok true).
Proof.
  intros v l1 b1 l2 b2 W E1 E2.
  destruct (C35_set_preserved v l1 (Ok b1) W E1) as (_ & W1 & _).
  destruct (C35_set_preserved l1 l2 (Ok b2) W1 E2) as (_ & W2 & _).
  destruct (outer_order (length v) [] v false l1 b1 W (Forall_nil _)) as (O1 & _ & _);
    [constructor|intros d []|exact E1|].
  destruct (outer_order (length l1) [] l1 false l2 b2 W1 (Forall_nil _)) as (_ & CL & _);
    [constructor|intros d []|exact E2|].
  pose proof (outer_second (length l1) [] l1 false l2 b2 W1 O1 (FOP_nil _) ltac:(intros d []) E2) as A.
  destruct (C139_one_call v l1 b1 W E1) as [P1 Q1]. destruct (C139_one_call l1 l2 b2 W1 E2) as [P2 Q2].
  assert (K : forall l, ForallOrdPairs apart l -> forall i j x y, (i < j)%nat ->
    nth_error l i = Some x -> nth_error l j = Some y -> apart x y).
  { clear. induction 1 as [|a l F H IH]; intros i j x y I X Y; [destruct i; discriminate|].
    destruct j; [lia|]. destruct i; cbn in X, Y.
    - injection X as <-. rewrite Forall_forall in F. apply F. now apply nth_error_In in Y.
    - eapply IH; [|exact X|exact Y]. lia. }
  split; [|split; [|split]].
  - intros i j x y N X Y. pose proof (nth_error_In _ _ X) as IX. pose proof (nth_error_In _ _ Y) as IY.
    rewrite Forall_forall in W2, CL. rewrite included_iff by (auto; now apply CL).
    destruct (Nat.lt_ge_cases i j) as [L|L].
    + exact (proj1 (K _ A i j x y L X Y)).
    + exact (proj2 (K _ A j i y x ltac:(lia) Y X)).
  - intros a I. destruct (P1 a I) as (m & Im & Sm). destruct (P2 m Im) as (n & In' & Sn).
    exists n. split; auto. intros x Wx Mx. apply Sn; auto.
  - intros n I. destruct (Q2 n I) as (m & Im & S1 & S2). destruct (Q1 m Im) as (a & Ia & S3 & S4).
    exists a. split; auto. split; intros x Wx Mx; [apply S1|apply S4]; auto.
  - intros l3 o E3. apply outer_apart in E3 as [-> H]; auto. split; auto.
    intros ->. specialize (H true eq_refl). discriminate.
Qed.
Print Assumptions C139_two_calls.

(* The vector of the refutation, where the first call is not enough. *)
Example C139_witness :
  let v := [net4 10 0 0 1 32; net4 10 0 0 2 32; net4 10 0 0 0 24] in
  Forall addr_wf v /\ optimize_vector v = ([net4 10 0 0 0 24; net4 10 0 0 2 32], Ok true)
  /\ optimize_vector [net4 10 0 0 0 24; net4 10 0 0 2 32] = ([net4 10 0 0 0 24], Ok true)
  /\ optimize_vector [net4 10 0 0 0 24] = ([net4 10 0 0 0 24], Ok false).
Proof.
  intros v. split; [repeat (constructor; [wfa|]); constructor|]. split; [|split]; vm_compute; reflexivity.
Qed.
