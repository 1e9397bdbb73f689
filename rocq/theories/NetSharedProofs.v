(* Proofs about addr::get_network_type() on a shared object. *)
From Coq Require Import ZifyBool ZifyNat.
From Verif Require Import Base Addr Spec NetShared SpecNetShared.
From Verif Require AddrProofs AddrProofs3.
Import AddrProofs3.

Lemma type_beq x y : network_type_t_beq x y = true <-> x = y.
Proof. split; [apply internal_network_type_t_dec_bl|apply internal_network_type_t_dec_lb]. Qed.
Lemma type_neq x y : network_type_t_beq x y = false <-> x <> y.
Proof. rewrite <- type_beq. destruct (network_type_t_beq x y); split; congruence. Qed.

Lemma classify_type a : addr_wf a -> classify a = type_of a.
Proof.
  intros W. set (b := with_private_network a NETWORK_TYPE_UNDEFINED).
  assert (Wb : addr_wf b) by (destruct W; constructor; auto).
  pose proof (network_type_spec b Wb eq_refl) as H. exact H.
Qed.
Lemma type_defined a : type_of a <> NETWORK_TYPE_UNDEFINED.
Proof. apply spec_network_defined. Qed.
Lemma thread_same s k p : thread (with_pc s k p) k = p.
Proof. cbn. now rewrite Nat.eqb_refl. Qed.
Lemma thread_other s k p j : j <> k -> thread (with_pc s k p) j = thread s j.
Proof. intros N. cbn. now rewrite (proj2 (Nat.eqb_neq j k) N). Qed.


Lemma step_inv x l x' : step x l x' -> exists k,
  (thread x k = Idle /\ l = L_call k /\ x' = with_pc x k At_test)
  \/ (thread x k = At_test /\ l = L_tau k /\ f_private_network (object x) = NETWORK_TYPE_UNDEFINED /\ x' = with_pc x k At_unknown)
  \/ (thread x k = At_test /\ l = L_tau k /\ f_private_network (object x) <> NETWORK_TYPE_UNDEFINED /\ x' = with_pc x k At_return)
  \/ (thread x k = At_unknown /\ l = L_tau k /\ x' = with_type (with_pc x k At_write) NETWORK_TYPE_UNKNOWN)
  \/ (thread x k = At_write /\ l = L_tau k /\ classify (object x) = NETWORK_TYPE_UNKNOWN /\ x' = with_pc x k At_return)
  \/ (thread x k = At_write /\ l = L_tau k /\ classify (object x) <> NETWORK_TYPE_UNKNOWN
      /\ x' = with_type (with_pc x k At_return) (classify (object x)))
  \/ (thread x k = At_return /\ l = L_return k (f_private_network (object x)) /\ x' = with_pc x k Idle).
Proof.
  intros H. destruct H as [x k T|x k T|x k T|x k T|x k T]; exists k.
  - now left.
  - destruct (network_type_t_beq (f_private_network (object x)) _) eqn:Q.
    + apply type_beq in Q. right; left. auto.
    + apply type_neq in Q. right; right; left. auto.
  - do 3 right; left. auto.
  - destruct (network_type_t_beq (classify (object x)) _) eqn:Q.
    + apply type_beq in Q. do 4 right; left. auto.
    + apply type_neq in Q. do 5 right; left. auto.
  - do 6 right. auto.
Qed.
Ltac cases H k T L X :=
  destruct (step_inv _ _ _ H) as (k & [(T & L & X)|[(T & L & ? & X)|[(T & L & ? & X)|[(T & L & X)|[(T & L & ? & X)|[(T & L & ? & X)|(T & L & X)]]]]]]).

Section Executions.
Context (a : addr) (s : nat -> state) (lab : nat -> label) (n : nat) (E : execution a s lab n) (W : addr_wf a).

Definition memo i := f_private_network (object (s i)).
(* The object but for the remembered type. *)
Lemma object_same i : i <= n -> object (s i) = with_private_network a (memo i).
Proof.
  destruct E as [E0 ES]. induction i as [|i IH]; intros L.
  - unfold memo. rewrite E0. cbn. now destruct a.
  - pose proof (ES i ltac:(lia)) as H. specialize (IH ltac:(lia)). unfold memo in *.
    cases H k T Lb X; rewrite X; cbn [object with_pc with_type]; try exact IH; rewrite IH; reflexivity.
Qed.
Lemma classify_same i : i <= n -> classify (object (s i)) = type_of a.
Proof. intros L. rewrite object_same by exact L. rewrite <- classify_type by exact W. reflexivity. Qed.

Lemma in_call_on k c i : in_call lab k c i -> (forall t, lab i <> L_return k t) -> in_call lab k c (S i).
Proof.
  intros (C1 & C2 & C3) NR. split; [lia|]. split; [exact C2|].
  intros j t J. destruct (Nat.eq_dec j i) as [->|]; [apply NR|]. apply C3. lia.
Qed.
Lemma pending k i : i <= n -> thread (s i) k <> Idle -> exists c, in_call lab k c i.
Proof.
  destruct E as [E0 ES]. induction i as [|i IH]; intros L N.
  - rewrite E0 in N. cbn in N. congruence.
  - pose proof (ES i ltac:(lia)) as H.
    assert (G : thread (s i) k <> Idle -> (forall t, lab i <> L_return k t) -> exists c, in_call lab k c (S i)).
    { intros X NR. destruct (IH ltac:(lia) X) as (c & C). exists c. now apply in_call_on. }
    cases H j T Lb X; rewrite X in N; cbn [with_type thread with_pc] in N;
      (destruct (Nat.eqb_spec k j) as [->|NE]; [|apply G; [exact N|congruence]]); try solve [apply G; congruence].
    exists i. split; [lia|]. split; [exact Lb|]. intros; lia.
Qed.

(* What the remembered type can be. *)
Lemma memo_values i : i <= n -> not_asked a ->
  (memo i = NETWORK_TYPE_UNDEFINED /\ (forall k, thread (s i) k = Idle \/ thread (s i) k = At_test \/ thread (s i) k = At_unknown)
     /\ forall r k t, r < i -> lab r <> L_return k t)
  \/ memo i = type_of a
  \/ (memo i = NETWORK_TYPE_UNKNOWN /\ exists k, thread (s i) k = At_write).
Proof.
  destruct E as [E0 ES]. intros L NA. induction i as [|i IH].
  - left. unfold memo. rewrite E0. split; [exact NA|]. split; [intros k; now left|intros; lia].
  - pose proof (ES i ltac:(lia)) as H. specialize (IH ltac:(lia)).
    pose proof (classify_same i ltac:(lia)) as CL. pose proof (type_defined a) as TD.
    cases H j T Lb X; unfold memo in *; rewrite X; cbn [object with_pc with_type].
    + destruct IH as [(I1 & I2 & I3)|[I1|(I1 & k & I2)]].
      * left. split; [exact I1|]. split.
        -- intros k. cbn. destruct (Nat.eqb k j); auto.
        -- intros r k t R. destruct (Nat.eq_dec r i) as [->|]; [congruence|]. apply I3. lia.
      * right; now left.
      * right; right. split; [exact I1|]. exists k. cbn. destruct (Nat.eqb_spec k j); [congruence|exact I2].
    + destruct IH as [(I1 & I2 & I3)|[I1|(I1 & k & I2)]]; [|congruence..].
      left. split; [exact I1|]. split.
      * intros k. cbn. destruct (Nat.eqb k j); auto.
      * intros r k t R. destruct (Nat.eq_dec r i) as [->|]; [congruence|]. apply I3. lia.
    + destruct IH as [(I1 & I2 & I3)|[I1|(I1 & k & I2)]]; [congruence|right; now left|].
      right; right. split; [exact I1|]. exists k. cbn. destruct (Nat.eqb_spec k j); [congruence|exact I2].
    + right; right. split; [reflexivity|]. exists j. cbn. now rewrite Nat.eqb_refl.
    + destruct IH as [(I1 & I2 & I3)|[I1|(I1 & k & I2)]].
      * exfalso. destruct (I2 j) as [Q|[Q|Q]]; congruence.
      * right; now left.
      * right; left. congruence.
    + right; left. cbn. exact CL.
    + destruct IH as [(I1 & I2 & I3)|[I1|(I1 & k & I2)]].
      * exfalso. destruct (I2 j) as [Q|[Q|Q]]; congruence.
      * right; now left.
      * right; right. split; [exact I1|]. exists k. cbn. destruct (Nat.eqb_spec k j); [congruence|exact I2].
Qed.
(* A thread which is about to write started its call before any other ended. *)
Lemma writers k i : i <= n -> not_asked a -> thread (s i) k = At_unknown \/ thread (s i) k = At_write ->
  exists c, in_call lab k c i /\ forall r j t, r < i -> lab r = L_return j t -> c < r.
Proof.
  intros L NA. revert L. destruct E as [E0 ES]. induction i as [|i IH]; intros L Q.
  - rewrite E0 in Q. cbn in Q. destruct Q; discriminate.
  - pose proof (ES i ltac:(lia)) as H.
    assert (G : thread (s i) k = At_unknown \/ thread (s i) k = At_write ->
      exists c, in_call lab k c (S i) /\ forall r j t, r < S i -> lab r = L_return j t -> c < r).
    { intros Y. destruct (IH ltac:(lia) Y) as (c & C & R). exists c. split.
      - apply in_call_on; [exact C|]. intros t Z. cases H j T Lb X; rewrite Lb in Z; try discriminate. injection Z as -> _. destruct Y; congruence.
      - intros r j t RI RL. destruct (Nat.eq_dec r i) as [->|]; [destruct C; lia|]. apply (R r j t); [lia|exact RL]. }
    cases H j T Lb X; rewrite X in Q; cbn [with_type thread with_pc] in Q;
      (destruct (Nat.eqb_spec k j) as [->|NE]; [|apply G; exact Q]); try solve [apply G; auto]; try (destruct Q; congruence).
    + destruct (pending j i ltac:(lia) ltac:(congruence)) as (c & C). exists c. split; [apply in_call_on; [exact C|congruence]|].
      destruct (memo_values i ltac:(lia) NA) as [(_ & _ & I3)|[I1|(I1 & _)]].
      * intros r m t R RL. destruct (Nat.eq_dec r i) as [->|]; [congruence|]. exfalso. apply (I3 r m t); [lia|exact RL].
      * unfold memo in I1. pose proof (type_defined a). congruence.
      * unfold memo in I1. congruence.
Qed.
(* When it was asked before, nothing is ever written. *)
Lemma memo_asked i : i <= n -> ~ not_asked a -> memo i = f_private_network a
  /\ forall k, thread (s i) k = Idle \/ thread (s i) k = At_test \/ thread (s i) k = At_return.
Proof.
  destruct E as [E0 ES]. intros L NA. unfold not_asked in NA. induction i as [|i IH].
  - unfold memo. rewrite E0. split; [reflexivity|]. intros k. now left.
  - pose proof (ES i ltac:(lia)) as H. destruct (IH ltac:(lia)) as [I1 I2]. unfold memo in *.
    cases H j T Lb X; try (exfalso; destruct (I2 j) as [Q|[Q|Q]]; congruence); try (exfalso; congruence);
      rewrite X; cbn [object with_pc with_type]; (split; [exact I1|]); intros k; cbn; destruct (Nat.eqb k j); auto.
Qed.
End Executions.
