(* Property C132: the lists of interfaces are shared. *)
From Coq Require Import ZifyBool ZifyNat.
From Verif Require Import Base Addr Spec Route Iface IfaceHeap SpecIfaceHeap.
From Verif Require IfaceCache SpecIface IfaceHeapProofs PropIface.
Import IfaceHeapProofs.
Local Open Scope Z_scope.

(* The library does not change a list after it returned it, whatever the
   threads do and whatever the clock says: if it is not what it was, a caller
   changed it. *)
Theorem C132_left_alone : forall s lab n, execution s lab n ->
  forall i k o j, (i < n)%nat -> lab i = L_return k (Answer (Some o)) -> (i <= j <= n)%nat ->
  contents (s j) o <> contents (s i) o -> exists m, (i < m < j)%nat /\ changes (lab m) o.
Proof.
  intros s lab n EX i k o j L E J N.
  assert (NOW : contents (s (S i)) o = contents (s i) o /\ returned (s (S i)) o = true).
  { pose proof (proj2 EX i L) as ST. rewrite E in ST. inversion ST; subst. split; [reflexivity|]. cbn. now rewrite Nat.eqb_refl. }
  destruct NOW as [C R].
  assert (DEC : forall m, {changes (lab m) o} + {~ changes (lab m) o}).
  { intros m. unfold changes. destruct (lab m) as [ | | | | | | | |x o' l]; try (right; intros (k1 & v1 & X); discriminate X).
    destruct (Nat.eq_dec o' o) as [->|D]; [left; now exists x, l|right; intros (k1 & v1 & X); congruence]. }
  destruct (Nat.eq_dec i j) as [->|IJ]; [congruence|].
  assert (SEARCH : forall d, (exists m, (i < m < i + d)%nat /\ changes (lab m) o) \/ forall m, (i < m < i + d)%nat -> ~ changes (lab m) o).
  { induction d as [|d IH]; [right; lia|]. destruct IH as [(m & M & H)|IH]; [left; exists m; split; [lia|exact H]|].
    destruct (DEC (i + d)%nat) as [H|H].
    - destruct d as [|d]; [right; lia|]. left. exists (i + S d)%nat. split; [lia|exact H].
    - right. intros m M. destruct (Nat.eq_dec m (i + d)) as [->|X]; [exact H|apply IH; lia]. }
  destruct (SEARCH (j - i)%nat) as [(m & M & H)|NO].
  - exists m. split; [lia|exact H].
  - exfalso. apply N. rewrite <- C.
    apply (returned_stays s lab n (S i) j o EX); [lia|exact R|]. intros m M. apply NO. lia.
Qed.
Print Assumptions C132_left_alone.

(* If callers only read, all they see is what they see in the model where each
   call returns a value of its own, so that C57, C58 and C91 hold. *)
Theorem C132_as_values : forall s lab n, execution s lab n -> only_read lab n ->
  exists s' lab' n', SpecIface.execution s' lab' n' /\ events_of_values lab' n' = events s lab n
    /\ (never_back s n -> SpecIface.never_back s' n')
    /\ forall i k a, (i < n')%nat -> lab' i = IfaceCache.L_kernel k a -> exists j, (j < n)%nat /\ lab j = L_kernel k a.
Proof.
  intros s lab n EX RO. destruct (execution_values s lab n EX RO) as (now & r & b & P & V & _ & EV & KN).
  destruct (vpath_fun _ _ _ _ V) as (s' & S0 & S1 & S2 & S3).
  exists s', (fun i => nth i r (IfaceCache.L_clock 0)), (length r). split; [|split; [|split]].
  - split; [now exists now|exact S2].
  - now rewrite <- events_list.
  - exact S3.
  - intros i k a L E. apply KN. rewrite <- E. now apply nth_In.
Qed.
Print Assumptions C132_as_values.

(* So a list holds what the kernel said once. *)
Theorem C132_from_the_kernel : forall s lab n, execution s lab n -> never_back s n -> only_read lab n ->
  forall i k o, (i < n)%nat -> lab i = L_return k (Answer (Some o)) ->
  exists j r es, (r < i)%nat /\ lab r = L_kernel j es /\ make_ifaces es = Ok (contents (s i) o).
Proof.
  intros s lab n EX NB RO i k o L E.
  assert (EX' : execution s lab (S i)) by (split; [apply EX|intros m M; apply EX; lia]).
  assert (RO' : only_read lab (S i)) by (intros m x M; apply RO; lia).
  assert (NB' : never_back s (S i)) by (intros m M; apply NB; lia).
  destruct (C132_as_values s lab (S i) EX' RO') as (s' & lab' & n' & X & EV & NN & KN).
  assert (G : In (Got k (Some (contents (s i) o))) (events_of_values lab' n')).
  { rewrite EV, events_snoc, E. apply in_or_app. right. now left. }
  unfold events_of_values in G. apply in_concat in G. destruct G as (z & G1 & G2). apply in_map_iff in G1.
  destruct G1 as (m & Z & M). subst z. apply in_seq in M.
  assert (LM : lab' m = IfaceCache.L_return k (IfaceCache.Answer (Some (contents (s i) o)))).
  { destruct (lab' m) as [|?|? [|]| | | | |]; cbn in G2; try contradiction; (destruct G2 as [G2|G2]; [try discriminate|contradiction]). congruence. }
  destruct (PropIface.C57_only_answers_of_the_kernel_partial s' lab' n' X (NN NB') m k _ ltac:(lia) LM) as (j & r & R & es & R1 & R2).
  destruct (KN r j es ltac:(lia) R1) as (q & Q & QE). exists j, q, es. split; [|split; [exact QE|exact R2]].
  destruct (Nat.eq_dec q i) as [->|D]; [congruence|lia].
Qed.
Print Assumptions C132_from_the_kernel.

(* A caller who changes the list it was given changes what the others get: the
   second one gets a list without the interfaces, although the kernel said
   there are two. *)
Definition t1 : tid := 1%nat.
Definition t2 : tid := 2%nat.
Definition go (k : tid) (n : nat) : list choice := repeat (Go k) n.
Definition whole_call (k : tid) : list choice := Call k :: go k 5 ++ [Kernel k PropIface.entries] ++ go k 11.
Definition played (now : Z) (cs : list choice) : list (label * state) :=
  match play_all (init now) cs with Some r => r | None => [] end.
Lemma played_execution now cs : 0 < now -> (exists r, play_all (init now) cs = Some r) ->
  execution (states_of (init now) (played now cs)) (labels_of (played now cs)) (length (played now cs)).
Proof. intros P (r & E). unfold played. rewrite E. now apply (play_execution now cs). Qed.
Definition cleared : list choice := whole_call t1 ++ Change t1 1%nat [] :: Call t2 :: go t2 6.
Theorem C132_isolation_refuted : exists s lab n i m j o, execution s lab n /\ never_back s n /\ (i < m < j)%nat /\ (j < n)%nat
  /\ lab i = L_return t1 (Answer (Some o)) /\ length (contents (s i) o) = 2%nat
  /\ lab m = L_change t1 o [] /\ lab j = L_return t2 (Answer (Some o)) /\ contents (s j) o = []
  /\ forall r k es, (r < n)%nat -> lab r = L_kernel k es -> make_ifaces es = Ok (contents (s i) o).
Proof.
  exists (states_of (init 1000) (played 1000 cleared)), (labels_of (played 1000 cleared)), (length (played 1000 cleared)), 17%nat, 18%nat, 25%nat, 1%nat.
  split; [apply played_execution; [lia|vm_compute; now eexists]|].
  split.
  { change (length (played 1000 cleared)) with 26%nat. intros i L.
    do 26 (destruct i as [|i]; [vm_compute; discriminate|]). lia. }
  split; [lia|]. split; [vm_compute; lia|]. split; [vm_compute; reflexivity|]. split; [vm_compute; reflexivity|].
  split; [vm_compute; reflexivity|]. split; [vm_compute; reflexivity|]. split; [vm_compute; reflexivity|].
  intros r k es R E.
  assert (X : match labels_of (played 1000 cleared) r with
              | L_kernel _ es => make_ifaces es = Ok (contents (states_of (init 1000) (played 1000 cleared) 17) 1%nat) | _ => True end).
  { clear E es. change (length (played 1000 cleared)) with 26%nat in R.
    do 26 (destruct r as [|r]; [vm_compute; exact I || reflexivity|]). lia. }
  now rewrite E in X.
Qed.
Print Assumptions C132_isolation_refuted.

(* Three calls; the second within the TTL gets the same list as the first, the
   third a new one, and the first caller still has the list it was given. *)
Definition thrice : list choice := whole_call t1 ++ Clock 1300 :: Call t2 :: go t2 6 ++ Clock 1301 :: whole_call t2.
Example C132_satisfiable : exists s lab n, execution s lab n /\ never_back s n /\ only_read lab n
  /\ exists i j l o o', lab i = L_return t1 (Answer (Some o)) /\ lab j = L_return t2 (Answer (Some o))
  /\ lab l = L_return t2 (Answer (Some o')) /\ o <> o' /\ (i < j < l)%nat /\ n = S l
  /\ length (contents (s i) o) = 2%nat /\ contents (s n) o = contents (s i) o.
Proof.
  exists (states_of (init 1000) (played 1000 thrice)), (labels_of (played 1000 thrice)), (length (played 1000 thrice)).
  split; [apply played_execution; [lia|vm_compute; now eexists]|].
  split.
  { change (length (played 1000 thrice)) with 45%nat. intros i L.
    do 45 (destruct i as [|i]; [vm_compute; discriminate|]). lia. }
  split.
  { change (length (played 1000 thrice)) with 45%nat. intros i o L (k & v & E).
    assert (X : match labels_of (played 1000 thrice) i with L_change _ _ _ => False | _ => True end).
    { clear E. do 45 (destruct i as [|i]; [vm_compute; exact I|]). lia. }
    now rewrite E in X. }
  exists 17%nat, 25%nat, 44%nat, 1%nat, 3%nat. repeat split; try (vm_compute; reflexivity); try lia. 
Qed.
(* A list which was changed. *)
Example C132_left_alone_satisfiable : exists s lab n i o j, execution s lab n /\ (i < n)%nat /\ (i <= j <= n)%nat
  /\ lab i = L_return t1 (Answer (Some o)) /\ contents (s j) o <> contents (s i) o.
Proof.
  destruct C132_isolation_refuted as (s & lab & n & i & m & j & o & H1 & _ & H2 & H3 & H4 & H5 & _ & _ & H6 & _).
  exists s, lab, n, i, o, j. repeat split; auto; try lia; try apply H1. intros E. rewrite <- E, H6 in H5. discriminate.
Qed.
