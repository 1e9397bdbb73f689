(* C57 for any clock: what get_local_addresses() returns when the clock of the
   system may be set back. *)
From Coq Require Import ZifyBool ZifyNat.
From Verif Require Import Base Addr Iface IfaceCache SpecIface.
From Verif Require IfaceCacheProofs PropIface.
Import IfaceCacheProofs.
Local Open Scope Z_scope.

Section Clock.
Context (s : nat -> state) (lab : nat -> label).
Definition seen (n : nat) (l : list iface) : Prop := exists j r, (r < n)%nat /\ read_from_kernel lab j r l.
Lemma seen_next n l : seen n l -> seen (S n) l.
Proof. intros (j & r & L & R). exists j, r. split; [lia|exact R]. Qed.
Definition carries (p : pc) : option (list iface) :=
  match p with Get_relock l | Get_now l | Get_ttl l _ | Get_set l _ | Get_swap l => Some l | _ => None end.
Definition clean (n : nat) : Prop :=
  (forall l, g_cache_iface (s n) = Some l -> l = [] \/ seen n l)
  /\ (forall k l, carries (thread (s n) k) = Some l -> seen n l)
  /\ (forall k l, thread (s n) k = Get_return (Some l) -> l = [] \/ seen n l).
Lemma clean_step n : step (s n) (lab n) (s (S n)) -> clean n -> clean (S n).
Proof.
  intros ST (C & T & R).
  assert (C' : forall l, g_cache_iface (s n) = Some l -> l = [] \/ seen (S n) l) by (intros l E; destruct (C l E); auto using seen_next).
  assert (T' : forall k l, carries (thread (s n) k) = Some l -> seen (S n) l) by (intros k l E; apply seen_next; now apply (T k)).
  assert (R' : forall k l, thread (s n) k = Get_return (Some l) -> l = [] \/ seen (S n) l) by (intros k l E; destruct (R k l E); auto using seen_next).
  assert (W : forall k p, (forall l, carries p = Some l -> seen (S n) l) -> (forall l, p = Get_return (Some l) -> l = [] \/ seen (S n) l) ->
    (forall j l, carries (if Nat.eqb j k then p else thread (s n) j) = Some l -> seen (S n) l)
    /\ (forall j l, (if Nat.eqb j k then p else thread (s n) j) = Get_return (Some l) -> l = [] \/ seen (S n) l)).
  { intros k p H1 H2. split; intros j l; destruct (Nat.eqb j k); intros E; eauto. }
  unfold clean. inversion ST as [z t|z k H|z k H O|z k H|z k now H|z k H|z k H|z k l H|z k H|z k H|z k l r H M|z k H|z k l e H M|z k l H O|z k l H|z k l now H|z k l t H|z k l H|z k H|
    z k H|z k H O|z k H|z k H|z k H|z k v H V|z k v H]; subst; cbn [g_cache_iface thread with_pc with_ttl with_timeout with_iface with_owner with_clock].
  all: try (split; [exact C'|split; assumption]).
  all: split; [try exact C'|apply W; intros x X; try discriminate X].
  - destruct (g_cache_timeout _ >=? now); discriminate.
  - destruct (g_cache_timeout _ >=? now); discriminate.
  - destruct (g_cache_iface _); discriminate.
  - destruct (g_cache_iface _); discriminate.
  - injection X as X. now apply C'.
  - intros x X. injection X as <-. now left.
  - injection X as <-. exists k, n. split; [lia|]. exists l. split; [congruence|exact M].
  - injection X as <-. apply (T' k). now rewrite H.
  - injection X as <-. apply (T' k). now rewrite H.
  - injection X as <-. apply (T' k). now rewrite H.
  - injection X as <-. apply (T' k). now rewrite H.
  - intros x X. injection X as <-. right. apply (T' k). now rewrite H.
  - injection X as X. now apply C'.
  - discriminate.
Qed.
End Clock.

(* Whatever the clock does: a list which is returned is one the kernel has
   given before, or the empty list. *)
Theorem C57_any_clock : forall s lab n, execution s lab n ->
  forall i k l, (i < n)%nat -> lab i = L_return k (Answer (Some l)) ->
  l = [] \/ exists j r, (r < i)%nat /\ read_from_kernel lab j r l.
Proof.
  intros s lab n [[now [_ E0]] ST] i k l L E.
  assert (K : forall j, (j <= n)%nat -> clean s lab j).
  { induction j as [|j IH]; intros Lj.
    - unfold clean. rewrite E0. repeat split; intros; discriminate.
    - apply clean_step; [apply ST; lia|apply IH; lia]. }
  pose proof (ST i L) as X. rewrite E in X. apply returned in X. exact (proj2 (proj2 (K i ltac:(lia))) k l X).
Qed.
Print Assumptions C57_any_clock.

(* Whatever the clock does: a null pointer is returned only by a call in which
   getifaddrs() failed, never because of what is in the cache. *)
Definition filled (z : state) : Prop :=
  (forall k, thread z k = Get_copy \/ thread z k = Get_copy2 -> g_cache_iface z <> None) /\ forall k, thread z k <> Get_return None.
Lemma filled_step z a z' : step z a z' -> mutex z -> filled z -> filled z'.
Proof.
  intros ST M (C & R).
  assert (ONE : forall j k, holds (thread z j) = true -> holds (thread z k) = true -> j = k).
  { intros j k Hj Hk. apply M in Hj. apply M in Hk. congruence. }
  assert (W : forall k p v, (p = Get_copy \/ p = Get_copy2 -> v <> None) -> p <> Get_return None ->
    v = g_cache_iface z \/ holds (thread z k) = true ->
    (forall j, (if Nat.eqb j k then p else thread z j) = Get_copy \/ (if Nat.eqb j k then p else thread z j) = Get_copy2 -> v <> None)
    /\ (forall j, (if Nat.eqb j k then p else thread z j) <> Get_return None)).
  { intros k p v H1 H2 H3. split; intros j; destruct (Nat.eqb_spec j k) as [->|N]; auto.
    intros X. destruct H3 as [->|H3]; [now apply (C j)|]. destruct N. apply ONE; [destruct X as [->| ->]; reflexivity|exact H3]. }
  unfold filled. inversion ST as [y t|y k H|y k H O|y k H|y k now H|y k H|y k H|y k l H|y k H|y k H|y k l r H K|y k H|y k l e H K|y k l H O|y k l H|y k l now H|y k l t H|y k l H|y k H|
    y k H|y k H O|y k H|y k H|y k H|y k v H V|y k v H]; subst; cbn [g_cache_iface thread with_pc with_ttl with_timeout with_iface with_owner with_clock].
  all: try (split; assumption).
  all: apply W; auto; try discriminate; try (intros [X|X]; discriminate X); try (right; now rewrite H).
  - destruct (g_cache_timeout _ >=? now); intros [X|X]; discriminate X.
  - destruct (g_cache_timeout _ >=? now); discriminate.
  - destruct (g_cache_iface z); [discriminate|]. intros [X|X]; discriminate X.
  - destruct (g_cache_iface z); discriminate.
  - intros X. injection X as X. apply (C k); auto.
  - intros X. injection X as X. apply (C k); auto.
Qed.
Theorem C57_null : forall s lab n, execution s lab n ->
  forall i k, (i < n)%nat -> lab i = L_return k (Answer None) -> thread (s i) k = Get_kernel.
Proof.
  intros s lab n EX i k L E. pose proof (mutex_all s lab n EX) as MA. destruct EX as [[now [_ E0]] ST].
  assert (K : forall j, (j <= n)%nat -> filled (s j)).
  { induction j as [|j IH]; intros Lj.
    - unfold filled. rewrite E0. split; [intros k0 [X|X]; discriminate X|intros k0; discriminate].
    - apply (filled_step (s j) (lab j)); [apply ST; lia|apply MA; lia|apply IH; lia]. }
  pose proof (ST i L) as X. rewrite E in X. inversion X as [| | | | | | |z k0 l H| | | |z k0 H| | | | | | | | | | | | | |]; subst; [|assumption].
  destruct (proj2 (K i ltac:(lia)) k H).
Qed.
Print Assumptions C57_null.

(* A usable case: the execution with the clock set back, in which an empty list
   is returned, and one in which getifaddrs() fails. *)
Import PropIface.
Example C57_any_clock_case : let r := played 1000 back in
  execution (states_of (init 1000) r) (labels_of r) (length r) /\ (28 < length r)%nat /\ labels_of r 28%nat = L_return t2 (Answer (Some []))
  /\ ~ never_back (states_of (init 1000) r) (length r).
Proof.
  cbv zeta. split; [apply played_execution; [lia|vm_compute; now eexists]|]. split; [vm_compute; lia|]. split; [vm_compute; reflexivity|].
  intros N. assert (exists i, (i < 29)%nat /\ clock (states_of (init 1000) (played 1000 back) i) > clock (states_of (init 1000) (played 1000 back) (S i))) as (i & L & X).
  { exists 21%nat. split; [lia|]. vm_compute. reflexivity. }
  specialize (N i L). lia.
Qed.
Example C57_null_case : let r := played 1000 (Call t1 :: go t1 6) in
  execution (states_of (init 1000) r) (labels_of r) (length r) /\ (6 < length r)%nat /\ labels_of r 6%nat = L_return t1 (Answer None).
Proof. cbv zeta. split; [apply played_execution; [lia|vm_compute; now eexists]|]. split; [vm_compute; lia|]. vm_compute. reflexivity. Qed.
