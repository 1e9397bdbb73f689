(* Proofs about the cache of the interfaces. *)
From Coq Require Import Lia ZifyBool ZifyNat.
From Verif Require Import Base Addr Spec Route Iface IfaceCache SpecIface.
Local Open Scope Z_scope.

(* The mutex. *)
Definition holds (p : pc) : bool :=
  match p with
  | Idle | Get_lock | Get_kernel | Get_relock _ | Reset_lock | Ttl_set _ => false
  | _ => true
  end.
Definition mutex (s : state) : Prop := forall k, holds (thread s k) = true <-> owner s = Some k.

Lemma pc_same s k p : thread (with_pc s k p) k = p.
Proof. cbn. now rewrite Nat.eqb_refl. Qed.
Lemma pc_other s k p j : j <> k -> thread (with_pc s k p) j = thread s j.
Proof. intros H. cbn. now apply Nat.eqb_neq in H as ->. Qed.

Lemma mutex_step s l s' : step s l s' -> mutex s -> mutex s'.
Proof.
  intros ST M j.
  destruct ST; cbn [with_owner with_iface with_timeout with_clock with_ttl owner thread with_pc] in *;
    try exact (M j);
    pose proof (M j) as Mj; pose proof (M k) as Mk; rewrite H in Mk; cbn [holds] in Mk;
    (destruct (Nat.eqb_spec j k) as [->|D]; [|]);
    repeat match goal with |- context [if ?b then _ else _] => destruct b
           | |- context [match ?b with Some _ => _ | None => _ end] => destruct b end;
    cbn [holds]; try (split; intros; congruence); try tauto; intuition congruence.
Qed.

Section Run.
Variable s : nat -> state.
Variable lab : nat -> label.

Definition call_at (k : tid) (n b : nat) : Prop := in_call lab k b n.
Definition read_at (k : tid) (n : nat) (l : list iface) (r : nat) : Prop :=
  read_from_kernel lab k r l /\ (r < n)%nat /\ (exists b, (b < r)%nat /\ call_at k n b).
Definition published (l : list iface) (T : Z) (m : nat) : Prop :=
  exists k r p q e, (r < p < q)%nat /\ (q < e < m)%nat /\ read_from_kernel lab k r l /\
    lab e = L_return k (Answer (Some l)) /\ (forall j a, (r < j < e)%nat -> lab j <> L_return k a) /\
    T = clock (s p) + g_cache_ttl (s q).
Definition cache_ok (n m : nat) (T : Z) : Prop :=
  match g_cache_iface (s n) with
  | None => g_cache_timeout (s n) < T
  | Some l => g_cache_timeout (s n) < T \/ published l (g_cache_timeout (s n)) m
  end.
Definition result_ok (k : tid) (n : nat) (l : list iface) : Prop :=
  exists b, call_at k n b /\
    ((exists r, (b < r < n)%nat /\ read_from_kernel lab k r l) \/
     (exists kr r p q e c, (r < p < q)%nat /\ (q < e < c)%nat /\ (b < c < n)%nat /\
        read_from_kernel lab kr r l /\ lab e = L_return kr (Answer (Some l)) /\
        (forall j a, (r < j < e)%nat -> lab j <> L_return kr a) /\
        clock (s p) <= clock (s c) <= clock (s p) + g_cache_ttl (s q))).

Definition TL (n : nat) (k : tid) : Prop :=
  match thread (s n) k with
  | Idle | Reset_lock | Reset_timeout | Reset_iface | Reset_unlock | Ttl_set _ => True
  | Get_return l => (exists b, call_at k n b) /\ forall l', l = Some l' -> result_ok k n l'
  | Get_relock l | Get_now l => exists r, read_at k n l r
  | Get_ttl l now => exists r p, read_at k n l r /\ (r < p < n)%nat /\ now = clock (s p)
  | Get_set l t => exists r p q, read_at k n l r /\ (r < p < q)%nat /\ (q < n)%nat /\
      t = clock (s p) + g_cache_ttl (s q)
  | _ => exists b, call_at k n b
  end.
Definition pending (n : nat) (k : tid) (l : list iface) : Prop :=
  exists r p q, read_at k n l r /\ (r < p < q)%nat /\ (q < n)%nat /\
    g_cache_timeout (s n) = clock (s p) + g_cache_ttl (s q).
Definition SI (n : nat) : Prop :=
  match owner (s n) with
  | None => cache_ok n n (clock (s n))
  | Some k =>
      match thread (s n) k with
      | Get_time | Get_unlock => cache_ok n n (clock (s n))
      | Get_timeout now => exists b c, call_at k n b /\ (b < c < n)%nat /\ now = clock (s c) /\ cache_ok n c now /\
          now <= clock (s n)
      | Get_test => exists b c, call_at k n b /\ (b < c < n)%nat /\ cache_ok n c (clock (s c)) /\
          clock (s c) <= g_cache_timeout (s n)
      | Get_copy => exists b c l, call_at k n b /\ (b < c < n)%nat /\ g_cache_iface (s n) = Some l /\
          published l (g_cache_timeout (s n)) c /\ clock (s c) <= g_cache_timeout (s n)
      | Get_return l => cache_ok n n (clock (s n)) \/
          exists l', l = Some l' /\ g_cache_iface (s n) = Some l' /\ pending n k l'
      | Get_placeholder => g_cache_timeout (s n) < clock (s n)
      | Get_swap l => pending n k l
      | Get_copy2 => exists l, g_cache_iface (s n) = Some l /\ pending n k l
      | Reset_iface => g_cache_timeout (s n) = 0
      | Reset_unlock => g_cache_timeout (s n) = 0 /\ g_cache_iface (s n) = None
      | _ => True
      end
  end.

Definition label_tid (l : label) : option tid :=
  match l with
  | L_call k | L_kernel k _ | L_return k _ | L_reset k | L_reset_done k | L_ttl k _ | L_tau k => Some k
  | L_clock _ => None
  end.

Lemma call_next k n b : call_at k n b -> (forall a, lab n <> L_return k a) -> call_at k (S n) b.
Proof.
  intros (B & L & N) H. split; [lia|]. split; [exact L|]. intros j a J.
  destruct (Nat.eq_dec j n) as [->|D]; [apply H|apply N; lia].
Qed.
Lemma read_next k n l r : read_at k n l r -> (forall a, lab n <> L_return k a) -> read_at k (S n) l r.
Proof.
  intros (R & L & b & B & C) H. split; [exact R|]. split; [lia|]. exists b. split; [exact B|]. now apply call_next.
Qed.
Lemma published_le l T m m' : published l T m -> (m <= m')%nat -> published l T m'.
Proof.
  intros (k & r & p & q & e & A & B & C & D & E & F) L. exists k, r, p, q, e.
  split; [exact A|]. split; [lia|]. auto.
Qed.
Lemma result_next k n l : result_ok k n l -> (forall a, lab n <> L_return k a) -> result_ok k (S n) l.
Proof.
  intros (b & C & [(r & R & X)|(kr & r & p & q & e & c & A & B & D & E)]) H; exists b; (split; [now apply call_next|]).
  - left. exists r. split; [lia|exact X].
  - right. exists kr, r, p, q, e, c. split; [exact A|]. split; [exact B|]. split; [lia|exact E].
Qed.

Lemma TL_next n k : TL n k -> (forall a, lab n <> L_return k a) ->
  thread (s (S n)) k = thread (s n) k -> TL (S n) k.
Proof.
  unfold TL. intros T H ->. destruct (thread (s n) k); auto;
    try (destruct T as (b & B); exists b; now apply call_next).
  - destruct T as [(b & B) R]. split; [exists b; now apply call_next|]. intros l' E. apply result_next; auto.
  - destruct T as (r & R). exists r. now apply read_next.
  - destruct T as (r & R). exists r. now apply read_next.
  - destruct T as (r & p & R & P & E). exists r, p. split; [now apply read_next|]. split; [lia|exact E].
  - destruct T as (r & p & q & R & P & Q & E). exists r, p, q. split; [now apply read_next|].
    split; [lia|]. split; [lia|exact E].
Qed.

Lemma cache_ok_next n m m' T T' : cache_ok n m T -> (m <= m')%nat -> T <= T' ->
  g_cache_iface (s (S n)) = g_cache_iface (s n) -> g_cache_timeout (s (S n)) = g_cache_timeout (s n) ->
  cache_ok (S n) m' T'.
Proof.
  unfold cache_ok. intros C M TT -> ->. destruct (g_cache_iface (s n)); [|lia].
  destruct C as [C|C]; [left; lia|right; eauto using published_le].
Qed.
Lemma pending_next n k l : pending n k l -> (forall a, lab n <> L_return k a) ->
  g_cache_timeout (s (S n)) = g_cache_timeout (s n) -> pending (S n) k l.
Proof.
  intros (r & p & q & R & P & Q & E) H G. exists r, p, q. split; [now apply read_next|]. split; [lia|].
  split; [lia|]. congruence.
Qed.

(* A step which is not of the owner. *)
Lemma SI_next n : SI n ->
  g_cache_iface (s (S n)) = g_cache_iface (s n) -> g_cache_timeout (s (S n)) = g_cache_timeout (s n) ->
  owner (s (S n)) = owner (s n) -> clock (s n) <= clock (s (S n)) ->
  (forall k, owner (s n) = Some k -> thread (s (S n)) k = thread (s n) k /\ forall a, lab n <> L_return k a) ->
  SI (S n).
Proof.
  unfold SI. intros I G1 G2 GO C O. rewrite GO. destruct (owner (s n)) as [k|].
  2:{ apply (cache_ok_next n n (S n) _ _ I); auto. }
  destruct (O k eq_refl) as [TH NR]. rewrite TH.
  destruct (thread (s n) k); auto.
  - apply (cache_ok_next n n (S n) _ _ I); auto.
  - destruct I as (b & c & A & B & D & E & F). exists b, c. split; [now apply call_next|]. split; [lia|].
    split; [exact D|]. split; [|lia]. apply (cache_ok_next n c c _ _ E); auto. lia.
  - destruct I as (b & c & A & B & E & D). exists b, c. split; [now apply call_next|]. split; [lia|].
    split; [|now rewrite G2]. apply (cache_ok_next n c c _ _ E); auto. lia.
  - destruct I as (b & c & l & A & B & D & E & F). exists b, c, l. split; [now apply call_next|]. split; [lia|].
    rewrite G1, G2. auto.
  - destruct I as [I|(l' & E & F & P)].
    + left. apply (cache_ok_next n n (S n) _ _ I); auto.
    + right. exists l'. split; [exact E|]. split; [congruence|]. now apply pending_next.
  - lia.
  - apply (cache_ok_next n n (S n) _ _ I); auto.
  - now apply pending_next.
  - destruct I as (l' & F & P). exists l'. split; [congruence|now apply pending_next].
  - congruence.
  - rewrite G1, G2. exact I.
Qed.

Definition Inv (n : nat) : Prop :=
  mutex (s n) /\ (forall k, TL n k) /\ SI n /\ 0 < clock (s n).

Lemma TL_others n k : (forall j, TL n j) -> (forall j a, lab n = L_return j a -> j = k) ->
  (forall j, j <> k -> thread (s (S n)) j = thread (s n) j) -> TL (S n) k -> forall j, TL (S n) j.
Proof.
  intros T L TH K j. destruct (Nat.eq_dec j k) as [->|D]; [exact K|]. apply TL_next; auto.
  intros a E. apply D. eauto.
Qed.

Ltac facts S1 k :=
  pose proof (f_equal (fun x => thread x k) S1) as K; cbn in K; rewrite Nat.eqb_refl in K;
  pose proof (f_equal g_cache_timeout S1) as GT; cbn in GT;
  pose proof (f_equal g_cache_iface S1) as GI; cbn in GI;
  pose proof (f_equal owner S1) as GO; cbn in GO;
  pose proof (f_equal clock S1) as GC; cbn in GC;
  symmetry in K, GT, GI, GO, GC.

(* A step which keeps the shared memory and the mutex, outside of the critical
   sections. *)
Lemma outside n k : mutex (s n) -> (forall k, TL n k) -> SI n ->
  (forall j, j <> k -> thread (s (S n)) j = thread (s n) j) -> clock (s (S n)) = clock (s n) ->
  (forall j a, lab n = L_return j a -> j = k) ->
  holds (thread (s n) k) = false ->
  g_cache_iface (s (S n)) = g_cache_iface (s n) -> g_cache_timeout (s (S n)) = g_cache_timeout (s n) ->
  owner (s (S n)) = owner (s n) -> TL (S n) k -> (forall j, TL (S n) j) /\ SI (S n).
Proof.
  intros M T I OTH GC LK H A B D E. split; [now apply (TL_others n k)|]. apply SI_next; auto; [lia|].
  intros j O. assert (j <> k) by (intros ->; apply M in O; congruence). split; [now apply OTH|].
  intros a L. apply LK in L. congruence.
Qed.
Lemma inside n k : (forall k, TL n k) ->
  (forall j, j <> k -> thread (s (S n)) j = thread (s n) j) ->
  (forall j a, lab n = L_return j a -> j = k) -> TL (S n) k -> SI (S n) -> (forall j, TL (S n) j) /\ SI (S n).
Proof. intros T OTH LK A B. split; [now apply (TL_others n k)|exact B]. Qed.

Lemma Inv_step n : Inv n -> (forall i j, (i <= j <= n)%nat -> clock (s i) <= clock (s j)) -> step (s n) (lab n) (s (S n)) -> clock (s n) <= clock (s (S n)) -> Inv (S n).
Proof.
  intros (M & T & I & P) MONO ST C. pose proof (mutex_step _ _ _ ST M) as M'.
  split; [exact M'|]. cut ((forall k, TL (S n) k) /\ SI (S n)); [intros [X Y]; repeat split; auto; lia|].
  remember (s n) as s0 eqn:S0. remember (s (S n)) as s1 eqn:S1. remember (lab n) as l0 eqn:L0.
  destruct ST; subst s0;
    try (assert (OTH : forall j, j <> k -> thread (s (S n)) j = thread (s n) j)
           by (intros j D; rewrite <- S1; cbn; now apply Nat.eqb_neq in D as ->));
    try (assert (LK : forall j a, lab n = L_return j a -> j = k) by (intros j a E; rewrite <- L0 in E; congruence));
    try (assert (NR : forall a, lab n <> L_return k a) by (intros a; rewrite <- L0; discriminate));
    try (pose proof (T k) as Tk; unfold TL in Tk; rewrite H in Tk);
    try (facts S1 k; clear S1 C M').
  - (* the clock *)
    split.
    + intros k. apply TL_next; auto; [intros a; rewrite <- L0; discriminate|now rewrite <- S1].
    + apply SI_next; auto; rewrite <- ?S1; try reflexivity; auto.
      intros k _. split; [reflexivity|]. intros a. rewrite <- L0. discriminate.
  - (* call *)
    apply (outside n k); auto; [now rewrite H|]. unfold TL. rewrite K. exists n. split; [lia|].
    split; [now rewrite <- L0|]. intros; lia.
  - (* lock *)
    apply (inside n k); auto.
    + unfold TL. rewrite K. destruct Tk as (b & B). exists b. now apply call_next.
    + unfold SI in *. rewrite GO, K. rewrite H0 in I. apply (cache_ok_next n n (S n) _ _ I); auto; lia.
  - (* time *)
    assert (O0 : owner (s n) = Some k) by (apply M; now rewrite H).
    destruct Tk as (b & B). apply (call_next) in B; [|exact NR].
    apply (inside n k); auto.
    + unfold TL. rewrite K. now exists b.
    + unfold SI in *. rewrite GO, O0, K. rewrite O0, H in I. exists b, n. split; [exact B|].
      assert (b < n)%nat. { pose proof (T k) as X. unfold TL in X. rewrite H in X. destruct B as (B & L & _).
        assert (b <> n) by (intros ->; congruence). lia. }
      split; [lia|]. split; [reflexivity|]. split; [|lia].
      apply (cache_ok_next n n n _ _ I); auto; lia.
  - (* timeout *)
    assert (O0 : owner (s n) = Some k) by (apply M; now rewrite H).
    destruct Tk as (b0 & B0). apply call_next in B0; [|exact NR].
    unfold SI in I. rewrite O0, H in I. destruct I as (b & c & A & B & E & F & G).
    apply (inside n k); auto.
    + unfold TL. rewrite K. destruct (g_cache_timeout (s n) >=? now); now exists b0.
    + unfold SI. rewrite GO, O0, K. destruct (Z.geb_spec (g_cache_timeout (s n)) now) as [X|X].
      * exists b, c. split; [now apply call_next|]. split; [lia|]. split; [|lia]. subst now.
        apply (cache_ok_next n c c _ _ F); auto; lia.
      * lia.
  - (* test *)
    assert (O0 : owner (s n) = Some k) by (apply M; now rewrite H).
    destruct Tk as (b0 & B0). apply call_next in B0; [|exact NR].
    unfold SI in I. rewrite O0, H in I. destruct I as (b & c & A & B & F & G).
    apply (inside n k); auto.
    + unfold TL. rewrite K. destruct (g_cache_iface (s n)); now exists b0.
    + unfold SI. rewrite GO, O0, K. unfold cache_ok in F. destruct (g_cache_iface (s n)) as [l|] eqn:E.
      * destruct F as [F|F]; [lia|]. exists b, c, l. split; [now apply call_next|]. split; [lia|].
        split; [congruence|]. rewrite GT. split; [exact F|lia].
      * lia.
  - (* copy *)
    assert (O0 : owner (s n) = Some k) by (apply M; now rewrite H).
    destruct Tk as (b0 & B0). apply call_next in B0; [|exact NR].
    unfold SI in I. rewrite O0, H in I. destruct I as (b & c & l & A & B & E & F & G).
    apply (inside n k); auto.
    + unfold TL. rewrite K. split; [now exists b0|]. intros l' L. rewrite E in L. injection L as <-.
      exists b. split; [now apply call_next|]. right.
      destruct F as (kr & r & p & q & e & F1 & F2 & F3 & F4 & F5 & F6).
      exists kr, r, p, q, e, c. split; [lia|]. split; [lia|]. split; [lia|]. split; [exact F3|].
      split; [exact F4|]. split; [exact F5|]. split; [|lia]. apply MONO; lia.
    + unfold SI. rewrite GO, O0, K. left. unfold cache_ok. rewrite GI, E, GT. right.
      apply (published_le _ _ _ _ F). lia.
  - (* return *)
    assert (O0 : owner (s n) = Some k) by (apply M; now rewrite H).
    apply (inside n k); auto.
    + unfold TL. now rewrite K.
    + unfold SI in *. rewrite GO. rewrite O0, H in I. destruct I as [I|(l' & -> & E & r & p & q & R & PQ & Q & X)].
      * apply (cache_ok_next n n (S n) _ _ I); auto; lia.
      * unfold cache_ok. rewrite GI, E, GT. right. destruct R as (R & RN & b & BR & B).
        exists k, r, p, q, n. split; [lia|]. split; [lia|]. split; [exact R|]. split; [now rewrite <- L0|].
        split; [|exact X]. intros j a J. apply B. lia.
  - (* placeholder *)
    assert (O0 : owner (s n) = Some k) by (apply M; now rewrite H).
    destruct Tk as (b0 & B0). apply call_next in B0; [|exact NR].
    unfold SI in I. rewrite O0, H in I. apply (inside n k); auto.
    + unfold TL. rewrite K. now exists b0.
    + unfold SI. rewrite GO, O0, K. unfold cache_ok. rewrite GI, GT, GC. now left.
  - (* unlock *)
    assert (O0 : owner (s n) = Some k) by (apply M; now rewrite H).
    destruct Tk as (b0 & B0). apply call_next in B0; [|exact NR].
    unfold SI in I. rewrite O0, H in I. apply (inside n k); auto.
    + unfold TL. rewrite K. now exists b0.
    + unfold SI. rewrite GO. apply (cache_ok_next n n (S n) _ _ I); auto; lia.
  - (* the kernel answers *)
    apply (outside n k); auto; [now rewrite H|]. unfold TL. rewrite K.
    destruct Tk as (b & B). exists n. split; [exists l; now rewrite <- L0|]. split; [lia|]. exists b.
    split; [destruct B; lia|now apply call_next].
  - (* it fails *)
    apply (outside n k); auto; [now rewrite H|]. unfold TL. now rewrite K.
  - (* an exception *)
    apply (outside n k); auto; [now rewrite H|]. unfold TL. now rewrite K.
  - (* relock *)
    apply (inside n k); auto.
    + unfold TL. rewrite K. destruct Tk as (r & R). exists r. now apply read_next.
    + unfold SI. now rewrite GO, K.
  - (* now *)
    assert (O0 : owner (s n) = Some k) by (apply M; now rewrite H).
    apply (inside n k); auto.
    + unfold TL. rewrite K. destruct Tk as (r & R). exists r, n. split; [now apply read_next|].
      destruct R as (_ & R & _). split; [lia|reflexivity].
    + unfold SI. now rewrite GO, O0, K.
  - (* ttl *)
    assert (O0 : owner (s n) = Some k) by (apply M; now rewrite H).
    apply (inside n k); auto.
    + unfold TL. rewrite K. destruct Tk as (r & p & R & Q & E). exists r, p, n. split; [now apply read_next|].
      split; [lia|]. split; [lia|]. now rewrite E.
    + unfold SI. now rewrite GO, O0, K.
  - (* set *)
    assert (O0 : owner (s n) = Some k) by (apply M; now rewrite H).
    destruct Tk as (r & p & q & R & PQ & Q & E). apply read_next in R as R'; [|exact NR].
    apply (inside n k); auto.
    + unfold TL. rewrite K. destruct R' as (_ & _ & b & _ & B). now exists b.
    + unfold SI. rewrite GO, O0, K. exists r, p, q. split; [exact R'|]. split; [lia|]. split; [lia|congruence].
  - (* swap *)
    assert (O0 : owner (s n) = Some k) by (apply M; now rewrite H).
    unfold SI in I. rewrite O0, H in I. apply pending_next in I; auto.
    apply (inside n k); auto.
    + unfold TL. rewrite K. destruct Tk as (b & B). exists b. now apply call_next.
    + unfold SI. rewrite GO, O0, K. now exists l.
  - (* copy2 *)
    assert (O0 : owner (s n) = Some k) by (apply M; now rewrite H).
    unfold SI in I. rewrite O0, H in I. destruct I as (l & E & I). apply pending_next in I; auto.
    apply (inside n k); auto.
    + unfold TL. rewrite K. destruct Tk as (b & B). split; [exists b; now apply call_next|].
      intros l' L. rewrite E in L. injection L as <-. destruct I as (r & p & q & (R & RN & b' & BR & B') & _).
      exists b'. split; [exact B'|]. left. exists r. split; [lia|exact R].
    + unfold SI. rewrite GO, O0, K. right. exists l. split; [exact E|]. split; [congruence|exact I].
  - (* reset *)
    apply (outside n k); auto; [now rewrite H|]. unfold TL. now rewrite K.
  - apply (inside n k); auto; [unfold TL; now rewrite K|]. unfold SI. now rewrite GO, K.
  - assert (O0 : owner (s n) = Some k) by (apply M; now rewrite H).
    apply (inside n k); auto; [unfold TL; now rewrite K|]. unfold SI. now rewrite GO, O0, K.
  - assert (O0 : owner (s n) = Some k) by (apply M; now rewrite H).
    unfold SI in I. rewrite O0, H in I.
    apply (inside n k); auto; [unfold TL; now rewrite K|]. unfold SI. rewrite GO, O0, K, GT. auto.
  - assert (O0 : owner (s n) = Some k) by (apply M; now rewrite H).
    unfold SI in I. rewrite O0, H in I. destruct I as [I1 I2].
    apply (inside n k); auto; [unfold TL; now rewrite K|]. unfold SI. rewrite GO. unfold cache_ok.
    rewrite GI, I2, GT, GC, I1. exact P.
  - (* ttl *)
    apply (outside n k); auto; [now rewrite H|]. unfold TL. now rewrite K.
  - apply (outside n k); auto; [now rewrite H|]. unfold TL. now rewrite K.
Qed.
End Run.

(* From a state in which nobody is in get_local_addresses() and the cache is
   empty. *)
Definition outside_get (p : pc) : bool :=
  match p with Idle | Reset_lock | Ttl_set _ => true | _ => false end.
Lemma Inv_start s lab : owner (s 0%nat) = None -> (forall k, outside_get (thread (s 0%nat) k) = true) ->
  g_cache_iface (s 0%nat) = None -> g_cache_timeout (s 0%nat) < clock (s 0%nat) -> 0 < clock (s 0%nat) ->
  Inv s lab 0.
Proof.
  intros O Q C T P. split; [|split; [|split; [|exact P]]].
  - intros k. specialize (Q k). destruct (thread (s 0%nat) k); try discriminate; cbn; split; congruence.
  - intros k. specialize (Q k). unfold TL. destruct (thread (s 0%nat) k); try discriminate; exact Logic.I.
  - unfold SI. rewrite O. unfold cache_ok. now rewrite C.
Qed.
Lemma monotone s n : never_back s n -> forall i j, (i <= j <= n)%nat -> clock (s i) <= clock (s j).
Proof.
  intros N i j. induction j as [|j IH]; intros L.
  - replace i with 0%nat by lia. lia.
  - destruct (Nat.eq_dec i (S j)) as [->|D]; [lia|]. specialize (IH ltac:(lia)). specialize (N j ltac:(lia)). lia.
Qed.
Lemma Inv_all s lab n : Inv s lab 0 -> (forall i, (i < n)%nat -> step (s i) (lab i) (s (S i))) ->
  never_back s n -> forall i, (i <= n)%nat -> Inv s lab i.
Proof.
  intros I ST N. pose proof (monotone s n N) as MO.
  induction i as [|i IH]; intros L; [exact I|]. apply Inv_step.
  - apply IH. lia.
  - intros a b AB. apply MO. lia.
  - apply ST. lia.
  - apply N. lia.
Qed.
Lemma init_start s lab n : execution s lab n -> Inv s lab 0.
Proof.
  intros [(now & P & E) _]. apply Inv_start; rewrite E; auto.
Qed.
Lemma returned s k i a : step s (L_return k (Answer (Some a))) i -> thread s k = Get_return (Some a).
Proof. intros H. now inversion H. Qed.

Lemma result s lab n : Inv s lab 0 -> (forall i, (i < n)%nat -> step (s i) (lab i) (s (S i))) ->
  never_back s n -> forall i k l, (i < n)%nat -> lab i = L_return k (Answer (Some l)) -> result_ok s lab k i l.
Proof.
  intros I ST N i k l L E. pose proof (ST i L) as X. rewrite E in X. apply returned in X.
  destruct (Inv_all s lab n I ST N i ltac:(lia)) as (_ & T & _). specialize (T k). unfold TL in T. rewrite X in T.
  now apply T.
Qed.

Lemma after_reset s lab n z k0 : execution s lab n -> never_back s n -> (z < n)%nat -> lab z = L_reset_done k0 ->
  (forall k b, (b < z)%nat -> lab b = L_call k -> exists e a, (b < e < z)%nat /\ lab e = L_return k a) ->
  forall i k l, (z < i < n)%nat -> lab i = L_return k (Answer (Some l)) ->
  exists j r, (z < r < i)%nat /\ read_from_kernel lab j r l.
Proof.
  intros EX N Z LZ Q i k l IN LI.
  pose proof (Inv_all s lab n (init_start _ _ _ EX) (proj2 EX) N) as ALL.
  destruct (ALL z ltac:(lia)) as (M & T & I & P). pose proof (proj2 EX z Z) as ST. rewrite LZ in ST.
  destruct (ALL (S z) ltac:(lia)) as (M' & T' & _ & P').
  inversion ST as [| | | | | | | | | | | | | | | | | | | | | | | s0 k1 TH E1 E2 E3| |]; subst s0 k1.
  assert (O0 : owner (s z) = Some k0) by (apply M; now rewrite TH).
  unfold SI in I. rewrite O0, TH in I. destruct I as [I1 I2].
  set (s' := fun i => s (S z + i)%nat). set (lab' := fun i => lab (S z + i)%nat).
  assert (I' : Inv s' lab' 0).
  { assert (S0 : s' 0%nat = s (S z)) by (unfold s'; now rewrite Nat.add_0_r).
    apply Inv_start; rewrite ?S0.
    - rewrite <- E3. reflexivity.
    - intros j. specialize (T' j). unfold TL in T'.
      assert (HO : holds (thread (s (S z)) j) = false).
      { destruct (holds (thread (s (S z)) j)) eqn:X; [|reflexivity]. apply M' in X. rewrite <- E3 in X. discriminate. }
      assert (NB : forall b, ~ call_at lab j (S z) b).
      { intros b (B1 & B2 & B3). destruct (Nat.eq_dec b z) as [->|D]; [congruence|].
        destruct (Q j b ltac:(lia) B2) as (e & a & B4 & B5). exact (B3 e a ltac:(lia) B5). }
      destruct (thread (s (S z)) j); try discriminate; try reflexivity; exfalso;
        try (destruct T' as (b & B); now apply (NB b)).
      destruct T' as (r & _ & _ & b & _ & B). now apply (NB b).
    - rewrite <- E3. exact I2.
    - rewrite <- E3. cbn. lia.
    - exact P'. }
  assert (R : result_ok s' lab' k (i - S z) l).
  { apply (result s' lab' (n - S z) I').
    - intros j J. unfold s', lab'. rewrite Nat.add_succ_r. apply (proj2 EX). lia.
    - intros j J. unfold s'. rewrite Nat.add_succ_r. apply N. lia.
    - lia.
    - unfold lab'. now replace (S z + (i - S z))%nat with i by lia. }
  destruct R as (b & _ & [(r & R & X)|(kr & r & p & q & e & c & A & B & D & X & _)]).
  - exists k, (S z + r)%nat. split; [lia|]. exact X.
  - exists kr, (S z + r)%nat. split; [lia|]. exact X.
Qed.

(* Data races. *)
Lemma mutex_all s lab n : execution s lab n -> forall i, (i <= n)%nat -> mutex (s i).
Proof.
  intros [(now & _ & E) ST]. induction i as [|i IH]; intros L.
  - rewrite E. intros k. cbn. split; discriminate.
  - eapply mutex_step; [apply ST; lia|apply IH; lia].
Qed.
Lemma no_ttl s lab n : execution s lab n -> (forall i k v, (i < n)%nat -> lab i <> L_ttl k v) ->
  forall i k v, (i <= n)%nat -> thread (s i) k <> Ttl_set v.
Proof.
  intros [(now & _ & E) ST] NT. induction i as [|i IH]; intros k v L.
  - rewrite E. discriminate.
  - specialize (ST i ltac:(lia)). specialize (NT i). specialize (fun k v => IH k v ltac:(lia)).
    remember (lab i) as l. destruct ST; cbn [with_owner with_iface with_timeout with_clock with_ttl thread with_pc];
      try apply IH; destruct (Nat.eqb k k0); try apply IH; try discriminate;
      repeat match goal with |- context [if ?b then _ else _] => destruct b
             | |- context [match ?b with Some _ => _ | None => _ end] => destruct b end; try discriminate.
    exfalso. now apply (NT k0 v0 ltac:(lia)).
Qed.
Lemma writes_holds p x : writes p x -> holds p = true \/ exists v, p = Ttl_set v /\ x = The_ttl.
Proof.
  intros (s & k & l & s' & <- & [ST B] & N).
  destruct ST; cbn [done_by] in B; try discriminate; apply Nat.eqb_eq in B; subst k;
    match goal with H : thread _ _ = _ |- _ => rewrite H end; auto;
    try (exfalso; apply N; now destruct x).
  right. exists v. split; [reflexivity|]. destruct x; [reflexivity| |]; exfalso; now apply N.
Qed.
Lemma reads_holds p x : reads p x -> holds p = true.
Proof.
  intros (s1 & s2 & k & l & s' & <- & _ & EO & EC & ET & [ST B] & N).
  assert (HERE : forall s p, thread (with_pc s k p) k = p) by (intros; cbn; now rewrite Nat.eqb_refl).
  assert (X : forall p, thread s1 k = p -> thread s2 k = p) by (intros; congruence).
  destruct ST; cbn [done_by] in B; try discriminate; pose proof B as D; apply Nat.eqb_eq in B; subst;
    match goal with H : thread _ _ = _ |- _ => rewrite H; pose proof (X _ H) as Y end; cbn [holds]; auto; exfalso;
    cbn [with_owner with_iface with_timeout with_ttl thread] in N; rewrite ?HERE in N.
  - refine (N _ (conj (S_call _ _ Y) D) _). apply HERE.
  - assert (owner s2 = None) as O by congruence. refine (N _ (conj (S_lock _ _ Y O) D) _). apply HERE.
  - refine (N _ (conj (S_kernel _ _ _ _ Y H0) D) _). apply HERE.
  - refine (N _ (conj (S_kernel_fails _ _ Y) D) _). apply HERE.
  - refine (N _ (conj (S_kernel_throws _ _ _ _ Y H0) D) _). apply HERE.
  - assert (owner s2 = None) as O by congruence. refine (N _ (conj (S_relock _ _ _ Y O) D) _). apply HERE.
  - refine (N _ (conj (S_reset _ _ Y) D) _). apply HERE.
  - assert (owner s2 = None) as O by congruence. refine (N _ (conj (S_reset_lock _ _ Y O) D) _). apply HERE.
  - refine (N _ (conj (S_ttl_call _ _ _ Y H0) D) _). apply HERE.
  - refine (N _ (conj (S_ttl_set _ _ _ Y) D) _). apply HERE.
Qed.

(* Any thread in a function can go on, or waits for one which can. *)
Lemma can_step s k : mutex s -> thread s k <> Idle -> holds (thread s k) = true ->
  exists s', step s (L_tau k) s' \/ (exists a, step s (L_return k a) s') \/ step s (L_reset_done k) s'.
Proof.
  intros M I H. destruct (thread s k) eqn:E; cbn in H; try discriminate.
  all: try (eexists; left; first [
    eapply S_time; eassumption
  | eapply S_timeout; eassumption
  | eapply S_test; eassumption
  | eapply S_copy; eassumption
  | eapply S_placeholder; eassumption
  | eapply S_unlock; eassumption
  | eapply S_now; eassumption
  | eapply S_ttl; eassumption
  | eapply S_set; eassumption
  | eapply S_swap; eassumption
  | eapply S_copy2; eassumption
  | eapply S_reset_timeout; eassumption
  | eapply S_reset_iface; eassumption]; fail).
  - eexists. right. left. eexists. eapply S_return. eassumption.
  - eexists. right. right. eapply S_reset_unlock. eassumption.
Qed.

(* The number of steps of a call. *)
Definition rank (p : pc) : option nat :=
  match p with
  | Get_lock => Some 1 | Get_time => Some 2 | Get_timeout _ => Some 3 | Get_test => Some 4
  | Get_copy => Some 5 | Get_placeholder => Some 5 | Get_unlock => Some 6 | Get_kernel => Some 7
  | Get_relock _ => Some 8 | Get_now _ => Some 9 | Get_ttl _ _ => Some 10 | Get_set _ _ => Some 11
  | Get_swap _ => Some 12 | Get_copy2 => Some 13 | Get_return _ => Some 14
  | _ => None
  end%nat.
Lemma rank_step s l s' k r : step s l s' -> rank (thread s k) = Some r -> (forall a, l <> L_return k a) ->
  exists r', rank (thread s' k) = Some r' /\ (r + (if done_by l k then 1 else 0) <= r')%nat.
Proof.
  intros ST R NR. destruct ST; cbn [with_owner with_iface with_timeout with_clock with_ttl thread with_pc done_by] in *.
  1:{ exists r. split; [exact R|lia]. }
  all: rewrite (Nat.eqb_sym k0 k) in *; destruct (Nat.eqb_spec k k0) as [<-|D];
    [rewrite H in R; cbn [rank] in R; try discriminate; injection R as <-;
     repeat match goal with |- context [if ?b then Get_test else _] => destruct b
            | |- context [match ?b with Some _ => Get_copy | None => _ end] => destruct b end;
     first [exfalso; eapply NR; reflexivity|eexists; split; [reflexivity|lia]]
    |exists r; split; [exact R|lia]].
Qed.
Lemma steps_snoc lab k b i : (b <= i)%nat ->
  steps_of lab k b (S i) = (steps_of lab k b i + (if done_by (lab i) k then 1 else 0))%nat.
Proof.
  intros B. unfold steps_of. replace (S i - b)%nat with (S (i - b)) by lia. rewrite seq_S, filter_app, app_length.
  cbn [filter]. replace (b + (i - b))%nat with i by lia. destruct (done_by (lab i) k); cbn; lia.
Qed.
Lemma steps_rank s lab n k b : (forall i, (i < n)%nat -> step (s i) (lab i) (s (S i))) ->
  forall i, (i <= n)%nat -> in_call lab k b i -> exists r, rank (thread (s i) k) = Some r /\ (steps_of lab k b i <= r)%nat.
Proof.
  intros ST. induction i as [|i IH]; intros L (B & LB & N); [lia|].
  destruct (Nat.eq_dec b i) as [->|D].
  - pose proof (ST i ltac:(lia)) as X. rewrite LB in X. inversion X; subst. rewrite pc_same. exists 1%nat.
    split; [reflexivity|]. rewrite steps_snoc by lia. unfold steps_of. rewrite Nat.sub_diag. cbn.
    destruct (done_by (lab i) k); lia.
  - destruct IH as (r & R & S); [lia| |].
    + split; [lia|]. split; [exact LB|]. intros j a J. apply N. lia.
    + destruct (rank_step _ _ _ k r (ST i ltac:(lia)) R) as (r' & R' & S').
      * intros a. apply N. lia.
      * exists r'. split; [exact R'|]. rewrite steps_snoc by lia. lia.
Qed.

(* Playing an execution. *)
Inductive choice : Type :=
| Go (k : tid) | Call (k : tid) | Kernel (k : tid) (l : list ifaddrs) | Reset (k : tid) | Set_ttl (k : tid) (v : Z)
| Clock (t : Z).
Definition play (s : state) (c : choice) : option (label * state) :=
  match c with
  | Clock t => Some (L_clock t, with_clock s t)
  | Call k => match thread s k with Idle => Some (L_call k, with_pc s k Get_lock) | _ => None end
  | Reset k => match thread s k with Idle => Some (L_reset k, with_pc s k Reset_lock) | _ => None end
  | Set_ttl k v => match thread s k with
                   | Idle => if (0 <=? v) && (v <? 4294967296) then Some (L_ttl k v, with_pc s k (Ttl_set v)) else None
                   | _ => None
                   end
  | Kernel k l => match thread s k, make_ifaces l with
                  | Get_kernel, Ok r => Some (L_kernel k l, with_pc s k (Get_relock r))
                  | Get_kernel, Throw e => Some (L_return k (Failed e), with_pc s k Idle)
                  | _, _ => None
                  end
  | Go k =>
      match thread s k with
      | Get_lock => match owner s with None => Some (L_tau k, with_owner (with_pc s k Get_time) (Some k)) | _ => None end
      | Get_time => Some (L_tau k, with_pc s k (Get_timeout (clock s)))
      | Get_timeout now =>
          Some (L_tau k, with_pc s k (if g_cache_timeout s >=? now then Get_test else Get_placeholder))
      | Get_test => Some (L_tau k, with_pc s k (match g_cache_iface s with Some _ => Get_copy | None => Get_placeholder end))
      | Get_copy => Some (L_tau k, with_pc s k (Get_return (g_cache_iface s)))
      | Get_return l => Some (L_return k (Answer l), with_owner (with_pc s k Idle) None)
      | Get_placeholder => Some (L_tau k, with_iface (with_pc s k Get_unlock) (Some []))
      | Get_unlock => Some (L_tau k, with_owner (with_pc s k Get_kernel) None)
      | Get_kernel => Some (L_return k (Answer None), with_pc s k Idle)
      | Get_relock l => match owner s with None => Some (L_tau k, with_owner (with_pc s k (Get_now l)) (Some k)) | _ => None end
      | Get_now l => Some (L_tau k, with_pc s k (Get_ttl l (clock s)))
      | Get_ttl l now => Some (L_tau k, with_pc s k (Get_set l (now + g_cache_ttl s)))
      | Get_set l t => Some (L_tau k, with_timeout (with_pc s k (Get_swap l)) t)
      | Get_swap l => Some (L_tau k, with_iface (with_pc s k Get_copy2) (Some l))
      | Get_copy2 => Some (L_tau k, with_pc s k (Get_return (g_cache_iface s)))
      | Reset_lock => match owner s with None => Some (L_tau k, with_owner (with_pc s k Reset_timeout) (Some k)) | _ => None end
      | Reset_timeout => Some (L_tau k, with_timeout (with_pc s k Reset_iface) 0)
      | Reset_iface => Some (L_tau k, with_iface (with_pc s k Reset_unlock) None)
      | Reset_unlock => Some (L_reset_done k, with_owner (with_pc s k Idle) None)
      | Ttl_set v => Some (L_tau k, with_ttl (with_pc s k Idle) v)
      | Idle => None
      end
  end.
Lemma play_step s c l s' : play s c = Some (l, s') -> step s l s'.
Proof.
  unfold play. intros H.
  destruct c; try (destruct (thread s k) eqn:E; try discriminate);
    repeat match type of H with context [match owner s with _ => _ end] => destruct (owner s) eqn:?; try discriminate
           | context [match make_ifaces _ with _ => _ end] => destruct (make_ifaces _) eqn:?; try discriminate end;
    try (injection H as <- <-; econstructor; eassumption).
  - destruct ((0 <=? v) && (v <? 4294967296)) eqn:X; [|discriminate]. injection H as <- <-. apply S_ttl_call; [exact E|].
    change (2 ^ 32) with 4294967296. lia.
Qed.
Fixpoint play_all (s : state) (cs : list choice) : option (list (label * state)) :=
  match cs with
  | [] => Some []
  | c :: cs => match play s c with
               | Some (l, s') => match play_all s' cs with Some r => Some ((l, s') :: r) | None => None end
               | None => None
               end
  end.
Definition states_of (s0 : state) (r : list (label * state)) (i : nat) : state := nth i (s0 :: map snd r) s0.
Definition labels_of (r : list (label * state)) (i : nat) : label := nth i (map fst r) (L_clock 0).
Lemma play_steps cs : forall s0 r, play_all s0 cs = Some r ->
  forall i, (i < length r)%nat -> step (states_of s0 r i) (labels_of r i) (states_of s0 r (S i)).
Proof.
  induction cs as [|c cs IH]; intros s0 r H i L; cbn [play_all] in H.
  - injection H as <-. cbn in L. lia.
  - destruct (play s0 c) as [[l s']|] eqn:P; [|discriminate]. destruct (play_all s' cs) as [r'|] eqn:A; [|discriminate].
    injection H as <-. destruct i as [|i].
    + apply play_step in P. destruct r' as [|[l1 s1] r']; exact P.
    + specialize (IH s' r' A i). cbn [length] in L. specialize (IH ltac:(lia)).
      unfold states_of, labels_of in *. cbn [map fst snd] in *.
      change (nth (S i) (s0 :: s' :: map snd r') s0) with (nth i (s' :: map snd r') s0).
      change (nth (S (S i)) (s0 :: s' :: map snd r') s0) with (nth (S i) (s' :: map snd r') s0).
      change (nth (S i) (l :: map fst r') (L_clock 0)) with (nth i (map fst r') (L_clock 0)).
      rewrite (nth_indep _ s0 s') by (cbn; rewrite map_length; lia).
      rewrite (nth_indep (s' :: map snd r') s0 s') by (cbn; rewrite map_length; lia). exact IH.
Qed.
Lemma play_execution now cs r : 0 < now -> play_all (init now) cs = Some r ->
  execution (states_of (init now) r) (labels_of r) (length r).
Proof. intros P H. split; [now exists now|]. now apply (play_steps cs). Qed.
