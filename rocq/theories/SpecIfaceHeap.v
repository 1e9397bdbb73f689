(* What the property about the sharing of the lists of interfaces talks
   about. *)
From Verif Require Import Base Addr Iface IfaceHeap.
From Verif Require IfaceCache SpecIface.
Local Open Scope Z_scope.

(* Executions: the first n steps go through the states s 0, ..., s n and have
   the labels lab 0, ..., lab (n-1). *)
Definition execution (s : nat -> state) (lab : nat -> label) (n : nat) : Prop :=
  (exists now, 0 < now /\ s 0%nat = init now) /\
  forall i, (i < n)%nat -> step (s i) (lab i) (s (S i)).
(* The clock is never set back. *)
Definition never_back (s : nat -> state) (n : nat) : Prop :=
  forall i, (i < n)%nat -> clock (s i) <= clock (s (S i)).
(* A caller changes the vector o. *)
Definition changes (l : label) (o : obj) : Prop := exists k v, l = L_change k o v.
(* The callers only read. *)
Definition only_read (lab : nat -> label) (n : nat) : Prop := forall i o, (i < n)%nat -> ~ changes (lab i) o.

(* What callers see. *)
Inductive event : Type :=
| Called (k : tid)
| Got (k : tid) (l : option (list iface))
| Got_exception (k : tid) (e : exn)
| Reset_called (k : tid)
| Reset_returned (k : tid)
| Ttl_called (k : tid) (v : Z)
| Clock_set (t : Z)
| Changed (k : tid) (o : obj) (l : list iface).
(* The vectors are read when they are returned. *)
Definition event_of (s : state) (l : label) : list event :=
  match l with
  | L_call k => [Called k]
  | L_return k (Answer o) => [Got k (option_map (contents s) o)]
  | L_return k (Failed e) => [Got_exception k e]
  | L_reset k => [Reset_called k]
  | L_reset_done k => [Reset_returned k]
  | L_ttl k v => [Ttl_called k v]
  | L_clock t => [Clock_set t]
  | L_change k o v => [Changed k o v]
  | L_kernel _ _ | L_tau _ => []
  end.
(* The same in the model with values. *)
Definition event_of_value (l : IfaceCache.label) : list event :=
  match l with
  | IfaceCache.L_call k => [Called k]
  | IfaceCache.L_return k (IfaceCache.Answer v) => [Got k v]
  | IfaceCache.L_return k (IfaceCache.Failed e) => [Got_exception k e]
  | IfaceCache.L_reset k => [Reset_called k]
  | IfaceCache.L_reset_done k => [Reset_returned k]
  | IfaceCache.L_ttl k v => [Ttl_called k v]
  | IfaceCache.L_clock t => [Clock_set t]
  | IfaceCache.L_kernel _ _ | IfaceCache.L_tau _ => []
  end.
Definition events (s : nat -> state) (lab : nat -> label) (n : nat) : list event :=
  concat (map (fun i => event_of (s i) (lab i)) (seq 0 n)).
Definition events_of_values (lab : nat -> IfaceCache.label) (n : nat) : list event :=
  concat (map (fun i => event_of_value (lab i)) (seq 0 n)).
