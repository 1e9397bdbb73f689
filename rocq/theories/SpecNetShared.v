(* What the properties about shared addresses talk about. *)
From Verif Require Import Base Addr Spec NetShared.

(* Executions on the shared object a: the first n steps go through the states
   s 0, ..., s n and have the labels lab 0, ..., lab (n-1). *)
Definition execution (a : addr) (s : nat -> state) (lab : nat -> label) (n : nat) : Prop :=
  s 0 = init a /\ forall i, i < n -> step (s i) (lab i) (s (S i)).
(* At i the thread k is in the call it started at b. *)
Definition in_call (lab : nat -> label) (k : tid) (b i : nat) : Prop :=
  b < i /\ lab b = L_call k /\ forall j t, b < j < i -> lab j <> L_return k t.
(* The object was not asked for its type since it has its address. *)
Definition not_asked (a : addr) : Prop := f_private_network a = NETWORK_TYPE_UNDEFINED.
(* The type of the address. *)
Definition type_of (a : addr) : network_type_t := spec_network_type (value a).

(* The thread a label is about. *)
Definition done_by (l : label) (k : tid) : Prop :=
  match l with L_call j | L_return j _ | L_tau j => j = k end.
Definition step_of (k : tid) (s : state) (l : label) (s' : state) : Prop := step s l s' /\ done_by l k.
(* The only variable which is shared and written.  The next step of the thread
   k writes it in the state s: there is a value of it for which that step
   changes it; reads it: what the thread does depends on its value. *)
Definition set (s : state) (t : network_type_t) : state := with_type s t.
Definition writes (s : state) (k : tid) : Prop :=
  exists t l s', step_of k (set s t) l s' /\ f_private_network (object s') <> t.
Definition reads (s : state) (k : tid) : Prop :=
  exists t t' l s', step_of k (set s t) l s' /\
    forall s'', step_of k (set s t') l s'' -> thread s'' k <> thread s' k.
(* A data race of C++: the next steps of two threads use the variable and one
   of them writes it. *)
Definition data_race (s : state) : Prop :=
  exists j k, j <> k /\ writes s j /\ (writes s k \/ reads s k).
