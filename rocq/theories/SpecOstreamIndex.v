(* What the properties of get_ostream_index() talk about. *)
From Verif Require Import Base OstreamIndex.
Local Open Scope Z_scope.

(* What happened up to now, the last first, and the state. *)
Inductive execution : list label -> state -> Prop :=
| Start n : execution [] (init n)
| Next past s l s' : execution past s -> step s l s' -> execution (l :: past) s'.

Definition is_xalloc (l : label) : bool := match l with L_xalloc _ _ => true | _ => false end.
(* The thread k can do a step. *)
Definition can_go_on (s : state) (k : tid) : Prop :=
  exists l s', step s l s' /\ match l with
    | L_call j | L_xalloc j _ | L_return j _ | L_tau j => j = k
    | L_other _ => False
    end.

(* The variables the threads share, none of them atomic: the flag and the
   index. *)
Inductive variable : Set := The_flag | The_index.
Definition same (x : variable) (s s' : state) : Prop :=
  match x with
  | The_flag => g_ostream_index_allocated s = g_ostream_index_allocated s'
  | The_index => g_ostream_index s = g_ostream_index s'
  end.
Definition step_of (k : tid) (s : state) (l : label) (s' : state) : Prop :=
  step s l s' /\ match l with
    | L_call j | L_xalloc j _ | L_return j _ | L_tau j => j = k
    | L_other _ => False
    end.
(* The step of a thread which is at p writes x: somewhere it changes it. *)
Definition writes (p : pc) (x : variable) : Prop :=
  exists s k l s', thread s k = p /\ step_of k s l s' /\ ~ same x s s'.
(* The step of a thread which is at p reads x: in two states which differ in
   nothing else the thread does not do the same. *)
Definition reads (p : pc) (x : variable) : Prop :=
  exists s1 s2 k l s', thread s1 k = p
    /\ (forall z, z <> x -> same z s1 s2) /\ owner s1 = owner s2 /\ counter s1 = counter s2 /\ thread s1 = thread s2
    /\ step_of k s1 l s' /\ forall s'', step_of k s2 l s'' -> thread s'' k <> thread s' k.
(* A data race of C++: the next steps of two threads use the same variable and
   one of them writes it. *)
Definition race_for (x : variable) (s : state) : Prop :=
  exists j k, j <> k /\ writes (thread s j) x /\ (writes (thread s k) x \/ reads (thread s k) x).
Definition data_race (s : state) : Prop := exists x, race_for x s.
