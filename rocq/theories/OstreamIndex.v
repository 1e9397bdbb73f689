(* Model of get_ostream_index() (addr.cpp:268-296, 3004-3015) called by any
   number of threads: a transition system, a step is one access to memory, to
   the mutex or to std::ios_base::xalloc().  Sequentially consistent;
   SpecOstreamIndex.data_race tells whether C++ guarantees that. *)
From Verif Require Import Base.
Local Open Scope Z_scope.

(* The threads. *)
Definition tid := nat.
(* Where a thread is. *)
Inductive pc : Type :=
| Idle
| At_lock                  (* addr.cpp:3006 *)
| At_test                  (* addr.cpp:3008 *)
| At_mark                  (* addr.cpp:3010 *)
| At_xalloc                (* addr.cpp:3011, std::ios_base::xalloc() *)
| At_assign (v : Z)        (* addr.cpp:3011, the assignment *)
| At_read                  (* addr.cpp:3014 *)
| At_return (v : Z).       (* addr.cpp:3015, unlocks *)

(* The globals, addr.cpp:277, 295, the mutex cppthread::g_system_mutex and the
   counter of xalloc(), which other code uses too. *)
Record state := mk_state {
  g_ostream_index_allocated : bool;
  g_ostream_index : Z;
  owner : option tid;
  counter : Z;
  thread : tid -> pc
}.
(* When the process starts, addr.cpp:277, 295; n: the first index xalloc()
   gives. *)
Definition init (n : Z) : state := mk_state false 0 None n (fun _ => Idle).
(* The thread k goes to p. *)
Definition goes (s : state) (k : tid) (p : pc) : tid -> pc :=
  fun j => if Nat.eqb j k then p else thread s j.

(* What can be seen of a step. *)
Inductive label : Type :=
| L_call (k : tid)               (* get_ostream_index() is called *)
| L_xalloc (k : tid) (v : Z)     (* it calls xalloc(), which gives v *)
| L_return (k : tid) (v : Z)     (* it returns v *)
| L_other (v : Z)                (* other code calls xalloc(), which gives v *)
| L_tau (k : tid).               (* anything else *)

(* get_ostream_index(), addr.cpp:3004-3015. *)
Inductive step : state -> label -> state -> Prop :=
| S_call s k : thread s k = Idle ->
    step s (L_call k) (mk_state (g_ostream_index_allocated s) (g_ostream_index s) (owner s) (counter s) (goes s k At_lock))
| S_lock s k : thread s k = At_lock -> owner s = None ->
    step s (L_tau k) (mk_state (g_ostream_index_allocated s) (g_ostream_index s) (Some k) (counter s) (goes s k At_test))
| S_test s k : thread s k = At_test ->
    step s (L_tau k) (mk_state (g_ostream_index_allocated s) (g_ostream_index s) (owner s) (counter s)
      (goes s k (if g_ostream_index_allocated s then At_read else At_mark)))
| S_mark s k : thread s k = At_mark ->
    step s (L_tau k) (mk_state true (g_ostream_index s) (owner s) (counter s) (goes s k At_xalloc))
| S_xalloc s k : thread s k = At_xalloc ->
    step s (L_xalloc k (counter s)) (mk_state (g_ostream_index_allocated s) (g_ostream_index s) (owner s)
      (counter s + 1) (goes s k (At_assign (counter s))))
| S_assign s k v : thread s k = At_assign v ->
    step s (L_tau k) (mk_state (g_ostream_index_allocated s) v (owner s) (counter s) (goes s k At_read))
| S_read s k : thread s k = At_read ->
    step s (L_tau k) (mk_state (g_ostream_index_allocated s) (g_ostream_index s) (owner s) (counter s)
      (goes s k (At_return (g_ostream_index s))))
| S_return s k v : thread s k = At_return v ->
    step s (L_return k v) (mk_state (g_ostream_index_allocated s) (g_ostream_index s) None (counter s) (goes s k Idle))
| S_other s : step s (L_other (counter s))
    (mk_state (g_ostream_index_allocated s) (g_ostream_index s) (owner s) (counter s + 1) (thread s)).
