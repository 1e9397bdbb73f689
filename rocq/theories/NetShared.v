(* Model of addr::get_network_type() (addr.cpp:1595-1701) called by any number
   of threads on one object which they share and which nobody changes: a
   transition system in which a step is one access to f_private_network.  The
   accesses are sequentially consistent; whether C++ guarantees that is the
   subject of SpecNetShared.data_race. *)
From Verif Require Import Base Addr.

(* The threads. *)
Definition tid := nat.

(* Where a thread is in addr::get_network_type(). *)
Inductive pc : Type :=
| Idle         (* not in the function *)
| At_test      (* addr.cpp:1597, f_private_network == NETWORK_TYPE_UNDEFINED *)
| At_unknown   (* addr.cpp:1599, f_private_network = NETWORK_TYPE_UNKNOWN *)
| At_write     (* addr.cpp:1601-1697, f_private_network = the type *)
| At_return.   (* addr.cpp:1700, return f_private_network *)

(* The object (addr.h:251-259) and the threads. *)
Record state := mk_state {
  object : addr;
  thread : tid -> pc
}.
(* A thread goes on, addr.cpp:1595-1701. *)
Definition with_pc (s : state) (k : tid) (p : pc) : state :=
  mk_state (object s) (fun j => if Nat.eqb j k then p else thread s j).
(* f_private_network = t, addr.cpp:1599-1693. *)
Definition with_type (s : state) (t : network_type_t) : state :=
  mk_state (with_private_network (object s) t) (thread s).
(* When the object a starts to be shared: it was built and is not in use,
   addr.h:257. *)
Definition init (a : addr) : state := mk_state a (fun _ => Idle).

(* The type the tests of addr.cpp:1601-1697 lead to; they only read the
   address, which nobody writes. *)
Definition classify (a : addr) : network_type_t :=
  if is_ipv4 a then network_type4 (s6 a) else network_type6 (s6 a).

(* What can be seen of a step. *)
Inductive label : Type :=
| L_call (k : tid)                         (* get_network_type() is called *)
| L_return (k : tid) (t : network_type_t)  (* and returns t *)
| L_tau (k : tid).                         (* anything else a thread does *)

(* A step of a thread, addr.cpp:1595-1701.  Where no test applies there is no
   assignment (UNKNOWN was already written). *)
Inductive step : state -> label -> state -> Prop :=
| S_call s k : thread s k = Idle -> step s (L_call k) (with_pc s k At_test)
| S_test s k : thread s k = At_test ->
    step s (L_tau k) (with_pc s k (if network_type_t_beq (f_private_network (object s)) NETWORK_TYPE_UNDEFINED
                                   then At_unknown else At_return))
| S_unknown s k : thread s k = At_unknown ->
    step s (L_tau k) (with_type (with_pc s k At_write) NETWORK_TYPE_UNKNOWN)
| S_write s k : thread s k = At_write ->
    step s (L_tau k) (if network_type_t_beq (classify (object s)) NETWORK_TYPE_UNKNOWN
                      then with_pc s k At_return
                      else with_type (with_pc s k At_return) (classify (object s)))
| S_return s k : thread s k = At_return ->
    step s (L_return k (f_private_network (object s))) (with_pc s k Idle).
