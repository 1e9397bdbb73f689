(* Model of the cache of iface::get_local_addresses() (iface.cpp:93-113,
   264-431) shared by any number of threads: a transition system in which a
   step is one access to memory, to the mutex, to the clock or to the kernel.
   The accesses are sequentially consistent; whether C++ guarantees that is
   the subject of SpecIface.data_race. *)
From Verif Require Import Base Addr Iface.
Local Open Scope Z_scope.

(* The threads. *)
Definition tid := nat.

(* What a call of get_local_addresses() ends with: a list (None: a null
   pointer) or an exception, iface.cpp:264-393. *)
Inductive answer : Type :=
| Answer (l : option (list iface))
| Failed (e : exn).

(* Where a thread is and its local variables. *)
Inductive pc : Type :=
| Idle                                (* not in a function of the cache *)
| Get_lock                            (* iface.cpp:268 *)
| Get_time                            (* iface.cpp:270, time(nullptr) *)
| Get_timeout (now : Z)               (* iface.cpp:270, g_cache_timeout >= *)
| Get_test                            (* iface.cpp:271, g_cache_iface != nullptr *)
| Get_copy                            (* iface.cpp:273 *)
| Get_return (l : option (list iface)) (* iface.cpp:274, 392, unlocks *)
| Get_placeholder                     (* iface.cpp:275 *)
| Get_unlock                          (* iface.cpp:276 *)
| Get_kernel                          (* iface.cpp:280-384 *)
| Get_relock (l : list iface)         (* iface.cpp:387 *)
| Get_now (l : list iface)            (* iface.cpp:389, time(nullptr) *)
| Get_ttl (l : list iface) (now : Z)  (* iface.cpp:389, g_cache_ttl *)
| Get_set (l : list iface) (t : Z)    (* iface.cpp:389, g_cache_timeout = *)
| Get_swap (l : list iface)           (* iface.cpp:390 *)
| Get_copy2                           (* iface.cpp:391 *)
| Reset_lock                          (* iface.cpp:404 *)
| Reset_timeout                       (* iface.cpp:406 *)
| Reset_iface                         (* iface.cpp:407 *)
| Reset_unlock                        (* iface.cpp:408 *)
| Ttl_set (v : Z).                    (* iface.cpp:428 *)

(* The globals, iface.cpp:93-113, the mutex cppthread::g_system_mutex and the
   clock. *)
Record state := mk_state {
  g_cache_ttl : Z;
  g_cache_timeout : Z;
  g_cache_iface : option (list iface);
  owner : option tid;
  clock : Z;
  thread : tid -> pc
}.

(* The assignments, iface.cpp:93-113, 270-275, 389-390, 406-407, 428. *)
Definition with_pc (s : state) (k : tid) (p : pc) : state :=
  mk_state (g_cache_ttl s) (g_cache_timeout s) (g_cache_iface s) (owner s) (clock s)
    (fun j => if Nat.eqb j k then p else thread s j).
(* iface.cpp:428. *)
Definition with_ttl (s : state) (v : Z) : state :=
  mk_state v (g_cache_timeout s) (g_cache_iface s) (owner s) (clock s) (thread s).
(* iface.cpp:389, 406. *)
Definition with_timeout (s : state) (v : Z) : state :=
  mk_state (g_cache_ttl s) v (g_cache_iface s) (owner s) (clock s) (thread s).
(* iface.cpp:275, 390, 407. *)
Definition with_iface (s : state) (v : option (list iface)) : state :=
  mk_state (g_cache_ttl s) (g_cache_timeout s) v (owner s) (clock s) (thread s).
(* cppthread::guard, iface.cpp:268, 387, 404. *)
Definition with_owner (s : state) (v : option tid) : state :=
  mk_state (g_cache_ttl s) (g_cache_timeout s) (g_cache_iface s) v (clock s) (thread s).
(* time(), iface.cpp:270, 389. *)
Definition with_clock (s : state) (v : Z) : state :=
  mk_state (g_cache_ttl s) (g_cache_timeout s) (g_cache_iface s) (owner s) v (thread s).

(* When the process starts, iface.cpp:93-113. *)
Definition init (now : Z) : state := mk_state (5 * 60) 0 None None now (fun _ => Idle).

(* What can be seen of a step. *)
Inductive label : Type :=
| L_call (k : tid)                              (* get_local_addresses() is called *)
| L_kernel (k : tid) (a : list ifaddrs)         (* getifaddrs() answers *)
| L_return (k : tid) (a : answer)               (* get_local_addresses() ends *)
| L_reset (k : tid)                             (* reset_local_addresses_cache() is called *)
| L_reset_done (k : tid)                        (* and returns *)
| L_ttl (k : tid) (v : Z)                       (* set_local_addresses_cache_ttl(v) is called *)
| L_tau (k : tid)                               (* anything else a thread does *)
| L_clock (t : Z).                              (* the clock is now t *)

(* A step of a thread, iface.cpp:264-431. Simplification: the time is read
   before g_cache_timeout (iface.cpp:270) and before g_cache_ttl
   (iface.cpp:389), C++ leaves both orders open. An answer of the kernel
   whose reading is undefined (make_ifaces) leads nowhere. *)
Inductive step : state -> label -> state -> Prop :=
| S_clock s t : step s (L_clock t) (with_clock s t)
| S_call s k : thread s k = Idle -> step s (L_call k) (with_pc s k Get_lock)
| S_lock s k : thread s k = Get_lock -> owner s = None ->
    step s (L_tau k) (with_owner (with_pc s k Get_time) (Some k))
| S_time s k : thread s k = Get_time -> step s (L_tau k) (with_pc s k (Get_timeout (clock s)))
| S_timeout s k now : thread s k = Get_timeout now ->
    step s (L_tau k) (with_pc s k (if g_cache_timeout s >=? now then Get_test else Get_placeholder))
| S_test s k : thread s k = Get_test ->
    step s (L_tau k) (with_pc s k (match g_cache_iface s with Some _ => Get_copy | None => Get_placeholder end))
| S_copy s k : thread s k = Get_copy -> step s (L_tau k) (with_pc s k (Get_return (g_cache_iface s)))
| S_return s k l : thread s k = Get_return l ->
    step s (L_return k (Answer l)) (with_owner (with_pc s k Idle) None)
| S_placeholder s k : thread s k = Get_placeholder ->
    step s (L_tau k) (with_iface (with_pc s k Get_unlock) (Some []))
| S_unlock s k : thread s k = Get_unlock -> step s (L_tau k) (with_owner (with_pc s k Get_kernel) None)
| S_kernel s k l r : thread s k = Get_kernel -> make_ifaces l = Ok r ->
    step s (L_kernel k l) (with_pc s k (Get_relock r))
| S_kernel_fails s k : thread s k = Get_kernel -> step s (L_return k (Answer None)) (with_pc s k Idle)
| S_kernel_throws s k l e : thread s k = Get_kernel -> make_ifaces l = Throw e ->
    step s (L_return k (Failed e)) (with_pc s k Idle)
| S_relock s k l : thread s k = Get_relock l -> owner s = None ->
    step s (L_tau k) (with_owner (with_pc s k (Get_now l)) (Some k))
| S_now s k l : thread s k = Get_now l -> step s (L_tau k) (with_pc s k (Get_ttl l (clock s)))
| S_ttl s k l now : thread s k = Get_ttl l now ->
    step s (L_tau k) (with_pc s k (Get_set l (now + g_cache_ttl s)))
| S_set s k l t : thread s k = Get_set l t ->
    step s (L_tau k) (with_timeout (with_pc s k (Get_swap l)) t)
| S_swap s k l : thread s k = Get_swap l ->
    step s (L_tau k) (with_iface (with_pc s k Get_copy2) (Some l))
| S_copy2 s k : thread s k = Get_copy2 -> step s (L_tau k) (with_pc s k (Get_return (g_cache_iface s)))
| S_reset s k : thread s k = Idle -> step s (L_reset k) (with_pc s k Reset_lock)
| S_reset_lock s k : thread s k = Reset_lock -> owner s = None ->
    step s (L_tau k) (with_owner (with_pc s k Reset_timeout) (Some k))
| S_reset_timeout s k : thread s k = Reset_timeout ->
    step s (L_tau k) (with_timeout (with_pc s k Reset_iface) 0)
| S_reset_iface s k : thread s k = Reset_iface ->
    step s (L_tau k) (with_iface (with_pc s k Reset_unlock) None)
| S_reset_unlock s k : thread s k = Reset_unlock ->
    step s (L_reset_done k) (with_owner (with_pc s k Idle) None)
| S_ttl_call s k v : thread s k = Idle -> 0 <= v < 2 ^ 32 -> step s (L_ttl k v) (with_pc s k (Ttl_set v))
| S_ttl_set s k v : thread s k = Ttl_set v -> step s (L_tau k) (with_ttl (with_pc s k Idle) v).
