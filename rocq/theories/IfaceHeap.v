(* Model of iface::get_local_addresses() (iface.cpp:264-393) with the vectors
   as objects: a list is returned as a std::shared_ptr to a vector which the
   cache and all the callers share.  IfaceCache.v has the same steps with
   values instead of objects.  The class iface has no function to change one
   (iface.h:61-87), so that an element of a vector is a value here; an
   assignment to an element counts as a change of its vector. *)
From Verif Require Import Base Addr Iface.
From Verif Require IfaceCache.
Local Open Scope Z_scope.

(* The threads, and the vectors; an object which is in use is not freed and
   its name is not used again (std::shared_ptr, iface.h:66). *)
Definition tid := nat.
(* iface.h:66 *)
Definition obj := nat.

(* What a call of get_local_addresses() ends with: a pointer (None: null) or an
   exception, iface.cpp:264-393. *)
Inductive answer : Type :=
| Answer (o : option obj)
| Failed (e : exn).

(* Where a thread is and its local variables. *)
Inductive pc : Type :=
| Idle                                (* not in a function of the cache *)
| Get_lock                            (* iface.cpp:268 *)
| Get_time                            (* iface.cpp:270, time(nullptr) *)
| Get_timeout (now : Z)               (* iface.cpp:270, g_cache_timeout >= *)
| Get_test                            (* iface.cpp:271, g_cache_iface != nullptr *)
| Get_copy                            (* iface.cpp:273 *)
| Get_return (o : option obj)         (* iface.cpp:274, 392, unlocks *)
| Get_placeholder                     (* iface.cpp:275 *)
| Get_unlock                          (* iface.cpp:276 *)
| Get_kernel                          (* iface.cpp:280-291 *)
| Get_fill (o : obj) (l : list ifaddrs) (* iface.cpp:292-384, l: still to do *)
| Get_relock (o : obj)                (* iface.cpp:387 *)
| Get_now (o : obj)                   (* iface.cpp:389, time(nullptr) *)
| Get_ttl (o : obj) (now : Z)         (* iface.cpp:389, g_cache_ttl *)
| Get_set (o : obj) (t : Z)           (* iface.cpp:389, g_cache_timeout = *)
| Get_swap (o : obj)                  (* iface.cpp:390 *)
| Get_copy2                           (* iface.cpp:391 *)
| Reset_lock                          (* iface.cpp:404 *)
| Reset_timeout                       (* iface.cpp:406 *)
| Reset_iface                         (* iface.cpp:407 *)
| Reset_unlock                        (* iface.cpp:408 *)
| Ttl_set (v : Z).                    (* iface.cpp:428 *)

(* The globals, iface.cpp:93-113, the mutex, the clock, the vectors made so far
   (the object o is the element o of the heap) and which of them were returned
   to a caller. *)
Record state := mk_state {
  g_cache_ttl : Z;
  g_cache_timeout : Z;
  g_cache_iface : option obj;
  owner : option tid;
  clock : Z;
  thread : tid -> pc;
  heap : list (list iface);
  returned : obj -> bool
}.

(* A thread goes on, iface.cpp:264-431. *)
Definition with_pc (s : state) (k : tid) (p : pc) : state :=
  mk_state (g_cache_ttl s) (g_cache_timeout s) (g_cache_iface s) (owner s) (clock s)
    (fun j => if Nat.eqb j k then p else thread s j) (heap s) (returned s).
(* iface.cpp:428. *)
Definition with_ttl (s : state) (v : Z) : state :=
  mk_state v (g_cache_timeout s) (g_cache_iface s) (owner s) (clock s) (thread s) (heap s) (returned s).
(* iface.cpp:389, 406. *)
Definition with_timeout (s : state) (v : Z) : state :=
  mk_state (g_cache_ttl s) v (g_cache_iface s) (owner s) (clock s) (thread s) (heap s) (returned s).
(* iface.cpp:275, 390, 407. *)
Definition with_iface (s : state) (v : option obj) : state :=
  mk_state (g_cache_ttl s) (g_cache_timeout s) v (owner s) (clock s) (thread s) (heap s) (returned s).
(* cppthread::guard, iface.cpp:268, 387, 404. *)
Definition with_owner (s : state) (v : option tid) : state :=
  mk_state (g_cache_ttl s) (g_cache_timeout s) (g_cache_iface s) v (clock s) (thread s) (heap s) (returned s).
(* time(), iface.cpp:270, 389. *)
Definition with_clock (s : state) (v : Z) : state :=
  mk_state (g_cache_ttl s) (g_cache_timeout s) (g_cache_iface s) (owner s) v (thread s) (heap s) (returned s).
(* std::make_shared<vector_t>(), iface.cpp:275, 291: an empty vector. *)
Definition alloc (s : state) : state :=
  mk_state (g_cache_ttl s) (g_cache_timeout s) (g_cache_iface s) (owner s) (clock s) (thread s)
    (heap s ++ [[]]) (returned s).
(* The object alloc makes, iface.cpp:275, 291. *)
Definition fresh (s : state) : obj := length (heap s).
(* What a vector has, iface.h:65. *)
Definition contents (s : state) (o : obj) : list iface := nth o (heap s) [].
(* A vector is changed: push_back(), iface.cpp:383, or anything a caller does
   with it. *)
Definition store (s : state) (o : obj) (l : list iface) : state :=
  mk_state (g_cache_ttl s) (g_cache_timeout s) (g_cache_iface s) (owner s) (clock s) (thread s)
    (upd (heap s) o l) (returned s).
(* `return g_cache_iface;`, iface.cpp:273, 391: the caller has it as well. *)
Definition hand_out (s : state) (o : option obj) : state :=
  mk_state (g_cache_ttl s) (g_cache_timeout s) (g_cache_iface s) (owner s) (clock s) (thread s) (heap s)
    (fun x => match o with Some o => Nat.eqb x o || returned s x | None => returned s x end).

(* When the process starts, iface.cpp:93-113. *)
Definition init (now : Z) : state := mk_state (5 * 60) 0 None None now (fun _ => Idle) [] (fun _ => false).

(* What can be seen of a step. *)
Inductive label : Type :=
| L_call (k : tid)                              (* get_local_addresses() is called *)
| L_kernel (k : tid) (a : list ifaddrs)         (* getifaddrs() answers *)
| L_return (k : tid) (a : answer)               (* get_local_addresses() ends *)
| L_reset (k : tid)                             (* reset_local_addresses_cache() is called *)
| L_reset_done (k : tid)                        (* and returns *)
| L_ttl (k : tid) (v : Z)                       (* set_local_addresses_cache_ttl(v) is called *)
| L_tau (k : tid)                               (* anything else a thread does *)
| L_clock (t : Z)                               (* the clock is now t *)
| L_change (k : tid) (o : obj) (l : list iface). (* a caller changes a vector it was given to l *)

(* A step of a thread, iface.cpp:264-431; same simplifications as in
   IfaceCache.step.  A getifaddrs() entry which is not usable stops the
   function with the exception of set_ipv4() or set_ipv6(). *)
Inductive step : state -> label -> state -> Prop :=
| S_clock s t : step s (L_clock t) (with_clock s t)
| S_call s k : thread s k = Idle -> step s (L_call k) (with_pc s k Get_lock)
| S_lock s k : thread s k = Get_lock -> owner s = None ->
    step s (L_tau k) (with_owner (with_pc s k Get_time) (Some k))
| S_time s k : thread s k = Get_time -> step s (L_tau k) (with_pc s k (Get_timeout (clock s)))
| S_timeout s k now : thread s k = Get_timeout now ->
    step s (L_tau k) (with_pc s k (if g_cache_timeout s >=? now then Get_test else Get_placeholder))
| S_test s k : thread s k = Get_test ->
    step s (L_tau k) (with_pc s k (match g_cache_iface s with Some _ => Get_copy | None => Get_placeholder end))
| S_copy s k : thread s k = Get_copy -> step s (L_tau k) (with_pc s k (Get_return (g_cache_iface s)))
| S_return s k o : thread s k = Get_return o ->
    step s (L_return k (Answer o)) (hand_out (with_owner (with_pc s k Idle) None) o)
| S_placeholder s k : thread s k = Get_placeholder ->
    step s (L_tau k) (with_iface (alloc (with_pc s k Get_unlock)) (Some (fresh s)))
| S_unlock s k : thread s k = Get_unlock -> step s (L_tau k) (with_owner (with_pc s k Get_kernel) None)
| S_kernel s k l : thread s k = Get_kernel ->
    step s (L_kernel k l) (alloc (with_pc s k (Get_fill (fresh s) l)))
| S_kernel_fails s k : thread s k = Get_kernel -> step s (L_return k (Answer None)) (with_pc s k Idle)
| S_skip s k o e l : thread s k = Get_fill o (e :: l) -> make_iface e = Ok None ->
    step s (L_tau k) (with_pc s k (Get_fill o l))
| S_push s k o e l i : thread s k = Get_fill o (e :: l) -> make_iface e = Ok (Some i) ->
    step s (L_tau k) (store (with_pc s k (Get_fill o l)) o (contents s o ++ [i]))
| S_throw s k o e l x : thread s k = Get_fill o (e :: l) -> make_iface e = Throw x ->
    step s (L_return k (Failed x)) (with_pc s k Idle)
| S_filled s k o : thread s k = Get_fill o [] -> step s (L_tau k) (with_pc s k (Get_relock o))
| S_relock s k o : thread s k = Get_relock o -> owner s = None ->
    step s (L_tau k) (with_owner (with_pc s k (Get_now o)) (Some k))
| S_now s k o : thread s k = Get_now o -> step s (L_tau k) (with_pc s k (Get_ttl o (clock s)))
| S_ttl s k o now : thread s k = Get_ttl o now ->
    step s (L_tau k) (with_pc s k (Get_set o (now + g_cache_ttl s)))
| S_set s k o t : thread s k = Get_set o t ->
    step s (L_tau k) (with_timeout (with_pc s k (Get_swap o)) t)
| S_swap s k o : thread s k = Get_swap o ->
    step s (L_tau k) (with_iface (with_pc s k Get_copy2) (Some o))
| S_copy2 s k : thread s k = Get_copy2 -> step s (L_tau k) (with_pc s k (Get_return (g_cache_iface s)))
| S_reset s k : thread s k = Idle -> step s (L_reset k) (with_pc s k Reset_lock)
| S_reset_lock s k : thread s k = Reset_lock -> owner s = None ->
    step s (L_tau k) (with_owner (with_pc s k Reset_timeout) (Some k))
| S_reset_timeout s k : thread s k = Reset_timeout ->
    step s (L_tau k) (with_timeout (with_pc s k Reset_iface) 0)
| S_reset_iface s k : thread s k = Reset_iface ->
    step s (L_tau k) (with_iface (with_pc s k Reset_unlock) None)
| S_reset_unlock s k : thread s k = Reset_unlock ->
    step s (L_reset_done k) (with_owner (with_pc s k Idle) None)
| S_ttl_call s k v : thread s k = Idle -> 0 <= v < 2 ^ 32 -> step s (L_ttl k v) (with_pc s k (Ttl_set v))
| S_ttl_set s k v : thread s k = Ttl_set v -> step s (L_tau k) (with_ttl (with_pc s k Idle) v)
| S_change s k o l : thread s k = Idle -> returned s o = true -> step s (L_change k o l) (store s o l).
