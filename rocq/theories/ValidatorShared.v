(* Model of validator_address::validate() (validator_address.cpp:531-542)
   called by any number of threads on one validator: a transition system in
   which a step is one call of a function of f_parser.  Simplification: these
   calls are atomic, whereas nothing in the code makes them so. *)
From Verif Require Import Base Addr Range Inet AddrText Parser.

(* The threads. *)
Definition tid := nat.

(* Where a thread is in validate(), validator_address.cpp:531-542. *)
Inductive pc : Type :=
| Idle                  (* not in the function *)
| At_clear (v : str)    (* validator_address.cpp:533, f_parser.clear_errors() *)
| At_parse (v : str)    (* validator_address.cpp:534, f_parser.parse(value) *)
| At_test               (* validator_address.cpp:535, f_parser.has_errors() *)
| At_error              (* validator_address.cpp:537, set_error(f_parser.error_messages()) *)
| At_return (b : bool)  (* validator_address.cpp:538 and 541 *)
| At_throw (x : exn)    (* parse() threw *)
| Undefined.            (* anything may happen *)

(* f_parser (validator_address.h:66) and the threads. *)
Record state := mk_state {
  shared : parser;
  thread : tid -> pc
}.
(* A thread goes on and leaves the parser as q, validator_address.cpp:531-542. *)
Definition goes (s : state) (k : tid) (c : pc) (q : parser) : state :=
  mk_state q (fun j => if Nat.eqb j k then c else thread s j).
(* When the validator with the parser p starts to be shared,
   validator_address.cpp:165-507. *)
Definition init (p : parser) : state := mk_state p (fun _ => Idle).

(* What can be seen of a step. *)
Inductive label : Type :=
| L_call (k : tid) (v : str)    (* validate(v) is called *)
| L_clear (k : tid)             (* the errors are cleared *)
| L_parse (k : tid) (v : str)   (* v is parsed *)
| L_test (k : tid) (b : bool)   (* has_errors() returns b *)
| L_error (k : tid) (m : str)   (* set_error(m) *)
| L_return (k : tid) (b : bool) (* validate() returns b *)
| L_throw (k : tid) (x : exn).  (* validate() throws x *)

(* Where parse() with the result r leads, validator_address.cpp:534. *)
Definition after {A} (r : res A) : pc :=
  match r with Ok _ => At_test | Throw x => At_throw x | UB | OutOfFuel => Undefined end.

(* A step of a thread, validator_address.cpp:531-542. *)
Inductive step (y : sys) (g : resolver) : state -> label -> state -> Prop :=
| S_call s k v : thread s k = Idle -> step y g s (L_call k v) (goes s k (At_clear v) (shared s))
| S_clear s k v : thread s k = At_clear v ->
    step y g s (L_clear k) (goes s k (At_parse v) (clear_errors (shared s)))
| S_parse s k v : thread s k = At_parse v ->
    step y g s (L_parse k v) (goes s k (after (snd (parse y g v (shared s)))) (fst (parse y g v (shared s))))
| S_test s k : thread s k = At_test ->
    step y g s (L_test k (has_errors (shared s)))
      (goes s k (if has_errors (shared s) then At_error else At_return true) (shared s))
| S_error s k : thread s k = At_error ->
    step y g s (L_error k (error_messages (shared s))) (goes s k (At_return false) (shared s))
| S_return s k b : thread s k = At_return b -> step y g s (L_return k b) (goes s k Idle (shared s))
| S_throw s k x : thread s k = At_throw x -> step y g s (L_throw k x) (goes s k Idle (shared s)).
