(* Model of the ostream support (addr.h:262-493, addr_range.h:97-131).  The
   ios_base class is the one of libstdc++: an array of pword(), a list of
   callbacks, copyfmt(), the destructor, the move constructor and swap().  Only
   the pword() entry and the callbacks of libaddr are modelled, the callbacks
   and entries of others are not (they do not reach the entry of libaddr). *)
From Verif Require Import Base Addr Range Inet AddrText.
Local Open Scope Z_scope.

(* _ostream_info, addr.h:273-277. *)
Record info := mk_info { f_mode : Z; f_sep : str }.
(* A new _ostream_info, addr.h:273-277. *)
Definition info_new : info := mk_info STRING_IP_ALL (lit ",").

(* A pointer to an _ostream_info; the address 0 is not special, nullptr is
   None. *)
Definition ptr := nat.
(* The _ostream_info objects of the program; None: not allocated or deleted.
   Each new gives a new address (simplification: an address is not used
   again).  new and delete of addr.h:366-378, 404, 430. *)
Record heap := mk_heap { objects : ptr -> option info; next : ptr }.
(* No object yet. *)
Definition heap_new : heap := mk_heap (fun _ => None) 0%nat.
(* new _ostream_info(...), addr.h:376, 404, 430. *)
Definition alloc (m : heap) (i : info) : heap * ptr :=
  (mk_heap (fun p => if Nat.eqb p (next m) then Some i else objects m p) (S (next m)), next m).
(* delete, addr.h:366: deleting nullptr does nothing, deleting an object twice
   is undefined. *)
Definition delete (m : heap) (p : option ptr) : res heap :=
  match p with
  | None => Ok m
  | Some p =>
      match objects m p with
      | None => UB
      | Some _ => Ok (mk_heap (fun q => if Nat.eqb q p then None else objects m q) (next m))
      end
  end.
(* *info, addr.h:376, 408, 434, 459: undefined once deleted. *)
Definition deref (m : heap) (p : ptr) : res info :=
  match objects m p with Some i => Ok i | None => UB end.
(* info->f_mode = ..., addr.h:408; info->f_sep = ..., addr.h:434. *)
Definition store (m : heap) (p : ptr) (i : info) : heap :=
  mk_heap (fun q => if Nat.eqb q p then Some i else objects m q) (next m).

(* One stream: out.pword(get_ostream_index()), how many times
   basic_stream_event_callback() is registered, and what was written to it. *)
Record ios := mk_ios { pword : option ptr; callbacks : nat; text : str }.
(* A new stream: the libstdc++ constructor. *)
Definition ios_new : ios := mk_ios None 0 [].

(* basic_stream_event_callback(), addr.h:361-370, erase_event. *)
Definition on_erase (m : heap) (s : ios) : res (heap * ios) :=
  let! m := delete m (pword s) in
  Ok (m, mk_ios None (callbacks s) (text s)).
(* basic_stream_event_callback(), addr.h:361-381, copyfmt_event.  memory:
   there is memory for the new object; otherwise new throws. *)
Definition on_copyfmt (memory : bool) (m : heap) (s : ios) : res (heap * ios) :=
  match pword s with
  | None => Ok (m, s)
  | Some p =>
      if memory then
        let! i := deref m p in
        let (m, q) := alloc m i in
        Ok (m, mk_ios (Some q) (callbacks s) (text s))
      else Throw E_std
  end.
(* ios_base::_M_call_callbacks() of libstdc++: calls each callback, and
   catches what it throws. *)
Fixpoint call_callbacks (n : nat) (event : heap -> ios -> res (heap * ios)) (m : heap) (s : ios)
    : res (heap * ios) :=
  match n with
  | O => Ok (m, s)
  | S n =>
      match event m s with
      | Ok (m, s) => call_callbacks n event m s
      | Throw _ => call_callbacks n event m s
      | UB => UB
      | OutOfFuel => OutOfFuel
      end
  end.

(* The streams of the program; None: not constructed or destroyed. *)
Definition sid := nat.
Record state := mk_state { mem : heap; streams : sid -> option ios }.
(* No stream yet. *)
Definition state_new : state := mk_state heap_new (fun _ => None).
(* A stream is written back. *)
Definition put (t : state) (m : heap) (s : sid) (x : option ios) : state :=
  mk_state m (fun k => if Nat.eqb k s then x else streams t k).

(* What may be written to a stream with the operators << of addr.h:448-493 and
   addr_range.h:97-131. *)
Inductive item : Type :=
| I_addr (a : addr)
| I_addrs (l : list addr)
| I_range (r : addr_range)
| I_ranges (l : list addr_range).

(* The info which an operator << reads, None: nullptr; addr.h:452, 472;
   addr_range.h:101, 117. *)
Definition get_info (m : heap) (s : ios) : res (option info) :=
  match pword s with
  | None => Ok None
  | Some p => let! i := deref m p in Ok (Some i)
  end.

(* out << address, addr.h:448-462: what is written, and how the call ends. *)
Definition put_addr (y : sys) (i : option info) (a : addr) : str * res unit :=
  match to_ipv4or6_string y a (match i with None => STRING_IP_ALL | Some i => f_mode i end) with
  | Ok t => (t, Ok tt)
  | Throw e => ([], Throw e)
  | UB => ([], UB)
  | OutOfFuel => ([], OutOfFuel)
  end.
(* The loop over the addresses of a container, addr.h:478-490. *)
Fixpoint put_addrs (y : sys) (i : option info) (sep : str) (first : bool) (l : list addr) : str * res unit :=
  match l with
  | [] => ([], Ok tt)
  | a :: l =>
      let before := if first then [] else sep in
      let (t, r) := put_addr y i a in
      match r with
      | Ok _ => let (u, r) := put_addrs y i sep false l in (before ++ t ++ u, r)
      | _ => (before ++ t, r)
      end
  end.
(* The operators <<: addr.h:448-493, addr_range.h:97-131. *)
Definition put_item (y : sys) (i : option info) (x : item) : str * res unit :=
  let whole (r : res str) :=
    match r with
    | Ok t => (t, Ok tt)
    | Throw e => ([], Throw e)
    | UB => ([], UB)
    | OutOfFuel => ([], OutOfFuel)
    end in
  match x with
  | I_addr a => put_addr y i a
  | I_addrs l => put_addrs y i (match i with None => lit "," | Some i => f_sep i end) true l
  | I_range r => whole (range_to_string y r (match i with None => STRING_IP_ALL | Some i => f_mode i end))
  | I_ranges l =>
      whole (match i with
             | None => ranges_to_string y l STRING_IP_ALL (lit ",")
             | Some i => ranges_to_string y l (f_mode i) (f_sep i)
             end)
  end.

(* What a program does with its streams.  memory: new _ostream_info gets its
   memory; memory2: register_callback() gets its memory. *)
Inductive op : Type :=
| Construct (s : sid)
| Destroy (s : sid)
| Set_mode (s : sid) (mode : Z) (memory memory2 : bool)
| Set_sep (s : sid) (sep : str) (memory memory2 : bool)
| Copyfmt (s from : sid) (memory : bool)
| Move_construct (s from : sid)
| Swap (s1 s2 : sid)
| Print (y : sys) (s : sid) (x : item).

(* The streams an operation is about. *)
Definition live (t : state) (s : sid) : res ios :=
  match streams t s with Some x => Ok x | None => UB end.
(* A stream is constructed where there is none. *)
Definition vacant (t : state) (s : sid) : res unit :=
  match streams t s with Some _ => UB | None => Ok tt end.

(* operator << (out, _setaddrmode), addr.h:396-410, and (out, _setaddrsep),
   addr.h:422-436; set: the assignment at the end. *)
Definition set_info (t : state) (s : sid) (memory memory2 : bool) (set : info -> info)
    : state * res unit :=
  match live t s with
  | Ok x =>
      match pword x with
      | None =>
          if negb memory then (t, Throw E_std)
          else
            let (m, p) := alloc (mem t) info_new in
            if negb memory2 then (put t m s (Some (mk_ios (Some p) (callbacks x) (text x))), Throw E_std)
            else
              match deref m p with
              | Ok i => (put t (store m p (set i)) s (Some (mk_ios (Some p) (S (callbacks x)) (text x))), Ok tt)
              | _ => (t, UB)
              end
      | Some p =>
          match deref (mem t) p with
          | Ok i => (put t (store (mem t) p (set i)) s (Some x), Ok tt)
          | _ => (t, UB)
          end
      end
  | _ => (t, UB)
  end.

(* basic_ios::copyfmt() of libstdc++: the erase_event callbacks, the copy of
   the words and of the list of callbacks, the copyfmt_event callbacks.  The
   other members are not modelled. *)
Definition copyfmt (t : state) (s from : sid) (memory : bool) : state * res unit :=
  match live t s, live t from with
  | Ok x, Ok y =>
      if Nat.eqb s from then (t, Ok tt)
      else
        match call_callbacks (callbacks x) on_erase (mem t) x with
        | Ok (m, x) =>
            match call_callbacks (callbacks y) (on_copyfmt memory) m
                    (mk_ios (pword y) (callbacks y) (text x)) with
            | Ok (m, x) => (put t m s (Some x), Ok tt)
            | _ => (t, UB)
            end
        | _ => (t, UB)
        end
  | _, _ => (t, UB)
  end.

(* One operation: the new state and how the call ends. *)
Definition step (t : state) (o : op) : state * res unit :=
  match o with
  | Construct s =>
      match vacant t s with Ok _ => (put t (mem t) s (Some ios_new), Ok tt) | _ => (t, UB) end
  | Destroy s =>
      (* ios_base::~ios_base() of libstdc++: the erase_event callbacks. *)
      match live t s with
      | Ok x =>
          match call_callbacks (callbacks x) on_erase (mem t) x with
          | Ok (m, _) => (put t m s None, Ok tt)
          | _ => (t, UB)
          end
      | _ => (t, UB)
      end
  | Set_mode s mode memory memory2 => set_info t s memory memory2 (fun i => mk_info mode (f_sep i))
  | Set_sep s sep memory memory2 => set_info t s memory memory2 (fun i => mk_info (f_mode i) sep)
  | Copyfmt s from memory => copyfmt t s from memory
  | Move_construct s from =>
      (* basic_ios::move(), ios_base::_M_move() of libstdc++: the words and the
         callbacks go to the new stream, the other one has none left; so does
         the text. *)
      match vacant t s, live t from with
      | Ok _, Ok y => (put (put t (mem t) from (Some ios_new)) (mem t) s (Some y), Ok tt)
      | _, _ => (t, UB)
      end
  | Swap s1 s2 =>
      (* ios_base::_M_swap() of libstdc++, and the swap of the texts. *)
      match live t s1, live t s2 with
      | Ok x, Ok y => (put (put t (mem t) s1 (Some y)) (mem t) s2 (Some x), Ok tt)
      | _, _ => (t, UB)
      end
  | Print y s x =>
      match live t s with
      | Ok z =>
          match get_info (mem t) z with
          | Ok i =>
              let (w, r) := put_item y i x in
              (put t (mem t) s (Some (mk_ios (pword z) (callbacks z) (text z ++ w))), r)
          | _ => (t, UB)
          end
      | _ => (t, UB)
      end
  end.

(* A program: the operations one after the other; an exception is caught by
   the program, which goes on; None: undefined behavior. *)
Fixpoint run (t : state) (h : list op) : option state :=
  match h with
  | [] => Some t
  | o :: h =>
      match step t o with
      | (t, Ok _) | (t, Throw _) => run t h
      | _ => None
      end
  end.
