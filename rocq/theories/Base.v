(* Common vocabulary of the model: bytes, byte strings, C integer helpers,
   outcomes of C++ calls. *)
From Coq Require Export Ascii String.
From Coq Require Export ZArith List Bool Lia.
Export ListNotations.
Local Open Scope Z_scope.

(* A byte is a Z within 0..255; std::string, char arrays and uint8_t arrays
   are lists of bytes.  Simplification: C++ `char` is signed on the target;
   wherever the code compares characters it compares them with ASCII
   characters only, and the two readings agree on those. *)
Definition str := list Z.

(* std::uint8_t range; every byte array of /repo (addr.h:251-252). *)
Definition is_byte (b : Z) : Prop := 0 <= b < 256.
(* Boolean form of the std::uint8_t range, addr.h:252. *)
Definition is_byteb (b : Z) : bool := (0 <=? b) && (b <? 256).

(* String literal helper: the bytes of an ASCII literal of the C++ source. *)
Fixpoint lit (s : string) : str :=
  match s with
  | EmptyString => []
  | String c r => Z.of_nat (nat_of_ascii c) :: lit r
  end.
Arguments lit s%string_scope.

(* libaddr/exception.h:41-53, the exceptions the library throws; E_std stands
   for exceptions of the C++ library (std::invalid_argument of std::stol...). *)
Inductive exn : Set :=
| E_logic_error
| E_out_of_range
| E_io_error
| E_invalid_argument
| E_invalid_state
| E_invalid_structure
| E_unexpected_error
| E_unexpected_mask
| E_unsupported_as_range
| E_std.

(* Outcome of a C++ call.  UB: the C++ standard gives the execution no
   meaning.  OutOfFuel: the modelled loop did not end within the given number
   of iterations. *)
Inductive res (A : Type) : Type :=
| Ok (a : A)
| Throw (e : exn)
| UB
| OutOfFuel.
Arguments Ok {A} a.
Arguments Throw {A} e.
Arguments UB {A}.
Arguments OutOfFuel {A}.

(* Sequencing of C++ statements: an exception leaves the function; used for every call that may throw (e.g. addr.cpp:358-363). *)
Definition rbind {A B} (r : res A) (f : A -> res B) : res B :=
  match r with
  | Ok a => f a
  | Throw e => Throw e
  | UB => UB
  | OutOfFuel => OutOfFuel
  end.
Notation "'let!' x ':=' r 'in' f" := (rbind r (fun x => f))
  (at level 200, x pattern, right associativity).

(* Fixed width integers: wrap-around of unsigned types, and the
   implementation-defined (two's complement, gcc) narrowing to signed types. *)
Definition u8 (z : Z) : Z := z mod 2 ^ 8.
(* std::uint16_t wrap-around (sin6_port, addr.cpp:252-258). *)
Definition u16 (z : Z) : Z := z mod 2 ^ 16.
(* unsigned int wrap-around (addr.cpp:2824). *)
Definition u32 (z : Z) : Z := z mod 2 ^ 32.
(* std::size_t wrap-around (addr_range.cpp:641-660). *)
Definition u64 (z : Z) : Z := z mod 2 ^ 64.
(* unsigned __int128 wrap-around (addr.cpp:1541-1569). *)
Definition u128 (z : Z) : Z := z mod 2 ^ 128.
(* narrowing to int (addr.cpp:436). *)
Definition s32 (z : Z) : Z := (z + 2 ^ 31) mod 2 ^ 32 - 2 ^ 31.
(* narrowing to std::int64_t (addr_parser.cpp:315). *)
Definition s64 (z : Z) : Z := (z + 2 ^ 63) mod 2 ^ 64 - 2 ^ 63.
(* narrowing to __int128 (addr.cpp:2899-2902). *)
Definition s128 (z : Z) : Z := (z + 2 ^ 127) mod 2 ^ 128 - 2 ^ 127.

(* smallest int; the offset type of addr.cpp:2819-2978. *)
Definition INT_MIN : Z := - 2 ^ 31.
(* largest int; the offset type of addr.cpp:2819-2978. *)
Definition INT_MAX : Z := 2 ^ 31 - 1.
(* the type int (e.g. addr.h:172,178,237). *)
Definition is_int (z : Z) : Prop := INT_MIN <= z <= INT_MAX.

(* ntohs/htons/ntohl/htonl on the modelled (little-endian) host. *)
Definition bswap16 (x : Z) : Z := (x mod 256) * 256 + (x / 256) mod 256.
(* ntohl()/htonl(), addr.cpp:398, 1610. *)
Definition bswap32 (x : Z) : Z :=
  (x mod 256) * 2 ^ 24 + (x / 2 ^ 8 mod 256) * 2 ^ 16
  + (x / 2 ^ 16 mod 256) * 2 ^ 8 + (x / 2 ^ 24 mod 256).

(* Array accesses. *)
Definition at_ (l : list Z) (i : nat) : Z := nth i l 0.
(* assignment to one array element, e.g. addr.cpp:370-377. *)
Fixpoint upd {A} (l : list A) (i : nat) (v : A) : list A :=
  match l, i with
  | [], _ => []
  | _ :: r, O => v :: r
  | x :: r, S i' => x :: upd r i' v
  end.

(* loop over two arrays of the same size, addr.cpp:733-746, 2505-2522. *)
Fixpoint map2 {A B C} (f : A -> B -> C) (l1 : list A) (l2 : list B) : list C :=
  match l1, l2 with
  | a :: r1, b :: r2 => f a b :: map2 f r1 r2
  | _, _ => []
  end.

(* memcmp(): lexicographic comparison of unsigned bytes; only the sign of the
   result is used by the library. *)
Fixpoint memcmp (a b : list Z) : Z :=
  match a, b with
  | x :: ra, y :: rb =>
      if x <? y then -1 else if y <? x then 1 else memcmp ra rb
  | _, _ => 0
  end.

(* operator == of std::string and byte arrays. *)
Fixpoint str_eqb (a b : str) : bool :=
  match a, b with
  | [], [] => true
  | x :: ra, y :: rb => (x =? y) && str_eqb ra rb
  | _, _ => false
  end.
