(* Model of the addr_range class: libaddr/addr_range.h, libaddr/addr_range.cpp
   (text output is in AddrText.v). *)
From Verif Require Import Base Addr.
Local Open Scope Z_scope.

(* Fields of addr_range, addr_range.h:86-89. *)
Record addr_range := mk_range {
  f_has_from : bool;
  f_has_to : bool;
  f_from : addr;
  f_to : addr
}.

(* Default member initialisers, addr_range.h:86-89. *)
Definition range_new : addr_range := mk_range false false addr_new addr_new.

(* addr_range::has_from(), addr_range.cpp:69-72. *)
Definition has_from (r : addr_range) : bool := f_has_from r.

(* addr_range::has_to(), addr_range.cpp:83-86. *)
Definition has_to (r : addr_range) : bool := f_has_to r.

(* addr_range::is_defined(), addr_range.cpp:103-106. *)
Definition is_defined (r : addr_range) : bool := f_has_from r || f_has_to r.

(* addr_range::is_range(), addr_range.cpp:120-123. *)
Definition is_range (r : addr_range) : bool := f_has_from r && f_has_to r.

(* addr_range::is_empty(), addr_range.cpp:142-149. *)
Definition is_empty (r : addr_range) : bool :=
  if negb (is_range r) then false else gt_ (f_from r) (f_to r).

(* addr_range::is_in(), addr_range.cpp:170-185. *)
Definition is_in (r : addr_range) (rhs : addr) : res bool :=
  if negb (is_range r) then Throw E_invalid_state
  else if le_ (f_from r) (f_to r)
  then Ok (ge_ rhs (f_from r) && le_ rhs (f_to r))
  else Ok false.

(* addr_range::is_ipv4(), addr_range.cpp:198-216. *)
Definition range_is_ipv4 (r : addr_range) : bool :=
  if f_has_from r && f_has_to r then is_ipv4 (f_from r) && is_ipv4 (f_to r)
  else if f_has_from r then is_ipv4 (f_from r)
  else if f_has_to r then is_ipv4 (f_to r)
  else false.

(* addr_range::set_from(), addr_range.cpp:227-231. *)
Definition set_from (r : addr_range) (a : addr) : addr_range :=
  mk_range true (f_has_to r) a (f_to r).

(* addr_range::get_from(), addr_range.cpp:245-248, 262-265. *)
Definition get_from (r : addr_range) : addr := f_from r.

(* addr_range::set_to(), addr_range.cpp:276-280. *)
Definition set_to (r : addr_range) (a : addr) : addr_range :=
  mk_range (f_has_from r) true (f_from r) a.

(* addr_range::get_to(), addr_range.cpp:294-297, 311-314. *)
Definition get_to (r : addr_range) : addr := f_to r.

(* addr_range::swap_from_to(), addr_range.cpp:325-329. *)
Definition swap_from_to (r : addr_range) : addr_range :=
  mk_range (f_has_to r) (f_has_from r) (f_to r) (f_from r).

(* addr_range::from_cidr(), addr_range.cpp:351-366. *)
Definition from_cidr (r : addr_range) (a : addr) : addr_range * res unit :=
  if get_mask_size a =? -1 then (r, Throw E_unsupported_as_range)
  else (mk_range true true (apply_mask a false) (apply_mask a true), Ok tt).

(* The do/while of addr_range::to_cidr(), addr_range.cpp:400-409; n is
   128 - count. *)
Fixpoint to_cidr_same (n : nat) (bit from to : Z) : bool :=
  match n with
  | O => true
  | S k =>
      if negb (Z.land from bit =? Z.land to bit) then false
      else to_cidr_same k (u128 (Z.shiftl bit 1)) from to
  end.

(* The for loop of addr_range::to_cidr(), addr_range.cpp:395-413; n is
   128 - count, the result is `cidr`, None is `return false`. *)
Fixpoint to_cidr_loop (n : nat) (bit cidr from to : Z) : option Z :=
  match n with
  | O => Some cidr
  | S k =>
      if negb (Z.land from bit =? 0) || (Z.land to bit =? 0)
      then if to_cidr_same n bit from to then Some cidr else None
      else to_cidr_loop k (u128 (Z.shiftl bit 1)) (cidr - 1) from to
  end.

(* addr_range::to_cidr(), addr_range.cpp:381-420: the output parameter and the
   returned value. *)
Definition to_cidr (r : addr_range) (a : addr) : addr * res bool :=
  if negb (is_range r) || is_empty r then (a, Ok false)
  else
    let from := ip_to_uint128 (f_from r) in
    let to := ip_to_uint128 (f_to r) in
    match to_cidr_loop 128 1 128 from to with
    | None => (a, Ok false)
    | Some cidr =>
        let a1 := ip_from_uint128 a from in
        let '(a2, o) := set_mask_count a1 cidr in
        (a2, let! _ := o in Ok true)
    end.

(* std::numeric_limits<std::size_t>::max(), addr_range.cpp:649. *)
Definition SIZE_MAX : Z := 2 ^ 64 - 1.

(* addr_range::size(), addr_range.cpp:641-660: the +1 is on a signed __int128,
   its overflow is undefined. *)
Definition size (r : addr_range) : res Z :=
  if has_from r && has_to r then
    let d := sub_addr (f_to r) (f_from r) in
    if d =? 2 ^ 127 - 1 then UB
    else Ok (Z.min (u128 (d + 1)) SIZE_MAX)
  else if negb (has_from r) && negb (has_to r) then Ok 0
  else Ok 1.

(* The do/while of addr_range::to_addresses(), addr_range.cpp:457-462; the
   vector is produced in order.  fuel bounds the number of iterations. *)
Fixpoint to_addresses_loop (fuel : nat) (a to : addr) : res (list addr) :=
  match fuel with
  | O => OutOfFuel
  | S k =>
      let a' := incr a in
      if le_ a' to
      then let! l := to_addresses_loop k a' to in Ok (a :: l)
      else Ok [a]
  end.

(* addr_range::to_addresses(limit), addr_range.cpp:441-474. *)
Definition to_addresses (fuel : nat) (r : addr_range) (limit : Z) : res (list addr) :=
  let! s := size r in
  if s >? limit then Throw E_out_of_range
  else if has_from r && has_to r then to_addresses_loop fuel (f_from r) (f_to r)
  else if has_from r then Ok [f_from r]
  else if has_to r then Ok [f_to r]
  else Ok [].

(* The sum of sizes at addr_range.cpp:479-483, on std::size_t. *)
Fixpoint total_size (ranges : list addr_range) (acc : Z) : res Z :=
  match ranges with
  | [] => Ok acc
  | r :: rs => let! s := size r in total_size rs (u64 (acc + s))
  end.

(* The second loop, addr_range.cpp:492-497. *)
Fixpoint to_addresses_all (fuel : nat) (ranges : list addr_range) (limit : Z)
  : res (list addr) :=
  match ranges with
  | [] => Ok []
  | r :: rs =>
      let! v := to_addresses fuel r limit in
      let! w := to_addresses_all fuel rs limit in
      Ok (v ++ w)
  end.

(* addr_range::to_addresses(ranges, limit), addr_range.cpp:477-500. *)
Definition to_addresses_vector (fuel : nat) (ranges : list addr_range) (limit : Z)
  : res (list addr) :=
  let! t := total_size ranges 0 in
  if t >? limit then Throw E_out_of_range
  else to_addresses_all fuel ranges limit.

(* addr_range::intersection(), addr_range.cpp:680-688. *)
Definition intersection (l r : addr_range) : addr_range :=
  set_to
    (set_from range_new (if gt_ (f_from l) (f_from r) then f_from l else f_from r))
    (if lt_ (f_to l) (f_to r) then f_to l else f_to r).

(* `f_has_from ? f_from : f_to`, addr_range.cpp:738,740,933,935. *)
Definition eff_from (r : addr_range) : addr := if f_has_from r then f_from r else f_to r.

(* `f_has_to ? f_to : f_from`, addr_range.cpp:739,741,934,936. *)
Definition eff_to (r : addr_range) : addr := if f_has_to r then f_to r else f_from r.

(* addr_range::union_if_possible(), addr_range.cpp:728-770. *)
Definition union_if_possible (l r : addr_range) : res addr_range :=
  if negb (is_defined l) && negb (is_defined r) then Ok range_new
  else
    let lhs_from := eff_from l in
    let lhs_to := eff_to l in
    let rhs_from := eff_from r in
    let rhs_to := eff_to r in
    if (le_ lhs_from rhs_to && ge_ lhs_to rhs_from)
       || (ge_ lhs_to rhs_from && le_ lhs_from rhs_to)
       || is_previous lhs_from rhs_to
       || is_next lhs_to rhs_from
    then
      let from := if lt_ lhs_from rhs_from then lhs_from else rhs_from in
      let to := if gt_ lhs_to rhs_to then lhs_to else rhs_to in
      let '(from1, o1) := set_mask_count from
        (Z.min (get_mask_size (f_from l)) (get_mask_size (f_from r))) in
      let! _ := o1 in
      let '(to1, o2) := set_mask_count to
        (Z.min (get_mask_size (f_to l)) (get_mask_size (f_to r))) in
      let! _ := o2 in
      if is_range l || is_range r || ne_ from1 to1
      then Ok (set_to (set_from range_new from1) to1)
      else Ok (set_from range_new from1)
    else Ok range_new.

(* addr_range::match(), addr_range.cpp:791-815. *)
Definition range_match (r : addr_range) (address : addr) : res bool :=
  if is_empty r then Ok false
  else if is_range r then is_in r address
  else if has_from r then Ok (match_ (f_from r) address false)
  else Ok (match_ (f_to r) address false).

(* enum class compare_t, addr.h:77-93. *)
Inductive compare_t : Set :=
| COMPARE_EQUAL
| COMPARE_SMALLER
| COMPARE_LARGER
| COMPARE_OVERLAP_SMALL_VS_LARGE
| COMPARE_OVERLAP_LARGE_VS_SMALL
| COMPARE_INCLUDED
| COMPARE_INCLUDES
| COMPARE_PRECEDES
| COMPARE_FOLLOWS
| COMPARE_FIRST
| COMPARE_LAST
| COMPARE_IPV4_VS_IPV6
| COMPARE_IPV6_VS_IPV4
| COMPARE_UNORDERED.

(* The part of addr_range::compare() after the family tests,
   addr_range.cpp:933-990; the assert() at 980 always holds and is left out. *)
Definition compare_intervals (l r : addr_range) : compare_t :=
  let lhs_from := eff_from l in
  let lhs_to := eff_to l in
  let rhs_from := eff_from r in
  let rhs_to := eff_to r in
  if lt_ lhs_to rhs_from then
    if is_next lhs_to rhs_from then COMPARE_PRECEDES else COMPARE_SMALLER
  else if gt_ lhs_from rhs_to then
    if is_previous lhs_from rhs_to then COMPARE_FOLLOWS else COMPARE_LARGER
  else if le_ lhs_from rhs_from then
    if ge_ lhs_to rhs_to then
      if eq_ lhs_from rhs_from && eq_ lhs_to rhs_to then COMPARE_EQUAL
      else COMPARE_INCLUDED
    else if eq_ lhs_from rhs_from then COMPARE_INCLUDES
    else COMPARE_OVERLAP_SMALL_VS_LARGE
  else if le_ lhs_to rhs_to then COMPARE_INCLUDES
  else COMPARE_OVERLAP_LARGE_VS_SMALL.

(* addr_range::compare(), addr_range.cpp:885-990. *)
Definition compare (l r : addr_range) (mixed : bool) : compare_t :=
  if negb (is_defined l) || negb (is_defined r) then COMPARE_UNORDERED
  else if is_empty l then
    if is_empty r then COMPARE_UNORDERED else COMPARE_LAST
  else if is_empty r then COMPARE_FIRST
  else if negb mixed then
    if range_is_ipv4 l then
      if negb (range_is_ipv4 r) then COMPARE_IPV4_VS_IPV6
      else compare_intervals l r
    else if range_is_ipv4 r then COMPARE_IPV6_VS_IPV4
    else compare_intervals l r
  else compare_intervals l r.

(* addr_range::operator <, addr_range.cpp:1008-1025. *)
Definition range_lt (l r : addr_range) : bool :=
  match compare l r true with
  | COMPARE_SMALLER | COMPARE_OVERLAP_SMALL_VS_LARGE | COMPARE_INCLUDED
  | COMPARE_PRECEDES | COMPARE_FIRST => true
  | _ => false
  end.

(* address_match_ranges(), addr_range.cpp:1039-1051. *)
Fixpoint address_match_ranges (ranges : list addr_range) (address : addr) : res bool :=
  match ranges with
  | [] => Ok false
  | r :: rs =>
      let! b := range_match r address in
      if b then Ok true else address_match_ranges rs address
  end.

(* The loop over j in optimize_vector(), addr_range.cpp:1082-1107.  vi is
   v[i], kept the elements i+1..j-1 (already examined), rest the elements from
   j on.  Returns v[i], the elements after it, `result` and the outcome. *)
Fixpoint optimize_inner (ra : addr_range) (vi : addr) (kept rest : list addr)
    (result : bool) : addr * list addr * bool * res unit :=
  match rest with
  | [] => (vi, kept, result, Ok tt)
  | vj :: rest' =>
      let '(rb, o) := from_cidr range_new vj in
      match o with
      | Ok _ =>
          match union_if_possible ra rb with
          | Ok u =>
              if is_defined u then
                let p := apply_mask (get_from u) false in
                let q := apply_mask (get_from u) true in
                if eq_ p (get_from u) && eq_ q (get_to u)
                then optimize_inner u p kept rest' true
                else optimize_inner ra vi (kept ++ [vj]) rest' result
              else optimize_inner ra vi (kept ++ [vj]) rest' result
          | Throw e => (vi, kept ++ rest, result, Throw e)
          | UB => (vi, kept ++ rest, result, UB)
          | OutOfFuel => (vi, kept ++ rest, result, OutOfFuel)
          end
      | Throw e => (vi, kept ++ rest, result, Throw e)
      | UB => (vi, kept ++ rest, result, UB)
      | OutOfFuel => (vi, kept ++ rest, result, OutOfFuel)
      end
  end.

(* The loop over i in optimize_vector(), addr_range.cpp:1078-1108: done are
   the elements before i.  Each iteration removes at least one element from
   `rest`, so a fuel of length v is enough. *)
Fixpoint optimize_outer (fuel : nat) (done rest : list addr) (result : bool)
  : list addr * res bool :=
  match rest with
  | [] => (done, Ok result)
  | vi :: rest' =>
      match fuel with
      | O => (done ++ rest, OutOfFuel)
      | S k =>
          let '(ra, o) := from_cidr range_new vi in
          match o with
          | Ok _ =>
              let '(vi', after, result', o') := optimize_inner ra vi [] rest' result in
              match o' with
              | Ok _ => optimize_outer k (done ++ [vi']) after result'
              | Throw e => (done ++ vi' :: after, Throw e)
              | UB => (done ++ vi' :: after, UB)
              | OutOfFuel => (done ++ vi' :: after, OutOfFuel)
              end
          | Throw e => (done ++ rest, Throw e)
          | UB => (done ++ rest, UB)
          | OutOfFuel => (done ++ rest, OutOfFuel)
          end
      end
  end.

(* optimize_vector(), addr_range.cpp:1073-1111: the vector left behind and the
   outcome. *)
Definition optimize_vector (v : list addr) : list addr * res bool :=
  optimize_outer (length v) [] v false.
