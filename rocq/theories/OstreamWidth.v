(* Model of the operators << with the width, the fill character, the adjustment
   and the state of the stream: addr.h:448-493, addr_range.h:97-131. The text
   of each item is that of Ostream.v. *)
From Verif Require Import Base Addr AddrText Range Ostream.
Local Open Scope Z_scope.

(* What operator << (std::ostream &, std::string const &) looks at: width(),
   fill(), whether the adjustment is std::left, whether the stream is good();
   addr.h:455, 459, 488; addr_range.h:104, 108, 121, 125. A stream whose
   buffer refuses characters is not modelled. *)
Record format := mk_format { width : Z; fill : Z; left_adjust : bool; good : bool }.
(* out.width(w), done by std::setw() and by each operator << of a string;
   addr.h:455, 459, 488. *)
Definition set_width (f : format) (w : Z) : format := mk_format w (fill f) (left_adjust f) (good f).
(* operator << (std::ostream &, std::string const &) of the standard library,
   which is all that libaddr calls; addr.h:455, 459, 488. *)
Definition put_text (f : format) (t : str) : str * format :=
  if good f
  then let pad := repeat (fill f) (Z.to_nat (width f - Z.of_nat (length t))) in
       (if left_adjust f then t ++ pad else pad ++ t, set_width f 0)
  else ([], f).
(* out << address, addr.h:448-462. *)
Definition put_addr_in (y : sys) (i : option info) (f : format) (a : addr) : str * format * res unit :=
  match to_ipv4or6_string y a (match i with None => STRING_IP_ALL | Some i => f_mode i end) with
  | Ok t => (put_text f t, Ok tt)
  | Throw e => ([], f, Throw e)
  | UB => ([], f, UB)
  | OutOfFuel => ([], f, OutOfFuel)
  end.
(* The loop over the addresses of a container, addr.h:478-490. *)
Fixpoint put_addrs_in (y : sys) (i : option info) (sep : str) (first : bool) (f : format) (l : list addr)
    : str * format * res unit :=
  match l with
  | [] => ([], f, Ok tt)
  | a :: l =>
      let (before, f) := if first then ([], f) else put_text f sep in
      let '(t, f, r) := put_addr_in y i f a in
      match r with
      | Ok _ => let '(u, f, r) := put_addrs_in y i sep false f l in (before ++ t ++ u, f, r)
      | _ => (before ++ t, f, r)
      end
  end.
(* The operators <<: addr.h:448-493, addr_range.h:97-131. *)
Definition put_item_in (y : sys) (i : option info) (f : format) (x : item) : str * format * res unit :=
  let whole (r : res str) :=
    match r with
    | Ok t => (put_text f t, Ok tt)
    | Throw e => ([], f, Throw e)
    | UB => ([], f, UB)
    | OutOfFuel => ([], f, OutOfFuel)
    end in
  match x with
  | I_addr a => put_addr_in y i f a
  | I_addrs l => put_addrs_in y i (match i with None => lit "," | Some i => f_sep i end) true f l
  | I_range r => whole (range_to_string y r (match i with None => STRING_IP_ALL | Some i => f_mode i end))
  | I_ranges l =>
      whole (match i with
             | None => ranges_to_string y l STRING_IP_ALL (lit ",")
             | Some i => ranges_to_string y l (f_mode i) (f_sep i)
             end)
  end.
