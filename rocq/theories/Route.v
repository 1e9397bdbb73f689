(* Model of route (route.h, route.cpp).  The content of /proc/net/route is an
   argument; errno is in Errno.v. *)
From Verif Require Import Base Addr.
Local Open Scope Z_scope.

(* readwords(), route.cpp:82-112: the words of one line and the rest of the
   stream; None: -1 is returned, the end of the stream was reached. s: the
   bytes left in the stream; w, words: the local variables. *)
Fixpoint readwords_loop (s w : str) (words : list str) : option (list str * str) :=
  match s with
  | [] => None
  | c :: r =>
      if c =? 10 then Some (words, r)
      else if (c =? 9) || (c =? 32) then
        match w with
        | [] => readwords_loop r w words
        | _ => readwords_loop r [] (words ++ [w])
        end
      else readwords_loop r (w ++ [c]) words
  end.
(* route.cpp:82-85. *)
Definition readwords (s : str) : option (list str * str) := readwords_loop s [] [].

(* std::find() in get_position(), route.cpp:115-128. *)
Fixpoint position (headers : list str) (column_name : str) (i : Z) : Z :=
  match headers with
  | [] => -1
  | h :: r => if str_eqb h column_name then i else position r column_name (i + 1)
  end.
(* get_position(), route.cpp:115-128. *)
Definition get_position (headers : list str) (column_name : str) : Z := position headers column_name 0.

(* get_value(), route.cpp:131-141; entries[-1] is undefined. *)
Definition get_value (entries : list str) (pos : Z) : res str :=
  if pos <? Z.of_nat (length entries) then
    if pos <? 0 then UB
    else Ok (nth (Z.to_nat pos) entries [])
  else Ok [].

(* hex_to_number(), route.cpp:144-159. *)
Definition hex_to_number (c : Z) : res Z :=
  if (c >=? 48) && (c <=? 57) then Ok (c - 48)
  else if (c >=? 97) && (c <=? 102) then Ok (c - 97 + 10)
  else if (c >=? 65) && (c <=? 70) then Ok (c - 65 + 10)
  else Throw E_invalid_argument.

(* addr::addr(sockaddr_in const &), addr.cpp:325-329. *)
Definition addr_from_in (x : sockaddr_in) : res addr :=
  match set_ipv4 addr_new x with
  | (a, Ok _) => Ok a
  | (_, Throw e) => Throw e
  | (_, UB) => UB
  | (_, OutOfFuel) => OutOfFuel
  end.

(* hex_to_addr(), route.cpp:162-184; the shifts and ors, of an int then
   converted to an uint32_t. Simplification: the operands are evaluated from
   the last digit to the first; the order only matters for which of two
   identical exceptions is thrown. *)
Definition hex_to_addr (address : str) : res addr :=
  match address with
  | [c0; c1; c2; c3; c4; c5; c6; c7] =>
      let! d7 := hex_to_number c7 in
      let! d6 := hex_to_number c6 in
      let! d5 := hex_to_number c5 in
      let! d4 := hex_to_number c4 in
      let! d3 := hex_to_number c3 in
      let! d2 := hex_to_number c2 in
      let! d1 := hex_to_number c1 in
      let! d0 := hex_to_number c0 in
      let s := Z.lor (Z.lor (Z.lor (Z.lor (Z.lor (Z.lor (Z.lor
                 (Z.shiftl d7 0) (Z.shiftl d6 4)) (Z.shiftl d5 8)) (Z.shiftl d4 12))
                 (Z.shiftl d3 16)) (Z.shiftl d2 20)) (Z.shiftl d1 24)) (Z.shiftl d0 28) in
      addr_from_in (mk_in AF_INET 0 (u32 s))
  | _ => Throw E_invalid_argument
  end.

(* isspace() of the "C" locale, used by std::stol(), route.cpp:312-318. *)
Definition is_space (c : Z) : bool := ((9 <=? c) && (c <=? 13)) || (c =? 32).
(* route.cpp:312-318. *)
Fixpoint skip_spaces (s : str) : str :=
  match s with
  | c :: r => if is_space c then skip_spaces r else s
  | [] => []
  end.
(* The digits at the start of a string, route.cpp:312-318. *)
Fixpoint leading_digits (s : str) : str :=
  match s with
  | c :: r => if (48 <=? c) && (c <=? 57) then c :: leading_digits r else []
  | [] => []
  end.
(* std::stol(s) of the standard library (base 10, 64 bit long),
   route.cpp:312-318: blanks, a sign, then as many digits as there are; what
   follows is ignored. std::invalid_argument without digits,
   std::out_of_range when it does not fit. *)
Definition stol (s : str) : res Z :=
  let s := skip_spaces s in
  let '(neg, s) := match s with
                   | c :: r => if c =? 45 then (true, r) else if c =? 43 then (false, r) else (false, s)
                   | [] => (false, s)
                   end in
  let d := leading_digits s in
  match d with
  | [] => Throw E_std
  | _ =>
      let v := fold_left (fun v c => v * 10 + (c - 48)) d 0 in
      let v := if neg then - v else v in
      if (v <? - 2 ^ 63) || (v >=? 2 ^ 63) then Throw E_std else Ok v
  end.
(* The conversion from long to int, route.cpp:312-318. *)
Definition to_int (v : Z) : Z := (v + 2 ^ 31) mod 2 ^ 32 - 2 ^ 31.

(* The fields of class route, route.h:64-73. *)
Record route := mk_route {
  f_interface_name : str;
  f_destination_address : addr;
  f_gateway_address : addr;
  f_flags : Z;
  f_reference_count : Z;
  f_use : Z;
  f_metric : Z;
  f_mtu : Z;
  f_window : Z;
  f_irtt : Z
}.

(* The mask written on the destination, route.cpp:322-334. *)
Definition route_mask (destination : addr) (mask_str : str) : res addr :=
  match mask_str with
  | [] => Ok destination
  | _ =>
      let! mask := hex_to_addr mask_str in
      let! ipv4 := get_ipv4 mask in
      let s := s_addr ipv4 in
      Ok (set_mask destination
            ([255; 255; 255; 255; 255; 255; 255; 255; 255; 255; 255; 255] ++
             [u8 (Z.shiftr s 0); u8 (Z.shiftr s 8); u8 (Z.shiftr s 16); u8 (Z.shiftr s 24)]))
  end.

(* stol() of a column, narrowed, route.cpp:312-318. *)
Definition int_value (entries : list str) (pos : Z) : res Z :=
  let! s := get_value entries pos in
  let! v := stol s in
  Ok (to_int v).

(* The body of the loop of route::get_ipv4_routes(), route.cpp:307-336. *)
Definition make_route (headers entries : list str) : res route :=
  let! iface := get_value entries (get_position headers (lit "Iface")) in
  let! d := get_value entries (get_position headers (lit "Destination")) in
  let! destination := hex_to_addr d in
  let! g := get_value entries (get_position headers (lit "Gateway")) in
  let! gateway := hex_to_addr g in
  let! flags := int_value entries (get_position headers (lit "Flags")) in
  let! refcnt := int_value entries (get_position headers (lit "RefCnt")) in
  let! use := int_value entries (get_position headers (lit "Use")) in
  let! metric := int_value entries (get_position headers (lit "Metric")) in
  let! mtu := int_value entries (get_position headers (lit "MTU")) in
  let! window := int_value entries (get_position headers (lit "Window")) in
  let! irtt := int_value entries (get_position headers (lit "IRTT")) in
  let! m := get_value entries (get_position headers (lit "Mask")) in
  let! destination := route_mask destination m in
  Ok (mk_route iface destination gateway flags refcnt use metric mtu window irtt).

(* The loop of route::get_ipv4_routes(), route.cpp:294-337. *)
Fixpoint routes_loop (fuel : nat) (headers : list str) (s : str) (routes : list route) : res (list route) :=
  match fuel with
  | O => OutOfFuel
  | S fuel =>
      match readwords s with
      | None => Ok routes
      | Some (entries, s) =>
          let! r := make_route headers entries in
          routes_loop fuel headers s (routes ++ [r])
      end
  end.

(* route::get_ipv4_routes(), route.cpp:253-340; file: what /proc/net/route
   contains, None: it cannot be opened. Each line takes at least a byte. *)
Definition get_ipv4_routes (file : option str) : res (list route) :=
  let s := match file with Some s => s | None => [] end in
  match readwords s with
  | None => Ok []
  | Some (headers, s) =>
      if (get_position headers (lit "Iface") =? -1)
         || (get_position headers (lit "Destination") =? -1)
         || (get_position headers (lit "Gateway") =? -1)
      then Ok []
      else routes_loop (S (length s)) headers s []
  end.

(* route::get_interface_name() and the other getters, route.cpp:343-419. *)
Definition get_interface_name (r : route) : str := f_interface_name r.
(* route.cpp:349-352. *)
Definition get_destination_address (r : route) : addr := f_destination_address r.
(* route.cpp:355-358. *)
Definition get_gateway_address (r : route) : addr := f_gateway_address r.
(* route.cpp:361-364. *)
Definition get_flags (r : route) : Z := f_flags r.
(* route.cpp:386-389. *)
Definition get_reference_count (r : route) : Z := f_reference_count r.
(* route.cpp:392-395. *)
Definition get_use (r : route) : Z := f_use r.
(* route.cpp:398-401. *)
Definition get_metric (r : route) : Z := f_metric r.
(* route.cpp:404-407. *)
Definition get_mtu (r : route) : Z := f_mtu r.
(* route.cpp:410-413. *)
Definition get_window (r : route) : Z := f_window r.
(* route.cpp:416-419. *)
Definition get_irtt (r : route) : Z := f_irtt r.

(* g_rtf_flag_names, route.cpp:201-223, with the values of <net/route.h>. *)
Definition rtf_flag_names : list (Z * Z) :=
  [(0x0001, 85); (0x0002, 71); (0x0200, 33); (0x0004, 72); (0x0008, 82);
   (0x0010, 68); (0x0020, 77); (0x00010000, 100); (0x00020000, 97); (0x00040000, 99);
   (0x00200000, 111); (0x01000000, 67); (0x02000000, 102); (0x04000000, 112);
   (0x80000000, 108); (0x0040, 117); (0x0080, 119); (0x0100, 105)].
(* route::flags_to_string(), route.cpp:367-383; the int is converted to an
   uint32_t by the &. *)
Definition flags_to_string (r : route) : str :=
  fold_left (fun result fn =>
    if negb (Z.land (u32 (f_flags r)) (fst fn) =? 0) then result ++ [snd fn] else result)
    rtf_flag_names [].

(* find_default_route(), route.cpp:422-438; None: nullptr. *)
Definition find_default_route (routes : list route) : option route :=
  find (fun r => is_default (get_destination_address r)) routes.
