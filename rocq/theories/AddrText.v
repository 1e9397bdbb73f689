(* Text output of addr and addr_range. *)
From Verif Require Import Base Addr Range Inet.
Local Open Scope Z_scope.

(* string_ip_t, libaddr/addr.h:115-133 *)
Definition STRING_IP_ADDRESS : Z := 0x0001.
(* libaddr/addr.h:115-133 *)
Definition STRING_IP_BRACKET_ADDRESS : Z := 0x0002.
(* libaddr/addr.h:115-133 *)
Definition STRING_IP_PORT : Z := 0x0004.
(* libaddr/addr.h:115-133 *)
Definition STRING_IP_PORT_NAME : Z := 0x0008.
(* libaddr/addr.h:115-133 *)
Definition STRING_IP_MASK : Z := 0x0010.
(* libaddr/addr.h:115-133 *)
Definition STRING_IP_BRACKET_MASK : Z := 0x0020.
(* libaddr/addr.h:115-133 *)
Definition STRING_IP_MASK_AS_ADDRESS : Z := 0x0040.
(* libaddr/addr.h:115-133 *)
Definition STRING_IP_MASK_IF_NEEDED : Z := 0x0080.
(* libaddr/addr.h:115-133 *)
Definition STRING_IP_DEFAULT_AS_ASTERISK : Z := 0x0100.
(* libaddr/addr.h:115-133 *)
Definition STRING_IP_DEFAULT_AS_IPV4 : Z := 0x0200.
(* libaddr/addr.h:137 *)
Definition STRING_IP_ADDRESS_PORT : Z :=
  Z.lor STRING_IP_BRACKET_ADDRESS STRING_IP_PORT.
(* libaddr/addr.h:142-144 *)
Definition STRING_IP_ALL : Z :=
  Z.lor (Z.lor STRING_IP_BRACKET_ADDRESS STRING_IP_PORT) STRING_IP_BRACKET_MASK.

(* `(mode & flags) != 0`, addr.cpp:1265 *)
Definition has (mode flags : Z) : bool := negb (Z.land mode flags =? 0).

(* The condition of addr.cpp:1265, 1298, 1395, 1445. *)
Definition shows_address (mode : Z) : bool :=
  has mode (Z.lor STRING_IP_ADDRESS STRING_IP_BRACKET_ADDRESS).
(* The condition of addr.cpp:1296, 1443. *)
Definition shows_port (mode : Z) : bool :=
  has mode (Z.lor STRING_IP_PORT STRING_IP_PORT_NAME).
(* The condition of addr.cpp:1318-1319, 1465-1466. *)
Definition shows_mask (mode : Z) (a : addr) : bool :=
  has mode (Z.lor (Z.lor (Z.lor STRING_IP_MASK STRING_IP_BRACKET_MASK)
                         STRING_IP_MASK_AS_ADDRESS) STRING_IP_MASK_IF_NEEDED)
  && (negb (get_mask_size a =? 128) || negb (has mode STRING_IP_MASK_IF_NEEDED)).

(* The port part, addr.cpp:1296-1316 and 1443-1463. *)
Definition port_text (y : sys) (a : addr) (mode : Z) : res str :=
  if shows_port mode then
    let colon := if shows_address mode then [58] else [] in
    let! name := if has mode STRING_IP_PORT_NAME then get_port_name y a else Ok [] in
    match name with
    | [] => Ok (colon ++ dec_string (get_port a))
    | _ :: _ => Ok (colon ++ name)
    end
  else Ok [].

(* The slash in front of a mask, addr.cpp:1340-1346, 1476-1482. *)
Definition slash (mode : Z) : str :=
  if has mode (Z.lor (Z.lor (Z.lor STRING_IP_ADDRESS STRING_IP_BRACKET_ADDRESS)
                            STRING_IP_PORT) STRING_IP_PORT_NAME)
  then [47] else [].

(* `bits`, addr.cpp:1347-1351, 1483-1487 *)
Definition mask_bits (a : addr) (mode : Z) : Z :=
  if has mode STRING_IP_MASK_AS_ADDRESS then -1 else get_mask_size a.

(* The mask part of to_ipv4_string(), addr.cpp:1318-1360. *)
Definition mask_text4 (a : addr) (mode : Z) : res str :=
  if shows_mask mode a then
    if negb (is_mask_ipv4_compatible a) then Throw E_unexpected_mask
    else
      let bits := mask_bits a mode in
      Ok (slash mode ++
          (if bits =? -1 then inet_ntop4 (skipn 12 (f_mask a))
           else to_string_int (bits - 96)))
  else Ok [].

(* addr::to_ipv4_string(), addr.cpp:1258-1363; inet_ntop() does not fail with
   a buffer of this size. *)
Definition to_ipv4_string (y : sys) (a : addr) (mode : Z) : res str :=
  let! ip :=
    if shows_address mode then
      if negb (is_ipv4 a) then Throw E_invalid_state
      else if has mode STRING_IP_DEFAULT_AS_ASTERISK && is_default a then Ok [42]
      else Ok (inet_ntop4 (skipn 12 (s6 a)))
    else Ok [] in
  let! port := port_text y a mode in
  let! mask := mask_text4 a mode in
  Ok (ip ++ port ++ mask).

(* `include_brackets`, addr.cpp:1389-1393 *)
Definition brackets (mode : Z) : bool :=
  has mode (Z.lor (Z.lor (Z.lor STRING_IP_BRACKET_ADDRESS STRING_IP_BRACKET_MASK)
                         STRING_IP_PORT) STRING_IP_PORT_NAME).

(* text between brackets when asked for, addr.cpp:1399-1402, 1437-1440,
   1490-1498 *)
Definition bracketed (b : bool) (s : str) : str :=
  if b then [91] ++ s ++ [93] else s.

(* The address part of to_ipv6_string() and the value include_brackets has
   afterwards, addr.cpp:1395-1441. *)
Definition ip_text6 (a : addr) (mode : Z) : str * bool :=
  if shows_address mode then
    if is_default a then
      if has mode STRING_IP_DEFAULT_AS_ASTERISK
      then (bracketed (brackets mode) [42], brackets mode)
      else if has mode STRING_IP_DEFAULT_AS_IPV4
      then (lit "0.0.0.0", false)
      else (bracketed (brackets mode) (lit "::"), brackets mode)
    else (bracketed (brackets mode) (inet_ntop6 (s6 a)), brackets mode)
  else ([], brackets mode).

(* The mask part of to_ipv6_string(), addr.cpp:1465-1504. *)
Definition mask_text6 (a : addr) (mode : Z) (include_brackets : bool) : str :=
  if shows_mask mode a then
    let bits := mask_bits a mode in
    slash mode ++
    (if bits =? -1 then bracketed include_brackets (inet_ntop6 (f_mask a))
     else to_string_int bits)
  else [].

(* addr::to_ipv6_string(), addr.cpp:1385-1507. *)
Definition to_ipv6_string (y : sys) (a : addr) (mode : Z) : res str :=
  let (ip, include_brackets) := ip_text6 a mode in
  let! port := port_text y a mode in
  Ok (ip ++ port ++ mask_text6 a mode include_brackets).

(* addr::to_ipv4or6_string(), addr.cpp:1525-1529. *)
Definition to_ipv4or6_string (y : sys) (a : addr) (mode : Z) : res str :=
  if is_ipv4 a then to_ipv4_string y a mode else to_ipv6_string y a mode.

(* addr::get_str_port(), addr.cpp:2393-2396. *)
Definition get_str_port (a : addr) : str := dec_string (get_port a).

(* addr::is_hostname_an_ip(), addr.cpp:951-964. *)
Definition is_hostname_an_ip (a : addr) : bool :=
  match f_hostname a with
  | [] => true
  | h =>
      match inet_pton4 (c_str h) with
      | Some _ => true
      | None => match inet_pton6 (c_str h) with Some _ => true | None => false end
      end
  end.

(* addr::get_network_type_string(), addr.cpp:1714-1747; get_network_type()
   may fill the cache. *)
Definition get_network_type_string (a : addr) : addr * str :=
  let (a', t) := get_network_type a in
  (a', match t with
       | NETWORK_TYPE_UNDEFINED => lit "Undefined"
       | NETWORK_TYPE_PRIVATE => lit "Private"
       | NETWORK_TYPE_CARRIER => lit "Carrier"
       | NETWORK_TYPE_LINK_LOCAL => lit "Local Link"
       | NETWORK_TYPE_MULTICAST => lit "Multicast"
       | NETWORK_TYPE_LOOPBACK => lit "Loopback"
       | NETWORK_TYPE_ANY => lit "Any"
       | NETWORK_TYPE_DOCUMENTATION => lit "Documentation"
       | NETWORK_TYPE_UNKNOWN => lit "Unknown"
       end).

(* addr_range::to_string(), addr_range.cpp:530-572. *)
Definition range_to_string (y : sys) (r : addr_range) (mode : Z) : res str :=
  if is_empty r || negb (is_defined r)
  then Ok (lit "<empty address range>")
  else if has_from r && has_to r then
    let! from := to_ipv4or6_string y (f_from r)
                   (Z.land mode (Z.lor STRING_IP_ADDRESS STRING_IP_BRACKET_ADDRESS)) in
    let! to := to_ipv4or6_string y (f_to r) mode in
    Ok (from ++ [45] ++ to)
  else if has_from r then to_ipv4or6_string y (f_from r) mode
  else
    let! to := to_ipv4or6_string y (f_to r) mode in
    Ok ([45] ++ to).

(* The loop of the static addr_range::to_string(), addr_range.cpp:606-618;
   first: no range was output yet. *)
Fixpoint ranges_to_string_loop (y : sys) (ranges : list addr_range) (mode : Z)
  (separator : str) (first : bool) (result : str) : res str :=
  match ranges with
  | [] => Ok result
  | r :: rest =>
      let result := if first then result else result ++ separator in
      let! s := range_to_string y r mode in
      ranges_to_string_loop y rest mode separator false (result ++ s)
  end.
(* static addr_range::to_string(), addr_range.cpp:593-621. *)
Definition ranges_to_string (y : sys) (ranges : list addr_range) (mode : Z)
  (separator : str) : res str :=
  ranges_to_string_loop y ranges mode separator true [].
