(* Model of the addr class: libaddr/addr.h, libaddr/addr.cpp. *)
From Verif Require Import Base.
Local Open Scope Z_scope.

(* <sys/socket.h>, <netinet/in.h> constants of Linux. *)
Definition AF_UNIX : Z := 1.
(* <sys/socket.h>; used at addr.cpp:358. *)
Definition AF_INET : Z := 2.
(* <sys/socket.h>; used at addr.cpp:1195. *)
Definition AF_INET6 : Z := 10.
(* <netinet/in.h>; used at addr.cpp:605. *)
Definition IPPROTO_IP : Z := 0.
(* <netinet/in.h>; used at addr.h:256. *)
Definition IPPROTO_TCP : Z := 6.
(* <netinet/in.h>; used at addr.cpp:607. *)
Definition IPPROTO_UDP : Z := 17.
(* <sys/socket.h>; used at addr.cpp:2212. *)
Definition SOCK_STREAM : Z := 1.
(* <sys/socket.h>; used at addr.cpp:2216. *)
Definition SOCK_DGRAM : Z := 2.

(* struct sockaddr_in; addr.cpp:226-231.  sin_port and s_addr hold the raw
   (network order) words as the host loads them; sin_zero is not modelled. *)
Record sockaddr_in := mk_in {
  sin_family : Z;
  sin_port : Z;
  s_addr : Z
}.

(* struct sockaddr_in6; addr.cpp:252-258.  sin6_addr is s6_addr[16]. *)
Record sockaddr_in6 := mk_in6 {
  sin6_family : Z;
  sin6_port : Z;
  sin6_flowinfo : Z;
  sin6_addr : list Z;
  sin6_scope_id : Z
}.

(* s6_addr16[i] and s6_addr32[i]: views of the union, addr.cpp:234-249, on a
   little-endian host. *)
Definition load16 (l : list Z) (i : nat) : Z :=
  at_ l (2 * i) + 2 ^ 8 * at_ l (2 * i + 1).
(* s6_addr32[i] read, e.g. addr.cpp:1149. *)
Definition load32 (l : list Z) (i : nat) : Z :=
  at_ l (4 * i) + 2 ^ 8 * at_ l (4 * i + 1)
  + 2 ^ 16 * at_ l (4 * i + 2) + 2 ^ 24 * at_ l (4 * i + 3).
(* s6_addr16[i] write, e.g. addr.cpp:376. *)
Definition store16 (l : list Z) (i : nat) (v : Z) : list Z :=
  upd (upd l (2 * i) (u8 v)) (2 * i + 1) (u8 (v / 2 ^ 8)).
(* s6_addr32[i] write, e.g. addr.cpp:377. *)
Definition store32 (l : list Z) (i : nat) (v : Z) : list Z :=
  upd (upd (upd (upd l (4 * i) (u8 v)) (4 * i + 1) (u8 (v / 2 ^ 8)))
         (4 * i + 2) (u8 (v / 2 ^ 16))) (4 * i + 3) (u8 (v / 2 ^ 24)).

(* value-initialised array, e.g. addr.cpp:366, addr.h:64. *)
Definition zeroes (n : nat) : list Z := repeat 0 n.

(* init_in6(), addr.h:62-67. *)
Definition init_in6 : sockaddr_in6 := mk_in6 AF_INET6 0 0 (zeroes 16) 0.

(* enum class network_type_t, addr.h:96-108 (PUBLIC is the same as UNKNOWN). *)
Inductive network_type_t : Set :=
| NETWORK_TYPE_UNDEFINED
| NETWORK_TYPE_PRIVATE
| NETWORK_TYPE_CARRIER
| NETWORK_TYPE_LINK_LOCAL
| NETWORK_TYPE_MULTICAST
| NETWORK_TYPE_LOOPBACK
| NETWORK_TYPE_ANY
| NETWORK_TYPE_DOCUMENTATION
| NETWORK_TYPE_UNKNOWN.
(* addr.h:107. *)
Definition NETWORK_TYPE_PUBLIC := NETWORK_TYPE_UNKNOWN.

Scheme Equality for network_type_t.

(* The fields of class addr, addr.h:251-259. *)
Record addr := mk_addr {
  f_address : sockaddr_in6;
  f_mask : list Z;
  f_port_defined : bool;
  f_protocol_defined : bool;
  f_mask_defined : bool;
  f_protocol : Z;
  f_private_network : network_type_t;
  f_interface : str;
  f_hostname : str
}.

(* Default member initialisers and addr::addr(), addr.h:251-259,
   addr.cpp:312-315. *)
Definition addr_new : addr :=
  mk_addr init_in6 (repeat 255 16) false false false IPPROTO_TCP
    NETWORK_TYPE_UNDEFINED [] [].

(* Field assignments (C++ `f_x = v`). *)
Definition with_address (a : addr) v := mk_addr v (f_mask a) (f_port_defined a)
  (f_protocol_defined a) (f_mask_defined a) (f_protocol a)
  (f_private_network a) (f_interface a) (f_hostname a).
(* assignment to f_mask, addr.h:252. *)
Definition with_mask (a : addr) v := mk_addr (f_address a) v (f_port_defined a)
  (f_protocol_defined a) (f_mask_defined a) (f_protocol a)
  (f_private_network a) (f_interface a) (f_hostname a).
(* assignment to f_port_defined, addr.h:253. *)
Definition with_port_defined (a : addr) v := mk_addr (f_address a) (f_mask a) v
  (f_protocol_defined a) (f_mask_defined a) (f_protocol a)
  (f_private_network a) (f_interface a) (f_hostname a).
(* assignment to f_protocol_defined, addr.h:254. *)
Definition with_protocol_defined (a : addr) v := mk_addr (f_address a) (f_mask a)
  (f_port_defined a) v (f_mask_defined a) (f_protocol a)
  (f_private_network a) (f_interface a) (f_hostname a).
(* assignment to f_mask_defined, addr.h:255. *)
Definition with_mask_defined (a : addr) v := mk_addr (f_address a) (f_mask a)
  (f_port_defined a) (f_protocol_defined a) v (f_protocol a)
  (f_private_network a) (f_interface a) (f_hostname a).
(* assignment to f_protocol, addr.h:256. *)
Definition with_protocol (a : addr) v := mk_addr (f_address a) (f_mask a)
  (f_port_defined a) (f_protocol_defined a) (f_mask_defined a) v
  (f_private_network a) (f_interface a) (f_hostname a).
(* assignment to f_private_network, addr.h:257. *)
Definition with_private_network (a : addr) v := mk_addr (f_address a) (f_mask a)
  (f_port_defined a) (f_protocol_defined a) (f_mask_defined a) (f_protocol a)
  v (f_interface a) (f_hostname a).
(* assignment to f_interface, addr.h:258. *)
Definition with_interface (a : addr) v := mk_addr (f_address a) (f_mask a)
  (f_port_defined a) (f_protocol_defined a) (f_mask_defined a) (f_protocol a)
  (f_private_network a) v (f_hostname a).
(* assignment to f_hostname, addr.h:259. *)
Definition with_hostname (a : addr) v := mk_addr (f_address a) (f_mask a)
  (f_port_defined a) (f_protocol_defined a) (f_mask_defined a) (f_protocol a)
  (f_private_network a) (f_interface a) v.

(* f_address.sin6_addr.s6_addr and writes to it. *)
Definition s6 (a : addr) : list Z := sin6_addr (f_address a).
(* assignment to f_address.sin6_addr, addr.h:251. *)
Definition with_s6 (a : addr) (b : list Z) : addr :=
  with_address a (mk_in6 (sin6_family (f_address a)) (sin6_port (f_address a))
    (sin6_flowinfo (f_address a)) b (sin6_scope_id (f_address a))).
(* assignment to f_address.sin6_port, addr.h:251, addr.cpp:495. *)
Definition with_sin6_port (a : addr) (p : Z) : addr :=
  with_address a (mk_in6 (sin6_family (f_address a)) p
    (sin6_flowinfo (f_address a)) (sin6_addr (f_address a))
    (sin6_scope_id (f_address a))).

(* addr::address_changed(), addr.cpp:2990-2993. *)
Definition address_changed (a : addr) : addr :=
  with_private_network a NETWORK_TYPE_UNDEFINED.

(* addr::set_ipv4(), addr.cpp:356-381.  A mutator returns the new object and
   its outcome; on Throw the object is what the exception leaves behind. *)
Definition set_ipv4 (a : addr) (sin : sockaddr_in) : addr * res unit :=
  if negb (sin_family sin =? AF_INET)
  then (a, Throw E_invalid_argument)
  else
    let b := store32 (store16 (zeroes 16) 5 65535) 3 (s_addr sin) in
    (address_changed
       (with_address a (mk_in6 AF_INET6 (sin_port sin) 0 b 0)), Ok tt).

(* addr::set_ipv4_loopback(), addr.cpp:392-400. *)
Definition set_ipv4_loopback (a : addr) : addr * res unit :=
  set_ipv4 a (mk_in AF_INET (sin6_port (f_address a))
                (bswap32 (127 * 2 ^ 24 + 1))).

(* addr::set_port_defined(), addr.cpp:411-414. *)
Definition set_port_defined (a : addr) (b : bool) : addr := with_port_defined a b.

(* addr::set_port(int), addr.cpp:487-496. *)
Definition set_port (a : addr) (port : Z) : addr * res unit :=
  if (port >? 65535) || (port <? 0)
  then (a, Throw E_invalid_argument)
  else (with_sin6_port (with_port_defined a true) (bswap16 port), Ok tt).

(* External name services.  getprotobynumber_r(): found, "success but no
   entry" (r == 0 and a null pointer) or failed (r != 0).  The ERANGE retry
   loops are not modelled: the oracle is the final answer. *)
Inductive lookup (A : Type) : Type :=
| Found (a : A)
| NoEntry
| Failed.
Arguments Found {A} a.
Arguments NoEntry {A}.
Arguments Failed {A}.

(* The external services, given as functions: the answers of the C library to the calls cited at each field. *)
Record sys := mk_sys {
  (* advgetopt::validator_integer::convert_string(), not part of /repo; used
     at addr.cpp:434, addr_parser.cpp:315,481,1892: Some v when the whole
     string is an integer which fits std::int64_t *)
  convert_string : str -> option Z;
  (* getservbyname_r(name, protocol) -> raw s_port, addr.cpp:447 *)
  getservbyname : str -> str -> lookup Z;
  (* getservbyport_r(raw port, protocol) -> name, addr.cpp:2364 *)
  getservbyport : Z -> str -> lookup str;
  (* getprotobyname_r(), addr.cpp:552, addr_parser.cpp:573 *)
  getprotobyname : str -> lookup Z;
  (* getprotobynumber_r(), addr.cpp:2459 *)
  getprotobynumber : Z -> lookup str
}.

(* addr::get_port(), addr.cpp:2342-2345. *)
Definition get_port (a : addr) : Z := bswap16 (sin6_port (f_address a)).

(* addr::is_port_defined(), addr.cpp:2330-2333. *)
Definition is_port_defined (a : addr) : bool := f_port_defined a.

(* addr::get_protocol_name(), addr.cpp:2451-2481: with r == 0 and no entry
   proto.p_name is the null pointer and std::string(nullptr) is UB. *)
Definition get_protocol_name (y : sys) (a : addr) : res str :=
  match getprotobynumber y (f_protocol a) with
  | Found n => Ok n
  | NoEntry => UB
  | Failed => Ok []
  end.

(* addr::get_port_name(), addr.cpp:2355-2384. *)
Definition get_port_name (y : sys) (a : addr) : res str :=
  let! proto := get_protocol_name y a in
  match getservbyport y (bswap16 (get_port a)) proto with
  | Found n => Ok n
  | NoEntry | Failed => Ok []
  end.

(* addr::set_port(char const ptr), addr.cpp:429-469; `set_port(p)` at line 436
   converts std::int64_t to int. *)
Definition set_port_str (y : sys) (a : addr) (port : str) : addr * res bool :=
  match convert_string y port with
  | Some p =>
      let '(a', r) := set_port a (s32 p) in
      (a', let! _ := r in Ok true)
  | None =>
      match get_protocol_name y a with
      | Ok proto =>
          match getservbyname y port proto with
          | Found sp =>
              let '(a', r) := set_port a (bswap16 sp) in
              (a', let! _ := r in Ok true)
          | NoEntry | Failed => (a, Ok false)
          end
      | Throw e => (a, Throw e)
      | UB => (a, UB)
      | OutOfFuel => (a, OutOfFuel)
      end
  end.

(* addr::set_protocol_defined(), addr.cpp:517-520. *)
Definition set_protocol_defined (a : addr) (b : bool) : addr :=
  with_protocol_defined a b.

(* addr::set_protocol(int), addr.cpp:598-628. *)
Definition set_protocol (a : addr) (protocol : Z) : addr * res unit :=
  if (protocol =? IPPROTO_IP) || (protocol =? IPPROTO_TCP)
     || (protocol =? IPPROTO_UDP)
  then
    if negb (protocol =? f_protocol a)
    then (address_changed (with_protocol (with_protocol_defined a true) protocol),
          Ok tt)
    else (a, Ok tt)
  else (a, Throw E_invalid_argument).

(* addr::set_protocol(char const ptr), addr.cpp:539-574; None is nullptr. *)
Definition set_protocol_str (y : sys) (a : addr) (protocol : option str)
  : addr * res unit :=
  match protocol with
  | None => (a, Throw E_invalid_argument)
  | Some s =>
      match getprotobyname y s with
      | Found n => set_protocol a n
      | NoEntry | Failed => (a, Throw E_invalid_argument)
      end
  end.

(* addr::is_protocol_defined(), get_protocol(), addr.cpp:2416-2436. *)
Definition is_protocol_defined (a : addr) : bool := f_protocol_defined a.
(* addr::get_protocol(), addr.cpp:2433-2436. *)
Definition get_protocol (a : addr) : Z := f_protocol a.

(* addr::set_mask_defined(), addr.cpp:644-647. *)
Definition set_mask_defined (a : addr) (b : bool) : addr := with_mask_defined a b.

(* addr::set_mask(), addr.cpp:660-664. *)
Definition set_mask (a : addr) (mask : list Z) : addr :=
  with_mask (with_mask_defined a true) mask.

(* addr::is_ipv4(), addr.cpp:1147-1153. *)
Definition is_ipv4 (a : addr) : bool :=
  (load32 (s6 a) 0 =? 0) && (load32 (s6 a) 1 =? 0)
  && (load16 (s6 a) 4 =? 0) && (load16 (s6 a) 5 =? 65535).

(* addr::get_family(), addr.cpp:974-977. *)
Definition get_family (a : addr) : Z := if is_ipv4 a then AF_INET else AF_INET6.

(* The three write loops of addr::set_mask_count(), addr.cpp:689-707: [count]
   bytes remain to be written; each iteration writes the next byte.
   Simplification: the moving pointer is the recursion over the produced
   list.  [tail] is the for loop at 704-707. *)
Fixpoint mask_count_bytes (count : nat) (mask_size : Z) : list Z :=
  match count with
  | O => []
  | S c =>
      if mask_size >=? 8
      then 255 :: mask_count_bytes c (mask_size - 8)
      else if negb (mask_size =? 0)
      then u8 (Z.shiftr 65280 mask_size) :: zeroes c
      else 0 :: zeroes c
  end.

(* addr::set_mask_count(), addr.cpp:680-708. *)
Definition set_mask_count (a : addr) (mask_size : Z) : addr * res unit :=
  let min := if is_ipv4 a then 96 else 0 in
  if (mask_size <? min) || (mask_size >? 128)
  then (a, Throw E_out_of_range)
  else (with_mask (with_mask_defined a true) (mask_count_bytes 16 mask_size),
        Ok tt).

(* addr::apply_mask(), addr.cpp:733-746. *)
Definition apply_mask (a : addr) (inversed : bool) : addr :=
  with_s6 a (map2 (fun b m => if inversed then u8 (Z.lor b (Z.lnot m))
                              else Z.land b m) (s6 a) (f_mask a)).

(* addr::get_mask(), addr.cpp:760-763. *)
Definition get_mask (a : addr) : list Z := f_mask a.

(* addr::is_mask_defined(), addr.cpp:891-894. *)
Definition is_mask_defined (a : addr) : bool := f_mask_defined a.

(* One switch of addr::get_mask_size(), addr.cpp:804-852: number of bits and
   the new value of `found`; None is `return -1`. *)
Definition mask_byte (b : Z) : option (Z * bool) :=
  if b =? 255 then Some (8, false)
  else if b =? 254 then Some (7, true)
  else if b =? 252 then Some (6, true)
  else if b =? 248 then Some (5, true)
  else if b =? 240 then Some (4, true)
  else if b =? 224 then Some (3, true)
  else if b =? 192 then Some (2, true)
  else if b =? 128 then Some (1, true)
  else if b =? 0 then Some (0, true)
  else None.

(* The loop of addr::get_mask_size(), addr.cpp:793-854. *)
Fixpoint mask_size_loop (mask : list Z) (found : bool) (count : Z) : Z :=
  match mask with
  | [] => count
  | b :: r =>
      if found then
        if negb (b =? 0) then -1 else mask_size_loop r found count
      else
        match mask_byte b with
        | Some (n, found') => mask_size_loop r found' (count + n)
        | None => -1
        end
  end.

(* addr::get_mask_size(), addr.cpp:788-857. *)
Definition get_mask_size (a : addr) : Z := mask_size_loop (f_mask a) false 0.

(* addr::is_mask_ipv4_compatible(), addr.cpp:872-883. *)
Definition is_mask_ipv4_compatible (a : addr) : bool :=
  forallb (fun b => b =? 255) (firstn 12 (f_mask a)).

(* addr::is_default(), addr.cpp:1003-1012. *)
Definition is_default (a : addr) : bool :=
  (load32 (s6 a) 0 =? 0) && (load32 (s6 a) 1 =? 0)
  && (load16 (s6 a) 4 =? 0)
  && ((load16 (s6 a) 5 =? 0) || (load16 (s6 a) 5 =? 65535))
  && (load32 (s6 a) 3 =? 0).

(* addr::get_ipv4(), addr.cpp:1166-1180. *)
Definition get_ipv4 (a : addr) : res sockaddr_in :=
  if is_ipv4 a
  then Ok (mk_in AF_INET (sin6_port (f_address a)) (load32 (s6 a) 3))
  else Throw E_invalid_state.

(* addr::set_ipv6(), addr.cpp:1193-1202. *)
Definition set_ipv6 (a : addr) (in6 : sockaddr_in6) : addr * res unit :=
  if negb (sin6_family in6 =? AF_INET6)
  then (a, Throw E_invalid_argument)
  else (address_changed (with_address a in6), Ok tt).

(* addr::set_ipv6_loopback(), addr.cpp:1209-1217. *)
Definition set_ipv6_loopback (a : addr) : addr * res unit :=
  set_ipv6 a (mk_in6 AF_INET6 (sin6_port (f_address a)) 0
                (store16 (zeroes 16) 7 (bswap16 1)) 0).

(* addr::get_ipv6(), addr.cpp:1228-1231. *)
Definition get_ipv6 (a : addr) : sockaddr_in6 := f_address a.

(* addr::ip_to_uint128(), addr.cpp:1541-1554. *)
Definition ip_to_uint128 (a : addr) : Z :=
  fold_left (fun r b => Z.lor (u128 (Z.shiftl r 8)) b) (s6 a) 0.

(* The loop of addr::ip_from_uint128(), addr.cpp:1562-1568: bytes are written
   from the last one to the first one; the list is the bytes written so
   far. *)
Fixpoint from_uint128_loop (idx : nat) (u : Z) (acc : list Z) : list Z :=
  match idx with
  | O => acc
  | S i => from_uint128_loop i (Z.shiftr u 8) (u8 u :: acc)
  end.

(* addr::ip_from_uint128(), addr.cpp:1560-1569. *)
Definition ip_from_uint128 (a : addr) (u : Z) : addr :=
  with_s6 a (from_uint128_loop 16 u []).

(* The classification inside addr::get_network_type(), IPv4 part,
   addr.cpp:1608-1638. *)
Definition network_type4 (l : list Z) : network_type_t :=
  let host_ip := bswap32 (load32 l 3) in
  if (Z.land host_ip 0xFF000000 =? 0x0A000000)
     || (Z.land host_ip 0xFFF00000 =? 0xAC100000)
     || (Z.land host_ip 0xFFFF0000 =? 0xC0A80000)
  then NETWORK_TYPE_PRIVATE
  else if Z.land host_ip 0xFFC00000 =? 0x64400000 then NETWORK_TYPE_CARRIER
  else if Z.land host_ip 0xFFFF0000 =? 0xA9FE0000 then NETWORK_TYPE_LINK_LOCAL
  else if Z.land host_ip 0xF0000000 =? 0xE0000000 then NETWORK_TYPE_MULTICAST
  else if Z.land host_ip 0xFF000000 =? 0x7F000000 then NETWORK_TYPE_LOOPBACK
  else if host_ip =? 0 then NETWORK_TYPE_ANY
  else NETWORK_TYPE_UNKNOWN.

(* IPv6 part, addr.cpp:1645-1696. *)
Definition network_type6 (l : list Z) : network_type_t :=
  if (load32 l 0 =? 0) && (load32 l 1 =? 0) && (load32 l 2 =? 0)
     && (load32 l 3 =? 0)
  then NETWORK_TYPE_ANY
  else
    let prefix := bswap16 (load16 l 0) in
    if Z.land prefix 0xFF00 =? 0xFD00 then NETWORK_TYPE_PRIVATE
    else if (Z.land prefix 0xFFC0 =? 0xFE80) || (Z.land prefix 0xFF0F =? 0xFF02)
    then NETWORK_TYPE_LINK_LOCAL
    else if (Z.land prefix 0xFF0F =? 0xFF01)
         || ((load32 l 0 =? 0) && (load32 l 1 =? 0) && (load32 l 2 =? 0)
             && (load16 l 6 =? 0) && (load16 l 7 =? bswap16 1))
    then NETWORK_TYPE_LOOPBACK
    else if Z.land prefix 0xFF00 =? 0xFF00 then NETWORK_TYPE_MULTICAST
    else if prefix =? 0x2001 then
      let next_prefix := bswap16 (load16 l 1) in
      if next_prefix =? 0x0DB8 then NETWORK_TYPE_DOCUMENTATION
      else NETWORK_TYPE_UNKNOWN
    else if prefix =? 0x3FFF then
      let next_prefix := bswap16 (load16 l 1) in
      if Z.land next_prefix 0xF000 =? 0 then NETWORK_TYPE_DOCUMENTATION
      else NETWORK_TYPE_UNKNOWN
    else NETWORK_TYPE_UNKNOWN.

(* addr::get_network_type(), addr.cpp:1595-1701.  The method is const but
   writes the mutable f_private_network, hence the returned object. *)
Definition get_network_type (a : addr) : addr * network_type_t :=
  match f_private_network a with
  | NETWORK_TYPE_UNDEFINED =>
      let t := if is_ipv4 a then network_type4 (s6 a) else network_type6 (s6 a)
      in (with_private_network a t, t)
  | t => (a, t)
  end.

(* addr::is_valid(), addr.cpp:1032-1045. *)
Definition is_valid (a : addr) : addr * bool :=
  let '(a', t) := get_network_type a in
  (a', match t with
       | NETWORK_TYPE_DOCUMENTATION | NETWORK_TYPE_UNDEFINED => false
       | _ => true
       end).

(* addr::is_lan(), addr.cpp:1072-1100. *)
Definition is_lan (a : addr) (include_all : bool) : addr * bool :=
  let '(a', t) := get_network_type a in
  (a', match t with
       | NETWORK_TYPE_PRIVATE | NETWORK_TYPE_LOOPBACK => true
       | NETWORK_TYPE_CARRIER | NETWORK_TYPE_LINK_LOCAL
       | NETWORK_TYPE_MULTICAST => include_all
       | _ => false
       end).

(* addr::is_wan(), addr.cpp:1119-1135. *)
Definition is_wan (a : addr) (include_default : bool) : addr * bool :=
  let '(a', t) := get_network_type a in
  (a', match t with
       | NETWORK_TYPE_UNKNOWN => true
       | NETWORK_TYPE_ANY => include_default
       | _ => false
       end).

(* addr::match(), addr.cpp:2505-2522. *)
Definition match_ (a ip : addr) (any : bool) : bool :=
  if any && is_default a then true
  else forallb (fun x => x)
         (map2 (fun bm b2 => Z.land (fst bm) (snd bm) =? Z.land b2 (snd bm))
            (combine (s6 a) (f_mask a)) (s6 ip)).

(* addr::is_next(), addr.cpp:2538-2548. *)
Definition is_next (a b : addr) : bool :=
  let lhs := ip_to_uint128 a in
  let rhs := ip_to_uint128 b in
  negb (lhs =? 0xFFFFFFFFFFFFFFFFFFFFFFFFFFFFFFFF) && (u128 (lhs + 1) =? rhs).

(* addr::is_previous(), addr.cpp:2564-2572. *)
Definition is_previous (a b : addr) : bool :=
  let lhs := ip_to_uint128 a in
  let rhs := ip_to_uint128 b in
  negb (lhs =? 0) && (u128 (lhs - 1) =? rhs).

(* Comparison operators, addr.cpp:2587-2683 and the in6_addr operators of
   addr.h:501-570 (memcmp over sizeof(in6_addr)). *)
Definition eq_ (a b : addr) : bool := memcmp (s6 a) (s6 b) =? 0.
(* operator !=, addr.cpp:2605-2608, addr.h:543. *)
Definition ne_ (a b : addr) : bool := negb (memcmp (s6 a) (s6 b) =? 0).
(* operator <, addr.cpp:2624-2627, addr.h:549. *)
Definition lt_ (a b : addr) : bool := memcmp (s6 a) (s6 b) <? 0.
(* operator <=, addr.cpp:2642-2645, addr.h:555. *)
Definition le_ (a b : addr) : bool := memcmp (s6 a) (s6 b) <=? 0.
(* operator >, addr.cpp:2661-2664, addr.h:561. *)
Definition gt_ (a b : addr) : bool := memcmp (s6 a) (s6 b) >? 0.
(* operator >=, addr.cpp:2680-2683, addr.h:567. *)
Definition ge_ (a b : addr) : bool := memcmp (s6 a) (s6 b) >=? 0.

(* snapdev::saturated_add/saturated_subtract on unsigned __int128 (snapdev is
   not part of /repo; used at addr.cpp:2708,2763,2824-2975): the result is
   clamped to the range of the type. *)
Definition saturated_add (x y : Z) : Z :=
  if x + y >? 2 ^ 128 - 1 then 2 ^ 128 - 1 else x + y.
(* snapdev::saturated_subtract() on unsigned __int128, used at addr.cpp:2763, 2824, 2866. *)
Definition saturated_subtract (x y : Z) : Z :=
  if x - y <? 0 then 0 else x - y.

(* operator ++ (both forms change the object alike), addr.cpp:2704-2738. *)
Definition incr (a : addr) : addr :=
  ip_from_uint128 a (saturated_add (ip_to_uint128 a) 1).

(* operator --, addr.cpp:2759-2794. *)
Definition decr (a : addr) : addr :=
  ip_from_uint128 a (saturated_subtract (ip_to_uint128 a) 1).

(* `static_cast<unsigned int>(-offset)` for a negative int: the negation of
   INT_MIN overflows, which is UB. *)
Definition neg_int (offset : Z) : res Z :=
  if offset =? INT_MIN then UB else Ok (u32 (- offset)).

(* operator + (int), addr.cpp:2819-2831. *)
Definition add_int (a : addr) (offset : Z) : res addr :=
  if offset <? 0
  then let! n := neg_int offset in
       Ok (ip_from_uint128 a (saturated_subtract (ip_to_uint128 a) n))
  else Ok (ip_from_uint128 a (saturated_add (ip_to_uint128 a) offset)).

(* operator - (int), addr.cpp:2857-2869. *)
Definition sub_int (a : addr) (offset : Z) : res addr :=
  if offset <? 0
  then let! n := neg_int offset in
       Ok (ip_from_uint128 a (saturated_add (ip_to_uint128 a) n))
  else Ok (ip_from_uint128 a (saturated_subtract (ip_to_uint128 a) offset)).

(* operator - (addr const &), addr.cpp:2899-2902. *)
Definition sub_addr (a b : addr) : Z :=
  s128 (u128 (ip_to_uint128 a - ip_to_uint128 b)).

(* operator += (int), addr.cpp:2929-2940. *)
Definition add_assign (a : addr) (offset : Z) : addr * res unit :=
  if offset <? 0
  then match neg_int offset with
       | Ok n => (ip_from_uint128 a (saturated_subtract (ip_to_uint128 a) n), Ok tt)
       | _ => (a, UB)
       end
  else (ip_from_uint128 a (saturated_add (ip_to_uint128 a) offset), Ok tt).

(* operator -= (int), addr.cpp:2967-2978. *)
Definition sub_assign (a : addr) (offset : Z) : addr * res unit :=
  if offset <? 0
  then match neg_int offset with
       | Ok n => (ip_from_uint128 a (saturated_add (ip_to_uint128 a) n), Ok tt)
       | _ => (a, UB)
       end
  else (ip_from_uint128 a (saturated_subtract (ip_to_uint128 a) offset), Ok tt).

(* addr::set_interface(), set_hostname(), addr.cpp:2076-2097. *)
Definition set_interface (a : addr) (s : str) : addr := with_interface a s.
(* addr::set_hostname(), addr.cpp:2094-2097. *)
Definition set_hostname (a : addr) (s : str) : addr := with_hostname a s.

(* addr::get_interface(), addr.cpp:908-911. *)
Definition get_interface (a : addr) : str := f_interface a.
(* addr::get_hostname(), addr.cpp:933-936. *)
Definition get_hostname (a : addr) : str := f_hostname a.

(* Answer of getpeername()/getsockname(): the socket address written in the
   sockaddr_storage, by family; any other family is SN_other. *)
Inductive sockname : Set :=
| SN_in (a : sockaddr_in)
| SN_in6 (a : sockaddr_in6)
| SN_other.

(* addr::set_from_socket(), addr.cpp:2137-2228.  [s] is the descriptor,
   [name] the answer of getpeername()/getsockname() (None: it failed) and
   [type] the SO_TYPE answer of getsockopt() (None: it failed). *)
Definition set_from_socket (a : addr) (s : Z) (name : option sockname)
    (type : option Z) : addr * res unit :=
  if s <? 0 then (a, Throw E_invalid_argument)
  else
    match name with
    | None => (a, Throw E_io_error)
    | Some n =>
        let '(a1, r1) :=
          match n with
          | SN_in x => set_ipv4 a (mk_in AF_INET (sin_port x) (s_addr x))
          | SN_in6 x => set_ipv6 a (mk_in6 AF_INET6 (sin6_port x)
                          (sin6_flowinfo x) (sin6_addr x) (sin6_scope_id x))
          | SN_other => (a, Throw E_invalid_state)
          end in
        match r1 with
        | Ok _ =>
            match type with
            | None => (a1, Throw E_io_error)
            | Some t =>
                if t =? SOCK_STREAM then (with_protocol a1 IPPROTO_TCP, Ok tt)
                else if t =? SOCK_DGRAM then (with_protocol a1 IPPROTO_UDP, Ok tt)
                else (a1, Throw E_invalid_state)
            end
        | Throw e => (a1, Throw e)
        | UB => (a1, UB)
        | OutOfFuel => (a1, OutOfFuel)
        end
    end.

(* addr::recvfrom(), addr.cpp:2011-2058.  [peer] is the address the kernel
   wrote (None: ::recvfrom() failed); the structures are those of the family
   the object has after set_from_socket().  The calls and the returned
   count are in Receive.v. *)
Definition recvfrom (a : addr) (s : Z) (name : option sockname)
    (type : option Z) (peer4 : option sockaddr_in)
    (peer6 : option sockaddr_in6) : addr * res unit :=
  let '(a1, r) := set_from_socket a s name type in
  match r with
  | Ok _ =>
      if negb (f_protocol a1 =? IPPROTO_UDP) then (a1, Ok tt)
      else if is_ipv4 a1
      then match peer4 with Some p => set_ipv4 a1 p | None => (a1, Ok tt) end
      else match peer6 with Some p => set_ipv6 a1 p | None => (a1, Ok tt) end
  | _ => (a1, r)
  end.

(* Copy construction of a range of objects is the identity on values. *)

(* The public operations which can change an addr object (addr.h:151-243);
   used to state properties of arbitrary call histories. *)
Inductive addr_op : Type :=
| Op_set_ipv4 (x : sockaddr_in)
| Op_set_ipv4_loopback
| Op_set_ipv6 (x : sockaddr_in6)
| Op_set_ipv6_loopback
| Op_set_port_defined (b : bool)
| Op_set_port (p : Z)
| Op_set_port_str (p : str)
| Op_set_protocol_defined (b : bool)
| Op_set_protocol (p : Z)
| Op_set_protocol_str (p : option str)
| Op_set_mask_defined (b : bool)
| Op_set_mask (m : list Z)
| Op_set_mask_count (n : Z)
| Op_apply_mask (inversed : bool)
| Op_ip_from_uint128 (u : Z)
| Op_set_interface (s : str)
| Op_set_hostname (s : str)
| Op_get_network_type
| Op_incr
| Op_decr
| Op_add_assign (n : Z)
| Op_sub_assign (n : Z)
| Op_set_from_socket (s : Z) (name : option sockname) (type : option Z)
| Op_recvfrom (s : Z) (name : option sockname) (type : option Z)
    (peer4 : option sockaddr_in) (peer6 : option sockaddr_in6).

(* A caller which ignores the value returned by a method of addr.h:163-244. *)
Definition drop_result {A} (x : addr * res A) : addr * res unit :=
  (fst x, let! _ := snd x in Ok tt).

(* One call of the operation on the object. *)
Definition addr_step (y : sys) (a : addr) (op : addr_op) : addr * res unit :=
  match op with
  | Op_set_ipv4 x => set_ipv4 a x
  | Op_set_ipv4_loopback => set_ipv4_loopback a
  | Op_set_ipv6 x => set_ipv6 a x
  | Op_set_ipv6_loopback => set_ipv6_loopback a
  | Op_set_port_defined b => (set_port_defined a b, Ok tt)
  | Op_set_port p => set_port a p
  | Op_set_port_str p => drop_result (set_port_str y a p)
  | Op_set_protocol_defined b => (set_protocol_defined a b, Ok tt)
  | Op_set_protocol p => set_protocol a p
  | Op_set_protocol_str p => set_protocol_str y a p
  | Op_set_mask_defined b => (set_mask_defined a b, Ok tt)
  | Op_set_mask m => (set_mask a m, Ok tt)
  | Op_set_mask_count n => set_mask_count a n
  | Op_apply_mask i => (apply_mask a i, Ok tt)
  | Op_ip_from_uint128 u => (ip_from_uint128 a u, Ok tt)
  | Op_set_interface s => (set_interface a s, Ok tt)
  | Op_set_hostname s => (set_hostname a s, Ok tt)
  | Op_get_network_type => (fst (get_network_type a), Ok tt)
  | Op_incr => (incr a, Ok tt)
  | Op_decr => (decr a, Ok tt)
  | Op_add_assign n => add_assign a n
  | Op_sub_assign n => sub_assign a n
  | Op_set_from_socket s n t => set_from_socket a s n t
  | Op_recvfrom s n t p4 p6 => recvfrom a s n t p4 p6
  end.

(* Type constraints the C++ types put on arguments (16 bit words, 32 bit
   words, bytes, arrays of 16 bytes, int, unsigned __int128). *)
Definition sockaddr_in_ok (x : sockaddr_in) : Prop :=
  0 <= sin_family x < 2 ^ 16 /\ 0 <= sin_port x < 2 ^ 16
  /\ 0 <= s_addr x < 2 ^ 32.
(* std::uint8_t[16], addr.h:252. *)
Definition bytes16 (l : list Z) : Prop := length l = 16%nat /\ Forall is_byte l.
(* the member types of struct sockaddr_in6, addr.cpp:252-258. *)
Definition sockaddr_in6_ok (x : sockaddr_in6) : Prop :=
  0 <= sin6_family x < 2 ^ 16 /\ 0 <= sin6_port x < 2 ^ 16
  /\ 0 <= sin6_flowinfo x < 2 ^ 32 /\ bytes16 (sin6_addr x)
  /\ 0 <= sin6_scope_id x < 2 ^ 32.
(* the constraint P on an answer that may be missing (failed system call, addr.cpp:2156). *)
Definition opt_ok {A} (P : A -> Prop) (o : option A) : Prop :=
  match o with Some x => P x | None => True end.
(* the answer of getpeername()/getsockname(), addr.cpp:2150-2170, has C types. *)
Definition sockname_ok (n : sockname) : Prop :=
  match n with
  | SN_in x => sockaddr_in_ok x
  | SN_in6 x => sockaddr_in6_ok x
  | SN_other => True
  end.
(* the arguments of the operations have their C++ types, addr.h:159-244. *)
Definition addr_op_ok (op : addr_op) : Prop :=
  match op with
  | Op_set_ipv4 x => sockaddr_in_ok x
  | Op_set_ipv6 x => sockaddr_in6_ok x
  | Op_set_port p => is_int p
  | Op_set_protocol p => is_int p
  | Op_set_mask m => bytes16 m
  | Op_set_mask_count n => is_int n
  | Op_ip_from_uint128 u => 0 <= u < 2 ^ 128
  | Op_add_assign n | Op_sub_assign n => is_int n
  | Op_set_from_socket _ n _ => opt_ok sockname_ok n
  | Op_recvfrom _ n _ p4 p6 =>
      opt_ok sockname_ok n /\ opt_ok sockaddr_in_ok p4
      /\ opt_ok sockaddr_in6_ok p6
  | _ => True
  end.
