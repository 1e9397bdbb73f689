(* Model of the addr_parser class: libaddr/addr_parser.h,
   libaddr/addr_parser.cpp. *)
From Verif Require Import Base Addr Range Inet.
Local Open Scope Z_scope.

(* ---------- configuration ---------- *)

(* enum class allow_t, addr_parser.h:42-67, as the int it is stored as *)
Definition ALLOW_ADDRESS : Z := 0.
(* addr_parser.h:45 *)
Definition ALLOW_REQUIRED_ADDRESS : Z := 1.
(* addr_parser.h:46 *)
Definition ALLOW_MULTI_ADDRESSES_COMMAS : Z := 2.
(* addr_parser.h:47 *)
Definition ALLOW_MULTI_ADDRESSES_SPACES : Z := 3.
(* addr_parser.h:48 *)
Definition ALLOW_MULTI_ADDRESSES_NEWLINES : Z := 4.
(* addr_parser.h:49 *)
Definition ALLOW_ADDRESS_LOOKUP : Z := 5.
(* addr_parser.h:50 *)
Definition ALLOW_ADDRESS_RANGE : Z := 6.
(* addr_parser.h:52 *)
Definition ALLOW_PORT : Z := 7.
(* addr_parser.h:53 *)
Definition ALLOW_REQUIRED_PORT : Z := 8.
(* addr_parser.h:55 *)
Definition ALLOW_MASK : Z := 9.
(* addr_parser.h:56 *)
Definition ALLOW_ADDRESS_MASK : Z := 10.
(* addr_parser.h:58 *)
Definition ALLOW_COMMENT_HASH : Z := 11.
(* addr_parser.h:59 *)
Definition ALLOW_COMMENT_SEMICOLON : Z := 12.
(* addr_parser.h:62 *)
Definition ALLOW_MULTI_PORTS_SEMICOLONS : Z := 13.
(* addr_parser.h:63 *)
Definition ALLOW_MULTI_PORTS_COMMAS : Z := 14.
(* addr_parser.h:64 *)
Definition ALLOW_PORT_RANGE : Z := 15.
(* addr_parser.h:66 *)
Definition ALLOW_max : Z := 16.

(* sort_t, addr_parser.h:70-77 *)
Definition SORT_NO : Z := 0x0000.
(* addr_parser.h:73 *)
Definition SORT_IPV6_FIRST : Z := 0x0001.
(* addr_parser.h:74 *)
Definition SORT_IPV4_FIRST : Z := 0x0002.
(* addr_parser.h:75 *)
Definition SORT_FULL : Z := 0x0004.
(* addr_parser.h:76 *)
Definition SORT_MERGE : Z := 0x0008.
(* addr_parser.h:77 *)
Definition SORT_NO_EMPTY : Z := 0x0010.

(* The fields of addr_parser, addr_parser.h:127-136. *)
Record parser := mk_parser {
  f_flags : list bool;
  f_sort : Z;
  f_default_address4 : str;
  f_default_address6 : str;
  f_default_mask4 : str;
  f_default_mask6 : str;
  p_protocol : Z;
  f_default_port : Z;
  f_error : str;
  f_error_count : Z
}.

(* assignment to f_flags, addr_parser.cpp:786-801 *)
Definition with_flags (p : parser) v := mk_parser v (f_sort p) (f_default_address4 p)
  (f_default_address6 p) (f_default_mask4 p) (f_default_mask6 p) (p_protocol p)
  (f_default_port p) (f_error p) (f_error_count p).
(* assignment to f_sort, addr_parser.cpp:704 *)
Definition with_sort (p : parser) v := mk_parser (f_flags p) v (f_default_address4 p)
  (f_default_address6 p) (f_default_mask4 p) (f_default_mask6 p) (p_protocol p)
  (f_default_port p) (f_error p) (f_error_count p).
(* assignment to f_default_address4, addr_parser.cpp:232, 251 *)
Definition with_default_address4 (p : parser) v := mk_parser (f_flags p) (f_sort p) v
  (f_default_address6 p) (f_default_mask4 p) (f_default_mask6 p) (p_protocol p)
  (f_default_port p) (f_error p) (f_error_count p).
(* assignment to f_default_address6, addr_parser.cpp:233, 243, 247 *)
Definition with_default_address6 (p : parser) v := mk_parser (f_flags p) (f_sort p)
  (f_default_address4 p) v (f_default_mask4 p) (f_default_mask6 p) (p_protocol p)
  (f_default_port p) (f_error p) (f_error_count p).
(* assignment to f_default_mask4, addr_parser.cpp:454, 495 *)
Definition with_default_mask4 (p : parser) v := mk_parser (f_flags p) (f_sort p)
  (f_default_address4 p) (f_default_address6 p) v (f_default_mask6 p) (p_protocol p)
  (f_default_port p) (f_error p) (f_error_count p).
(* assignment to f_default_mask6, addr_parser.cpp:455, 465, 476, 490 *)
Definition with_default_mask6 (p : parser) v := mk_parser (f_flags p) (f_sort p)
  (f_default_address4 p) (f_default_address6 p) (f_default_mask4 p) v (p_protocol p)
  (f_default_port p) (f_error p) (f_error_count p).
(* assignment to f_protocol, addr_parser.cpp:586, 630, 649 *)
Definition with_parser_protocol (p : parser) v := mk_parser (f_flags p) (f_sort p)
  (f_default_address4 p) (f_default_address6 p) (f_default_mask4 p) (f_default_mask6 p) v
  (f_default_port p) (f_error p) (f_error_count p).
(* assignment to f_default_port, addr_parser.cpp:369 *)
Definition with_default_port (p : parser) v := mk_parser (f_flags p) (f_sort p)
  (f_default_address4 p) (f_default_address6 p) (f_default_mask4 p) (f_default_mask6 p)
  (p_protocol p) v (f_error p) (f_error_count p).
(* assignment to f_error and f_error_count, addr_parser.cpp:890-892, 953-954 *)
Definition with_errors (p : parser) v n := mk_parser (f_flags p) (f_sort p)
  (f_default_address4 p) (f_default_address6 p) (f_default_mask4 p) (f_default_mask6 p)
  (p_protocol p) (f_default_port p) v n.

(* f_flags[flag] for one of the flags of the enumeration, addr_parser.cpp:836 *)
Definition allow (p : parser) (flag : Z) : bool := nth (Z.to_nat flag) (f_flags p) false.

(* addr_parser::get_allow(), addr_parser.cpp:828-837. *)
Definition get_allow (p : parser) (flag : Z) : res bool :=
  if (flag <? 0) || (flag >=? ALLOW_max) then Throw E_invalid_argument
  else Ok (allow p flag).

(* addr_parser::set_allow(), addr_parser.cpp:778-809. *)
Definition set_allow (p : parser) (flag : Z) (b : bool) : parser * res unit :=
  if (flag <? 0) || (flag >=? ALLOW_max) then (p, Throw E_invalid_argument)
  else
    let fl := upd (f_flags p) (Z.to_nat flag) b in
    let fl :=
      if b then
        if flag =? ALLOW_MULTI_ADDRESSES_COMMAS
        then upd fl (Z.to_nat ALLOW_MULTI_PORTS_COMMAS) false
        else if flag =? ALLOW_MULTI_PORTS_COMMAS
        then upd fl (Z.to_nat ALLOW_MULTI_ADDRESSES_COMMAS) false
        else fl
      else fl in
    (with_flags p fl, Ok tt).

(* Default member initialisers, addr_parser.h:127-136. *)
Definition parser_init : parser :=
  mk_parser (repeat false 16) SORT_NO [] [] [] [] (-1) (-1) [] 0.
(* addr_parser::addr_parser(), addr_parser.cpp:161-171. *)
Definition parser_new : parser :=
  fst (set_allow (fst (set_allow (fst (set_allow parser_init ALLOW_ADDRESS true))
    ALLOW_ADDRESS_LOOKUP true)) ALLOW_PORT true).

(* std::string::find(char), addr_parser.cpp:245, 474, 1224: position of the
   first occurrence *)
Fixpoint find_char (c : Z) (s : str) : option nat :=
  match s with
  | [] => None
  | x :: r =>
      if x =? c then Some O
      else match find_char c r with Some n => Some (S n) | None => None end
  end.

(* std::string::back() of a non-empty string, addr_parser.cpp:239, 460, 2174 *)
Definition back (s : str) : Z := last s 0.

(* `s.substr(1, s.length() - 2)`, addr_parser.cpp:243, 465, 2183 *)
Definition inner (s : str) : str := firstn (length s - 2) (skipn 1 s).

(* addr_parser::set_default_address(), addr_parser.cpp:228-253. *)
Definition set_default_address (p : parser) (address : str) : parser * res unit :=
  match address with
  | [] => (with_default_address6 (with_default_address4 p []) [], Ok tt)
  | c :: _ =>
      if c =? 91 then
        if negb (back address =? 93) then (p, Throw E_invalid_argument)
        else (with_default_address6 p (inner address), Ok tt)
      else match find_char 58 address with
           | Some _ => (with_default_address6 p address, Ok tt)
           | None => (with_default_address4 p address, Ok tt)
           end
  end.

(* addr_parser::set_default_port(int), addr_parser.cpp:361-370. *)
Definition set_default_port (p : parser) (port : Z) : parser * res unit :=
  if (port <? -1) || (port >? 65535) then (p, Throw E_invalid_argument)
  else (with_default_port p port, Ok tt).

(* addr_parser::set_default_port(std::string), addr_parser.cpp:310-326; the
   call at line 325 converts std::int64_t to int. *)
Definition set_default_port_str (y : sys) (p : parser) (port_str : str)
  : parser * res unit :=
  match port_str with
  | [] => set_default_port p (s32 (-1))
  | _ :: _ =>
      match convert_string y port_str with
      | None => (p, Throw E_invalid_argument)
      | Some port => set_default_port p (s32 port)
      end
  end.

(* addr_parser::set_default_mask(), addr_parser.cpp:450-496. *)
Definition set_default_mask (y : sys) (p : parser) (mask : str) : parser * res unit :=
  match mask with
  | [] => (with_default_mask6 (with_default_mask4 p []) [], Ok tt)
  | c :: _ =>
      let front_ipv6 := c =? 91 in
      let back_ipv6 := back mask =? 93 in
      if front_ipv6 && back_ipv6 then (with_default_mask6 p (inner mask), Ok tt)
      else if front_ipv6 || back_ipv6 then (p, Throw E_invalid_argument)
      else match find_char 58 mask with
           | Some _ => (with_default_mask6 p mask, Ok tt)
           | None =>
               match convert_string y mask with
               | Some m =>
                   if (m <? 0) || (m >? 128) then (p, Throw E_invalid_argument)
                   else if m >? 32 then (with_default_mask6 p mask, Ok tt)
                   else (with_default_mask4 p mask, Ok tt)
               | None => (with_default_mask4 p mask, Ok tt)
               end
           end
  end.

(* addr_parser::set_protocol(std::string), addr_parser.cpp:568-587. *)
Definition parser_set_protocol_str (y : sys) (p : parser) (protocol : str)
  : parser * res unit :=
  match getprotobyname y protocol with
  | Found n => (with_parser_protocol p n, Ok tt)
  | NoEntry | Failed => (p, Throw E_invalid_argument)
  end.

(* addr_parser::set_protocol(int), addr_parser.cpp:611-631. *)
Definition parser_set_protocol (p : parser) (protocol : Z) : parser * res unit :=
  if (protocol =? IPPROTO_IP) || (protocol =? IPPROTO_TCP) || (protocol =? IPPROTO_UDP)
  then (with_parser_protocol p protocol, Ok tt)
  else (p, Throw E_invalid_argument).

(* addr_parser::clear_protocol(), addr_parser.cpp:647-650. *)
Definition clear_protocol (p : parser) : parser := with_parser_protocol p (-1).

(* addr_parser::set_sort_order(), addr_parser.cpp:697-705. *)
Definition set_sort_order (p : parser) (sort : Z) : parser * res unit :=
  if Z.land sort (Z.lor SORT_IPV6_FIRST SORT_IPV4_FIRST)
     =? Z.lor SORT_IPV6_FIRST SORT_IPV4_FIRST
  then (p, Throw E_invalid_argument)
  else (with_sort p sort, Ok tt).

(* addr_parser::get_sort_order(), addr_parser.cpp:719-722. *)
Definition get_sort_order (p : parser) : Z := f_sort p.
(* addr_parser::get_default_port(), addr_parser.cpp:378-381. *)
Definition get_default_port (p : parser) : Z := f_default_port p.
(* addr_parser::get_default_address4(), addr_parser.cpp:269-272. *)
Definition get_default_address4 (p : parser) : str := f_default_address4 p.
(* addr_parser::get_default_address6(), addr_parser.cpp:288-291. *)
Definition get_default_address6 (p : parser) : str := f_default_address6 p.
(* addr_parser::get_default_mask4(), addr_parser.cpp:518-521. *)
Definition get_default_mask4 (p : parser) : str := f_default_mask4 p.
(* addr_parser::get_default_mask6(), addr_parser.cpp:543-546. *)
Definition get_default_mask6 (p : parser) : str := f_default_mask6 p.
(* addr_parser::get_protocol(), addr_parser.cpp:671-674. *)
Definition parser_get_protocol (p : parser) : Z := p_protocol p.

(* addr_parser::has_errors(), addr_parser.cpp:866-869. *)
Definition has_errors (p : parser) : bool :=
  match f_error p with [] => false | _ :: _ => true end.

(* addr_parser::emit_error(), addr_parser.cpp:888-893.  Simplification: the
   counter does not overflow (an int, 2^31 errors). *)
Definition emit_error (p : parser) (msg : str) : parser :=
  with_errors p (f_error p ++ msg ++ [10]) (f_error_count p + 1).

(* addr_parser::error_messages(), addr_parser.cpp:914-917. *)
Definition error_messages (p : parser) : str := f_error p.
(* addr_parser::error_count(), addr_parser.cpp:933-936. *)
Definition error_count (p : parser) : Z := f_error_count p.

(* addr_parser::clear_errors(), addr_parser.cpp:951-955. *)
Definition clear_errors (p : parser) : parser := with_errors p [] 0.

(* ---------- parsing ---------- *)

(* One entry of the list getaddrinfo() returns, addr_parser.cpp:1818-1884.
   ai_in and ai_in6 are what the memory at ai_addr reads as through the two
   reinterpret_cast (lines 1834, 1860, 2239, 2261). *)
Record addrinfo := mk_ai {
  ai_family : Z;
  ai_addrlen : Z;
  ai_protocol : Z;
  ai_in : sockaddr_in;
  ai_in6 : sockaddr_in6
}.

(* The answer of getaddrinfo(): an error, with the text the code builds from
   gai_strerror() and errno (addr_parser.cpp:1796-1811, 2204-2214), or the
   list. *)
Inductive gai_result : Type :=
| GAI_error (text : str)
| GAI_list (l : list addrinfo).

(* getaddrinfo(node, service, hints): AI_NUMERICHOST set or not, ai_socktype
   and ai_protocol of the hints; addr_parser.cpp:1790 and 2198.  The other
   hints are constants. *)
Definition resolver := str -> str -> bool -> Z -> Z -> gai_result.

(* sizeof(sockaddr_in), addr_parser.cpp:1824 *)
Definition SIZEOF_IN : Z := 16.
(* sizeof(sockaddr_in6), addr_parser.cpp:1850 *)
Definition SIZEOF_IN6 : Z := 28.

(* The private parse functions change nothing but the error log of the parser
   and may throw; the vector they push_back() to is returned. *)
Definition M (A : Type) : Type := parser -> parser * res A.
(* `return`, addr_parser.cpp:1200 *)
Definition ret {A} (a : A) : M A := fun p => (p, Ok a).
(* statement sequence, e.g. addr_parser.cpp:1236-1279 *)
Definition bind {A B} (m : M A) (f : A -> M B) : M B :=
  fun p => let '(p1, r) := m p in
           match r with
           | Ok a => f a p1
           | Throw e => (p1, Throw e)
           | UB => (p1, UB)
           | OutOfFuel => (p1, OutOfFuel)
           end.
Notation "'do!' x '<-' m 'in' f" := (bind m (fun x => f))
  (at level 200, x pattern, right associativity).
(* a call of emit_error(), e.g. addr_parser.cpp:1486 *)
Definition emit (msg : str) : M unit := fun p => (emit_error p msg, Ok tt).
(* reading the parser's own fields, e.g. addr_parser.cpp:1218 *)
Definition ask {A} (f : parser -> A) : M A := fun p => (p, Ok (f p)).
(* get_allow(flag), e.g. addr_parser.cpp:1218 *)
Definition allowed (flag : Z) : M bool := ask (fun p => allow p flag).
(* a call of a function which does not see the parser but may throw, e.g.
   addr_parser.cpp:1834-1840 *)
Definition lift {A} (r : res A) : M A := fun p => (p, r).
(* an error message and `return`: no range is added, e.g.
   addr_parser.cpp:1486-1487 *)
Definition fail {A} (msg : str) : M (list A) := do! _ <- emit msg in ret [].

(* a method call on a local addr object, addr_parser.cpp:1834-1842 *)
Definition on {A} (x : addr * res A) : res addr :=
  let! _ := snd x in Ok (fst x).

(* addr a(in); set_hostname(); set_protocol() when given; set_port_defined();
   r.set_from(a): addr_parser.cpp:1834-1844 and 1924-1932 *)
Definition range4 (in4 : sockaddr_in) (host : str) (proto : Z) (defined_port : bool)
  : res addr_range :=
  let! a := on (set_ipv4 addr_new in4) in
  let a := set_hostname a host in
  let! a := if negb (proto =? -1) then on (set_protocol a proto) else Ok a in
  Ok (set_from range_new (set_port_defined a defined_port)).
(* the same for IPv6, addr_parser.cpp:1860-1868 and 1945-1953 *)
Definition range6 (in6 : sockaddr_in6) (host : str) (proto : Z) (defined_port : bool)
  : res addr_range :=
  let! a := on (set_ipv6 addr_new in6) in
  let a := set_hostname a host in
  let! a := if negb (proto =? -1) then on (set_protocol a proto) else Ok a in
  Ok (set_from range_new (set_port_defined a defined_port)).

(* The loop over the answer of getaddrinfo(), addr_parser.cpp:1817-1884;
   first: no unsupported family was reported yet. *)
Fixpoint use_addrinfo (l : list addrinfo) (first : bool) (host : str)
  (defined_port : bool) : M (list addr_range) :=
  match l with
  | [] => ret []
  | ai :: rest =>
      if ai_family ai =? AF_INET then
        if negb (ai_addrlen ai =? SIZEOF_IN) then
          do! _ <- emit (lit "Unsupported address size (" ++ dec_string (ai_addrlen ai)
                         ++ lit ", expected" ++ dec_string SIZEOF_IN ++ lit ").") in
          use_addrinfo rest first host defined_port
        else
          do! r <- lift (range4 (ai_in ai) host (ai_protocol ai) defined_port) in
          do! rs <- use_addrinfo rest first host defined_port in
          ret (r :: rs)
      else if ai_family ai =? AF_INET6 then
        if negb (ai_addrlen ai =? SIZEOF_IN6) then
          do! _ <- emit (lit "Unsupported address size (" ++ dec_string (ai_addrlen ai)
                         ++ lit ", expected " ++ dec_string SIZEOF_IN6 ++ lit ").") in
          use_addrinfo rest first host defined_port
        else
          do! r <- lift (range6 (ai_in6 ai) host (ai_protocol ai) defined_port) in
          do! rs <- use_addrinfo rest first host defined_port in
          ret (r :: rs)
      else if first then
        do! _ <- emit (lit "Unsupported address family " ++ to_string_int (ai_family ai)
                       ++ lit ".") in
        use_addrinfo rest false host defined_port
      else use_addrinfo rest first host defined_port
  end.

(* hints.ai_socktype from a protocol, addr_parser.cpp:1764-1776, 2141-2153 *)
Definition hint_socktype (proto : Z) : Z :=
  if proto =? IPPROTO_TCP then SOCK_STREAM
  else if proto =? IPPROTO_UDP then SOCK_DGRAM else 0.
(* hints.ai_protocol from a protocol, addr_parser.cpp:1764-1776, 2141-2153 *)
Definition hint_protocol (proto : Z) : Z :=
  if proto =? IPPROTO_TCP then IPPROTO_TCP
  else if proto =? IPPROTO_UDP then IPPROTO_UDP else 0.

(* The default address, addr_parser.cpp:1734-1755. *)
Definition default_address (p : parser) (ipv6 : bool) : str :=
  if ipv6 then
    match f_default_address6 p with [] => lit "::" | a => a end
  else
    match f_default_address4 p with [] => lit "0.0.0.0" | a => a end.

(* The end of addr_parser::parse_address_port(), without lookup:
   addr_parser.cpp:1888-1962, the port being known. *)
Definition numeric_address (address : str) (port : Z) (defined_port : bool)
  : M (list addr_range) :=
  do! proto <- ask p_protocol in
  match inet_pton4 (c_str address) with
  | Some q =>
      do! r <- lift (range4 (mk_in AF_INET (bswap16 port) (load32 q 0))
                       address proto defined_port) in
      ret [r]
  | None =>
      match inet_pton6 (c_str address) with
      | Some q =>
          do! r <- lift (range6 (mk_in6 AF_INET6 (bswap16 port) 0 q 0)
                           address proto defined_port) in
          ret [r]
      | None =>
          fail (lit "Unknown address in """ ++ address
                ++ lit """ (no DNS lookup was allowed).")
      end
  end.

(* addr_parser::parse_address_port(), addr_parser.cpp:1701-1964. *)
Definition parse_address_port (y : sys) (g : resolver) (address port_str : str)
  (ipv6 : bool) : M (list addr_range) :=
  let defined_port := match port_str with [] => false | _ => true end in
  do! required_port <- allowed ALLOW_REQUIRED_PORT in
  if negb defined_port && required_port then fail (lit "Required port is missing.")
  else
  do! default_port <- ask f_default_port in
  let port_str :=
    if negb defined_port && negb (default_port =? -1)
    then to_string_int default_port else port_str in
  do! required_address <- allowed ALLOW_REQUIRED_ADDRESS in
  let no_address := match address with [] => true | _ => false end in
  if no_address && required_address then fail (lit "Required address is missing.")
  else
  do! default <- ask (fun p => default_address p ipv6) in
  let address := if no_address then default else address in
  do! lookup_allowed <- allowed ALLOW_ADDRESS_LOOKUP in
  if lookup_allowed then
    do! proto <- ask p_protocol in
    let service := match port_str with [] => lit "0" | _ => port_str end in
    match g (c_str address) (c_str service) false (hint_socktype proto) (hint_protocol proto) with
    | GAI_error text =>
        fail (lit "Invalid address in """ ++ address
              ++ (match port_str with [] => [] | _ => lit ":" end) ++ port_str
              ++ lit """ error " ++ text)
    | GAI_list l => use_addrinfo l true address defined_port
    end
  else
    do! allow_port <- allowed ALLOW_PORT in
    if required_port || (match port_str with [] => false | _ => true end) then
      match convert_string y port_str with
      | Some port =>
          if (port <? 0) || (port >? 65535) then
            fail (lit "invalid port in """ ++ port_str
                  ++ lit """ (no service name lookup allowed).")
          else if negb allow_port && negb required_port then
            fail (lit "Found a port (""" ++ port_str ++ lit """) when it is not allowed.")
          else numeric_address address port defined_port
      | None =>
          fail (lit "invalid port in """ ++ port_str
                ++ lit """ (no service name lookup allowed).")
      end
    else numeric_address address 0 defined_port.

(* The loop of parse_address_port_ignore_duplicates(), addr_parser.cpp:
   2002-2012: result[1] is removed as long as it is the same address as
   result[0]. *)
Fixpoint drop_duplicates (first : addr) (rest : list addr_range) : res (list addr_range) :=
  match rest with
  | [] => Ok []
  | r :: rest' =>
      let! next := on (set_protocol (get_from r) (get_protocol first)) in
      if ne_ first next then Ok rest else drop_duplicates first rest'
  end.

(* addr_parser::parse_address_port_ignore_duplicates(),
   addr_parser.cpp:1983-2014; always called with an empty vector. *)
Definition parse_address_port_ignore_duplicates (y : sys) (g : resolver)
  (address port_str : str) (ipv6 : bool) : M (list addr_range) :=
  do! l <- parse_address_port y g address port_str ipv6 in
  match l with
  | r :: rest =>
      do! rest' <- lift (drop_duplicates (get_from r) rest) in
      ret (r :: rest')
  | [] => ret []
  end.

(* One end of a range: the vector has to have exactly one element.
   addr_parser.cpp:1620-1635, 1637-1656; Some None: no text was given, None:
   the function returns. *)
Definition range_end (y : sys) (g : resolver) (text port_str msg : str) (ipv6 : bool)
  : M (option (option addr_range)) :=
  match text with
  | [] => ret (Some None)
  | _ =>
      do! l <- parse_address_port_ignore_duplicates y g text port_str ipv6 in
      match l with
      | [] => ret None
      | [r] => ret (Some (Some r))
      | _ => do! _ <- emit msg in ret None
      end
  end.

(* addr_parser::parse_address_range_port(), addr_parser.cpp:1593-1678. *)
Definition parse_address_range_port (y : sys) (g : resolver) (addresses port_str : str)
  (ipv6 : bool) : M (list addr_range) :=
  do! range_allowed <- allowed ALLOW_ADDRESS_RANGE in
  match (if range_allowed then find_char 45 addresses else None) with
  | None => parse_address_port y g addresses port_str ipv6
  | Some p =>
      let from := firstn p addresses in
      let to := skipn (p + 1) addresses in
      if match from, to with [], [] => true | _, _ => false end
      then fail (lit "An address range requires at least one of the ""from"" or ""to"" addresses.")
      else
        do! from_result <- range_end y g from port_str
          (lit "The ""from"" of an address range must be exactly one address.") ipv6 in
        match from_result with
        | None => ret []
        | Some fr =>
            do! to_result <- range_end y g to port_str
              (lit "The ""to"" of an address range must be exactly one address.") ipv6 in
            match to_result with
            | None => ret []
            | Some tr =>
                match fr, option_map swap_from_to tr with
                | Some f, Some t =>
                    let f := set_to f (get_to t) in
                    do! sort <- ask f_sort in
                    if (Z.land sort SORT_NO_EMPTY =? 0) || negb (is_empty f)
                    then ret [f] else ret []
                | Some f, None => ret [f]
                | None, Some t => ret [t]
                | None, None => lift UB
                end
            end
        end
  end.

(* addr_parser::parse_address4(), addr_parser.cpp:1458-1491. *)
Definition parse_address4 (y : sys) (g : resolver) (in_ : str) : M (list addr_range) :=
  do! allow_port <- allowed ALLOW_PORT in
  do! required_port <- allowed ALLOW_REQUIRED_PORT in
  match find_char 58 in_ with
  | Some p =>
      if allow_port || required_port
      then parse_address_range_port y g (firstn p in_) (skipn (p + 1) in_) false
      else fail (lit "Port not allowed (" ++ in_ ++ lit ").")
  | None => parse_address_range_port y g in_ [] false
  end.

(* addr_parser::parse_address6(), addr_parser.cpp:1511-1571; `in.substr(1, p -
   1)` with p >= 1. *)
Definition parse_address6 (y : sys) (g : resolver) (in_ : str) (colons : Z)
  : M (list addr_range) :=
  do! allow_port <- allowed ALLOW_PORT in
  do! required_port <- allowed ALLOW_REQUIRED_PORT in
  if match in_ with c :: _ => c =? 91 | [] => false end then
    match find_char 93 in_ with
    | None => fail (lit "IPv6 is missing the ']' (" ++ in_ ++ lit ").")
    | Some p =>
        let address := firstn (p - 1) (skipn 1 in_) in
        match skipn (p + 1) in_ with
        | [] => parse_address_range_port y g address [] true
        | c :: port_str =>
            if negb (c =? 58) then
              fail (lit "The IPv6 address """ ++ in_ ++ lit """ is followed by unknown data.")
            else if negb allow_port && negb required_port then
              fail (lit "Port not allowed (" ++ in_ ++ lit ").")
            else parse_address_range_port y g address port_str true
        end
    end
  else if colons =? 1 then
    match find_char 58 in_ with
    | None => lift (Throw E_logic_error)
    | Some p => parse_address_range_port y g (firstn p in_) (skipn (p + 1) in_) true
    end
  else parse_address_range_port y g in_ [] true.

(* std::count(in.begin(), in.end(), c), addr_parser.cpp:1323 *)
Definition count_char (c : Z) (s : str) : Z := Z.of_nat (length (filter (Z.eqb c) s)).

(* The loop of parse_address(), addr_parser.cpp:1352-1373, over the C
   string. *)
Fixpoint mask_hint (s : str) (n : Z) : Z :=
  match s with
  | [] => n
  | c :: r =>
      if (48 <=? c) && (c <=? 57) then
        let n := n * 10 + c - 48 in
        if n >? 1000 then -1 else mask_hint r n
      else -1
  end.

(* addr_parser::parse_address(), addr_parser.cpp:1315-1442: the ranges and
   the returned value (true: IPv4 syntax). *)
Definition parse_address (y : sys) (g : resolver) (in_ mask : str)
  : M (list addr_range * bool) :=
  let colons := count_char 58 in_ in
  let six := do! l <- parse_address6 y g in_ colons in ret (l, false) in
  let four := do! l <- parse_address4 y g in_ in ret (l, true) in
  if colons >=? 2 then six
  else
    match in_ with
    | [] =>
        match mask with
        | c :: _ =>
            if c =? 91 then six
            else if mask_hint (c_str mask) 0 >? 32 then six else four
        | [] =>
            do! a4 <- ask f_default_address4 in
            do! a6 <- ask f_default_address6 in
            match a4, a6 with
            | [], _ :: _ => six
            | _, _ => four
            end
        end
    | c0 :: _ =>
        if c0 =? 58 then
          match mask with
          | c :: _ =>
              if c =? 91 then six
              else if mask_hint (c_str mask) 0 >? 32 then six else four
          | [] =>
              do! a4 <- ask f_default_address4 in
              do! a6 <- ask f_default_address6 in
              match a4, a6 with
              | [], _ :: _ => six
              | _, _ => four
              end
          end
        else if (c0 =? 91) || (match find_char 93 in_ with Some _ => true | None => false end)
        then six
        else
          do! allow_port <- allowed ALLOW_PORT in
          do! required_port <- allowed ALLOW_REQUIRED_PORT in
          if negb allow_port && negb required_port then
            match find_char 58 in_ with
            | Some p =>
                (* in.find('.') > p: npos is larger than anything *)
                if match find_char 46 in_ with Some d => (p <? d)%nat | None => true end
                then six else four
            | None => four
            end
          else four
    end.

(* The loop of parse_mask(), addr_parser.cpp:2065-2087; None: the error is
   emitted; Some (-1): not a number. *)
Fixpoint mask_number (s : str) (n : Z) : option Z :=
  match s with
  | [] => Some n
  | c :: r =>
      if (48 <=? c) && (c <=? 57) then
        let n := n * 10 + c - 48 in
        if n >? 10000 then None else mask_number r n
      else Some (-1)
  end.

(* The loop over mask_bits, addr_parser.cpp:2118-2123, idx and mask_count;
   None: an index below 0, which the callers exclude. *)
Fixpoint mask_bits_loop (idx : nat) (mask_count : Z) (bits : list Z) : option (list Z) :=
  if mask_count >? 8 then
    match idx with
    | O => None
    | S i => mask_bits_loop i (mask_count - 8) (upd bits idx 0)
    end
  else Some (upd bits idx (u8 (Z.shiftl 255 mask_count))).

(* addr_parser::parse_mask(), addr_parser.cpp:2042-2266: the object `cidr`
   afterwards. *)
Definition parse_mask (g : resolver) (mask : str) (cidr : addr) (ipv4 : bool) : M addr :=
  let ones := repeat 255 16 in
  match mask with
  | [] => ret cidr
  | c0 :: _ =>
      match mask_number (c_str mask) 0 with
      | None =>
          do! _ <- emit (lit "Mask size too large (" ++ mask
                         ++ lit ", expected a maximum of 128).") in
          ret cidr
      | Some mask_count =>
          if negb (mask_count =? -1) then
            if ipv4 && (mask_count >? 32) then
              do! _ <- emit (lit "Unsupported mask size (" ++ dec_string mask_count
                             ++ lit ", expected 32 at the most for an IPv4).") in
              ret cidr
            else if negb ipv4 && (mask_count >? 128) then
              do! _ <- emit (lit "Unsupported mask size (" ++ dec_string mask_count
                             ++ lit ", expected 128 at the most for an IPv6).") in
              ret cidr
            else
              match mask_bits_loop 15 ((if ipv4 then 32 else 128) - mask_count) ones with
              | Some bits => ret (set_mask cidr bits)
              | None => lift UB
              end
          else
            do! address_mask <- allowed ALLOW_ADDRESS_MASK in
            if negb address_mask then
              do! _ <- emit (lit "Address like mask not allowed (/" ++ mask
                             ++ lit "), try with a simple number instead.") in
              ret cidr
            else if ipv4 && (c0 =? 91) then
              do! _ <- emit (lit "The address uses the IPv4 syntax, the mask cannot use IPv6.") in
              ret cidr
            else if negb ipv4 && negb (c0 =? 91) then
              do! _ <- emit (lit "The address uses the IPv6 syntax, the mask cannot use IPv4.") in
              ret cidr
            else if negb ipv4 && negb (back mask =? 93) then
              do! _ <- emit (lit "The IPv6 mask is missing the ']' (" ++ mask ++ lit ").") in
              ret cidr
            else
              let m := if ipv4 then mask else inner mask in
              if negb ipv4 && (match m with [] => true | _ => false end) then ret cidr
              else
                match g (c_str m) (dec_string (get_port cidr)) true
                        (hint_socktype (get_protocol cidr)) (hint_protocol (get_protocol cidr)) with
                | GAI_error text =>
                    do! _ <- emit (lit "Invalid mask in ""/" ++ mask ++ lit """, error " ++ text) in
                    ret cidr
                | GAI_list [] => lift UB
                | GAI_list (ai :: _) =>
                    if ipv4 then
                      if negb (ai_family ai =? AF_INET) then
                        do! _ <- emit (lit "Incompatible address between the address and mask address (first was an IPv4 second an IPv6).") in
                        ret cidr
                      else if negb (ai_addrlen ai =? SIZEOF_IN) then
                        do! _ <- emit (lit "Unsupported address size (" ++ dec_string (ai_addrlen ai)
                                       ++ lit ", expected" ++ dec_string SIZEOF_IN ++ lit ").") in
                        ret cidr
                      else ret (set_mask cidr (store32 ones 3 (s_addr (ai_in ai))))
                    else
                      if negb (ai_family ai =? AF_INET6) then
                        do! _ <- emit (lit "Incompatible address between the address and mask address (first was an IPv6 second an IPv4).") in
                        ret cidr
                      else if negb (ai_addrlen ai =? SIZEOF_IN6) then
                        do! _ <- emit (lit "Unsupported address size (" ++ dec_string (ai_addrlen ai)
                                       ++ lit ", expected " ++ dec_string SIZEOF_IN6 ++ lit ").") in
                        ret cidr
                      else ret (set_mask cidr (sin6_addr (ai_in6 ai)))
                end
      end
  end.

(* The mask text used for one range, addr_parser.cpp:1242-1266. *)
Definition effective_mask (p : parser) (mask : str) (ipv4 : bool) : str :=
  match mask with
  | _ :: _ => mask
  | [] =>
      if ipv4 then f_default_mask4 p
      else match find_char 58 (f_default_mask6 p) with
           | Some _ => [91] ++ f_default_mask6 p ++ [93]
           | None => []
           end
  end.

(* The loop over addr_mask, addr_parser.cpp:1240-1272; `am.get_from()` is a
   reference. *)
Fixpoint apply_masks (g : resolver) (mask : str) (ipv4 : bool) (l : list addr_range)
  : M (list addr_range) :=
  match l with
  | [] => ret []
  | am :: rest =>
      do! m <- ask (fun p => effective_mask p mask ipv4) in
      do! a <- parse_mask g m (get_from am) (ipv4 && is_ipv4 (get_from am)) in
      do! rest' <- apply_masks g mask ipv4 rest in
      ret (mk_range (f_has_from am) (f_has_to am) a (f_to am) :: rest')
  end.

(* leading spaces removed: part of snapdev::trim_string(), which is not in
   /repo; addr_parser.cpp:1217 *)
Fixpoint trim_left (s : str) : str :=
  match s with
  | [] => []
  | c :: r => if isspace c then trim_left r else s
  end.
(* snapdev::trim_string() with its default parameters: isspace() characters
   removed at both ends; addr_parser.cpp:1217 *)
Definition trim_string (s : str) : str := rev (trim_left (rev (trim_left s))).

(* addr_parser::parse_cidr(), addr_parser.cpp:1215-1287. *)
Definition parse_cidr (y : sys) (g : resolver) (in_ : str) : M (list addr_range) :=
  let address := trim_string in_ in
  do! mask_allowed <- allowed ALLOW_MASK in
  if mask_allowed then
    let '(address, mask) :=
      match find_char 47 address with
      | Some p => (firstn p address, skipn (p + 1) address)
      | None => (address, [])
      end in
    do! errcnt <- ask f_error_count in
    do! am <- parse_address y g address mask in
    let '(addr_mask, ipv4) := am in
    do! l <- apply_masks g mask ipv4 addr_mask in
    do! errcnt' <- ask f_error_count in
    if errcnt =? errcnt' then ret l else ret []
  else
    do! am <- parse_address y g address [] in
    ret (fst am).

(* The string of separators, addr_parser.cpp:1042-1056. *)
Definition separators (p : parser) : str :=
  (if allow p ALLOW_MULTI_ADDRESSES_COMMAS then [44] else [])
  ++ (if allow p ALLOW_MULTI_ADDRESSES_SPACES then [32] else [])
  ++ (if allow p ALLOW_MULTI_ADDRESSES_NEWLINES then [10] else []).
(* comment_chars, addr_parser.cpp:1058-1060. *)
Definition comment_chars (p : parser) : str :=
  (if allow p ALLOW_COMMENT_HASH then [35] else [])
  ++ (if allow p ALLOW_COMMENT_SEMICOLON then [59] else []).

(* membership in a set of characters, std::find_first_of(),
   addr_parser.cpp:1072, 1098, 1105 *)
Definition mem (c : Z) (set : str) : bool := existsb (Z.eqb c) set.
(* s up to the first character of the set, and the remainder starting with
   that character: std::find_first_of(), addr_parser.cpp:1072, 1098, 1105 *)
Fixpoint split_at (set : str) (s : str) : str * str :=
  match s with
  | [] => ([], [])
  | c :: r =>
      if mem c set then ([], s)
      else let '(a, b) := split_at set r in (c :: a, b)
  end.

(* addr_parser::parse() without separators, addr_parser.cpp:1064-1091: the
   text given to parse_cidr().  ec - s is a std::size_t: when ec < s the count
   is enormous and substr() returns everything from s on. *)
Definition single_entry (comments in_ : str) : str :=
  let s := (length in_ - length (trim_left in_))%nat in
  let ec := match comments with
            | [] => length in_
            | _ => (s + length (fst (split_at comments (skipn s in_))))%nat
            end in
  let ec := length (rev (trim_left (rev (firstn ec in_)))) in
  if (ec <? s)%nat then skipn s in_ else firstn (ec - s) (skipn s in_).

(* The loop of addr_parser::parse() with separators, addr_parser.cpp:
   1095-1127.  `rest` is the input from position s on; every iteration removes
   at least one character, so a fuel of the length of the input is enough. *)
Fixpoint parse_loop (y : sys) (g : resolver) (fuel : nat) (seps comments : str)
  (newlines : bool) (rest : str) : M (list addr_range) :=
  match rest with
  | [] => ret []
  | _ =>
      match fuel with
      | O => lift OutOfFuel
      | S k =>
          let '(piece, tail) := split_at seps rest in
          match piece with
          | [] => parse_loop y g k seps comments newlines (skipn 1 tail)
          | _ =>
              let '(text, tail) :=
                match comments with
                | [] => (piece, tail)
                | _ =>
                    (fst (split_at comments piece),
                     match tail with
                     | c :: _ =>
                         if newlines && negb (c =? 10) then snd (split_at [10] tail)
                         else tail
                     | [] => tail
                     end)
                end in
              do! l <- (match text with
                        | [] => ret []
                        | _ => parse_cidr y g text
                        end) in
              do! l' <- parse_loop y g k seps comments newlines (skipn 1 tail) in
              ret (l ++ l')
          end
      end
  end.

(* Everything of addr_parser::parse() up to line 1128. *)
Definition parse_entries (y : sys) (g : resolver) (in_ : str) : M (list addr_range) :=
  do! seps <- ask separators in
  do! comments <- ask comment_chars in
  match seps with
  | [] => parse_cidr y g (single_entry comments in_)
  | _ =>
      do! newlines <- allowed ALLOW_MULTI_ADDRESSES_NEWLINES in
      parse_loop y g (length in_) seps comments newlines in_
  end.

(* std::stable_sort(), addr_parser.cpp:1134, 1163, 1182: x goes before the
   elements which are not smaller than it. *)
Fixpoint insert {A} (lt : A -> A -> bool) (x : A) (l : list A) : list A :=
  match l with
  | [] => [x]
  | z :: r => if lt z x then z :: insert lt x r else x :: l
  end.
(* std::stable_sort(), as an insertion sort from the end: the result of a
   stable sort does not depend on the algorithm when lt is a strict weak
   order.  addr_parser.cpp:1134, 1163, 1182. *)
Definition stable_sort {A} (lt : A -> A -> bool) (l : list A) : list A :=
  fold_right (insert lt) [] l.

(* The merge loop, addr_parser.cpp:1137-1157: cur is result[idx]. *)
Fixpoint merge_from (cur : addr_range) (rest : list addr_range) : res (list addr_range) :=
  match rest with
  | [] => Ok [cur]
  | n :: rest' =>
      let! u := union_if_possible cur n in
      if is_defined u && negb (is_empty u) then merge_from u rest'
      else let! l := merge_from n rest' in Ok (cur :: l)
  end.
(* as above, the whole vector *)
Definition merge_all (l : list addr_range) : res (list addr_range) :=
  match l with
  | [] => Ok []
  | cur :: rest => merge_from cur rest
  end.

(* The lambda of addr_parser.cpp:1166-1178; compare() has mixed = false by
   default, addr_range.h. *)
Definition v4_first (a b : addr_range) : bool :=
  match compare a b false with
  | COMPARE_IPV4_VS_IPV6 | COMPARE_FIRST => true
  | _ => false
  end.
(* The lambda of addr_parser.cpp:1185-1197. *)
Definition v6_first (a b : addr_range) : bool :=
  match compare a b false with
  | COMPARE_IPV6_VS_IPV4 | COMPARE_FIRST => true
  | _ => false
  end.

(* The end of addr_parser::parse(), addr_parser.cpp:1132-1200. *)
Definition arrange (sort : Z) (l : list addr_range) : res (list addr_range) :=
  let l := if negb (Z.land sort (Z.lor SORT_FULL SORT_MERGE) =? 0)
           then stable_sort range_lt l else l in
  let! l := if negb (Z.land sort SORT_MERGE =? 0) then merge_all l else Ok l in
  if negb (Z.land sort SORT_IPV4_FIRST =? 0) then Ok (stable_sort v4_first l)
  else if negb (Z.land sort SORT_IPV6_FIRST =? 0) then Ok (stable_sort v6_first l)
  else Ok l.

(* addr_parser::parse(), addr_parser.cpp:1037-1201. *)
Definition parse (y : sys) (g : resolver) (in_ : str) : M (list addr_range) :=
  do! l <- parse_entries y g in_ in
  do! sort <- ask f_sort in
  lift (arrange sort l).

(* string_to_addr(), addr_parser.cpp:2314-2390. *)
Definition string_to_addr (y : sys) (g : resolver) (a default_address : str)
  (default_port : Z) (protocol : str) (mask : bool) : res addr :=
  let p := parser_new in
  let! p := match default_address with
            | [] => Ok p
            | _ => let '(p', r) := set_default_address p default_address in
                   let! _ := r in Ok p'
            end in
  let! p := if negb (default_port =? -1)
            then let '(p', r) := set_default_port p default_port in let! _ := r in Ok p'
            else Ok p in
  let! p := match protocol with
            | [] => Ok p
            | _ => let '(p', r) := parser_set_protocol_str y p protocol in
                   let! _ := r in Ok p'
            end in
  let p := fst (set_allow p ALLOW_MASK mask) in
  let! result := snd (parse y g a p) in
  let! result :=
    match result with
    | [_] => Ok result
    | _ =>
        let result :=
          match protocol with
          | [] => filter (fun it => negb (has_from it
                            && negb (get_protocol (get_from it) =? IPPROTO_TCP))) result
          | _ => result
          end in
        match result with
        | [_] => Ok result
        | _ => Throw E_invalid_argument
        end
    end in
  match result with
  | [r] =>
      if has_to r || is_range r then Throw E_invalid_argument
      else if negb (has_from r) then Throw E_invalid_argument
      else Ok (get_from r)
  | _ => UB
  end.
