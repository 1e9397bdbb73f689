(* Vocabulary for entries with numeric addresses, for masks and for
   string_to_addr(). *)
From Verif Require Import Base Addr Range Spec SpecRange Inet SpecText SpecIpv6 Parser SpecParser.
Local Open Scope Z_scope.

Definition two_colons (s : str) : Prop := exists a b c, s = a ++ 58 :: b ++ 58 :: c.
(* The address of an entry is written the IPv4 way (this includes host names):
   no brackets, at most one colon and that one only for a port. *)
Definition ipv4_syntax (p : parser) (s : str) : Prop :=
  hd 0 s <> 91 /\ ~ In 93 s /\ ~ two_colons s
  /\ (~ In 58 s \/ get_allow p ALLOW_PORT = Ok true \/ get_allow p ALLOW_REQUIRED_PORT = Ok true).
(* The IPv6 way: in brackets or with at least two colons. *)
Definition ipv6_syntax (s : str) : Prop := hd 0 s = 91 \/ two_colons s.
Definition syntax (four : bool) (p : parser) (s : str) : Prop :=
  if four then ipv4_syntax p s else ipv6_syntax s.
(* The address is not the empty string followed by a port (":80"). *)
Definition has_address (s : str) : Prop := s <> [] /\ (hd 0 s <> 58 \/ two_colons s).

(* The largest number of bits of a mask for the address of a range: 32 for an
   IPv4 address written the IPv4 way, otherwise 128. *)
Definition limit (four : bool) (r : addr_range) : Z := if four && is_ipv4 (get_from r) then 32 else 128.
(* The range r2 is r1 with a mask of n ones. *)
Definition masked_by (n : Z) (r1 r2 : addr_range) : Prop :=
  has_from r2 = has_from r1 /\ has_to r2 = has_to r1 /\ get_to r2 = get_to r1
  /\ exists m, get_from r2 = set_mask (get_from r1) m /\ num m = prefix_mask n.

(* The parser as string_to_addr() is asked to set it up: a new parser, the
   default address, port and protocol if given, and masks if requested. *)
Definition asked_for (y : sys) (address : str) (port : Z) (protocol : str) (mask : bool) (p : parser) : Prop :=
  exists p1 p2 p3,
    (address = [] /\ p1 = parser_new \/ address <> [] /\ set_default_address parser_new address = (p1, Ok tt))
    /\ (port = -1 /\ p2 = p1 \/ port <> -1 /\ set_default_port p1 port = (p2, Ok tt))
    /\ (protocol = [] /\ p3 = p2 \/ protocol <> [] /\ parser_set_protocol_str y p2 protocol = (p3, Ok tt))
    /\ set_allow p3 ALLOW_MASK mask = (p, Ok tt).
(* The range which is meant: the only one or, when no protocol was given, the
   only one for TCP. *)
Definition for_tcp (r : addr_range) : Prop := get_protocol (get_from r) = IPPROTO_TCP.
Definition meant (protocol : str) (l : list addr_range) (r : addr_range) : Prop :=
  l = [r]
  \/ (protocol = [] /\ length l <> 1%nat
      /\ exists a b, l = a ++ r :: b /\ for_tcp r /\ Forall (fun x => ~ for_tcp x) (a ++ b)).

(* The text of an IP address: dotted notation for IPv4, otherwise a text of an
   IPv6 address. *)
Definition denotes (s : str) (v : Z) : Prop :=
  (exists w, dotted s w /\ v = v4_base + w)
  \/ (exists ws, ipv6_text s ws /\ v = words_value ws).
(* The port of an entry: a number after a colon, or nothing and the default
   port or zero. *)
Inductive port_part (p : parser) : str -> Z -> bool -> Prop :=
| port_given D n : decimal D n -> n <= 65535 ->
    get_allow p ALLOW_PORT = Ok true \/ get_allow p ALLOW_REQUIRED_PORT = Ok true ->
    port_part p (58 :: D) n true
| port_none : get_allow p ALLOW_REQUIRED_PORT = Ok false -> get_default_port p = -1 -> port_part p [] 0 false
| port_default : get_allow p ALLOW_REQUIRED_PORT = Ok false -> get_allow p ALLOW_PORT = Ok true ->
    0 <= get_default_port p <= 65535 -> port_part p [] (get_default_port p) false.
(* How the address (or range of addresses) and the port are put together. *)
Inductive written : str -> str -> str -> Prop :=
| written_plain body P : ~ In 58 body -> written body P (body ++ P)
| written_brackets body P : written body P ([91] ++ body ++ [93] ++ P)
| written_bare body : two_colons body -> written body [] body.
(* The address which a numeric text stands for. *)
Record stands_for (p : parser) (v port : Z) (given : bool) (host : str) (a : addr) : Prop := mk_stands_for {
  st_wf : addr_wf a;
  st_value : value a = v;
  st_port : get_port a = port;
  st_given : is_port_defined a = given;
  st_protocol : get_protocol a = (if parser_get_protocol p =? -1 then IPPROTO_TCP else parser_get_protocol p);
  st_mask : mask_value a = LAST;
  st_host : f_hostname a = host
}.

(* A parser for numeric addresses: one entry per call, no comments, no
   sorting, no lookup, a protocol which addr supports or none, no default
   mask. *)
Record takes_numbers (p : parser) : Prop := mk_takes_numbers {
  tn_separator : nobody (separator p);
  tn_comment : nobody (starts_comment p);
  tn_unsorted : unsorted p;
  tn_lookup : get_allow p ALLOW_ADDRESS_LOOKUP = Ok false;
  tn_protocol : parser_get_protocol p = -1 \/ protocol_ok (parser_get_protocol p);
  tn_mask : get_allow p ALLOW_MASK = Ok false \/ (get_default_mask4 p = [] /\ get_default_mask6 p = [])
}.

(* A mask written as an address and the mask it stands for: for IPv4 (lim = 32)
   in dotted notation, for IPv6 (lim = 128) in brackets. *)
Definition address_mask (lim : Z) (M : str) (m : Z) : Prop :=
  (lim = 32 /\ exists w, dotted M w /\ m = prefix_mask 96 + w)
  \/ (lim = 128 /\ exists t ws, M = [91] ++ t ++ [93] /\ ipv6_text t ws /\ m = words_value ws).
(* The range r2 is r1 with the mask m. *)
Definition masked_with (m : Z) (r1 r2 : addr_range) : Prop :=
  has_from r2 = has_from r1 /\ has_to r2 = has_to r1 /\ get_to r2 = get_to r1
  /\ exists b, get_from r2 = set_mask (get_from r1) b /\ num b = m /\ length b = 16%nat /\ Forall is_byte b.
(* getaddrinfo() with AI_NUMERICHOST: the text of an address gives that
   address first. *)
Definition resolves_numbers (g : resolver) : Prop :=
  forall node service socktype protocol,
    (forall w, dotted node w -> exists ai l, g node service true socktype protocol = GAI_list (ai :: l)
       /\ ai_family ai = AF_INET /\ ai_addrlen ai = SIZEOF_IN
       /\ 0 <= s_addr (ai_in ai) < 2 ^ 32 /\ bswap32 (s_addr (ai_in ai)) = w)
    /\ (forall ws, ipv6_text node ws -> exists ai l, g node service true socktype protocol = GAI_list (ai :: l)
       /\ ai_family ai = AF_INET6 /\ ai_addrlen ai = SIZEOF_IN6 /\ bytes16 (sin6_addr (ai_in6 ai))
       /\ num (sin6_addr (ai_in6 ai)) = words_value ws).

(* getaddrinfo() only answers with the protocols addr supports: IP, TCP and
   UDP. *)
Definition known_protocols (g : resolver) : Prop :=
  forall node service numeric socktype protocol l,
    g node service numeric socktype protocol = GAI_list l ->
    Forall (fun ai => protocol_ok (ai_protocol ai)) l.
