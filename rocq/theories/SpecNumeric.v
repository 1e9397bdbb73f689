(* Specification for C157: what getaddrinfo() is documented to do with numeric
   texts, and what it means for two ranges to differ by their protocol only.
   addr_parser.cpp:1757-1885, 2136-2217. *)
From Verif Require Import Base Addr Range Inet Parser.
Local Open Scope Z_scope.

(* The protocols of the answers to the hints (ai_socktype, ai_protocol): one
   for each kind of sockets the hints allow, getaddrinfo(3). *)
Inductive kinds : Z -> Z -> list Z -> Prop :=
| kinds_tcp : kinds SOCK_STREAM IPPROTO_TCP [IPPROTO_TCP]
| kinds_udp : kinds SOCK_DGRAM IPPROTO_UDP [IPPROTO_UDP]
| kinds_all : kinds 0 0 [IPPROTO_TCP; IPPROTO_UDP; IPPROTO_IP].

(* A text without '+', 'x', 'X' and NUL: advgetopt reads numbers with a plus
   sign and hexadecimal ones, getaddrinfo() does not do so in the same way. *)
Definition clean (t : str) : Prop := ~ In 43 t /\ ~ In 88 t /\ ~ In 120 t /\ ~ In 0 t.

(* The text t means port n. *)
Definition reads_port (y : sys) (t : str) (n : Z) : Prop :=
  (t = lit "0" /\ n = 0) \/ (convert_string y t = Some n /\ 0 <= n <= 65535 /\ clean t).

(* The entry for an IPv4 address in network order, for an IPv6 address. *)
Definition entry4 (q : list Z) (n k : Z) (ai : addrinfo) : Prop :=
  ai_family ai = AF_INET /\ ai_addrlen ai = SIZEOF_IN /\ ai_protocol ai = k
  /\ ai_in ai = mk_in AF_INET (bswap16 n) (load32 q 0).
Definition entry6 (q : list Z) (n k : Z) (ai : addrinfo) : Prop :=
  ai_family ai = AF_INET6 /\ ai_addrlen ai = SIZEOF_IN6 /\ ai_protocol ai = k
  /\ ai_in6 ai = mk_in6 AF_INET6 (bswap16 n) 0 q 0.
(* Two entries with the same address. *)
Definition same_entry (a b : addrinfo) : Prop :=
  ai_family a = ai_family b /\ ai_addrlen a = ai_addrlen b
  /\ s_addr (ai_in a) = s_addr (ai_in b) /\ sin6_addr (ai_in6 a) = sin6_addr (ai_in6 b).

(* getaddrinfo() given a host which inet_pton() reads and a port number looks
   nothing up: the answer is that address and port, once for each kind of
   sockets.  With AI_NUMERICHOST, which is how masks are read, the address of
   an answer does not depend on the hints about sockets.  (AI_ADDRCONFIG is
   among the hints: this is about a machine with IPv4 and IPv6.) *)
Record posix (y : sys) (g : resolver) : Prop := {
  posix_four : forall A t n st pr ks q, reads_port y t n -> kinds st pr ks -> inet_pton4 A = Some q ->
    exists l, g A t false st pr = GAI_list l /\ Forall2 (entry4 q n) ks l;
  posix_six : forall A t n st pr ks q, reads_port y t n -> kinds st pr ks ->
    inet_pton4 A = None -> inet_pton6 A = Some q ->
    exists l, g A t false st pr = GAI_list l /\ Forall2 (entry6 q n) ks l;
  posix_mask : forall m t st pr ks st' pr' ks' a l, kinds st pr ks -> kinds st' pr' ks' ->
    g m t true st pr = GAI_list (a :: l) ->
    exists b l', g m t true st' pr' = GAI_list (b :: l') /\ same_entry a b
}.

(* b is a with protocol k: address, port, mask, host name are the same. *)
Record protocol_set (k : Z) (a b : addr) : Prop := {
  ps_protocol : get_protocol b = k;
  ps_address : get_ipv6 b = get_ipv6 a;
  ps_port_defined : is_port_defined b = is_port_defined a;
  ps_mask : get_mask b = get_mask a;
  ps_mask_defined : is_mask_defined b = is_mask_defined a;
  ps_hostname : get_hostname b = get_hostname a;
  ps_interface : get_interface b = get_interface a
}.
(* The same for the ends of a range which are set. *)
Definition end_set (has : bool) (k : Z) (a b : addr) : Prop := if has then protocol_set k a b else b = a.
Definition range_set (k : Z) (r s : addr_range) : Prop :=
  has_from s = has_from r /\ has_to s = has_to r
  /\ end_set (has_from r) k (get_from r) (get_from s) /\ end_set (has_to r) k (get_to r) (get_to s).

(* The ranges which a parser with protocol proto has instead of r once lookups
   are allowed: an entry which is one address gives an address for TCP, one
   for UDP and one for IP, an entry with a dash gives one range for TCP. *)
Definition instead (proto : Z) (r : addr_range) (l : list addr_range) : Prop :=
  if (proto =? IPPROTO_TCP) || (proto =? IPPROTO_UDP) then l = [r]
  else exists t, range_set IPPROTO_TCP r t /\ (proto = -1 -> t = r)
    /\ (l = [t] \/ exists u i, l = [t; u; i] /\ range_set IPPROTO_UDP r u /\ range_set IPPROTO_IP r i
                               /\ (proto = IPPROTO_IP -> i = r)).
Definition spread (proto : Z) (rs l : list addr_range) : Prop :=
  exists ls, Forall2 (instead proto) rs ls /\ l = concat ls.
