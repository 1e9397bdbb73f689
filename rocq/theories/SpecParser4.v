(* Vocabulary for entries which are looked up, and for entries without an
   address. *)
From Verif Require Import Base Addr Range Spec SpecRange Inet SpecText Parser SpecParser SpecParser2.
Local Open Scope Z_scope.

(* A parser which takes one entry per call and looks it up: no comments, no
   sorting, no default mask. *)
Record takes_names (p : parser) : Prop := mk_takes_names {
  nm_separator : nobody (separator p);
  nm_comment : nobody (starts_comment p);
  nm_unsorted : unsorted p;
  nm_lookup : get_allow p ALLOW_ADDRESS_LOOKUP = Ok true;
  nm_mask : get_allow p ALLOW_MASK = Ok false \/ (get_default_mask4 p = [] /\ get_default_mask6 p = [])
}.
Definition ports_allowed (p : parser) : Prop :=
  get_allow p ALLOW_PORT = Ok true \/ get_allow p ALLOW_REQUIRED_PORT = Ok true.

(* An entry: the host, with a port or without, in brackets or not. *)
Inductive host_entry (p : parser) : str -> str -> str -> Prop :=
| host_plain A P : A <> [] -> hd 0 A <> 91 -> ~ In 58 A -> ~ In 93 (A ++ P) ->
    P = [] \/ (exists S, P = 58 :: S /\ ~ In 58 S /\ ports_allowed p) ->
    host_entry p A P (A ++ P)
| host_brackets A P : A <> [] -> ~ In 93 A -> P = [] \/ (exists S, P = 58 :: S /\ ports_allowed p) ->
    host_entry p A P ([91] ++ A ++ [93] ++ P)
| host_bare A : two_colons A -> hd 0 A <> 91 -> host_entry p A [] A.
(* No range is meant by the host. *)
Definition one_host (p : parser) (A : str) : Prop := ~ In 45 A \/ get_allow p ALLOW_ADDRESS_RANGE = Ok false.

(* The service which is asked for: the port as written, the default port, or
   zero. The last parameter tells whether the port was written. *)
Inductive service_of (p : parser) : str -> str -> bool -> Prop :=
| service_given S : S <> [] -> ~ In 0 S -> service_of p (58 :: S) S true
| service_default D P : P = [] \/ P = [58] -> get_allow p ALLOW_REQUIRED_PORT = Ok false ->
    get_default_port p <> -1 -> plain_decimal D (get_default_port p) -> service_of p P D false
| service_zero P : P = [] \/ P = [58] -> get_allow p ALLOW_REQUIRED_PORT = Ok false ->
    get_default_port p = -1 -> service_of p P (lit "0") false.
(* The kind of socket which is asked for. *)
Inductive hints : Z -> Z -> Z -> Prop :=
| hints_tcp : hints IPPROTO_TCP SOCK_STREAM IPPROTO_TCP
| hints_udp : hints IPPROTO_UDP SOCK_DGRAM IPPROTO_UDP
| hints_any n : n <> IPPROTO_TCP -> n <> IPPROTO_UDP -> hints n 0 0.
(* What the resolver says about host A with port P. *)
Definition asked (g : resolver) (p : parser) (A P : str) (given : bool) (answer : gai_result) : Prop :=
  exists S socktype protocol, service_of p P S given /\ hints (parser_get_protocol p) socktype protocol
    /\ g A S false socktype protocol = answer.

(* An answer which addr can hold, and the range it becomes. *)
Definition usable (ai : addrinfo) : bool :=
  ((ai_family ai =? AF_INET) && (ai_addrlen ai =? SIZEOF_IN))
  || ((ai_family ai =? AF_INET6) && (ai_addrlen ai =? SIZEOF_IN6)).
Record answer (host : str) (given : bool) (ai : addrinfo) (r : addr_range) : Prop := mk_answer {
  an_from : has_from r = true;
  an_to : has_to r = false;
  an_wf : addr_wf (get_from r);
  an_four : ai_family ai = AF_INET ->
    value (get_from r) = v4_base + bswap32 (s_addr (ai_in ai)) /\ get_port (get_from r) = bswap16 (sin_port (ai_in ai));
  an_six : ai_family ai = AF_INET6 -> get_ipv6 (get_from r) = ai_in6 ai;
  an_protocol : get_protocol (get_from r) = ai_protocol ai;
  an_mask : mask_value (get_from r) = LAST;
  an_host : f_hostname (get_from r) = host;
  an_given : is_port_defined (get_from r) = given
}.

(* What is said about the answers which addr cannot hold: one message for each
   answer of an unexpected size (the one about IPv4 lacks a space), and one for
   the first answer of another family only. seen: such a family was
   mentioned. *)
Definition size_message (D want : str) : str := lit "Unsupported address size (" ++ D ++ lit ", expected" ++ want ++ lit ").".
Definition family_message (D : str) : str := lit "Unsupported address family " ++ D ++ lit ".".
Definition signed_decimal (D : str) (n : Z) : Prop :=
  plain_decimal D n \/ (n < 0 /\ exists E, D = 45 :: E /\ plain_decimal E (- n)).
Definition other_family (ai : addrinfo) : Prop := ai_family ai <> AF_INET /\ ai_family ai <> AF_INET6.
Inductive remarks : bool -> list addrinfo -> list str -> Prop :=
| remarks_none seen : remarks seen [] []
| remarks_usable seen ai l ms : usable ai = true -> remarks seen l ms -> remarks seen (ai :: l) ms
| remarks_size4 seen ai l ms D : ai_family ai = AF_INET -> ai_addrlen ai <> SIZEOF_IN -> plain_decimal D (ai_addrlen ai) ->
    remarks seen l ms -> remarks seen (ai :: l) (size_message D (lit "16") :: ms)
| remarks_size6 seen ai l ms D : ai_family ai = AF_INET6 -> ai_addrlen ai <> SIZEOF_IN6 -> plain_decimal D (ai_addrlen ai) ->
    remarks seen l ms -> remarks seen (ai :: l) (size_message D (lit " 28") :: ms)
| remarks_family ai l ms D : other_family ai -> signed_decimal D (ai_family ai) ->
    remarks true l ms -> remarks false (ai :: l) (family_message D :: ms)
| remarks_again ai l ms : other_family ai -> remarks true l ms -> remarks true (ai :: l) ms.

(* An entry without an address: which default address it stands for, and how
   that one is written. M is the mask with its slash. *)
Definition no_address (P : str) : Prop := P = [] \/ exists S, P = 58 :: S /\ ~ In 58 S /\ ~ In 47 S.
Definition large_number (m : str) : Prop := exists n, decimal m n /\ 32 < n <= 1000.
Definition ipv6_mask (m : str) : Prop := hd 0 m = 91 \/ large_number m.
(* IPv6 is meant: by the mask or, without one, because IPv6 has the only
   default address. *)
Definition means_six (p : parser) (m : str) : Prop :=
  (m <> [] /\ ipv6_mask m) \/ (m = [] /\ get_default_address4 p = [] /\ get_default_address6 p <> []).
Definition default_for (p : parser) (six : bool) (D : str) : Prop :=
  if six then D = get_default_address6 p /\ D <> [] \/ get_default_address6 p = [] /\ D = lit "::"
  else D = get_default_address4 p /\ D <> [] \/ get_default_address4 p = [] /\ D = lit "0.0.0.0".
(* The mask as it is written after the address; it needs the flag. *)
Definition mask_part (p : parser) (m M : str) : Prop :=
  m = [] /\ M = [] \/ M = 47 :: m /\ ~ In 0 m /\ get_allow p ALLOW_MASK = Ok true.
(* An address which can be written in front of a port or a mask, and how. *)
Definition spelled (p : parser) (six : bool) (D P W : str) : Prop :=
  one_host p D /\ ~ In 47 D
  /\ if six then ~ In 93 D /\ W = [91] ++ D ++ [93]
     else ~ In 58 D /\ ~ In 93 (D ++ P) /\ hd 0 D <> 91 /\ W = D.
(* Nothing, or a text without outer blanks. *)
Definition plain_text (s : str) : Prop := s = [] \/ trimmed s.
