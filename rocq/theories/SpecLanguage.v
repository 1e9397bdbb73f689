(* The texts which a parser accepts, and what they mean: one entry, without
   the blanks around it. *)
From Verif Require Import Base Addr Range Spec SpecRange Inet SpecText Parser SpecParser SpecParser2 SpecParser4.
Local Open Scope Z_scope.

(* A parser which, without lookup, has a protocol which addr supports or none;
   NUL is in none of its defaults. *)
Record takes_entries (p : parser) : Prop := mk_takes_entries {
  te_protocol : get_allow p ALLOW_ADDRESS_LOOKUP = Ok false -> parser_get_protocol p = -1 \/ protocol_ok (parser_get_protocol p);
  te_port : -1 <= get_default_port p <= 65535;
  te_nul : ~ In 0 (get_default_address4 p) /\ ~ In 0 (get_default_address6 p)
    /\ ~ In 0 (get_default_mask4 p) /\ ~ In 0 (get_default_mask6 p)
}.
(* A text is one entry: there are no separators, comments and no sorting. *)
Record takes_one (p : parser) : Prop := mk_takes_one {
  to_separator : nobody (separator p);
  to_comment : nobody (starts_comment p);
  to_unsorted : unsorted p
}.

(* The entry is addresses and, when masks are allowed, what follows the first
   slash. *)
Inductive slashed (p : parser) : str -> str -> str -> Prop :=
| cut_forbidden s : get_allow p ALLOW_MASK = Ok false -> slashed p s s []
| cut_none s : get_allow p ALLOW_MASK = Ok true -> ~ In 47 s -> slashed p s s []
| cut_mask b m : get_allow p ALLOW_MASK = Ok true -> ~ In 47 b -> slashed p (b ++ 47 :: m) b m.

(* No dot is in front of the first colon. *)
Definition colon_first (b : str) : Prop := exists a c, b = a ++ [58] ++ c /\ ~ In 58 a /\ ~ In 46 a.
(* The IPv6 way of writing (six) or the IPv4 way. *)
Inductive way (p : parser) (mask : str) : str -> bool -> Prop :=
| way_colons b : two_colons b -> way p mask b true
| way_nothing b six : ~ two_colons b -> b = [] \/ hd 0 b = 58 -> (six = true <-> means_six p mask) -> way p mask b six
| way_brackets b six : ~ two_colons b -> b <> [] -> hd 0 b <> 58 ->
    (six = true <-> hd 0 b = 91 \/ In 93 b \/ ~ ports_allowed p /\ colon_first b) -> way p mask b six.

(* Addresses and port; without brackets the flags for ports only count in the
   IPv4 way of writing. *)
Inductive layout (p : parser) (six : bool) : str -> str -> str -> Prop :=
| layout_bare A : two_colons A -> hd 0 A <> 91 -> layout p six A A []
| layout_plain A : ~ In 58 A -> hd 0 A <> 91 -> layout p six A A []
| layout_port A D : ~ In 58 A -> ~ In 58 D -> hd 0 A <> 91 ->
    ports_allowed p \/ six = true -> layout p six (A ++ [58] ++ D) A D
| layout_brackets A : ~ In 93 A -> layout p six ([91] ++ A ++ [93]) A []
| layout_brackets_port A D : ~ In 93 A -> ports_allowed p -> layout p six ([91] ++ A ++ [93; 58] ++ D) A D.

(* The number of a port, and whether it was written. *)
Inductive port_text (y : sys) (p : parser) : str -> Z -> bool -> Prop :=
| port_written D n : D <> [] -> convert_string y D = Some n -> 0 <= n <= 65535 -> ports_allowed p -> port_text y p D n true
| port_missing : get_allow p ALLOW_REQUIRED_PORT = Ok false -> get_default_port p = -1 -> port_text y p [] 0 false
| port_from_default : get_allow p ALLOW_REQUIRED_PORT = Ok false -> get_allow p ALLOW_PORT = Ok true ->
    0 <= get_default_port p -> port_text y p [] (get_default_port p) false.
(* One address: as written, or the default address. *)
Inductive address_text (p : parser) (six : bool) : str -> str -> Z -> Prop :=
| address_written A v : denotes A v -> address_text p six A A v
| address_default D v : get_allow p ALLOW_REQUIRED_ADDRESS = Ok false -> default_for p six D -> denotes D v ->
    address_text p six [] D v.

Definition range_of (r : addr_range) (from to : option addr) : Prop :=
  has_from r = (match from with Some _ => true | None => false end)
  /\ has_to r = (match to with Some _ => true | None => false end)
  /\ get_from r = (match from with Some a => a | None => addr_new end)
  /\ (forall a, to = Some a -> get_to r = a).
(* The host: as written, or the default address. *)
Definition host_text (p : parser) (six : bool) (A H : str) : Prop :=
  A <> [] /\ H = A \/ A = [] /\ get_allow p ALLOW_REQUIRED_ADDRESS = Ok false /\ default_for p six H.
(* What is found for one address or name A and the text of a port D: the
   number itself or, with lookup, all that the resolver answers. *)
Inductive found (y : sys) (g : resolver) (p : parser) (six : bool) (A D : str) : list addr_range -> Prop :=
| found_number H v n given r a : get_allow p ALLOW_ADDRESS_LOOKUP = Ok false ->
    address_text p six A H v -> port_text y p D n given -> stands_for p v n given H a -> range_of r (Some a) None ->
    found y g p six A D [r]
| found_names H given ais rs : get_allow p ALLOW_ADDRESS_LOOKUP = Ok true ->
    host_text p six A H -> asked g p H (58 :: D) given (GAI_list ais) ->
    Forall (fun ai => usable ai = true) ais -> Forall2 (answer H given) ais rs ->
    found y g p six A D rs.
(* All that is found is the same address: the end of a range. *)
Definition found_one (y : sys) (g : resolver) (p : parser) (six : bool) (A D : str) (a : addr) : Prop :=
  A <> [] /\ exists r rest, found y g p six A D (r :: rest) /\ get_from r = a
    /\ Forall (fun r2 => value (get_from r2) = value a) rest.
(* One address or a range; D is the text of the port. *)
Inductive addresses (y : sys) (g : resolver) (p : parser) (six : bool) : str -> str -> list addr_range -> Prop :=
| no_range A D l : ~ In 45 A \/ get_allow p ALLOW_ADDRESS_RANGE = Ok false ->
    found y g p six A D l -> addresses y g p six A D l
| both_ends A B D a b r : get_allow p ALLOW_ADDRESS_RANGE = Ok true -> ~ In 45 A ->
    found_one y g p six A D a -> found_one y g p six B D b ->
    value a <= value b \/ Z.land (get_sort_order p) SORT_NO_EMPTY = 0 ->
    range_of r (Some a) (Some b) -> addresses y g p six (A ++ [45] ++ B) D [r]
| inverted A B D a b : get_allow p ALLOW_ADDRESS_RANGE = Ok true -> ~ In 45 A ->
    found_one y g p six A D a -> found_one y g p six B D b ->
    value b < value a -> Z.land (get_sort_order p) SORT_NO_EMPTY <> 0 ->
    addresses y g p six (A ++ [45] ++ B) D []
| first_only A D a r : get_allow p ALLOW_ADDRESS_RANGE = Ok true -> ~ In 45 A ->
    found_one y g p six A D a -> range_of r (Some a) None -> addresses y g p six (A ++ [45]) D [r]
| last_only B D a r : get_allow p ALLOW_ADDRESS_RANGE = Ok true ->
    found_one y g p six B D a -> range_of r None (Some a) -> addresses y g p six ([45] ++ B) D [r].

(* The text of the mask which is used: the default one when none is written. *)
Inductive mask_used (p : parser) (six : bool) : str -> str -> Prop :=
| used_written m : m <> [] -> mask_used p six m m
| used_four : six = false -> mask_used p six [] (get_default_mask4 p)
| used_six : six = true -> In 58 (get_default_mask6 p) -> mask_used p six [] ([91] ++ get_default_mask6 p ++ [93])
| used_none : six = true -> ~ In 58 (get_default_mask6 p) -> mask_used p six [] [].
(* A mask written as an address is no number and starts with none which is
   larger than 10000. *)
Definition no_number (m : str) : Prop := (forall n, ~ decimal m n) /\ forall d t n, m = d ++ t -> decimal d n -> n <= 10000.
(* What the resolver is asked about a mask written as an address. *)
Definition mask_answer (g : resolver) (a : addr) (text : str) (ai : addrinfo) : Prop :=
  exists service socktype protocol l, plain_decimal service (get_port a) /\ hints (get_protocol a) socktype protocol
    /\ g text service true socktype protocol = GAI_list (ai :: l).
(* The mask of the first address of a range; the number of a prefix is limited
   to 32 for IPv4 addresses written the IPv4 way. *)
Inductive gets_mask (g : resolver) (p : parser) (six : bool) : str -> addr_range -> addr_range -> Prop :=
| gets_none r : gets_mask g p six [] r r
| gets_brackets r : limit (negb six) r = 128 -> get_allow p ALLOW_ADDRESS_MASK = Ok true -> gets_mask g p six (lit "[]") r r
| gets_number m n r r2 : decimal m n -> n <= limit (negb six) r ->
    masked_with (prefix_mask (128 - limit (negb six) r + n)) r r2 -> gets_mask g p six m r r2
| gets_four m ai r r2 : limit (negb six) r = 32 -> get_allow p ALLOW_ADDRESS_MASK = Ok true ->
    m <> [] -> no_number m -> hd 0 m <> 91 -> mask_answer g (get_from r) m ai -> ai_family ai = AF_INET -> ai_addrlen ai = SIZEOF_IN ->
    masked_with (prefix_mask 96 + bswap32 (s_addr (ai_in ai))) r r2 -> gets_mask g p six m r r2
| gets_six t ai r r2 : limit (negb six) r = 128 -> get_allow p ALLOW_ADDRESS_MASK = Ok true ->
    t <> [] -> mask_answer g (get_from r) t ai -> ai_family ai = AF_INET6 -> ai_addrlen ai = SIZEOF_IN6 ->
    masked_with (num (sin6_addr (ai_in6 ai))) r r2 -> gets_mask g p six ([91] ++ t ++ [93]) r r2.

(* The whole entry. *)
Inductive accepted (y : sys) (g : resolver) (p : parser) : str -> list addr_range -> Prop :=
| accepted_entry s b m six A D T l1 l2 : slashed p s b m -> way p m b six -> layout p six b A D -> addresses y g p six A D l1 ->
    (get_allow p ALLOW_MASK = Ok false /\ l2 = l1
     \/ get_allow p ALLOW_MASK = Ok true /\ mask_used p six m T /\ Forall2 (gets_mask g p six T) l1 l2) ->
    accepted y g p s l2.

(* Two results which mean the same: the ends are present in both or in none,
   with the same address, mask, port, protocol and name. *)
Definition same_end (a b : addr) : Prop :=
  value a = value b /\ mask_value a = mask_value b /\ get_port a = get_port b /\ is_port_defined a = is_port_defined b
  /\ get_protocol a = get_protocol b /\ f_hostname a = f_hostname b.
Definition same_range (r r2 : addr_range) : Prop :=
  has_from r = has_from r2 /\ has_to r = has_to r2
  /\ (has_from r = true -> same_end (get_from r) (get_from r2)) /\ (has_to r = true -> same_end (get_to r) (get_to r2)).

(* The entries of a text. Without separators: the text up to a comment, except
   that a comment after nothing but blanks is taken for the entry. With
   separators: each piece up to a comment; with newlines and comments: only
   the first piece of each line. *)
Inductive entries_of (p : parser) : str -> list str -> Prop :=
| one_entry s t : nobody (separator p) -> up_to (starts_comment p) s t ->
    s = t \/ t = [] \/ Exists (fun c => ~ blank c) t -> entries_of p s [t]
| comment_kept b c r : nobody (separator p) -> b <> [] -> Forall blank b -> starts_comment p c ->
    entries_of p (b ++ c :: r) [c :: r]
| each_piece s ps ts : (exists c, separator p c) ->
    (nobody (starts_comment p) \/ ~ separator p 10 \/ forall c, separator p c -> newline c) ->
    pieces (separator p) s ps -> Forall2 (up_to (starts_comment p)) ps ts -> entries_of p s (filter nonempty_str ts)
| first_of_lines s lines ts : (exists c, starts_comment p c) -> separator p 10 ->
    pieces newline s lines -> Forall2 (line_entry (separator p) (starts_comment p)) lines ts ->
    entries_of p s (filter nonempty_str (concat ts)).
(* What becomes of one entry, blanks around it aside. *)
Inductive verdict (y : sys) (g : resolver) (p : parser) : str -> list addr_range * bool -> Prop :=
| verdict_taken b1 t b2 l : Forall blank b1 -> plain_text t -> Forall blank b2 ->
    accepted y g p t l -> verdict y g p (b1 ++ t ++ b2) (l, true)
| verdict_refused b1 t b2 l : Forall blank b1 -> plain_text t -> Forall blank b2 ->
    (forall l2, ~ accepted y g p t l2) ->
    (get_allow p ALLOW_ADDRESS_LOOKUP = Ok false \/ get_allow p ALLOW_MASK = Ok true -> l = []) ->
    verdict y g p (b1 ++ t ++ b2) (l, false).
