(* What a parser says about a text which it does not accept: the reasons and
   their messages. *)
From Verif Require Import Base Addr Range Spec SpecRange Inet SpecText Parser SpecParser SpecParser2 SpecParser4 SpecLanguage.
Local Open Scope Z_scope.

(* Brackets or colons which are not those of a layout. *)
Inductive wrong_layout (p : parser) (six : bool) : str -> str -> Prop :=
| never_closed t : ~ In 93 t ->
    wrong_layout p six ([91] ++ t) (lit "IPv6 is missing the ']' (" ++ ([91] ++ t) ++ lit ").")
| more_data A c R : ~ In 93 A -> c <> 58 ->
    wrong_layout p six ([91] ++ A ++ [93] ++ c :: R)
      (lit "The IPv6 address """ ++ ([91] ++ A ++ [93] ++ c :: R) ++ lit """ is followed by unknown data.")
| unwanted_port_six A D : ~ In 93 A -> ~ ports_allowed p ->
    wrong_layout p six ([91] ++ A ++ [93; 58] ++ D) (lit "Port not allowed (" ++ ([91] ++ A ++ [93; 58] ++ D) ++ lit ").")
| unwanted_port_four A D : six = false -> ~ In 58 A -> ~ In 58 D -> hd 0 A <> 91 -> ~ ports_allowed p ->
    wrong_layout p six (A ++ [58] ++ D) (lit "Port not allowed (" ++ (A ++ [58] ++ D) ++ lit ").").

(* The port in the message about a name which is not known. *)
Inductive port_shown (p : parser) (D : str) : str -> Prop :=
| shown_written : D <> [] -> port_shown p D (lit ":" ++ D)
| shown_default S : D = [] -> 0 <= get_default_port p -> plain_decimal S (get_default_port p) -> port_shown p D (lit ":" ++ S)
| shown_none : D = [] -> get_default_port p = -1 -> port_shown p D [].
(* One address A with the text of a port D: the first of these reasons. *)
Inductive wrong_address (y : sys) (g : resolver) (p : parser) (six : bool) (A D : str) : str -> Prop :=
| port_absent : D = [] -> get_allow p ALLOW_REQUIRED_PORT = Ok true ->
    wrong_address y g p six A D (lit "Required port is missing.")
| address_absent : D <> [] \/ get_allow p ALLOW_REQUIRED_PORT = Ok false ->
    A = [] -> get_allow p ALLOW_REQUIRED_ADDRESS = Ok true ->
    wrong_address y g p six A D (lit "Required address is missing.")
| port_no_number H : get_allow p ALLOW_ADDRESS_LOOKUP = Ok false ->
    host_text p six A H -> D <> [] -> (forall n, convert_string y D = Some n -> ~ 0 <= n <= 65535) ->
    wrong_address y g p six A D (lit "invalid port in """ ++ D ++ lit """ (no service name lookup allowed).")
| port_unwanted H n : get_allow p ALLOW_ADDRESS_LOOKUP = Ok false ->
    host_text p six A H -> D <> [] -> convert_string y D = Some n -> 0 <= n <= 65535 -> ~ ports_allowed p ->
    wrong_address y g p six A D (lit "Found a port (""" ++ D ++ lit """) when it is not allowed.")
| default_port_unwanted H S : get_allow p ALLOW_ADDRESS_LOOKUP = Ok false ->
    host_text p six A H -> D = [] -> ~ ports_allowed p ->
    0 <= get_default_port p -> plain_decimal S (get_default_port p) ->
    wrong_address y g p six A D (lit "Found a port (""" ++ S ++ lit """) when it is not allowed.")
| no_such_address H n given : get_allow p ALLOW_ADDRESS_LOOKUP = Ok false ->
    host_text p six A H -> port_text y p D n given -> (forall v, ~ denotes H v) ->
    wrong_address y g p six A D (lit "Unknown address in """ ++ H ++ lit """ (no DNS lookup was allowed).")
| lookup_failed H given S e : get_allow p ALLOW_ADDRESS_LOOKUP = Ok true ->
    host_text p six A H -> asked g p H (58 :: D) given (GAI_error e) -> port_shown p D S ->
    wrong_address y g p six A D (lit "Invalid address in """ ++ H ++ S ++ lit """ error " ++ e).

(* An end of a range: it is wrong, or it has several addresses. *)
Inductive wrong_end (y : sys) (g : resolver) (p : parser) (six : bool) (A D : str) (many : str) : str -> Prop :=
| end_wrong msg : wrong_address y g p six A D msg -> wrong_end y g p six A D many msg
| end_many r rest r2 : found y g p six A D (r :: rest) -> In r2 rest -> value (get_from r2) <> value (get_from r) ->
    wrong_end y g p six A D many many.
(* One address or a range; the first end comes first. *)
Inductive wrong_addresses (y : sys) (g : resolver) (p : parser) (six : bool) : str -> str -> str -> Prop :=
| wrong_one A D msg : ~ In 45 A \/ get_allow p ALLOW_ADDRESS_RANGE = Ok false ->
    wrong_address y g p six A D msg -> wrong_addresses y g p six A D msg
| wrong_dash D : get_allow p ALLOW_ADDRESS_RANGE = Ok true ->
    wrong_addresses y g p six [45] D (lit "An address range requires at least one of the ""from"" or ""to"" addresses.")
| wrong_first A B D msg : get_allow p ALLOW_ADDRESS_RANGE = Ok true -> ~ In 45 A -> A <> [] ->
    wrong_end y g p six A D (lit "The ""from"" of an address range must be exactly one address.") msg ->
    wrong_addresses y g p six (A ++ [45] ++ B) D msg
| wrong_last A B D msg : get_allow p ALLOW_ADDRESS_RANGE = Ok true -> ~ In 45 A ->
    A = [] \/ (exists a, found_one y g p six A D a) -> B <> [] ->
    wrong_end y g p six B D (lit "The ""to"" of an address range must be exactly one address.") msg ->
    wrong_addresses y g p six (A ++ [45] ++ B) D msg.

(* What the resolver says about a mask written as an address. *)
Definition mask_question (g : resolver) (a : addr) (text : str) (answer : gai_result) : Prop :=
  exists service socktype protocol, plain_decimal service (get_port a) /\ hints (get_protocol a) socktype protocol
    /\ g text service true socktype protocol = answer.
(* The sizes in the answers are those of socklen_t. *)
Definition sizes_ok (g : resolver) : Prop := forall node service numeric socktype protocol l,
  g node service numeric socktype protocol = GAI_list l -> Forall (fun ai => 0 <= ai_addrlen ai < 4294967296) l.
(* The name of the family which has this limit. *)
Inductive family : Z -> str -> Prop :=
| family_four : family 32 (lit "32 at the most for an IPv4")
| family_six : family 128 (lit "128 at the most for an IPv6").
(* The mask T of a range. *)
Inductive wrong_mask (g : resolver) (p : parser) (six : bool) (T : str) (r : addr_range) : str -> Prop :=
| mask_huge d t n : T = d ++ t -> decimal d n -> 10000 < n ->
    wrong_mask g p six T r (lit "Mask size too large (" ++ T ++ lit ", expected a maximum of 128).")
| mask_large n N F : decimal T n -> limit (negb six) r < n <= 10000 -> plain_decimal N n -> family (limit (negb six) r) F ->
    wrong_mask g p six T r (lit "Unsupported mask size (" ++ N ++ lit ", expected " ++ F ++ lit ").")
| mask_unwanted : T <> [] -> no_number T -> get_allow p ALLOW_ADDRESS_MASK = Ok false ->
    wrong_mask g p six T r (lit "Address like mask not allowed (/" ++ T ++ lit "), try with a simple number instead.")
| mask_not_four : no_number T -> get_allow p ALLOW_ADDRESS_MASK = Ok true ->
    limit (negb six) r = 32 -> hd 0 T = 91 ->
    wrong_mask g p six T r (lit "The address uses the IPv4 syntax, the mask cannot use IPv6.")
| mask_not_six : T <> [] -> no_number T -> get_allow p ALLOW_ADDRESS_MASK = Ok true ->
    limit (negb six) r = 128 -> hd 0 T <> 91 ->
    wrong_mask g p six T r (lit "The address uses the IPv6 syntax, the mask cannot use IPv4.")
| mask_never_closed t : get_allow p ALLOW_ADDRESS_MASK = Ok true ->
    limit (negb six) r = 128 -> T = [91] ++ t -> ~ (exists u, t = u ++ [93]) ->
    wrong_mask g p six T r (lit "The IPv6 mask is missing the ']' (" ++ T ++ lit ").")
| mask_no_address t e : no_number T -> get_allow p ALLOW_ADDRESS_MASK = Ok true ->
    limit (negb six) r = 32 /\ t = T /\ hd 0 T <> 91 \/ limit (negb six) r = 128 /\ T = [91] ++ t ++ [93] -> t <> [] ->
    mask_question g (get_from r) t (GAI_error e) ->
    wrong_mask g p six T r (lit "Invalid mask in ""/" ++ T ++ lit """, error " ++ e)
| mask_other_six ai l : no_number T -> get_allow p ALLOW_ADDRESS_MASK = Ok true ->
    limit (negb six) r = 32 -> T <> [] -> hd 0 T <> 91 -> mask_question g (get_from r) T (GAI_list (ai :: l)) ->
    ai_family ai <> AF_INET ->
    wrong_mask g p six T r (lit "Incompatible address between the address and mask address (first was an IPv4 second an IPv6).")
| mask_other_four t ai l : get_allow p ALLOW_ADDRESS_MASK = Ok true ->
    limit (negb six) r = 128 -> T = [91] ++ t ++ [93] -> t <> [] -> mask_question g (get_from r) t (GAI_list (ai :: l)) ->
    ai_family ai <> AF_INET6 ->
    wrong_mask g p six T r (lit "Incompatible address between the address and mask address (first was an IPv6 second an IPv4).")
| mask_size_four ai l N : no_number T -> get_allow p ALLOW_ADDRESS_MASK = Ok true ->
    limit (negb six) r = 32 -> T <> [] -> hd 0 T <> 91 -> mask_question g (get_from r) T (GAI_list (ai :: l)) ->
    ai_family ai = AF_INET -> ai_addrlen ai <> 16 -> plain_decimal N (ai_addrlen ai) ->
    wrong_mask g p six T r (lit "Unsupported address size (" ++ N ++ lit ", expected16).")
| mask_size_six t ai l N : get_allow p ALLOW_ADDRESS_MASK = Ok true ->
    limit (negb six) r = 128 -> T = [91] ++ t ++ [93] -> t <> [] -> mask_question g (get_from r) t (GAI_list (ai :: l)) ->
    ai_family ai = AF_INET6 -> ai_addrlen ai <> 28 -> plain_decimal N (ai_addrlen ai) ->
    wrong_mask g p six T r (lit "Unsupported address size (" ++ N ++ lit ", expected 28).").

(* The mask T of several ranges: one message about each range which cannot
   have it. *)
Inductive wrong_masks (g : resolver) (p : parser) (six : bool) (T : str) : list addr_range -> list str -> Prop :=
| masks_end : wrong_masks g p six T [] []
| mask_fits r r2 l ms : gets_mask g p six T r r2 -> wrong_masks g p six T l ms -> wrong_masks g p six T (r :: l) ms
| mask_wrong r msg l ms : wrong_mask g p six T r msg -> wrong_masks g p six T l ms -> wrong_masks g p six T (r :: l) (msg :: ms).

(* The messages about the text s; only a name with several addresses can get
   more than one. *)
Inductive complaint (y : sys) (g : resolver) (p : parser) (s : str) : list str -> Prop :=
| about_layout b m six msg : slashed p s b m -> way p m b six -> wrong_layout p six b msg -> complaint y g p s [msg]
| about_addresses b m six A D msg : slashed p s b m -> way p m b six -> layout p six b A D ->
    wrong_addresses y g p six A D msg -> complaint y g p s [msg]
| about_mask b m six A D l T ms : slashed p s b m -> way p m b six -> layout p six b A D ->
    addresses y g p six A D l -> get_allow p ALLOW_MASK = Ok true -> mask_used p six m T ->
    wrong_masks g p six T l ms -> ms <> [] -> complaint y g p s ms.

(* One entry with the blanks around it: no message when it is accepted, or
   the messages about it. *)
Inductive report (y : sys) (g : resolver) (p : parser) : str -> list str -> Prop :=
| report_nothing b1 t b2 l : Forall blank b1 -> plain_text t -> Forall blank b2 -> accepted y g p t l ->
    report y g p (b1 ++ t ++ b2) []
| report_messages b1 t b2 ms : Forall blank b1 -> plain_text t -> Forall blank b2 -> complaint y g p t ms ->
    report y g p (b1 ++ t ++ b2) ms.
(* What a lookup answers are addresses of IPv4 and IPv6, complete ones. *)
Definition answers_usable (g : resolver) : Prop := forall node service socktype protocol l,
  g node service false socktype protocol = GAI_list l -> Forall (fun ai => usable ai = true) l.
(* The log with more messages, one per line; nothing else changes. *)
Definition logged (p : parser) (ms : list str) (p2 : parser) : Prop :=
  same_config p p2 /\ error_messages p2 = error_messages p ++ concat (map (fun m => m ++ [10]) ms)
  /\ error_count p2 = error_count p + Z.of_nat (length ms).
