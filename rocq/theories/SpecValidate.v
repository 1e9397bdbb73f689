(* What the properties of validate-ip talk about. *)
From Verif Require Import Base Addr Spec SpecText Range Parser SpecParser SpecParser2 ValidateTool SpecTools.
Local Open Scope Z_scope.

(* ---------- the options ---------- *)
(* The default addresses: one, or two separated by the first comma. *)
Definition default_parts (s : str) (ps : list str) : Prop :=
  (~ In 44 s /\ ps = [s]) \/ (exists a b, s = a ++ 44 :: b /\ ~ In 44 a /\ ps = [a; b]).
(* Not empty, and no bracket is left open. *)
Definition good_part (s : str) : Prop := s <> [] /\ (hd 0 s = 91 -> last s 0 = 93).
(* An IPv6 address is recognized by its bracket or by its colons. *)
Definition six_part (s : str) : bool := (hd 0 s =? 91) || existsb (Z.eqb 58) s.
Definition bare_part (s : str) : str := if hd 0 s =? 91 then removelast (tl s) else s.
(* Of several default addresses the last one of each family counts. *)
Definition default4 (ps : list str) : str := last (filter (fun s => negb (six_part s)) ps) (lit "127.0.0.1").
Definition default6 (ps : list str) : str := last (map bare_part (filter six_part ps)) (lit "::").

(* Options the tool takes: the default addresses ps, a port, and a protocol
   which addr supports. *)
Record good_options (y : sys) (o : validate_options) (ps : list str) : Prop := mk_good_options {
  go_parts : default_parts (vo_default_address o) ps;
  go_part : Forall good_part ps;
  go_port : -1 <= vo_default_port o <= 65535;
  go_protocol : exists n, getprotobyname y (vo_protocol o) = Found n /\ protocol_ok n
}.
(* advgetopt takes no text with a period for an integer. *)
Definition refuses_periods (y : sys) : Prop := forall s, In 46 s -> convert_string y s = None.

(* ---------- the parser they stand for ---------- *)
Definition wanted_flags (o : validate_options) : list Z :=
  [ALLOW_ADDRESS; ALLOW_ADDRESS_LOOKUP; ALLOW_PORT]
  ++ (if vo_address o then [ALLOW_REQUIRED_ADDRESS] else [])
  ++ (if vo_port o then [ALLOW_REQUIRED_PORT] else [])
  ++ (if vo_mask o then [ALLOW_MASK] else [])
  ++ (if vo_list o then [ALLOW_MULTI_ADDRESSES_COMMAS; ALLOW_MULTI_ADDRESSES_SPACES] else []).
Record set_up (y : sys) (o : validate_options) (ps : list str) (p : parser) : Prop := mk_set_up {
  su_allow : forall flag, 0 <= flag < ALLOW_max -> get_allow p flag = Ok (existsb (Z.eqb flag) (wanted_flags o));
  su_sort : get_sort_order p = SORT_NO;
  su_address4 : get_default_address4 p = default4 ps;
  su_address6 : get_default_address6 p = default6 ps;
  su_mask4 : get_default_mask4 p = lit "255.255.255.255";
  su_mask6 : get_default_mask6 p = lit "FF:FF:FF:FF:FF:FF:FF:FF";
  su_port : get_default_port p = vo_default_port o;
  su_protocol : getprotobyname y (vo_protocol o) = Found (parser_get_protocol p);
  su_count : error_count p = 0;
  su_messages : error_messages p = []
}.

(* ---------- what it prints ---------- *)
(* The parser reads s without an error. *)
Definition accepted (y : sys) (g : resolver) (p : parser) (s : str) : Prop := error_count (fst (parse y g s p)) = 0.
(* The message about the argument s. *)
Definition complaint (s : str) (n : Z) (messages : str) (text : str) : Prop :=
  exists d, integer d n /\
  text = lit "address """ ++ s ++ lit """ generated " ++ d ++ lit " error" ++ (if n =? 1 then [] else lit "s")
         ++ lit ": " ++ messages ++ [10].
(* The line l stands for the address of r, its port and its mask: every parser
   of numeric addresses, ports and masks reads this from it. *)
Definition line_of (r : addr_range) (l : str) : Prop :=
  ~ In 10 l /\ forall y g p, converts_decimals y -> resolves_numbers g -> takes_numbers p ->
    get_allow p ALLOW_MASK = Ok true -> get_allow p ALLOW_ADDRESS_MASK = Ok true ->
    get_allow p ALLOW_PORT = Ok true \/ get_allow p ALLOW_REQUIRED_PORT = Ok true ->
  exists r2, parse y g l p = (p, Ok [r2]) /\ has_from r2 = true /\ has_to r2 = false
    /\ value (get_from r2) = value (get_from r)
    /\ get_port (get_from r2) = get_port (get_from r)
    /\ mask_value (get_from r2) = mask_value (get_from r).
(* An IPv4 address has a mask of IPv4. *)
Definition printable (r : addr_range) : Prop :=
  is_v4_value (value (get_from r)) -> prefix_mask 96 <= mask_value (get_from r).
(* p is the parser these options stand for, however it was made. *)
Record validates (y : sys) (g : resolver) (o : validate_options) (ps : list str) (p : parser) : Prop := mk_validates {
  va_resolver : resolver_ok g;
  va_known : known_protocols g;
  va_periods : refuses_periods y;
  va_options : good_options y o ps;
  va_reachable : parser_reachable y g p;
  va_set_up : set_up y o ps p
}.
(* With --mask --canonicalize: all that was found can be printed. *)
Definition all_printable (y : sys) (g : resolver) (o : validate_options) (p : parser) (inputs : list str) : Prop :=
  vo_canonicalize o = true -> vo_mask o = true ->
  forall s l, In s inputs -> accepted y g p s -> snd (parse y g s p) = Ok l -> Forall printable l.
(* The lines of stdout about the argument s. *)
Definition lines_of (y : sys) (g : resolver) (o : validate_options) (p : parser) (s : str) (ls : list str) : Prop :=
  (vo_canonicalize o = true /\ accepted y g p s /\ exists l, snd (parse y g s p) = Ok l /\ Forall2 line_of l ls)
  \/ ((vo_canonicalize o = false \/ ~ accepted y g p s) /\ ls = []).
(* The message on stderr about the argument s. *)
Definition message_about (y : sys) (g : resolver) (o : validate_options) (p : parser) (s text : str) : Prop :=
  (vo_quiet o = false /\ ~ accepted y g p s
   /\ complaint s (error_count (fst (parse y g s p))) (error_messages (fst (parse y g s p))) text)
  \/ ((vo_quiet o = true \/ accepted y g p s) /\ text = []).
