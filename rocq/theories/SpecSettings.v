(* Specification for C130: the settings of a parser which parse() looks at. *)
From Verif Require Import Base Parser Range.
Local Open Scope Z_scope.

(* The flags. *)
Definition looked_at : list Z :=
  [ALLOW_REQUIRED_ADDRESS; ALLOW_ADDRESS_LOOKUP; ALLOW_MULTI_ADDRESSES_COMMAS;
   ALLOW_MULTI_ADDRESSES_SPACES; ALLOW_MULTI_ADDRESSES_NEWLINES; ALLOW_ADDRESS_RANGE;
   ALLOW_PORT; ALLOW_REQUIRED_PORT; ALLOW_MASK; ALLOW_ADDRESS_MASK;
   ALLOW_COMMENT_HASH; ALLOW_COMMENT_SEMICOLON].

(* Two parsers which cannot be told apart by parsing texts: the default port
   does not count when a port is required, the default masks do not count when
   masks are not allowed, and an IPv6 default mask without colon never does. *)
Record same_settings (p q : parser) : Prop := {
  same_flags : forall f, In f looked_at -> get_allow p f = get_allow q f;
  same_sort : get_sort_order p = get_sort_order q;
  same_address4 : get_default_address4 p = get_default_address4 q;
  same_address6 : get_default_address6 p = get_default_address6 q;
  same_protocol : parser_get_protocol p = parser_get_protocol q;
  same_port : get_allow p ALLOW_REQUIRED_PORT = Ok false -> get_default_port p = get_default_port q;
  same_mask4 : get_allow p ALLOW_MASK = Ok true -> get_default_mask4 p = get_default_mask4 q;
  same_mask6 : get_allow p ALLOW_MASK = Ok true ->
    get_default_mask6 p = get_default_mask6 q
    \/ ~ In 58 (get_default_mask6 p) /\ ~ In 58 (get_default_mask6 q)
}.

(* Two calls give the same ranges, or the same exception, and log the same
   messages. *)
Definition same_answer (p : parser) (x : parser * res (list addr_range))
  (q : parser) (z : parser * res (list addr_range)) : Prop :=
  snd x = snd z
  /\ exists messages, error_messages (fst x) = error_messages p ++ messages
     /\ error_messages (fst z) = error_messages q ++ messages
     /\ error_count (fst x) - error_count p = error_count (fst z) - error_count q.
