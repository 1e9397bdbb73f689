(* What the modes of the text output ask for. The bits of a mode, from the
   lowest: address, address in brackets, port, name of the port, mask, mask in
   brackets, mask as an address, mask if needed, default as asterisk, default
   as IPv4. *)
From Verif Require Import Base Addr Spec Range SpecRange Inet SpecText SpecIpv6.
Local Open Scope Z_scope.

Definition bit (mode n : Z) : bool := Z.testbit mode n.
Definition wants_address (mode : Z) : bool := bit mode 0 || bit mode 1.
Definition wants_port (mode : Z) : bool := bit mode 2 || bit mode 3.
(* A mask of 128 ones is not needed. *)
Definition wants_mask (mode mask : Z) : Prop :=
  bit mode 4 || bit mode 5 || bit mode 6 || bit mode 7 = true /\ ~ (bit mode 7 = true /\ mask = LAST).
(* An IPv6 address needs its brackets if asked for, or if a port follows. *)
Definition wants_brackets (mode : Z) : bool := bit mode 1 || bit mode 2 || bit mode 3 || bit mode 5.
Definition within (b : bool) (s : str) : str := if b then lit "[" ++ s ++ lit "]" else s.
(* What separates a part from those in front of it. *)
Definition colon (mode : Z) : str := if wants_address mode then lit ":" else [].
Definition stroke (mode : Z) : str := if wants_address mode || wants_port mode then lit "/" else [].
(* 0.0.0.0 or :: *)
Definition any_address (v : Z) : Prop := v = 0 \/ v = v4_base.
Definition any_prefix (m : Z) : Prop := exists k, 0 <= k <= 128 /\ m = prefix_mask k.

Inductive address4 (v mode : Z) : str -> Prop :=
| address4_none : wants_address mode = false -> address4 v mode []
| address4_star : wants_address mode = true -> any_address v -> bit mode 8 = true -> address4 v mode (lit "*")
| address4_text s w : wants_address mode = true -> ~ (any_address v /\ bit mode 8 = true) ->
    dotted s w -> v = v4_base + w -> address4 v mode s.
(* The boolean: whether the mask is in brackets if written as an address. *)
Inductive address6 (v mode : Z) : bool -> str -> Prop :=
| address6_none : wants_address mode = false -> address6 v mode (wants_brackets mode) []
| address6_star : wants_address mode = true -> any_address v -> bit mode 8 = true ->
    address6 v mode (wants_brackets mode) (within (wants_brackets mode) (lit "*"))
| address6_four : wants_address mode = true -> any_address v -> bit mode 8 = false -> bit mode 9 = true ->
    address6 v mode false (lit "0.0.0.0")
| address6_any : wants_address mode = true -> any_address v -> bit mode 8 = false -> bit mode 9 = false ->
    address6 v mode (wants_brackets mode) (within (wants_brackets mode) (lit "::"))
| address6_text s : wants_address mode = true -> ~ any_address v ->
    recommended_text s v -> address6 v mode (wants_brackets mode) (within (wants_brackets mode) s).
Inductive port_of (y : sys) (a : addr) (mode : Z) : str -> Prop :=
| port_none : wants_port mode = false -> port_of y a mode []
| port_name n : bit mode 3 = true -> get_port_name y a = Ok n -> n <> [] -> port_of y a mode (colon mode ++ n)
| port_number d : wants_port mode = true -> (bit mode 3 = true -> get_port_name y a = Ok []) ->
    plain_decimal d (get_port a) -> port_of y a mode (colon mode ++ d).
Inductive mask4 (m mode : Z) : str -> Prop :=
| mask4_none : ~ wants_mask mode m -> mask4 m mode []
| mask4_number k d : wants_mask mode m -> bit mode 6 = false -> 96 <= k <= 128 -> m = prefix_mask k ->
    plain_decimal d (k - 96) -> mask4 m mode (stroke mode ++ d)
| mask4_address s w : wants_mask mode m -> bit mode 6 = true \/ ~ any_prefix m -> dotted s w -> m = prefix_mask 96 + w ->
    mask4 m mode (stroke mode ++ s).
Inductive mask6 (m mode : Z) (b : bool) : str -> Prop :=
| mask6_none : ~ wants_mask mode m -> mask6 m mode b []
| mask6_number k d : wants_mask mode m -> bit mode 6 = false -> 0 <= k <= 128 -> m = prefix_mask k ->
    plain_decimal d k -> mask6 m mode b (stroke mode ++ d)
| mask6_address s : wants_mask mode m -> bit mode 6 = true \/ ~ any_prefix m -> recommended_text s m ->
    mask6 m mode b (stroke mode ++ within b s).

(* The whole text. *)
Definition text4 (y : sys) (a : addr) (mode : Z) (s : str) : Prop :=
  exists A P M, s = A ++ P ++ M /\ address4 (value a) mode A /\ port_of y a mode P /\ mask4 (mask_value a) mode M.
Definition text6 (y : sys) (a : addr) (mode : Z) (s : str) : Prop :=
  exists b A P M, s = A ++ P ++ M /\ address6 (value a) mode b A /\ port_of y a mode P /\ mask6 (mask_value a) mode b M.
Definition text (y : sys) (a : addr) (mode : Z) (s : str) : Prop :=
  (is_v4_value (value a) -> text4 y a mode s) /\ (~ is_v4_value (value a) -> text6 y a mode s).

(* The text of a range: the first address never shows its port nor its mask. *)
Definition address_bits (mode m : Z) : Prop := forall n, 0 <= n -> bit m n = (n <? 2) && bit mode n.
Inductive text_range (y : sys) (r : addr_range) (mode : Z) : str -> Prop :=
| range_undefined : ~ defined r -> text_range y r mode (lit "<empty address range>")
| range_nothing : full r -> (forall v, ~ element r v) -> text_range y r mode (lit "<empty address range>")
| range_both m s t : full r -> nonempty r -> address_bits mode m -> text y (f_from r) m s -> text y (f_to r) mode t ->
    text_range y r mode (s ++ lit "-" ++ t)
| range_from s : f_has_from r = true -> f_has_to r = false -> text y (f_from r) mode s -> text_range y r mode s
| range_to s : f_has_from r = false -> f_has_to r = true -> text y (f_to r) mode s -> text_range y r mode (lit "-" ++ s).
(* The texts with the separator between each two of them. *)
Fixpoint separated (separator : str) (texts : list str) : str :=
  match texts with
  | [] => []
  | [t] => t
  | t :: rest => t ++ separator ++ separated separator rest
  end.

(* The names of the network types. *)
Definition type_names : list (network_type_t * str) :=
  [(NETWORK_TYPE_PRIVATE, lit "Private"); (NETWORK_TYPE_CARRIER, lit "Carrier"); (NETWORK_TYPE_LINK_LOCAL, lit "Local Link");
   (NETWORK_TYPE_MULTICAST, lit "Multicast"); (NETWORK_TYPE_LOOPBACK, lit "Loopback"); (NETWORK_TYPE_ANY, lit "Any");
   (NETWORK_TYPE_DOCUMENTATION, lit "Documentation"); (NETWORK_TYPE_UNKNOWN, lit "Unknown")].
