(* What the property about writing the default port talks about. *)
From Verif Require Import Base Addr Spec SpecText Range SpecRange Parser SpecParser SpecParser2 SpecParser4 SpecLanguage.
Local Open Scope Z_scope.

(* The text s of an address, a name or a range without a port, and s2 with the
   port D: an address with colons needs brackets for that. *)
Inductive writes_port (D : str) : str -> str -> Prop :=
| port_after A : ~ In 58 A -> hd 0 A <> 91 -> writes_port D A (A ++ [58] ++ D)
| port_after_brackets A : ~ In 93 A -> writes_port D ([91] ++ A ++ [93]) ([91] ++ A ++ [93; 58] ++ D)
| port_needs_brackets A : two_colons A -> ~ In 93 A -> hd 0 A <> 91 -> writes_port D A ([91] ++ A ++ [93; 58] ++ D).
(* M is the mask after s with its slash, or nothing. *)
Definition mask_tail (p : parser) (s M : str) : Prop :=
  M = [] /\ (get_allow p ALLOW_MASK = Ok false \/ ~ In 47 s)
  \/ get_allow p ALLOW_MASK = Ok true /\ ~ In 47 s /\ exists m, M = [47] ++ m.

(* Two results which are the same but for is_port_defined(). *)
Definition end_aside (a b : addr) : Prop :=
  value a = value b /\ mask_value a = mask_value b /\ get_port a = get_port b /\ get_protocol a = get_protocol b /\ f_hostname a = f_hostname b.
Definition port_aside (r r2 : addr_range) : Prop :=
  has_from r = has_from r2 /\ has_to r = has_to r2
  /\ (has_from r = true -> end_aside (get_from r) (get_from r2)) /\ (has_to r = true -> end_aside (get_to r) (get_to r2)).
(* Whether the ends have their port from the text. *)
Definition port_told (given : bool) (r : addr_range) : Prop :=
  (has_from r = true -> is_port_defined (get_from r) = given) /\ (has_to r = true -> is_port_defined (get_to r) = given).

(* Two entries which are the same, or the first has no port and the second has
   the port D; there may be blanks around them. *)
Definition same_but_port (p : parser) (D e e2 : str) : Prop :=
  e = e2 \/ exists b1 s s2 M b2, Forall blank b1 /\ Forall blank b2 /\ e = b1 ++ (s ++ M) ++ b2 /\ e2 = b1 ++ (s2 ++ M) ++ b2
    /\ plain_text (s ++ M) /\ plain_text (s2 ++ M) /\ writes_port D s s2 /\ mask_tail p s M.
(* Ports may be written, need not be, and the default port is the number D. *)
Definition default_port_is (p : parser) (D : str) : Prop :=
  get_allow p ALLOW_PORT = Ok true /\ get_allow p ALLOW_REQUIRED_PORT = Ok false /\ 0 <= get_default_port p
  /\ plain_decimal D (get_default_port p).
