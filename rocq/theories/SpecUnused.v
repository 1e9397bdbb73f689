(* Specification for C173: permissions which a text does not use. *)
From Verif Require Import Base Parser Range SpecSettings.
Local Open Scope Z_scope.

(* No mask is taken when the text has none. *)
Definition no_default_mask (p : parser) : Prop := get_default_mask4 p = [] /\ ~ In 58 (get_default_mask6 p).

(* What a text has to have for the flag to matter: a dash for a range, a colon
   for a port, unless there is a default port which is checked, and a slash for
   a mask, unless there is a default mask. *)
Definition unused (p : parser) (s : str) (flag : Z) : Prop :=
  (flag = ALLOW_ADDRESS_RANGE /\ ~ In 45 s)
  \/ (flag = ALLOW_PORT /\ ~ In 58 s
      /\ (get_default_port p = -1 \/ get_allow p ALLOW_ADDRESS_LOOKUP = Ok true \/ get_allow p ALLOW_REQUIRED_PORT = Ok true))
  \/ (flag = ALLOW_ADDRESS_MASK /\ ~ In 47 s /\ no_default_mask p).
Definition no_mask_in (p : parser) (s : str) (flag : Z) : Prop :=
  flag = ALLOW_MASK /\ ~ In 47 s /\ no_default_mask p.

(* Two parsers with the same settings except that they may allow different
   things among those of U. *)
Record same_but (U : Z -> Prop) (p q : parser) : Prop := {
  but_flags : forall f, In f looked_at -> get_allow p f = get_allow q f \/ U f;
  but_sort : get_sort_order p = get_sort_order q;
  but_address4 : get_default_address4 p = get_default_address4 q;
  but_address6 : get_default_address6 p = get_default_address6 q;
  but_protocol : parser_get_protocol p = parser_get_protocol q;
  but_port : get_default_port p = get_default_port q;
  but_mask4 : get_default_mask4 p = get_default_mask4 q;
  but_mask6 : get_default_mask6 p = get_default_mask6 q
}.
