(* Specification for C175: entries which need no default. *)
From Verif Require Import Base Parser Range SpecParser SpecParser4 SpecSettings.
Local Open Scope Z_scope.

(* An entry is cut at the first slash, when masks are allowed. *)
Inductive entry_parts (p : parser) : str -> str -> str -> Prop :=
| parts_no_masks t : get_allow p ALLOW_MASK = Ok false -> entry_parts p t t []
| parts_without t : get_allow p ALLOW_MASK = Ok true -> ~ In 47 t -> entry_parts p t t []
| parts_with A M : get_allow p ALLOW_MASK = Ok true -> ~ In 47 A -> entry_parts p (A ++ 47 :: M) A M.

(* Something is written where the address goes: not nothing, not just a port,
   not just a pair of brackets. *)
Definition names_address (A : str) : Prop :=
  A <> [] /\ (forall r, A = 58 :: r -> In 58 r) /\ (forall r, A <> 91 :: 93 :: r).
(* A port follows the only colon, or the bracket. *)
Inductive names_port : str -> Prop :=
| port_after B c D : ~ In 58 B -> ~ In 58 (c :: D) -> (forall r, B ++ 58 :: c :: D <> 91 :: r) -> names_port (B ++ 58 :: c :: D)
| port_after_bracket B c D : ~ In 93 B -> names_port (91 :: B ++ 93 :: 58 :: c :: D).

(* The entry t has what the defaults marked true are for. *)
Definition complete (addresses ports masks : bool) (p : parser) (t : str) : Prop :=
  exists b1 w b2 A M, t = b1 ++ w ++ b2 /\ Forall blank b1 /\ Forall blank b2 /\ plain_text w /\ entry_parts p w A M
    /\ (addresses = true -> names_address A) /\ (ports = true -> names_port A) /\ (masks = true -> M <> [] \/ get_allow p ALLOW_MASK = Ok false).

(* The settings are the same but for the defaults marked true. *)
Record same_but_defaults (addresses ports masks : bool) (p q : parser) : Prop := {
  bd_flags : forall f, In f looked_at -> get_allow p f = get_allow q f \/ f = ALLOW_REQUIRED_ADDRESS /\ addresses = true;
  bd_sort : get_sort_order p = get_sort_order q;
  bd_protocol : parser_get_protocol p = parser_get_protocol q;
  bd_address4 : get_default_address4 p = get_default_address4 q \/ addresses = true;
  bd_address6 : get_default_address6 p = get_default_address6 q \/ addresses = true;
  bd_port : get_default_port p = get_default_port q \/ ports = true;
  bd_mask4 : get_default_mask4 p = get_default_mask4 q \/ masks = true;
  bd_mask6 : get_default_mask6 p = get_default_mask6 q \/ masks = true
}.

(* A call which sets one of the defaults marked true. *)
Definition sets_default (addresses ports masks : bool) (op : parser_op) : Prop :=
  match op with
  | P_set_default_address _ => addresses = true
  | P_set_allow f _ => f = ALLOW_REQUIRED_ADDRESS /\ addresses = true
  | P_set_default_port _ | P_set_default_port_str _ => ports = true
  | P_set_default_mask _ => masks = true
  | _ => False
  end.
