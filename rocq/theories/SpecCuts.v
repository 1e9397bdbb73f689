(* Specification for C176: parsers which cut texts in different ways. *)
From Verif Require Import Base Parser Range SpecParser SpecSettings.
Local Open Scope Z_scope.

(* What tells where an entry ends. *)
Definition cuts : list Z :=
  [ALLOW_MULTI_ADDRESSES_COMMAS; ALLOW_MULTI_ADDRESSES_SPACES; ALLOW_MULTI_ADDRESSES_NEWLINES; ALLOW_COMMENT_HASH; ALLOW_COMMENT_SEMICOLON].
Record same_but_cuts (p q : parser) : Prop := {
  bc_flags : forall f, In f looked_at -> ~ In f cuts -> get_allow p f = get_allow q f;
  bc_sort : get_sort_order p = get_sort_order q;
  bc_protocol : parser_get_protocol p = parser_get_protocol q;
  bc_address4 : get_default_address4 p = get_default_address4 q;
  bc_address6 : get_default_address6 p = get_default_address6 q;
  bc_port : get_default_port p = get_default_port q;
  bc_mask4 : get_default_mask4 p = get_default_mask4 q;
  bc_mask6 : get_default_mask6 p = get_default_mask6 q
}.
(* The same text, with other blanks around it. *)
Definition same_inside (t u : str) : Prop := exists b1 b2 c1 c2 w,
  Forall blank b1 /\ Forall blank b2 /\ Forall blank c1 /\ Forall blank c2 /\ t = b1 ++ w ++ b2 /\ u = c1 ++ w ++ c2.
(* A text the parser does not cut. *)
Definition uncut (p : parser) (t : str) : Prop :=
  t <> [] /\ forall c, In c t -> ~ separator p c /\ ~ starts_comment p c.
(* Each line is an entry, or there are no comments. *)
Definition whole_lines (p : parser) : Prop :=
  nobody (starts_comment p) \/ ~ separator p 10 \/ forall c, separator p c -> newline c.
