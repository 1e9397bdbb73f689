(* Vocabulary for C144: lists of entries as texts. *)
From Verif Require Import Base Addr Range Spec SpecRange Inet SpecText Parser SpecParser SpecParser2 SpecParser4 SpecLanguage SpecModes.
Local Open Scope Z_scope.

(* The parser with lists and comments switched off. *)
Definition forbid (p : parser) (flag : Z) : parser := fst (set_allow p flag false).
Definition alone (p : parser) : parser :=
  fold_left forbid [ALLOW_MULTI_ADDRESSES_COMMAS; ALLOW_MULTI_ADDRESSES_SPACES; ALLOW_MULTI_ADDRESSES_NEWLINES;
    ALLOW_COMMENT_HASH; ALLOW_COMMENT_SEMICOLON] p.

(* A parser of lists of numeric addresses: what separates is not only a part
   of what is used (see C41: with newlines and comments only the first entry of
   each line is). *)
Record reads_lists (p : parser) : Prop := mk_reads_lists {
  rl_separator : exists c, separator p c;
  rl_lines : nobody (starts_comment p) \/ ~ separator p 10 \/ forall c, separator p c -> newline c;
  rl_unsorted : unsorted p;
  rl_entries : takes_entries p
}.

(* A text which is one entry of a list. *)
Definition one_of_list (p : parser) (t : str) : Prop :=
  trimmed t /\ ~ In 0 t /\ forall c, In c t -> ~ separator p c /\ ~ starts_comment p c.

(* What the printed form of a range says: the elements, and the port and mask
   of the last end. *)
Definition last_end (r : addr_range) : addr := if has_to r then get_to r else get_from r.
Definition says_the_same (r r2 : addr_range) : Prop :=
  has_from r2 = has_from r /\ has_to r2 = has_to r
  /\ (forall v, element r2 v <-> element r v)
  /\ get_port (get_from r2) = get_port (last_end r) /\ get_port (last_end r2) = get_port (last_end r)
  /\ mask_value (get_from r2) = mask_value (last_end r).
(* One address, or an IPv4 range which is not empty. *)
Definition single (r : addr_range) : Prop := has_from r = true /\ has_to r = false.
Definition ipv4_range (r : addr_range) : Prop := full r /\ nonempty r /\ is_v4_value (lo r) /\ is_v4_value (hi r).
(* Its mask is a prefix which, for IPv4, has at least 96 ones. *)
Definition prefix_printed (r : addr_range) : Prop :=
  exists k, 0 <= k <= 128 /\ mask_value (last_end r) = prefix_mask k /\ (is_v4_value (hi r) -> 96 <= k).
(* Any mask which is printed in full. *)
Definition mask_printed (r : addr_range) : Prop := is_v4_value (hi r) -> prefix_mask 96 <= mask_value (last_end r).
