(* What the properties about replacing the entries of a text talk about. *)
From Verif Require Import Base Addr Range Spec SpecRange Inet SpecText Parser SpecParser SpecParser2 SpecParser4 SpecLists.
Local Open Scope Z_scope.

(* The parser which takes one entry at a time: no separators, no comments and
   no sorting, and otherwise the same. *)
Definition for_one (p : parser) : parser := alone (without_sort p).
(* Two entries which cannot be told apart: parsed by themselves, they have the
   same result and the same errors. *)
Definition interchangeable (y : sys) (g : resolver) (p : parser) (t t2 : str) : Prop :=
  parse y g t (for_one p) = parse y g t2 (for_one p).

(* The same entry with more of the defaults written out. *)
Inductive written_out (p : parser) : str -> str -> Prop :=
| wo_same t : written_out p t t
| wo_then t t2 t3 : written_out p t t2 -> written_out p t2 t3 -> written_out p t t3
| wo_blanks b1 t b2 : Forall blank b1 -> Forall blank b2 -> written_out p (b1 ++ t ++ b2) t
| wo_blanks_back b1 t b2 : Forall blank b1 -> Forall blank b2 -> written_out p t (b1 ++ t ++ b2)
| wo_address P m M six D W :
    get_allow p ALLOW_REQUIRED_ADDRESS = Ok false ->
    no_address P -> (P = [] \/ ports_allowed p) -> mask_part p m M ->
    (six = true <-> means_six p m) -> default_for p six D -> spelled p six D P W ->
    plain_text (P ++ M) -> plain_text (W ++ P ++ M) ->
    written_out p (P ++ M) (W ++ P ++ M)
| wo_mask4 A : get_allow p ALLOW_MASK = Ok true -> trimmed A -> ~ In 47 A -> has_address A -> ipv4_syntax p A ->
    get_default_mask4 p <> [] -> trimmed (A ++ [47] ++ get_default_mask4 p) ->
    written_out p A (A ++ [47] ++ get_default_mask4 p)
| wo_mask6 A : get_allow p ALLOW_MASK = Ok true -> trimmed A -> ~ In 47 A -> has_address A -> ipv6_syntax A ->
    In 58 (get_default_mask6 p) ->
    written_out p A (A ++ [47; 91] ++ get_default_mask6 p ++ [93]).
