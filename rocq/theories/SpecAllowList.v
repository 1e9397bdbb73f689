(* Lists of addresses, networks and ranges written as numbers, and the
   addresses which are in them. *)
From Verif Require Import Base Addr Range Spec SpecRange Inet SpecText SpecIpv6 Parser SpecParser SpecParser2 SpecParser4 SpecLanguage.
Local Open Scope Z_scope.

(* The first n of the 128 bits of v and x are the same. *)
Definition same_bits (n v x : Z) : Prop := x / 2 ^ (128 - n) = v / 2 ^ (128 - n).

(* An address, or a range with both ends, and the numbers of the addresses it
   stands for with a mask of n ones: the mask does not count for a range. *)
Inductive what (p : parser) : str -> (Z -> Z -> Prop) -> Prop :=
| one_address A v : denotes A v -> what p A (fun n x => same_bits n v x)
| one_range A B a b : get_allow p ALLOW_ADDRESS_RANGE = Ok true -> denotes A a -> denotes B b ->
    what p (A ++ [45] ++ B) (fun _ x => a <= x <= b).
(* How it is written: as such, in brackets, with a port; the flag is whether
   masks count 128 bits. *)
Inductive wrapped (p : parser) (A : str) : str -> bool -> Prop :=
| bare_four : ~ In 58 A -> wrapped p A A false
| bare_six : In 58 A -> wrapped p A A true
| port_four D n : ports_allowed p -> ~ In 58 A -> decimal D n -> n <= 65535 -> wrapped p A (A ++ [58] ++ D) false
| in_brackets : wrapped p A ([91] ++ A ++ [93]) true
| in_brackets_port D n : ports_allowed p -> decimal D n -> n <= 65535 -> wrapped p A ([91] ++ A ++ [93; 58] ++ D) true.
(* The ones in the mask of what is written without one: all of them or, where
   32 bits count, as many as the default mask says. *)
Inductive unwritten (p : parser) : bool -> Z -> Prop :=
| no_masks six : get_allow p ALLOW_MASK = Ok false -> unwritten p six 128
| no_default_mask six : get_default_mask4 p = [] -> unwritten p six 128
| default_mask_six : unwritten p true 128
| default_mask_four n : get_allow p ALLOW_MASK = Ok true -> decimal (get_default_mask4 p) n -> n <= 32 -> unwritten p false (96 + n).
(* An entry and the numbers of the addresses it stands for. *)
Inductive listed (p : parser) : str -> (Z -> Prop) -> Prop :=
| listed_bare A W b six k : what p A W -> wrapped p A b six -> unwritten p six k -> listed p b (W k)
| listed_masked A W b six N n : get_allow p ALLOW_MASK = Ok true -> what p A W -> wrapped p A b six -> decimal N n ->
    n <= (if six then 128 else 32) -> listed p (b ++ [47] ++ N) (W (if six then n else 96 + n)).
(* Blanks around it do not count. *)
Definition listed_entry (p : parser) (e : str) (S : Z -> Prop) : Prop :=
  exists b1 t b2, e = b1 ++ t ++ b2 /\ Forall blank b1 /\ Forall blank b2 /\ listed p t S.

(* A parser set up for such lists: no lookup, no port needed, no default port
   unless ports are allowed and no default mask for
   IPv6 which is an address. *)
Record takes_lists (p : parser) : Prop := mk_takes_lists {
  tl_entries : takes_entries p;
  tl_lookup : get_allow p ALLOW_ADDRESS_LOOKUP = Ok false;
  tl_port : get_allow p ALLOW_REQUIRED_PORT = Ok false;
  tl_default : get_default_port p = -1 \/ get_allow p ALLOW_PORT = Ok true;
  tl_mask : ~ In 58 (get_default_mask6 p)
}.
