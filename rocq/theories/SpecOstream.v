(* Specification of the settings of the streams, by the operations a program
   did in the past, the last one first. *)
From Verif Require Import Base Addr Range Inet AddrText Ostream.
Local Open Scope Z_scope.

(* The stream s was constructed and is not destroyed yet. *)
Fixpoint alive (past : list op) (s : sid) : bool :=
  match past with
  | [] => false
  | o :: past =>
      match o with
      | Construct k | Move_construct k _ => Nat.eqb k s || alive past s
      | Destroy k => negb (Nat.eqb k s) && alive past s
      | _ => alive past s
      end
  end.

(* Everything is shown and commas separate the addresses. *)
Definition initially : Z * str := (STRING_IP_ALL, lit ",").

(* The mode and the separator of the stream s. *)
Fixpoint settings (past : list op) (s : sid) : Z * str :=
  match past with
  | [] => initially
  | o :: past =>
      match o with
      | Construct k => if Nat.eqb k s then initially else settings past s
      | Set_mode k mode _ _ => if Nat.eqb k s then (mode, snd (settings past s)) else settings past s
      | Set_sep k sep _ _ => if Nat.eqb k s then (fst (settings past s), sep) else settings past s
      | Copyfmt k from _ => if Nat.eqb k s then settings past from else settings past s
      | Move_construct k from =>
          if Nat.eqb k s then settings past from
          else if Nat.eqb from s then initially else settings past s
      | Swap k l =>
          if Nat.eqb k s then settings past l
          else if Nat.eqb l s then settings past k else settings past s
      | Destroy _ | Print _ _ _ => settings past s
      end
  end.

(* /etc/protocols has the protocols of the addresses (otherwise
   addr::get_protocol_name() is undefined, see C92). *)
Definition protocols_known (y : sys) : Prop := forall n, getprotobynumber y n <> NoEntry.

(* A program only uses streams which are alive. *)
Definition proper (past : list op) (o : op) : Prop :=
  match o with
  | Construct s => alive past s = false
  | Move_construct s from => alive past s = false /\ alive past from = true
  | Destroy s | Set_mode s _ _ _ | Set_sep s _ _ _ => alive past s = true
  | Print y s _ => alive past s = true /\ protocols_known y
  | Copyfmt s from _ => alive past s = true /\ alive past from = true
  | Swap s1 s2 => alive past s1 = true /\ alive past s2 = true
  end.
(* And did so all the time. *)
Fixpoint program (past : list op) : Prop :=
  match past with
  | [] => True
  | o :: past => proper past o /\ program past
  end.
(* There was always enough memory. *)
Definition enough_memory (o : op) : Prop :=
  match o with
  | Set_mode _ _ m1 m2 | Set_sep _ _ m1 m2 => m1 = true /\ m2 = true
  | Copyfmt _ _ m => m = true
  | _ => True
  end.

(* Texts with a separator in between. *)
Fixpoint separated (sep : str) (l : list str) : str :=
  match l with
  | [] => []
  | [t] => t
  | t :: l => t ++ sep ++ separated sep l
  end.
(* What << writes when the mode and the separator are these. *)
Inductive shows (y : sys) (mode : Z) (sep : str) : item -> str -> Prop :=
| Shows_addr a w : to_ipv4or6_string y a mode = Ok w -> shows y mode sep (I_addr a) w
| Shows_addrs l ws : Forall2 (fun a w => to_ipv4or6_string y a mode = Ok w) l ws ->
    shows y mode sep (I_addrs l) (separated sep ws)
| Shows_range r w : range_to_string y r mode = Ok w -> shows y mode sep (I_range r) w
| Shows_ranges l ws : Forall2 (fun r w => range_to_string y r mode = Ok w) l ws ->
    shows y mode sep (I_ranges l) (separated sep ws).

(* What was written to a stream. *)
Definition content (t : state) (s : sid) : option str :=
  match streams t s with Some x => Some (text x) | None => None end.
(* The settings objects which were not released. *)
Definition in_memory (t : state) (p : ptr) : Prop := objects (mem t) p <> None.
