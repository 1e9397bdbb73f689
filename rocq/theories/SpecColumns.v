(* What the properties of the tables the tools print talk about: columns. *)
From Verif Require Import Base Spec SpecText SpecRoute.
Local Open Scope Z_scope.

(* The line l has the values ws, each filled up with spaces to the width of
   its column; a value which is too long takes what it needs. *)
Inductive in_columns : list nat -> list str -> str -> Prop :=
| columns_end : in_columns [] [] []
| columns_next n widths w ws spaces l : Forall (fun c => c = 32) spaces ->
    length (w ++ spaces) = Nat.max n (length w) -> in_columns widths ws l ->
    in_columns (n :: widths) (w :: ws) (w ++ spaces ++ l).
(* Each value is a word, and all but the last one are shorter than their
   column. *)
Definition fit (widths : list nat) (ws : list str) : Prop :=
  Forall word ws /\ Forall2 (fun n w => (length w < n)%nat) (removelast widths) (removelast ws).
(* The words of the line are ws. *)
Definition words_are (l : str) (ws : list str) : Prop := laid_out (l ++ [32]) ws.

(* The columns of ipv4-routes and of ifaces. *)
Definition route_widths : list nat := [8; 16; 16; 8; 8; 8; 8; 16; 8; 8; 8]%nat.
Definition iface_widths : list nat := [17; 6; 41; 41; 41]%nat.
