(* What the properties about shared validators talk about. *)
From Verif Require Import Base Addr Range Inet AddrText Parser ValidatorShared.

(* Executions of threads which share a validator with the parser p: the first
   n steps go through the states s 0, ..., s n and have the labels lab 0, ...,
   lab (n-1). *)
Definition execution (y : sys) (g : resolver) (p : parser) (s : nat -> state) (lab : nat -> label) (n : nat) : Prop :=
  s 0 = init p /\ forall i, i < n -> step y g (s i) (lab i) (s (S i)).
Definition done_by (l : label) : tid :=
  match l with L_call k _ | L_clear k | L_parse k _ | L_test k _ | L_error k _ | L_return k _ | L_throw k _ => k end.
(* The thread k leaves validate(). *)
Definition leaves (l : label) (k : tid) : Prop :=
  match l with L_return j _ | L_throw j _ => j = k | _ => False end.
(* The call of validate(v) of the thread k at b returns r at e. *)
Definition answered (lab : nat -> label) (k : tid) (v : str) (b e : nat) (r : bool) : Prop :=
  b < e /\ lab b = L_call k v /\ lab e = L_return k r /\ forall i, b < i < e -> ~ leaves (lab i) k.
(* Nobody else did anything meanwhile. *)
Definition undisturbed (lab : nat -> label) (k : tid) (b e : nat) : Prop :=
  forall i, b < i < e -> done_by (lab i) = k.
(* The errors of a text for a parser p which has none so far. *)
Definition errors_of (y : sys) (g : resolver) (p : parser) (v : str) : str := error_messages (fst (parse y g v p)).
Definition refused (y : sys) (g : resolver) (p : parser) (v : str) : Prop := (error_count (fst (parse y g v p)) > 0)%Z.
(* At i the errors of a text with errors are still there. *)
Definition pending (y : sys) (g : resolver) (p : parser) (lab : nat -> label) (i : nat) : Prop :=
  exists j k v, j < i /\ lab j = L_parse k v /\ refused y g p v /\ forall h k', j < h < i -> lab h <> L_clear k'.
(* The errors of the texts which were parsed since errors were last cleared,
   one after the other. *)
Fixpoint errors_since_clear (y : sys) (g : resolver) (p : parser) (lab : nat -> label) (i : nat) : str :=
  match i with
  | O => []
  | S i => match lab i with
           | L_clear _ => []
           | L_parse _ v => errors_since_clear y g p lab i ++ errors_of y g p v
           | _ => errors_since_clear y g p lab i
           end
  end.
