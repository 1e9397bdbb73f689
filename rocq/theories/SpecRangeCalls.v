(* Specification for C174: a range object and the calls made on it. *)
From Verif Require Import Base Addr Range Spec SpecRange.
Local Open Scope Z_scope.

Inductive call :=
| Set_from (a : addr)
| Set_to (a : addr)
| Swap
| From_cidr (a : addr).
Definition given (c : call) : list addr :=
  match c with Set_from a | Set_to a | From_cidr a => [a] | Swap => [] end.

(* The object after a call. *)
Definition do_call (r : addr_range) (c : call) : addr_range :=
  match c with
  | Set_from a => set_from r a
  | Set_to a => set_to r a
  | Swap => swap_from_to r
  | From_cidr a => fst (from_cidr r a)
  end.
Definition after (calls : list call) : addr_range := fold_left do_call calls range_new.

(* The two ends, if they are there. *)
Definition ends : Type := option addr * option addr.
(* The first and the last address of the network of a, whose mask has n bits. *)
Definition network_ends (a : addr) (n : Z) (e : ends) : Prop :=
  exists f t, e = (Some f, Some t)
    /\ value f = value a - value a mod 2 ^ (128 - n) /\ value t = value f + 2 ^ (128 - n) - 1
    /\ same_but_ip a f /\ same_but_ip a t.
Inductive call_does : ends -> call -> ends -> Prop :=
| does_from f t a : call_does (f, t) (Set_from a) (Some a, t)
| does_to f t a : call_does (f, t) (Set_to a) (f, Some a)
| does_swap f t : call_does (f, t) Swap (t, f)
| does_cidr e a n e' : 0 <= n <= 128 -> mask_value a = prefix_mask n -> network_ends a n e' -> call_does e (From_cidr a) e'
| does_nothing e a : ~ contiguous a -> call_does e (From_cidr a) e.
Inductive calls_do : ends -> list call -> ends -> Prop :=
| do_none e : calls_do e [] e
| do_more e c e1 cs e2 : call_does e c e1 -> calls_do e1 cs e2 -> calls_do e (c :: cs) e2.

(* What the object answers when it has these ends; an end which is not there is
   a new address object. *)
Definition there {A} (o : option A) : bool := match o with Some _ => true | None => false end.
Definition ipv4_number (v : Z) : Prop := 0xffff * 2 ^ 32 <= v < 0x10000 * 2 ^ 32.
Record answers_for (e : ends) (r : addr_range) : Prop := {
  ans_has_from : has_from r = there (fst e);
  ans_has_to : has_to r = there (snd e);
  ans_from : get_from r = match fst e with Some a => a | None => addr_new end;
  ans_to : get_to r = match snd e with Some a => a | None => addr_new end;
  ans_defined : is_defined r = true <-> exists a, fst e = Some a \/ snd e = Some a;
  ans_range : is_range r = true <-> exists a b, e = (Some a, Some b);
  ans_empty : is_empty r = true <-> exists a b, e = (Some a, Some b) /\ value b < value a;
  ans_in : forall x, addr_wf x ->
    match e with
    | (Some a, Some b) => exists v, is_in r x = Ok v /\ (v = true <-> value a <= value x <= value b)
    | _ => is_in r x = Throw E_invalid_state
    end;
  ans_ipv4 : range_is_ipv4 r = true <->
    (exists a, fst e = Some a \/ snd e = Some a) /\ forall a, fst e = Some a \/ snd e = Some a -> ipv4_number (value a)
}.

(* The addresses match() accepts: between both ends, in the block of the only
   end (equal to it where its mask has ones), or :: when there is no end. *)
Definition matching (e : ends) (v : Z) : Prop :=
  match e with
  | (Some a, Some b) => value a <= v <= value b
  | (Some a, None) | (None, Some a) => Z.land (value a) (mask_value a) = Z.land v (mask_value a)
  | (None, None) => v = 0
  end.
