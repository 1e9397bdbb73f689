(* Specification for PropExact.v: the address whose type an object remembers. *)
From Verif Require Import Base Addr Spec.
Local Open Scope Z_scope.

(* The call gives the object a new address, whether or not it then fails, or
   another protocol. *)
Definition replaces (op : addr_op) (a a' : addr) (r : res unit) : bool :=
  match op with
  | Op_set_ipv4 _ | Op_set_ipv4_loopback | Op_set_ipv6 _ | Op_set_ipv6_loopback =>
      match r with Ok _ => true | _ => false end
  | Op_set_from_socket s name _ | Op_recvfrom s name _ _ _ =>
      (0 <=? s) && match name with Some (SN_in _) | Some (SN_in6 _) => true | _ => false end
  | Op_set_protocol _ | Op_set_protocol_str _ => negb (get_protocol a' =? get_protocol a)
  | _ => false
  end.

(* The call asks for the type of the address. *)
Definition asks (op : addr_op) : bool :=
  match op with Op_get_network_type => true | _ => false end.

(* A history and the address (as a number) the object had when its type was
   asked for the first time since it was last given a new address or protocol; None when
   it was not asked since. *)
Inductive history (y : sys) : addr -> option Z -> Prop :=
| history_new : history y addr_new None
| history_step a m op a' r :
    history y a m -> addr_op_ok op -> addr_step y a op = (a', r) -> r <> UB ->
    history y a' (if replaces op a a' r then None
                  else if asks op then match m with Some _ => m | None => Some (value a) end
                  else m).
