(* The order of socket structures. *)
From Verif Require Import Base Addr Spec Unix.
Local Open Scope Z_scope.

(* Tuples of numbers, the first one which differs decides. *)
Fixpoint before (a b : list Z) : Prop :=
  match a, b with
  | x :: r, y :: s => x < y \/ (x = y /\ before r s)
  | _, _ => False
  end.

(* Port, flow information, address and scope as numbers, the way they are on
   the wire (the scope, which is never sent, in that byte order, too). *)
Definition in6_key (x : sockaddr_in6) : list Z :=
  [bswap16 (sin6_family x); bswap16 (sin6_port x); bswap32 (sin6_flowinfo x); num (sin6_addr x); bswap32 (sin6_scope_id x)].

(* Six operators which belong to one order. *)
Record one_order {A} (dom : A -> Prop) (lt : A -> A -> Prop) (eqb neb ltb leb gtb geb : A -> A -> bool) : Prop := mk_one_order {
  o_eq : forall a b, dom a -> dom b -> (eqb a b = true <-> a = b);
  o_lt : forall a b, dom a -> dom b -> (ltb a b = true <-> lt a b);
  o_ne : forall a b, neb a b = negb (eqb a b);
  o_gt : forall a b, dom a -> dom b -> gtb a b = ltb b a;
  o_le : forall a b, dom a -> dom b -> leb a b = (ltb a b || eqb a b);
  o_ge : forall a b, dom a -> dom b -> geb a b = (ltb b a || eqb a b);
  o_irreflexive : forall a, dom a -> ~ lt a a;
  o_transitive : forall a b c, dom a -> dom b -> dom c -> lt a b -> lt b c -> lt a c;
  o_total : forall a b, dom a -> dom b -> lt a b \/ a = b \/ lt b a
}.

(* the structures of the type sockaddr_un *)
Definition sockaddr_un_ok (x : sockaddr_un) : Prop :=
  0 <= sun_family x < 2 ^ 16 /\ length (sun_path x) = 108%nat /\ Forall is_byte (sun_path x).
Definition un_key (x : sockaddr_un) : list Z := bswap16 (sun_family x) :: sun_path x.
