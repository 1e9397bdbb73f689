(* Model of addr::set_t, a std::set<addr>, as far as operator < decides. *)
From Verif Require Import Base Addr.
Local Open Scope Z_scope.

(* addr::set_t, addr.h:151: the addresses in the order of iteration.  std::set
   is not part of /repo: insert() looks for the first element which is not
   smaller (addr.cpp:2624-2627, operator <) and adds nothing when that one is
   not larger either; the second component is the one of the pair which
   insert() returns. *)
Fixpoint set_insert (x : addr) (s : list addr) : list addr * bool :=
  match s with
  | [] => ([x], true)
  | z :: s' =>
      if lt_ z x then let '(t, b) := set_insert x s' in (z :: t, b)
      else if lt_ x z then (x :: s, true)
      else (s, false)
  end.
(* A set to which the addresses of a vector are added in turn, addr.h:151-152
   (std::set::insert(first, last)). *)
Definition set_of (l : list addr) : list addr :=
  fold_left (fun s x => fst (set_insert x s)) l [].
(* std::set::find(), addr.h:151: the element which is neither smaller nor
   larger. *)
Fixpoint set_find (x : addr) (s : list addr) : option addr :=
  match s with
  | [] => None
  | z :: s' => if lt_ z x then set_find x s' else if lt_ x z then None else Some z
  end.
(* std::set::erase(key), addr.h:151: the number of elements removed. *)
Fixpoint set_erase (x : addr) (s : list addr) : list addr * Z :=
  match s with
  | [] => ([], 0)
  | z :: s' =>
      if lt_ z x then let '(t, n) := set_erase x s' in (z :: t, n)
      else if lt_ x z then (s, 0)
      else (s', 1)
  end.
