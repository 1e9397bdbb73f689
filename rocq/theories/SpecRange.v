(* Vocabulary for the properties of ranges: the set of numbers a range
   denotes. *)
From Verif Require Import Base Addr Range Spec.
Local Open Scope Z_scope.

Record range_wf (r : addr_range) : Prop := mk_range_wf {
  wf_from : addr_wf (f_from r);
  wf_to : addr_wf (f_to r)
}.

(* First and last number of a range; a range with only one end is that one
   address. *)
Definition lo (r : addr_range) : Z :=
  if f_has_from r then value (f_from r) else value (f_to r).
Definition hi (r : addr_range) : Z :=
  if f_has_to r then value (f_to r) else value (f_from r).

(* The elements of a range. *)
Definition element (r : addr_range) (v : Z) : Prop :=
  (f_has_from r = true \/ f_has_to r = true) /\ lo r <= v <= hi r.

(* Both ends are given. *)
Definition full (r : addr_range) : Prop := f_has_from r = true /\ f_has_to r = true.
Definition defined (r : addr_range) : Prop := f_has_from r = true \/ f_has_to r = true.
Definition nonempty (r : addr_range) : Prop := defined r /\ lo r <= hi r.

(* The number of elements of [lo, hi]. *)
Definition count (r : addr_range) : Z := Z.max 0 (hi r - lo r + 1).

(* Mirror image of a comparison result. *)
Definition mirror (c : compare_t) : compare_t :=
  match c with
  | COMPARE_EQUAL => COMPARE_EQUAL
  | COMPARE_SMALLER => COMPARE_LARGER
  | COMPARE_LARGER => COMPARE_SMALLER
  | COMPARE_OVERLAP_SMALL_VS_LARGE => COMPARE_OVERLAP_LARGE_VS_SMALL
  | COMPARE_OVERLAP_LARGE_VS_SMALL => COMPARE_OVERLAP_SMALL_VS_LARGE
  | COMPARE_INCLUDED => COMPARE_INCLUDES
  | COMPARE_INCLUDES => COMPARE_INCLUDED
  | COMPARE_PRECEDES => COMPARE_FOLLOWS
  | COMPARE_FOLLOWS => COMPARE_PRECEDES
  | COMPARE_FIRST => COMPARE_LAST
  | COMPARE_LAST => COMPARE_FIRST
  | COMPARE_IPV4_VS_IPV6 => COMPARE_IPV6_VS_IPV4
  | COMPARE_IPV6_VS_IPV4 => COMPARE_IPV4_VS_IPV6
  | COMPARE_UNORDERED => COMPARE_UNORDERED
  end.

(* Every element of the range is an IPv4 address. *)
Definition all_v4 (r : addr_range) : Prop := forall v, element r v -> is_v4_value v.

(* What each comparison result says about the two sets of numbers, as
   documented at addr.h:77-93. *)
Definition subset (P Q : Z -> Prop) : Prop := forall v, P v -> Q v.
Definition meaning (c : compare_t) (l r : addr_range) : Prop :=
  match c with
  | COMPARE_EQUAL => nonempty l /\ nonempty r /\ forall v, element l v <-> element r v
  | COMPARE_SMALLER =>
      nonempty l /\ nonempty r
      /\ exists gap, (forall v, element l v -> v < gap) /\ (forall v, element r v -> gap < v)
  | COMPARE_LARGER =>
      nonempty l /\ nonempty r
      /\ exists gap, (forall v, element r v -> v < gap) /\ (forall v, element l v -> gap < v)
  | COMPARE_PRECEDES => nonempty l /\ nonempty r /\ hi l + 1 = lo r
  | COMPARE_FOLLOWS => nonempty l /\ nonempty r /\ hi r + 1 = lo l
  | COMPARE_OVERLAP_SMALL_VS_LARGE =>
      nonempty l /\ nonempty r /\ lo l < lo r /\ hi l < hi r
      /\ exists v, element l v /\ element r v
  | COMPARE_OVERLAP_LARGE_VS_SMALL =>
      nonempty l /\ nonempty r /\ lo r < lo l /\ hi r < hi l
      /\ exists v, element l v /\ element r v
  | COMPARE_INCLUDED =>
      nonempty l /\ nonempty r /\ subset (element r) (element l)
      /\ ~ subset (element l) (element r)
  | COMPARE_INCLUDES =>
      nonempty l /\ nonempty r /\ subset (element l) (element r)
      /\ ~ subset (element r) (element l)
  | COMPARE_FIRST => nonempty l /\ defined r /\ ~ nonempty r
  | COMPARE_LAST => nonempty r /\ defined l /\ ~ nonempty l
  | COMPARE_IPV4_VS_IPV6 => nonempty l /\ nonempty r /\ all_v4 l /\ ~ all_v4 r
  | COMPARE_IPV6_VS_IPV4 => nonempty l /\ nonempty r /\ ~ all_v4 l /\ all_v4 r
  | COMPARE_UNORDERED =>
      ~ defined l \/ ~ defined r \/ (~ nonempty l /\ ~ nonempty r)
  end.

(* Some network of the list matches the number v. *)
Definition matched_by (l : list addr) (x : addr) : Prop :=
  exists a, In a l /\ match_ a x false = true.

(* A CIDR block given by an address and its mask. *)
Definition contiguous (a : addr) : Prop := exists n, 0 <= n <= 128 /\ mask_value a = prefix_mask n.
Definition included (a b : addr) : Prop :=
  forall x, addr_wf x -> match_ a x false = true -> match_ b x false = true.
