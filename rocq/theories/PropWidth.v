(* Property C162: addresses and ranges in columns. *)
From Coq Require Import Lia ZifyBool ZifyNat.
From Verif Require Import Base Addr AddrText Range Ostream OstreamWidth.
From Verif Require AddrProofs4 PropRange.
Local Open Scope Z_scope.

(* ---------- specification ---------- *)
(* t takes a column of w characters, or as many as it has when it is longer. *)
Definition in_column (w c : Z) (at_left : bool) (t out : str) : Prop :=
  Z.of_nat (length out) = Z.max w (Z.of_nat (length t))
  /\ exists n, out = if at_left then t ++ repeat c n else repeat c n ++ t.
(* Items which are written as one text. *)
Definition one_text (x : item) : Prop := match x with I_addrs _ => False | _ => True end.
(* What a program writes with std::setw(w) before each item. *)
Fixpoint put_row (y : sys) (i : option info) (f : format) (w : Z) (l : list item) : str * res unit :=
  match l with
  | [] => ([], Ok tt)
  | x :: l =>
      let '(t, f, r) := put_item_in y i (set_width f w) x in
      match r with
      | Ok _ => let (u, r) := put_row y i f w l in (t ++ u, r)
      | _ => (t, r)
      end
  end.

(* ---------- proofs ---------- *)
Lemma put_text_column f t : good f = true ->
  in_column (width f) (fill f) (left_adjust f) t (fst (put_text f t)) /\ snd (put_text f t) = set_width f 0.
Proof.
  intros G. unfold put_text. rewrite G. cbn [fst snd]. split; [|reflexivity]. split.
  - destruct (left_adjust f); rewrite app_length, repeat_length; lia.
  - eexists. reflexivity.
Qed.
Lemma no_width f t : good f = true -> width f <= 0 -> put_text f t = (t, set_width f 0).
Proof.
  intros G W. unfold put_text. rewrite G. replace (Z.to_nat (width f - Z.of_nat (length t))) with 0%nat by lia.
  cbn [repeat]. rewrite app_nil_r. now destruct (left_adjust f).
Qed.
Lemma set_set f v w : set_width (set_width f v) w = set_width f w.
Proof. reflexivity. Qed.
(* The text of one item and how it is written. *)
Lemma one_text_put y i f x : one_text x ->
  (exists t, put_item y i x = (t, Ok tt) /\ put_item_in y i f x = (put_text f t, Ok tt))
  \/ exists r, r <> Ok tt /\ put_item y i x = ([], r) /\ put_item_in y i f x = ([], f, r).
Proof.
  intros O. destruct x as [a|l|r|l]; cbn [one_text] in O; [|destruct O| |];
    unfold put_item, put_item_in, put_addr, put_addr_in.
  - destruct (to_ipv4or6_string y a _) as [t|e| |]; [left; now exists t|right..]; eexists; (split; [|split; reflexivity]); discriminate.
  - destruct (range_to_string y r _) as [t|e| |]; [left; now exists t|right..]; eexists; (split; [|split; reflexivity]); discriminate.
  - match goal with |- context [match ?m with Ok t => (t, Ok tt) | _ => _ end] => destruct m as [t|e| |] end;
      [left; now exists t|right..]; eexists; (split; [|split; reflexivity]); discriminate.
Qed.
Lemma put_addr_one y i f a : put_addr_in y i f a =
  match snd (put_addr y i a) with Ok _ => (put_text f (fst (put_addr y i a)), Ok tt) | r => ([], f, r) end.
Proof. unfold put_addr_in, put_addr. destruct (to_ipv4or6_string y a _) as [t|e| |]; reflexivity. Qed.
Lemma put_addrs_plain y i sep f l : good f = true -> width f <= 0 -> forall first,
  put_addrs_in y i sep first f l = (fst (put_addrs y i sep first l),
    match l, first with [], _ => f
    | a :: _, true => match snd (put_addr y i a) with Ok _ => set_width f 0 | _ => f end
    | _ :: _, false => set_width f 0 end,
    snd (put_addrs y i sep first l)).
Proof.
  revert f. induction l as [|a l IH]; intros f G W first; [reflexivity|]. cbn [put_addrs_in put_addrs].
  assert (forall f, good f = true -> width f <= 0 -> put_text f sep = (sep, set_width f 0)) as PS by (intros; now apply no_width).
  destruct first.
  - rewrite put_addr_one. unfold put_addr.
    destruct (to_ipv4or6_string y a _) as [t|e| |]; cbn [fst snd]; try reflexivity.
    rewrite (no_width f t G W). rewrite (IH (set_width f 0)) by (try exact G; cbn; lia).
    destruct (put_addrs y i sep false l) as [u r]. cbn [fst snd]. destruct l; reflexivity.
  - rewrite (PS f G W). rewrite put_addr_one. unfold put_addr.
    destruct (to_ipv4or6_string y a _) as [t|e| |]; cbn [fst snd]; try reflexivity.
    rewrite (no_width (set_width f 0) t) by (try exact G; cbn; lia). rewrite set_set.
    rewrite (IH (set_width f 0)) by (try exact G; cbn; lia).
    destruct (put_addrs y i sep false l) as [u r]. cbn [fst snd]. destruct l; reflexivity.
Qed.

(* ---------- C162 ---------- *)
(* An address, a range or a list of ranges, which is written as t without a
   width, takes a column; the next item takes none. When it cannot be written
   the width stays. *)
Theorem C162_column : forall y i f x, one_text x -> good f = true ->
  (forall t, put_item y i x = (t, Ok tt) ->
     exists out, put_item_in y i f x = (out, set_width f 0, Ok tt) /\ in_column (width f) (fill f) (left_adjust f) t out)
  /\ (forall t r, put_item y i x = (t, r) -> r <> Ok tt -> put_item_in y i f x = ([], f, r)).
Proof.
  intros y i f x O G. destruct (one_text_put y i f x O) as [(u & P & E)|(r & N & P & E)]; rewrite P, E; split.
  - intros t X. injection X as <-. destruct (put_text_column f u G) as [C S]. exists (fst (put_text f u)).
    split; [|exact C]. rewrite <- S. now destruct (put_text f u).
  - intros t r X. injection X as _ <-. congruence.
  - intros t X. congruence.
  - intros t r' X _. congruence.
Qed.
Print Assumptions C162_column.

(* A row of such items lines up with any other row. *)
Theorem C162_row : forall y i f w xs ts, good f = true ->
  Forall2 (fun x t => one_text x /\ put_item y i x = (t, Ok tt) /\ Z.of_nat (length t) <= w) xs ts ->
  exists outs, put_row y i f w xs = (concat outs, Ok tt)
  /\ Forall2 (fun t out => Z.of_nat (length out) = w /\ in_column w (fill f) (left_adjust f) t out) ts outs.
Proof.
  intros y i f w xs ts G H. revert f G. induction H as [|x t xs ts (O & P & L) H IH]; intros f G.
  - exists []. now split.
  - destruct (C162_column y i (set_width f w) x O G) as [C _]. destruct (C t P) as (out & E & IC).
    cbn [put_row]. rewrite E. rewrite set_set. destruct (IH (set_width f 0) G) as (outs & E2 & F). rewrite E2.
    exists (out :: outs). split; [reflexivity|]. constructor; [|exact F]. cbn [width fill left_adjust set_width] in IC.
    split; [|exact IC]. destruct IC as [X _]. lia.
Qed.
Print Assumptions C162_row.

(* Without a width everything is written as it is. *)
Theorem C162_no_width : forall y i f x, good f = true -> width f <= 0 ->
  exists f', put_item_in y i f x = (fst (put_item y i x), f', snd (put_item y i x)) /\ (f' = f \/ f' = set_width f 0).
Proof.
  intros y i f x G W. destruct x as [a|l|r|l].
  2:{ cbn [put_item_in put_item]. rewrite (put_addrs_plain y i _ f l G W). eexists. split; [reflexivity|].
      destruct l as [|a l]; [now left|]. destruct (snd (put_addr y i a)); auto. }
  all: match goal with G : good ?f = true, W : _ |- context [put_item_in ?y ?i ?f ?x] =>
    destruct (one_text_put y i f x I) as [(t & -> & ->)|(r' & _ & -> & ->)];
    [rewrite (no_width f t G W); eexists; split; [reflexivity|now right]|eexists; split; [reflexivity|now left]] end.
Qed.
Print Assumptions C162_no_width.

(* A stream which is not good gets nothing and keeps its width. *)
Theorem C162_not_good : forall y i f x, good f = false ->
  exists r, put_item_in y i f x = ([], f, r) /\ (r = snd (put_item y i x)).
Proof.
  intros y i f x G. assert (forall t, put_text f t = ([], f)) as P by (intros t; unfold put_text; now rewrite G).
  destruct x as [a|l|r|l].
  2:{ cbn [put_item_in put_item]. set (sep := match i with None => _ | Some _ => _ end). clearbody sep.
      generalize true. induction l as [|a l IH]; intros first; [eexists; now split|].
      assert (put_addrs_in y i sep first f (a :: l) =
        let '(t, f, r) := put_addr_in y i f a in
        match r with
        | Ok _ => let '(u, f, r) := put_addrs_in y i sep false f l in (t ++ u, f, r)
        | _ => (t, f, r)
        end) as -> by (cbn [put_addrs_in]; destruct first; [|rewrite P]; reflexivity).
      cbn [put_addrs]. rewrite put_addr_one. destruct (put_addr y i a) as [t r] eqn:EA. cbn [fst snd].
      destruct r as [[]|e| |]; try (eexists; now split).
      rewrite P. destruct (IH false) as (r & E & R). rewrite E. cbn [app]. exists r. split; [reflexivity|].
      rewrite R. now destruct (put_addrs y i sep false l). }
  all: match goal with P : forall t, put_text ?f t = _ |- context [put_item_in ?y ?i ?f ?x] =>
    destruct (one_text_put y i f x I) as [(t & -> & ->)|(r' & _ & -> & ->)];
    [rewrite P; eexists; now split|eexists; now split] end.
Qed.
Print Assumptions C162_not_good.

(* A vector or a set of addresses: only its first address takes the column, the
   rest follows without a width; an empty one leaves the width to whatever is
   written next. *)
Theorem C162_addresses : forall y i f l, good f = true ->
  (l = [] -> put_item_in y i f (I_addrs l) = ([], f, Ok tt))
  /\ forall a rest t text, l = a :: rest -> put_addr y i a = (t, Ok tt) -> put_item y i (I_addrs l) = (t ++ text, Ok tt) ->
     exists out, put_item_in y i f (I_addrs l) = (out ++ text, set_width f 0, Ok tt)
     /\ in_column (width f) (fill f) (left_adjust f) t out.
Proof.
  intros y i f l G. split; [intros ->; reflexivity|]. intros a rest t text -> PA PI.
  cbn [put_item_in put_item] in *. set (sep := match i with None => _ | Some _ => _ end) in *.
  cbn [put_addrs_in put_addrs] in *. rewrite put_addr_one, PA in *. cbn [fst snd] in *.
  destruct (put_text_column f t G) as [C S]. destruct (put_text f t) as [out f1]. cbn [fst snd] in C, S. subst f1.
  exists out. split; [|exact C].
  rewrite (put_addrs_plain y i sep (set_width f 0) rest) by (try exact G; cbn; lia).
  destruct (put_addrs y i sep false rest) as [u r]. cbn [fst snd app] in *. injection PI as PI ->.
  apply app_inv_head in PI. subst u. cbn [app]. destruct rest; reflexivity.
Qed.
Print Assumptions C162_addresses.

(* So such a list does not line up. *)
Theorem C162_addresses_refuted : exists y f l t, good f = true /\ put_item y None (I_addrs l) = (t, Ok tt)
  /\ Z.of_nat (length t) < width f
  /\ forall out f' , put_item_in y None f (I_addrs l) = (out, f', Ok tt) ->
     ~ in_column (width f) (fill f) (left_adjust f) t out.
Proof.
  exists AddrProofs4.ref_sys, (mk_format 50 32 true true), [PropRange.net4 10 0 0 1 32; PropRange.net4 10 0 0 2 32].
  eexists. split; [reflexivity|]. split; [vm_compute; reflexivity|]. split; [vm_compute; reflexivity|].
  intros out f' E. revert E. vm_compute. intros E. injection E as <- _. intros [L _]. revert L. vm_compute. discriminate.
Qed.
Print Assumptions C162_addresses_refuted.

Example C162_witness : exists t u, let y := AddrProofs4.ref_sys in let f := mk_format 0 32 false true in
  Forall2 (fun x t => one_text x /\ put_item y None x = (t, Ok tt) /\ Z.of_nat (length t) <= 40)
    [I_addr (PropRange.net4 10 0 0 1 32); I_range PropRange.r1] [t; u]
  /\ (length t < length u)%nat /\ put_row y None f 40 [I_addr (PropRange.net4 10 0 0 1 32); I_range PropRange.r1]
     = (repeat 32 (40 - length t) ++ t ++ repeat 32 (40 - length u) ++ u, Ok tt).
Proof.
  eexists. eexists. cbv zeta. split; [|split].
  - constructor; [|constructor; [|constructor]]; (split; [exact I|]; split; [vm_compute; reflexivity|]); vm_compute; discriminate.
  - vm_compute. lia.
  - vm_compute. reflexivity.
Qed.
