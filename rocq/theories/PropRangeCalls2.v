(* C26 for the range objects any calls can make: the number of addresses. *)
From Coq Require Import ZifyBool ZifyNat.
From Verif Require Import Base Addr Range Spec SpecRange SpecRangeCalls.
From Verif Require AddrProofs3 AddrProofs4 RangeProofs PropRange PropAddr PropExact PropRangeCalls.
Import PropRangeCalls.
Local Open Scope Z_scope.

Lemma reach : forall calls r, Forall addr_wf (concat (map given calls)) -> blank r ->
  calls_do (ends_of r) calls (ends_of (fold_left do_call calls r)) /\ blank (fold_left do_call calls r).
Proof.
  induction calls as [|c calls IH]; intros r G B; [split; [constructor|exact B]|]. cbn [map concat] in G. apply Forall_app in G as [G1 G2].
  destruct (one_call r c B G1) as [B1 D]. destruct (IH (do_call r c) G2 B1) as [D2 B2]. split; [econstructor; eassumption|exact B2].
Qed.

(* The ends and size() after any calls: 0 without an end, 1 with one, else the
   number of addresses modulo 2^128, at most 2^64 - 1; one size is undefined
   behaviour. *)
Theorem C26_made_by_calls : forall calls, Forall addr_wf (concat (map given calls)) ->
  exists e, calls_do (None, None) calls e
  /\ size (after calls) =
     match e with
     | (None, None) => Ok 0
     | (Some _, None) | (None, Some _) => Ok 1
     | (Some a, Some b) =>
         let n := (value b - value a + 1) mod 2 ^ 128 in
         if n =? 2 ^ 127 then UB else Ok (Z.min n (2 ^ 64 - 1))
     end.
Proof.
  intros calls G. assert (B0 : blank range_new) by (split; [split; apply AddrProofs3.new_wf|split; reflexivity]).
  destruct (reach calls range_new G B0) as [D B]. exists (ends_of (after calls)). split; [exact D|]. clear D.
  change (fold_left do_call calls range_new) with (after calls) in B. generalize dependent (after calls). intros r [W _].
  destruct (PropRange.C26_size_partial r W) as (U & O & _). pose proof (PropExact.C26_any_size r W) as A.
  unfold ends_of, full, defined in *. destruct (f_has_from r), (f_has_to r).
  - apply A. split; reflexivity.
  - apply O; [left; reflexivity|intros [_ H]; discriminate].
  - apply O; [right; reflexivity|intros [H _]; discriminate].
  - apply U. intros [H|H]; discriminate.
Qed.
Print Assumptions C26_made_by_calls.

Example C26_made_by_calls_case :
  let made := [Set_to PropAddr.w4; From_cidr (set_mask PropAddr.w4 (repeat 255 15 ++ [240]))] in
  Forall addr_wf (concat (map given made))
  /\ size (after made) = Ok 16 /\ size (after [Set_to PropAddr.w4; Swap]) = Ok 1 /\ size (after [Swap]) = Ok 0
  /\ size (after (made ++ [Swap])) = Ok (2 ^ 64 - 1).
Proof.
  intros made. split.
  - cbn [made map concat given app]. apply Forall_cons; [apply PropAddr.w4_wf|]. apply Forall_cons; [|apply Forall_nil].
    apply AddrProofs4.addr_wfb_ok. vm_compute. reflexivity.
  - split; [vm_compute; reflexivity|]. split; [vm_compute; reflexivity|]. split; vm_compute; reflexivity.
Qed.
