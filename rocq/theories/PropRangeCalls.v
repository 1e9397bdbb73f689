(* Property C174: a range object is what the calls made of it. *)
From Coq Require Import ZifyBool ZifyNat.
From Verif Require Import Base Addr Range Spec SpecRange SpecRangeCalls.
From Verif Require AddrProofs4 AddrProofs AddrProofs2 AddrProofs3 RangeProofs PropRange PropAddr.
Import AddrProofs AddrProofs2 AddrProofs3 RangeProofs.
Local Open Scope Z_scope.

Definition ends_of (r : addr_range) : ends :=
  (if f_has_from r then Some (f_from r) else None, if f_has_to r then Some (f_to r) else None).
Definition blank (r : addr_range) : Prop :=
  range_wf r /\ (f_has_from r = false -> f_from r = addr_new) /\ (f_has_to r = false -> f_to r = addr_new).

Lemma one_call r c : blank r -> Forall addr_wf (given c) -> blank (do_call r c) /\ call_does (ends_of r) c (ends_of (do_call r c)).
Proof.
  intros ([W1 W2] & B1 & B2) G. destruct c as [a|a| |a]; cbn [given] in G; try (apply Forall_inv in G).
  - split; [|constructor]. split; [now split|]. split; [discriminate|exact B2].
  - split; [|constructor]. split; [now split|]. split; [exact B1|discriminate].
  - split; [|constructor]. split; [now split|]. now split.
  - pose proof (from_cidr_spec r a G) as S. cbn [do_call]. destruct (get_mask_size a =? -1).
    + destruct S as [N E]. rewrite E. split; [now split|]. now apply does_nothing.
    + destruct S as (n & u & C & B & _ & M & E & Wu & [F1 F2] & L & H & _ & _ & S1 & S2). rewrite E. cbn [fst].
      split; [split; [exact Wu|split; congruence]|]. apply does_cidr with n; auto. unfold ends_of. rewrite F1, F2.
      exists (f_from u), (f_to u). split; [reflexivity|]. unfold lo, hi in L, H. rewrite F1 in L. rewrite F2 in H. rewrite L, H.
      unfold block_first, block_last, block_first, block_size. pose proof (Z.div_mod (value a) (2 ^ (128 - n)) ltac:(apply Z.pow_nonzero; lia)).
      split; [lia|]. split; [lia|]. now split.
Qed.
Lemma answers r : blank r -> answers_for (ends_of r) r.
Proof.
  intros ([W1 W2] & B1 & B2). destruct r as [hf ht f t]. cbn [f_from f_to f_has_from f_has_to] in *.
  unfold ends_of. cbn [f_from f_to f_has_from f_has_to].
  assert (K : forall a, addr_wf a -> is_ipv4 a = true <-> ipv4_number (value a)).
  { intros a W. rewrite is_ipv4_value by exact W. unfold is_v4_value, ipv4_number, v4_base. lia. }
  constructor; cbn [fst snd].
  - destruct hf; reflexivity.
  - destruct ht; reflexivity.
  - destruct hf; [reflexivity|now apply B1].
  - destruct ht; [reflexivity|now apply B2].
  - unfold is_defined. cbn. destruct hf, ht; cbn; split; try discriminate; try (intros _; eexists; auto); try reflexivity.
    intros (a & [X|X]); discriminate.
  - unfold is_range. cbn. destruct hf, ht; cbn; split; try discriminate; try (intros _; do 2 eexists; reflexivity); try reflexivity;
      intros (a & b & X); discriminate.
  - unfold is_empty, is_range. cbn [f_from f_to f_has_from f_has_to]. rewrite gt_value by assumption.
    destruct hf, ht; cbn [andb negb]; split; try discriminate; try (intros (a & b & X & _); discriminate).
    + intros H. exists f, t. split; [reflexivity|lia].
    + intros (a & b & X & H). injection X as <- <-. lia.
  - intros x W. unfold is_in, is_range. cbn [f_from f_to f_has_from f_has_to]. destruct hf, ht; cbn [andb negb]; try reflexivity.
    rewrite le_value by assumption. destruct (value f <=? value t) eqn:E.
    + eexists. split; [reflexivity|]. rewrite ge_value, le_value by assumption. lia.
    + eexists. split; [reflexivity|]. lia.
  - unfold range_is_ipv4. cbn [f_from f_to f_has_from f_has_to]. destruct hf, ht; cbn [andb].
    + rewrite andb_true_iff, !K by assumption. split.
      * intros [H1 H2]. split; [eauto|]. intros a [X|X]; injection X as <-; assumption.
      * intros [_ H]. split; apply H; auto.
    + rewrite K by assumption. split; [intros H; split; [eauto|]; intros a [X|X]; [injection X as <-; assumption|discriminate]|intros [_ H]; auto].
    + rewrite K by assumption. split; [intros H; split; [eauto|]; intros a [X|X]; [discriminate|injection X as <-; assumption]|intros [_ H]; auto].
    + split; [discriminate|]. intros [(a & [X|X]) _]; discriminate.
Qed.

(* Whatever calls are made on a new range object, with any addresses: what it
   answers is what the two ends are by then. *)
Theorem C174_calls : forall calls, Forall addr_wf (concat (map given calls)) ->
  exists e, calls_do (None, None) calls e /\ answers_for e (after calls).
Proof.
  assert (H : forall calls r, Forall addr_wf (concat (map given calls)) -> blank r ->
    calls_do (ends_of r) calls (ends_of (fold_left do_call calls r)) /\ blank (fold_left do_call calls r)).
  { induction calls as [|c calls IH]; intros r G B; [split; [constructor|exact B]|]. cbn [map concat] in G. apply Forall_app in G as [G1 G2].
    destruct (one_call r c B G1) as [B1 D]. destruct (IH _ G2 B1) as [I1 I2]. cbn [fold_left]. split; [|exact I2]. econstructor; eassumption. }
  intros calls G. assert (blank range_new) as B by (split; [split; exact new_wf|split; reflexivity]).
  destruct (H calls range_new G B) as [D B1]. eexists. split; [exact D|]. now apply answers.
Qed.
Print Assumptions C174_calls.

(* from_cidr() reports whether it did something. *)
Theorem C174_from_cidr : forall calls a, addr_wf a ->
  snd (from_cidr (after calls) a) = (if get_mask_size a =? -1 then Throw E_unsupported_as_range else Ok tt)
  /\ (snd (from_cidr (after calls) a) = Ok tt <-> contiguous a).
Proof.
  intros calls a W. pose proof (from_cidr_spec (after calls) a W) as S. destruct (get_mask_size a =? -1).
  - destruct S as [N E]. rewrite E. cbn [snd]. split; [reflexivity|]. split; [discriminate|contradiction].
  - destruct S as (n & u & C & _ & _ & _ & E & _). rewrite E. cbn [snd]. split; [reflexivity|]. now split.
Qed.
Print Assumptions C174_from_cidr.

(* Swapping twice, or swapping and setting the other end. *)
Theorem C174_swap : forall calls a, after (calls ++ [Swap; Swap]) = after calls
  /\ after (calls ++ [Set_from a; Swap]) = after (calls ++ [Swap; Set_to a]).
Proof.
  intros calls a. unfold after. rewrite !fold_left_app. generalize (fold_left do_call calls range_new). intros [hf ht f t]. now split.
Qed.
Print Assumptions C174_swap.

(* A usable case: an end is set, the other with a network which has no prefix
   mask, the ends are swapped. *)
Definition holes : addr := set_mask PropAddr.w4 (repeat 255 12 ++ [255; 0; 255; 0]).
Example C174_witness :
  Forall addr_wf (concat (map given [Set_from PropAddr.w6; From_cidr holes; Swap; Set_to PropAddr.w4; Set_from PropAddr.w6; Swap]))
  /\ ~ contiguous holes
  /\ (let r := after [Set_from PropAddr.w6; From_cidr holes; Swap] in has_from r = false /\ has_to r = true)
  /\ is_range (after [From_cidr PropAddr.w4]) = true.
Proof.
  assert (addr_wf holes) as W by (apply AddrProofs4.addr_wfb_ok; vm_compute; reflexivity).
  assert (addr_wf PropAddr.w4 /\ addr_wf PropAddr.w6) as [W4 W6] by (split; apply AddrProofs4.addr_wfb_ok; vm_compute; reflexivity).
  split. { cbn [map concat given app]. repeat apply Forall_cons; auto. }
  split; [|repeat split; vm_compute; reflexivity].
  pose proof (from_cidr_spec range_new holes W) as S. change (get_mask_size holes =? -1) with true in S. exact (proj1 S).
Qed.

(* What match() answers after any calls; for C25, exactly which addresses an
   undefined range matches, and that an inverted one matches none. *)
Lemma blank_match r x : blank r -> addr_wf x -> exists v, range_match r x = Ok v /\ (v = true <-> matching (ends_of r) (value x)).
Proof.
  intros B X. pose proof B as ([W1 W2] & B1 & B2). assert (full r \/ ~ full r) as [F|F] by (unfold full; destruct (f_has_from r), (f_has_to r); intuition discriminate).
  - rewrite range_match_full by (auto; apply B). eexists. split; [reflexivity|]. destruct F as [F1 F2].
    unfold ends_of, matching, lo, hi. rewrite F1, F2. lia.
  - rewrite range_match_single by exact F. eexists. split; [reflexivity|]. unfold ends_of, matching, full in *.
    destruct (f_has_from r), (f_has_to r); [destruct F; now split|apply match_land; assumption..|].
    rewrite B2 by reflexivity. destruct (PropRange.C25_undefined_matches_the_null_address_refuted x X) as [K _].
    rewrite range_match_single in K by (intros [H _]; discriminate). cbn [range_new f_has_from f_to] in K.
    rewrite <- K. split; [intros ->; reflexivity|intros H; now injection H].
Qed.
Theorem C25_exactly : forall calls x, Forall addr_wf (concat (map given calls)) -> addr_wf x ->
  exists e v, calls_do (None, None) calls e /\ range_match (after calls) x = Ok v /\ (v = true <-> matching e (value x)).
Proof.
  intros calls x G X.
  assert (H : forall calls r, Forall addr_wf (concat (map given calls)) -> blank r ->
    calls_do (ends_of r) calls (ends_of (fold_left do_call calls r)) /\ blank (fold_left do_call calls r)).
  { clear. induction calls as [|c calls IH]; intros r G B; [split; [constructor|exact B]|]. cbn [map concat] in G. apply Forall_app in G as [G1 G2].
    destruct (one_call r c B G1) as [B1 D]. destruct (IH (do_call r c) G2 B1) as [D2 B2]. split; [econstructor; eassumption|exact B2]. }
  assert (B0 : blank range_new) by (split; [split; apply new_wf|split; reflexivity]).
  destruct (H calls range_new G B0) as [D B]. destruct (blank_match (after calls) x B X) as (v & E & M).
  exists (ends_of (after calls)), v. split; [exact D|]. split; [exact E|exact M].
Qed.
Print Assumptions C25_exactly.
Example C25_exactly_case : exists e, calls_do (None, None) [Set_to PropAddr.w4; Swap] e /\ e = (Some PropAddr.w4, None)
  /\ range_match (after [Set_to PropAddr.w4; Swap]) PropAddr.w4 = Ok true /\ range_match (after [Swap]) addr_new = Ok true /\ range_match (after [Swap]) PropAddr.w4 = Ok false.
Proof.
  eexists. split; [econstructor; [constructor|econstructor; [constructor|constructor]]|]. split; [reflexivity|]. repeat split; vm_compute; reflexivity.
Qed.

(* C34 for ranges made by any calls, without range_match(). *)
Theorem C34_made_by_calls : forall made x, Forall (fun calls => Forall addr_wf (concat (map given calls))) made -> addr_wf x ->
  exists es b, Forall2 (calls_do (None, None)) made es /\ address_match_ranges (map after made) x = Ok b
    /\ (b = true <-> exists e, In e es /\ matching e (value x)).
Proof.
  intros made x G X. induction G as [|calls made G1 _ IH].
  - exists [], false. split; [constructor|]. split; [reflexivity|]. split; [discriminate|intros (e & [] & _)].
  - destruct IH as (es & b & D & E & M). destruct (C25_exactly calls x G1 X) as (e & v & D1 & E1 & M1).
    exists (e :: es), (v || b)%bool. split; [constructor; assumption|]. split.
    + cbn [map address_match_ranges]. rewrite E1. destruct v; [reflexivity|exact E].
    + rewrite Bool.orb_true_iff, M, M1. split.
      * intros [H|(e' & I & H)]; [exists e|exists e']; (split; [|assumption]); [left; reflexivity|right; assumption].
      * intros (e' & [<-|I] & H); [left; assumption|right; exists e'; split; assumption].
Qed.
Print Assumptions C34_made_by_calls.
Example C34_made_by_calls_case :
  let made := [[Swap]; [Set_from PropAddr.w4; Swap]; [From_cidr PropAddr.w4]] in
  Forall (fun calls => Forall addr_wf (concat (map given calls))) made /\ addr_wf PropAddr.w4
  /\ address_match_ranges (map after made) PropAddr.w4 = Ok true
  /\ address_match_ranges (map after made) addr_new = Ok true
  /\ address_match_ranges (map after [[Set_from PropAddr.w4]]) addr_new = Ok false.
Proof.
  intros made. assert (W : addr_wf PropAddr.w4) by apply PropAddr.w4_wf.
  split; [repeat (apply Forall_cons || apply Forall_nil); cbn [map concat given app]; repeat (apply Forall_cons || apply Forall_nil); exact W|].
  split; [exact W|]. repeat split; vm_compute; reflexivity.
Qed.
