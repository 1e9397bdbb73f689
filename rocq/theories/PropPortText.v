(* C14: the text of a port is its number, and it can be given back. *)
From Coq Require Import ZifyBool ZifyNat.
From Verif Require Import Base Addr Spec Inet AddrText.
From Verif Require AddrProofs AddrProofs2 AddrProofs3 AddrProofs4 InetProofs PropAddr.
Import AddrProofs AddrProofs2 AddrProofs3 AddrProofs4 InetProofs PropAddr.
Local Open Scope Z_scope.

Lemma dvalue_decimal s : forall v, dvalue s v = fold_left (fun v c => v * 10 + (c - 48)) s v.
Proof. reflexivity. Qed.
(* get_str_port() is the decimal notation of get_port(), without a zero in
   front, and set_port() of this text gives another address the same port. *)
Theorem C14_port_text : forall y a b, converts_decimals y -> addr_wf a -> addr_wf b ->
  decimal (get_str_port a) (get_port a)
  /\ (get_port a <> 0 -> hd 0 (get_str_port a) <> 48)
  /\ exists b', set_port_str y b (get_str_port a) = (b', Ok true) /\ get_port b' = get_port a /\ is_port_defined b' = true.
Proof.
  intros y a b C W Wb. pose proof (get_port_range a) as R.
  destruct (dec_string_spec (get_port a) ltac:(lia)) as (N & D & V & H).
  assert (decimal (get_str_port a) (get_port a)) as DE.
  { split; [exact N|]. split; [exact D|]. unfold decimal_value. rewrite <- dvalue_decimal. exact V. }
  split; [exact DE|]. split; [exact H|].
  unfold set_port_str. rewrite (C _ _ DE) by (change (2 ^ 63) with 9223372036854775808; lia).
  assert (s32 (get_port a) = get_port a) as ->.
  { unfold s32. change (2 ^ 32) with 4294967296. change (2 ^ 31) with 2147483648. rewrite Z.mod_small by lia. lia. }
  destruct (C14_port_round_trip b (get_port a) Wb) as [G _].
  destruct (G ltac:(lia)) as (b' & E & _ & P & PD & _). rewrite E. cbn [rbind]. eauto.
Qed.
Print Assumptions C14_port_text.
Example C14_port_text_case : addr_wf w4 /\ converts_decimals ref_sys /\ get_port (fst (set_port w4 8080)) = 8080
  /\ get_str_port (fst (set_port w4 8080)) = lit "8080".
Proof. split; [apply w4_wf|]. split; [apply ref_sys_converts|]. split; vm_compute; reflexivity. Qed.
