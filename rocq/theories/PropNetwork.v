(* Property C161: all the addresses of a network. *)
From Coq Require Import Lia ZifyBool ZifyNat Sorted.
From Verif Require Import Base Addr Spec Range SpecRange.
From Verif Require AddrProofs AddrProofs2 RangeProofs RangeProofs2 PropRange PropExact.
Import AddrProofs AddrProofs2 RangeProofs RangeProofs2.
Local Open Scope Z_scope.

(* ---------- specification ---------- *)
(* The addresses of l are those the network a matches, each once, in
   increasing order; besides the IP they are like a. *)
Definition lists_network (a : addr) (l : list addr) : Prop :=
  (forall x, addr_wf x -> (In (value x) (map value l) <-> match_ a x false = true))
  /\ StronglySorted Z.lt (map value l)
  /\ Forall (fun b => addr_wf b /\ same_but_ip a b) l.

(* ---------- proofs ---------- *)
Lemma span_in f n v : In v (map (fun i => f + Z.of_nat i) (seq 0 n)) <-> f <= v < f + Z.of_nat n.
Proof.
  rewrite in_map_iff. split.
  - intros (i & <- & I). apply in_seq in I. lia.
  - intros R. exists (Z.to_nat (v - f)). split; [lia|]. apply in_seq. lia.
Qed.
Lemma span_sorted f n : forall s, StronglySorted Z.lt (map (fun i => f + Z.of_nat i) (seq s n)).
Proof.
  induction n as [|n IH]; intros s; cbn [seq map]; constructor; [apply IH|].
  apply Forall_forall. intros v I. apply in_map_iff in I as (i & <- & I). apply in_seq in I. lia.
Qed.
Lemma same_but_ip_trans a b c : same_but_ip a b -> same_but_ip b c -> same_but_ip a c.
Proof. intros [] []. constructor; congruence. Qed.

Section Network.
Context (a : addr) (u : addr_range) (W : addr_wf a) (E : from_cidr range_new a = (u, Ok tt)).

Lemma network_ends : exists n, 0 <= n <= 128 /\ get_mask_size a = n /\ mask_value a = prefix_mask n
  /\ range_wf u /\ full u /\ value (f_from u) = block_first n (value a) /\ value (f_to u) = block_last n (value a)
  /\ same_but_ip a (f_from u).
Proof.
  pose proof (from_cidr_spec range_new a W) as S. destruct (get_mask_size a =? -1); [destruct S as [_ S]; congruence|].
  destruct S as (n & u' & _ & B & G & M & E' & Wu & Fu & L & H & _ & _ & S & _). assert (u' = u) as -> by congruence.
  destruct (full_lo_hi u Fu) as [X Y]. exists n. rewrite X in L. rewrite Y in H. auto 10.
Qed.
End Network.

(* ---------- C161 ---------- *)
(* from_cidr(a) then to_addresses(limit), for masks of two bits or more. *)
Theorem C161_network_partial : forall a u limit, addr_wf a -> from_cidr range_new a = (u, Ok tt) ->
  2 <= get_mask_size a -> 0 <= limit < 2 ^ 64 - 1 ->
  let count := 2 ^ (128 - get_mask_size a) in
  (count > limit -> forall fuel, to_addresses fuel u limit = Throw E_out_of_range)
  /\ (count <= limit -> (forall x, addr_wf x -> value x = LAST -> match_ a x false = false) ->
      forall fuel, count <= Z.of_nat fuel ->
      exists l, to_addresses fuel u limit = Ok l /\ Z.of_nat (length l) = count /\ lists_network a l).
Proof.
  intros a u limit W E G L count.
  destruct (network_ends a u W E) as (n & B & GN & M & Wu & Fu & FF & FT & S).
  assert (count = block_size n) as EC by (unfold count, block_size; now rewrite GN).
  pose proof (block_pos n ltac:(lia)) as P. rewrite GN in G.
  assert (count <= 2 ^ 126) as C126 by (rewrite EC; unfold block_size; apply Z.pow_le_mono_r; lia).
  assert (value (f_to u) - value (f_from u) + 1 = count) as D by (rewrite FF, FT, EC; unfold block_last; lia).
  pose proof (value_range _ (wf_to u Wu)) as RT.
  destruct (PropExact.C27_any_range u limit Wu Fu ltac:(lia)) as (_ & T & O). cbv zeta in T, O. rewrite D in T, O.
  rewrite Z.mod_small in T, O by lia.
  split; [intros X fuel; apply T; lia|]. intros X N fuel F.
  destruct O as (_ & O & _); [lia|lia|].
  assert (value (f_to u) <> LAST) as NL.
  { intros Y. assert (match_ a (f_to u) false = true) as Z; [|rewrite (N _ (wf_to u Wu) Y) in Z; discriminate].
    apply (match_block a _ n W (wf_to u Wu) B M). rewrite FT. pose proof (block_first_le n (value a) ltac:(lia)). unfold block_last. lia. }
  destruct (O ltac:(unfold LAST in *; lia) ltac:(lia) fuel ltac:(lia)) as (l & EL & ML & FL).
  exists l. split; [exact EL|]. split.
  { rewrite <- (map_length value), ML, map_length, seq_length. lia. }
  split; [|split].
  - intros x Wx. rewrite ML, span_in, (match_block a x n W Wx B M), <- FF, <- FT. lia.
  - rewrite ML. apply span_sorted.
  - eapply Forall_impl; [|exact FL]. intros b [Wb Sb]. split; [exact Wb|]. now apply (same_but_ip_trans a (f_from u)).
Qed.
Print Assumptions C161_network_partial.

(* An IPv4 network always works. *)
Theorem C161_ipv4 : forall a u limit fuel, addr_wf a -> is_ipv4 a = true -> 96 <= get_mask_size a ->
  from_cidr range_new a = (u, Ok tt) -> 0 <= limit < 2 ^ 64 - 1 ->
  let count := 2 ^ (128 - get_mask_size a) in count <= Z.of_nat fuel ->
  (count > limit -> to_addresses fuel u limit = Throw E_out_of_range)
  /\ (count <= limit -> exists l, to_addresses fuel u limit = Ok l /\ Z.of_nat (length l) = count /\ lists_network a l
      /\ Forall (fun b => is_ipv4 b = true) l).
Proof.
  intros a u limit fuel W V4 G E L count F.
  destruct (C161_network_partial a u limit W E ltac:(lia) L) as [T O]. fold count in T, O.
  split; [intros X; now apply T|]. intros X.
  destruct (network_ends a u W E) as (n & B & GN & M & Wu & Fu & FF & FT & S).
  assert (forall x, addr_wf x -> match_ a x false = true -> is_v4_value (value x)) as V.
  { intros x Wx H. apply (match_block a x n W Wx B M) in H. apply is_ipv4_value in V4; [|exact W].
    rewrite GN in G. unfold is_v4_value in *.
    assert (block_first 96 (value a) <= block_first n (value a) /\ block_last n (value a) <= block_last 96 (value a)) as [I1 I2].
    { unfold block_last, block_first, block_size. change (128 - 96) with 32.
      assert (0 < 2 ^ (128 - n)) by (apply Z.pow_pos_nonneg; lia).
      assert (0 < 2 ^ (n - 96)) by (apply Z.pow_pos_nonneg; lia).
      assert (2 ^ 32 = 2 ^ (128 - n) * 2 ^ (n - 96)) as Q by (rewrite <- Z.pow_add_r by lia; f_equal; lia).
      rewrite Q. set (p := 2 ^ (128 - n)) in *. set (q := 2 ^ (n - 96)) in *. clearbody p q.
      pose proof (Z.div_mod (value a) p ltac:(lia)). pose proof (Z.mod_pos_bound (value a) p ltac:(lia)).
      rewrite <- Z.div_div by lia. set (v := value a / p) in *.
      pose proof (Z.div_mod v q ltac:(lia)). pose proof (Z.mod_pos_bound v q ltac:(lia)). split; nia. }
    revert I1 I2 V4. unfold block_last, block_first, block_size, v4_base. change (2 ^ (128 - 96)) with 4294967296.
    change (2 ^ 32) with 4294967296. clear - H. intros.
    pose proof (Z.div_mod (value a) 4294967296 ltac:(lia)). pose proof (Z.mod_pos_bound (value a) 4294967296 ltac:(lia)).
    unfold block_last in H. unfold block_first, block_size in *. lia. }
  destruct (O X) with (fuel := fuel) as (l & EL & LEN & LN); [|exact F|].
  { intros x Wx Y. destruct (match_ a x false) eqn:H; [|reflexivity]. specialize (V x Wx H). rewrite Y in V.
    unfold is_v4_value, v4_base, LAST in V. lia. }
  exists l. split; [exact EL|]. split; [exact LEN|]. split; [exact LN|].
  destruct LN as (I & _ & FL). rewrite Forall_forall in FL |- *. intros b IB. destruct (FL b IB) as [Wb _].
  apply is_ipv4_value; [exact Wb|]. apply V; [exact Wb|]. apply I; [exact Wb|]. now apply in_map.
Qed.
Print Assumptions C161_ipv4.

(* A network which contains the very last address is never enumerated, nor are
   "::/0" and the two halves of the IPv6 addresses. *)
Theorem C161_last_refuted : forall a u limit, addr_wf a -> from_cidr range_new a = (u, Ok tt) -> 0 <= limit < 2 ^ 64 - 1 ->
  (get_mask_size a = 0 -> forall fuel, to_addresses fuel u limit = OutOfFuel)
  /\ (get_mask_size a = 1 -> forall fuel, to_addresses fuel u limit = UB)
  /\ (2 <= get_mask_size a -> 2 ^ (128 - get_mask_size a) <= limit ->
      (exists x, addr_wf x /\ value x = LAST /\ match_ a x false = true) ->
      forall fuel, to_addresses fuel u limit = OutOfFuel).
Proof.
  intros a u limit W E L. destruct (network_ends a u W E) as (n & B & GN & M & Wu & Fu & FF & FT & S). rewrite GN.
  pose proof (value_range _ W) as VR. pose proof (value_range _ (wf_to u Wu)) as RT.
  assert (value (f_to u) - value (f_from u) + 1 = 2 ^ (128 - n)) as D by (rewrite FF, FT; unfold block_last, block_size; lia).
  destruct (PropExact.C27_any_range u limit Wu Fu ltac:(lia)) as (H & _ & O). cbv zeta in H, O. rewrite D in H, O.
  split; [|split].
  - intros ->. change (2 ^ (128 - 0)) with (2 ^ 128) in *. rewrite Z.mod_same in O by lia.
    destruct O as (O & _); [lia|lia|]. apply O. rewrite FT. unfold block_last, block_first, block_size, LAST.
    change (2 ^ (128 - 0)) with (2 ^ 128). rewrite Z.div_small by lia. lia.
  - intros ->. apply H. reflexivity.
  - intros N C (x & Wx & X & MX).
    assert (2 ^ (128 - n) <= 2 ^ 126) by (apply Z.pow_le_mono_r; lia).
    assert (0 < 2 ^ (128 - n)) by (apply Z.pow_pos_nonneg; lia).
    rewrite Z.mod_small in O by lia. destruct O as (O & _); [lia|lia|]. apply O.
    apply (match_block a x n W Wx B M) in MX. rewrite <- FT in MX. unfold LAST in *. lia.
Qed.
Print Assumptions C161_last_refuted.

(* A range made of the network alone, as parse() gives it, stands for one
   address there, whatever its mask. *)
Theorem C161_mask_refuted : forall a r limit fuel, addr_wf a -> contiguous a -> get_mask_size a < 128 ->
  f_has_from r = true -> f_has_to r = false -> f_from r = a -> 1 <= limit ->
  to_addresses fuel r limit = Ok [a] /\ ~ lists_network a [a].
Proof.
  intros a r limit fuel W C G HF HT EA L. split.
  - destruct (PropRange.C27_single_and_undefined r limit fuel) as (S & _).
    { unfold full. rewrite HT. intros [_ X]. discriminate. }
    rewrite S; [now rewrite HF, EA|left; exact HF|exact L].
  - intros (I & _ & _). pose proof (from_cidr_spec range_new a W) as S.
    destruct (contiguous_size a W) as [(_ & B & M)|[N _]]; [|now elim N].
    destruct (get_mask_size a =? -1) eqn:Q; [lia|]. destruct S as (n & u & _ & _ & GN & _ & E & _).
    destruct (network_ends a u W E) as (k & Bk & Gk & Mk & Wu & _ & FF & FT & _).
    assert (2 <= block_size k) as P.
    { unfold block_size. change 2 with (2 ^ 1) at 1. apply Z.pow_le_mono_r; lia. }
    pose proof (block_first_le k (value a) ltac:(lia)) as BL. unfold block_last in *.
    pose proof (I (f_from u) (wf_from u Wu)) as I1. pose proof (I (f_to u) (wf_to u Wu)) as I2.
    rewrite (match_block a _ k W (wf_from u Wu) Bk Mk) in I1. rewrite (match_block a _ k W (wf_to u Wu) Bk Mk) in I2.
    rewrite FF in I1. rewrite FT in I2. unfold block_last in *. cbn [map In] in I1, I2. lia.
Qed.
Print Assumptions C161_mask_refuted.

Example C161_witness : let a := PropRange.net4 10 0 0 7 30 in let r := PropRange.only_from a in
  addr_wf a /\ is_ipv4 a = true /\ get_mask_size a = 126 /\ snd (from_cidr range_new a) = Ok tt
  /\ contiguous a /\ f_has_from r = true /\ f_has_to r = false /\ f_from r = a
  /\ (let b := PropRange.net (LAST - 1) 126 in addr_wf b /\ get_mask_size b = 126 /\ snd (from_cidr range_new b) = Ok tt
      /\ exists x, addr_wf x /\ value x = LAST /\ match_ b x false = true)
  /\ (let c := PropRange.net (2 ^ 127) 1 in addr_wf c /\ get_mask_size c = 1 /\ snd (from_cidr range_new c) = Ok tt).
Proof.
  cbv zeta. split; [PropRange.wfa|]. split; [vm_compute; reflexivity|]. split; [vm_compute; reflexivity|].
  split; [vm_compute; reflexivity|]. split; [exists 126; split; [lia|vm_compute; reflexivity]|].
  split; [reflexivity|]. split; [reflexivity|]. split; [reflexivity|]. split.
  - split; [PropRange.wfa|]. split; [vm_compute; reflexivity|]. split; [vm_compute; reflexivity|].
    exists (PropRange.net LAST 128). split; [PropRange.wfa|]. split; vm_compute; reflexivity.
  - split; [PropRange.wfa|]. split; vm_compute; reflexivity.
Qed.
