(* Proofs about the interfaces. *)
From Coq Require Import Lia ZifyBool ZifyNat.
From Verif Require Import Base Addr Spec Route Iface IfaceCache SpecIface.
From Verif Require AddrProofs AddrProofs2 AddrProofs3 ParserProofs.
Import AddrProofs AddrProofs2 AddrProofs3 ParserProofs.
Local Open Scope Z_scope.
Ltac Zify.zify_post_hook ::= Z.div_mod_to_equations.

Lemma find_first {A} (P : A -> Prop) (f : A -> bool) l : (forall x, In x l -> (f x = true <-> P x)) ->
  match find f l with Some x => first P l x | None => none P l end.
Proof.
  intros H. induction l as [|x l IH]; [constructor|]. cbn [find]. destruct (f x) eqn:E.
  - exists [], l. split; [reflexivity|]. split; [apply H; auto; now left|constructor].
  - assert (N : ~ P x) by (intros X; apply H in X; [congruence|now left]).
    specialize (IH (fun y I => H y (or_intror I))). destruct (find f l) as [y|].
    + destruct IH as (b & a & -> & X & Y). exists (x :: b), a. split; [reflexivity|]. split; [exact X|].
      now constructor.
    + now constructor.
Qed.
Lemma first_unique {A} (P : A -> Prop) l x y : first P l x -> first P l y -> x = y.
Proof.
  intros (b & a & E & X & N) (b' & a' & E' & X' & N'). subst l.
  revert b' E' N'. induction N as [|z b Z N IH]; intros [|z' b'] E' N'; cbn in E'; injection E' as E1 E2.
  - exact E1.
  - inversion N'; subst. contradiction.
  - subst z. contradiction.
  - inversion N'; subst. eauto.
Qed.
Lemma first_none {A} (P : A -> Prop) l x : first P l x -> none P l -> False.
Proof.
  intros (b & a & -> & X & _) N. apply Forall_app in N as [_ N]. inversion N. contradiction.
Qed.
Lemma find_is_first {A} (P : A -> Prop) f l x : (forall x, In x l -> (f x = true <-> P x)) ->
  first P l x -> find f l = Some x.
Proof.
  intros H F. pose proof (find_first P f l H) as G. destruct (find f l) as [y|].
  - f_equal. eapply first_unique; eassumption.
  - exfalso. eapply first_none; eassumption.
Qed.
Lemma find_is_none {A} (P : A -> Prop) f l : (forall x, In x l -> (f x = true <-> P x)) ->
  none P l -> find f l = None.
Proof.
  intros H F. pose proof (find_first P f l H) as G. destruct (find f l) as [y|]; [|reflexivity].
  exfalso. eapply first_none; eassumption.
Qed.

Lemma flag_bit v b : 0 <= b -> negb (Z.land v (2 ^ b) =? 0) = Z.testbit v b.
Proof.
  intros B. assert (E : Z.land v (2 ^ b) = if Z.testbit v b then 2 ^ b else 0).
  { apply Z.bits_inj'. intros n N. rewrite Z.land_spec. rewrite (Z.pow2_bits_eqb b n) by lia.
    destruct (Z.eqb_spec b n) as [<-|D].
    - rewrite andb_true_r. destruct (Z.testbit v b); [now rewrite Z.pow2_bits_true by lia|now rewrite Z.bits_0].
    - rewrite andb_false_r. destruct (Z.testbit v b); [|now rewrite Z.bits_0].
      rewrite Z.pow2_bits_eqb by lia. symmetry. now apply Z.eqb_neq. }
  rewrite E. destruct (Z.testbit v b); [|reflexivity].
  assert (0 < 2 ^ b) by (apply Z.pow_pos_nonneg; lia). replace (2 ^ b =? 0) with false by lia. reflexivity.
Qed.

(* The entries of the kernel. *)
Lemma new_value : value addr_new = 0.
Proof. vm_compute. reflexivity. Qed.
Lemma v4_from x : sockaddr_in_ok x -> sin_family x = AF_INET ->
  exists a, set_ipv4_from addr_new (SN_in x) = Ok a /\ addr_wf a /\ value a = ip_of (SN_in x) /\
    is_mask_defined a = false /\ mask_value a = LAST.
Proof.
  intros X F. destruct (set_ipv4_spec addr_new x new_wf X F) as (a & E & W & V & _).
  exists a. cbn [set_ipv4_from]. rewrite E. split; [reflexivity|]. split; [exact W|]. split; [exact V|].
  unfold set_ipv4 in E. rewrite F, Z.eqb_refl in E. cbn [negb] in E. injection E as <-.
  split; [reflexivity|]. vm_compute. reflexivity.
Qed.
Lemma v6_from x : sockaddr_in6_ok x -> sin6_family x = AF_INET6 ->
  exists a, set_ipv6_from addr_new (SN_in6 x) = Ok a /\ addr_wf a /\ value a = ip_of (SN_in6 x) /\
    is_mask_defined a = false /\ mask_value a = LAST.
Proof.
  intros X F. cbn [set_ipv6_from]. unfold set_ipv6. rewrite F, Z.eqb_refl. cbn [negb rbind]. eexists.
  split; [reflexivity|]. split.
  - apply (set_ipv6_wf addr_new x _ (Ok tt) new_wf X). unfold set_ipv6. now rewrite F.
  - split; [reflexivity|]. split; [reflexivity|]. vm_compute. reflexivity.
Qed.
Lemma v4_mask x : sockaddr_in_ok x -> exists m, ipv4_mask (SN_in x) = Ok m /\ bytes16 m /\ num m = mask_of (SN_in x).
Proof.
  intros (_ & _ & R). cbn [ipv4_mask]. eexists. split; [reflexivity|]. split.
  - split; [reflexivity|]. cbn [app]. repeat constructor; unfold is_byte; try lia; apply u8_byte.
  - cbn [app]. rewrite num_explicit. unfold num16, mask_of, bswap32, u8. rewrite !Z.shiftr_div_pow2 by lia.
    change (2 ^ 0) with 1. change (2 ^ 8) with 256. change (2 ^ 16) with 65536. change (2 ^ 24) with 16777216.
    change (2 ^ 32) with 4294967296 in *. change (2 ^ 128) with 340282366920938463463374607431768211456. lia.
Qed.

Lemma entry_none e : has_ip e = false -> make_iface e = Ok None.
Proof. unfold has_ip, make_iface. destruct (ifa_addr e) as [[| |]|]; intros H; try discriminate; reflexivity. Qed.

Lemma with_mask_says a m (P : bytes16 m) : addr_wf a ->
  addr_wf (set_mask a m) /\ value (set_mask a m) = value a /\ is_mask_defined (set_mask a m) = true /\
  mask_value (set_mask a m) = num m.
Proof. intros W. split; [now apply set_mask_wf|]. repeat split. Qed.

Lemma when_ok f g b o (A : forall x, o = Some x -> exists a, f addr_new x = Ok a /\ addr_wf a /\ value a = g x) :
  exists a, when b o addr_new f = Ok a /\ addr_wf a /\
    value a = match o with Some x => if b then g x else 0 | None => 0 end.
Proof.
  unfold when. destruct o as [x|].
  - destruct b.
    + destruct (A x eq_refl) as (a & E & W & V). exists a. auto.
    + exists addr_new. split; [reflexivity|]. split; [exact new_wf|exact new_value].
  - exists addr_new. split; [reflexivity|]. split; [exact new_wf|exact new_value].
Qed.

Lemma entry_some e : entry_ok e -> has_ip e = true -> exists i, make_iface e = Ok (Some i) /\ says e i.
Proof.
  unfold entry_ok, has_ip, make_iface. intros OK IP.
  change IFF_BROADCAST with (2 ^ 1). change IFF_POINTOPOINT with (2 ^ 4).
  rewrite !flag_bit by lia. fold (flag e 1) (flag e 4).
  destruct (ifa_addr e) as [[x|x|]|] eqn:EA; try discriminate; destruct OK as (X & F & MK & IFU).
  - destruct (v4_from x X F) as (a & E & W & V & D & MV). rewrite E. cbn [rbind].
    assert (A : forall y, ifa_ifu e = Some y -> exists a, set_ipv4_from addr_new y = Ok a /\ addr_wf a /\ value a = ip_of y).
    { intros y Y. rewrite Y in IFU. destruct y as [y|y|]; try contradiction. destruct IFU as [Y1 Y2].
      destruct (v4_from y Y1 Y2) as (c & C1 & C2 & C3 & _). exists c. split; [exact C1|]. split; [exact C2|exact C3]. }
    destruct (when_ok set_ipv4_from ip_of (flag e 1) (ifa_ifu e) A) as (b & Eb & Wb & Vb). rewrite Eb. cbn [rbind].
    destruct (when_ok set_ipv4_from ip_of (flag e 4) (ifa_ifu e) A) as (d & Ed & Wd & Vd). rewrite Ed. cbn [rbind].
    unfold when. destruct (ifa_netmask e) as [[m|m|]|] eqn:EM; try contradiction.
    + destruct (v4_mask m MK) as (l & El & Bl & Nl). rewrite El. cbn [rbind]. eexists. split; [reflexivity|].
      destruct (with_mask_says a l Bl W) as (W1 & W2 & W3 & W4).
      constructor; cbn [get_name get_iface_flags get_address get_broadcast_address get_iface_destination_address
        f_name f_flags f_iaddress f_broadcast_address f_destination_address]; auto.
      * repeat split; auto; apply W1 || apply Wb || apply Wd.
      * exists (SN_in x). split; [exact EA|]. congruence.
      * rewrite EM. split; [exact W3|congruence].
    + cbn [rbind]. eexists. split; [reflexivity|]. constructor; cbn [get_name get_iface_flags get_address get_broadcast_address get_iface_destination_address
        f_name f_flags f_iaddress f_broadcast_address f_destination_address]; auto.
      * repeat split; auto; apply W || apply Wb || apply Wd.
      * exists (SN_in x). auto.
      * rewrite EM. auto.
  - destruct (v6_from x X F) as (a & E & W & V & D & MV). rewrite E. cbn [rbind].
    assert (A : forall y, ifa_ifu e = Some y -> exists a, set_ipv6_from addr_new y = Ok a /\ addr_wf a /\ value a = ip_of y).
    { intros y Y. rewrite Y in IFU. destruct y as [y|y|]; try contradiction. destruct IFU as [Y1 Y2].
      destruct (v6_from y Y1 Y2) as (c & C1 & C2 & C3 & _). exists c. split; [exact C1|]. split; [exact C2|exact C3]. }
    destruct (when_ok set_ipv6_from ip_of (flag e 1) (ifa_ifu e) A) as (b & Eb & Wb & Vb). rewrite Eb. cbn [rbind].
    destruct (when_ok set_ipv6_from ip_of (flag e 4) (ifa_ifu e) A) as (d & Ed & Wd & Vd). rewrite Ed. cbn [rbind].
    unfold when. destruct (ifa_netmask e) as [[m|m|]|] eqn:EM; try contradiction.
    + cbn [ipv6_mask rbind]. eexists. split; [reflexivity|].
      assert (Bl : bytes16 (sin6_addr m)) by apply MK.
      destruct (with_mask_says a _ Bl W) as (W1 & W2 & W3 & W4).
      constructor; cbn [get_name get_iface_flags get_address get_broadcast_address get_iface_destination_address
        f_name f_flags f_iaddress f_broadcast_address f_destination_address]; auto.
      * repeat split; auto; apply W1 || apply Wb || apply Wd.
      * exists (SN_in6 x). split; [exact EA|]. congruence.
      * rewrite EM. split; [exact W3|exact W4].
    + cbn [rbind]. eexists. split; [reflexivity|]. constructor; cbn [get_name get_iface_flags get_address get_broadcast_address get_iface_destination_address
        f_name f_flags f_iaddress f_broadcast_address f_destination_address]; auto.
      * repeat split; auto; apply W || apply Wb || apply Wd.
      * exists (SN_in6 x). auto.
      * rewrite EM. auto.
Qed.

Lemma entries_ok l : Forall entry_ok l -> exists is, make_ifaces l = Ok is /\ Forall2 says (filter has_ip l) is.
Proof.
  induction 1 as [|e l E F IH]; [exists []; split; [reflexivity|constructor]|].
  destruct IH as (is & I & S). cbn [make_ifaces filter]. destruct (has_ip e) eqn:H.
  - destruct (entry_some e E H) as (i & X & Y). rewrite X, I. cbn [rbind]. eexists. split; [reflexivity|].
    now constructor.
  - rewrite (entry_none e H), I. cbn [rbind]. now exists is.
Qed.
