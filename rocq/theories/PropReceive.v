(* Property C142: recvfrom() takes one message, and a reply goes to its sender. *)
From Coq Require Import ZifyBool.
From Verif Require Import Base Addr Spec Socket Receive.
From Verif Require AddrProofs AddrProofs2 AddrProofs3 AddrProofs4 PropAddr PropSocket.
Import AddrProofs AddrProofs2 AddrProofs3 AddrProofs4 PropAddr PropSocket.
Local Open Scope Z_scope.

(* ---------- specification ---------- *)
(* The socket s is a UDP socket: its name is an IP address and its type is
   SOCK_DGRAM. *)
Definition udp_socket (k : kernel) (s : Z) : Prop :=
  0 <= s /\ (exists n, k_name k = Some n /\ n <> SN_other /\ sockname_ok n) /\ k_type k = Some SOCK_DGRAM.
(* A structure the system fills: its family is the one of its type. *)
Definition full (n : sockname) : Prop :=
  match n with
  | SN_in x => sockaddr_in_ok x /\ sin_family x = AF_INET
  | SN_in6 x => sockaddr_in6_ok x /\ sin6_family x = AF_INET6
  | SN_other => False
  end.
(* Two structures of one family. *)
Definition one_family (n m : sockname) : Prop :=
  match n, m with
  | SN_in _, SN_in _ | SN_in6 _, SN_in6 _ => True
  | _, _ => False
  end.
(* An IPv6 structure with an IPv4-mapped address. *)
Definition mapped (n : sockname) : Prop :=
  match n with SN_in6 x => is_v4_value (num (sin6_addr x)) | _ => False end.
(* The messages taken from a socket. *)
Definition taken (calls : list receive_call) : list receive_call :=
  filter (fun c => match c with Rc_receive _ _ => true | _ => false end) calls.

(* ---------- proofs ---------- *)
Lemma s32_id v : - 2 ^ 31 <= v < 2 ^ 31 -> s32 v = v.
Proof.
  unfold s32. change (2 ^ 31) with 2147483648. change (2 ^ 32) with 4294967296. intros H.
  rewrite Z.mod_small; lia.
Qed.

Lemma taken_from s n : taken (from_socket_calls s n) = [].
Proof. unfold from_socket_calls. destruct (s <? 0); [reflexivity|]. destruct n as [[| |]|]; reflexivity. Qed.

Lemma from_socket_udp a s n t b : set_from_socket a s n t = (b, Ok tt) -> f_protocol b = IPPROTO_UDP -> t = Some SOCK_DGRAM.
Proof.
  unfold set_from_socket. destruct (s <? 0); [discriminate|]. destruct n as [n|]; [|discriminate].
  destruct (match n with SN_in _ => _ | SN_in6 _ => _ | SN_other => _ end) as [a1 [u|e| |]]; try discriminate.
  destruct t as [t|]; [|discriminate]. intros E P.
  destruct (t =? SOCK_STREAM).
  - assert (b = with_protocol a1 IPPROTO_TCP) as -> by congruence. discriminate.
  - destruct (t =? SOCK_DGRAM) eqn:T; [|discriminate]. f_equal. lia.
Qed.

(* Nothing is received from a socket which is not a datagram one: the function
   returns -1 or throws. *)
Theorem C142_other_sockets : forall k a s size b calls r, receive k a s size = (b, calls, r) ->
  k_type k <> Some SOCK_DGRAM -> taken calls = [] /\ forall v, r = Ok v -> v = -1.
Proof.
  intros k a s size b calls r E T. unfold receive in E.
  destruct (set_from_socket a s (k_name k) (k_type k)) as [a1 [[]|e| |]] eqn:F.
  2-4: assert (calls = from_socket_calls s (k_name k)) as -> by congruence; split; [apply taken_from|];
    intros v V; congruence.
  destruct (f_protocol a1 =? IPPROTO_UDP) eqn:P; cbn [negb] in E.
  - exfalso. apply T. eapply from_socket_udp; [exact F|lia].
  - assert (calls = from_socket_calls s (k_name k)) as -> by congruence. split; [apply taken_from|]. intros v V. congruence.
Qed.
Print Assumptions C142_other_sockets.

Lemma udp_described k a s : addr_wf a -> udp_socket k s -> exists n b, k_name k = Some n
  /\ set_from_socket a s (k_name k) (k_type k) = (b, Ok tt) /\ addr_wf b /\ named n b
  /\ f_protocol b = IPPROTO_UDP /\ same_rest a b /\ from_socket_calls s (k_name k) = [Rc_name s; Rc_type s].
Proof.
  intros W (S & (n & N & O & Hn) & T).
  destruct (C69_describes_the_socket a s n SOCK_DGRAM W Hn S O (or_intror eq_refl)) as (b & E & Wb & M & Pr & R).
  exists n, b. rewrite N, T. split; [reflexivity|]. split; [exact E|]. split; [exact Wb|]. split; [exact M|].
  split; [exact Pr|]. split; [exact R|]. unfold from_socket_calls. replace (s <? 0) with false by lia.
  destruct n; congruence || reflexivity.
Qed.

(* One message is taken from a UDP socket, with the whole buffer; what the system
   answers is returned, unless a sender was refused. *)
Theorem C142_one_message : forall k a s size b calls r, addr_wf a -> udp_socket k s ->
  -1 <= k_count k < 2 ^ 31 -> receive k a s size = (b, calls, r) ->
  taken calls = [Rc_receive s size]
  /\ (r = Ok (k_count k) \/ (0 <= k_count k /\ r = Throw E_invalid_argument)).
Proof.
  intros k a s size b calls r W U C E.
  destruct (udp_described k a s W U) as (n & a1 & N & F & W1 & M & P & R & L).
  unfold receive in E. rewrite F, P, L, s32_id in E by (change (2 ^ 31) with 2147483648 in *; lia).
  cbn [IPPROTO_UDP Z.eqb Pos.eqb negb app] in E.
  destruct (k_count k >=? 0) eqn:G.
  - destruct (if is_ipv4 a1 then _ else _) as [a2 u] eqn:D.
    assert (u = Ok tt \/ u = Throw E_invalid_argument) as Hu.
    { destruct (is_ipv4 a1); [unfold set_ipv4 in D|unfold set_ipv6 in D]; destruct (negb _); injection D; auto. }
    injection E as <- <- <-. split; [reflexivity|]. destruct Hu as [-> | ->]; cbn [rbind]; [auto|]. right. split; [lia|reflexivity].
  - injection E as <- <- <-. split; [reflexivity|]. cbn [rbind]. auto.
Qed.
Print Assumptions C142_one_message.

(* The object is the one the other properties of recvfrom() are about. *)
Theorem C142_object : forall k a s size, let got := s32 (k_count k) >=? 0 in
  fst (fst (receive k a s size))
  = fst (recvfrom a s (k_name k) (k_type k) (if got then Some (received4 (k_sender k)) else None)
                                             (if got then Some (received6 (k_sender k)) else None)).
Proof.
  intros k a s size got. unfold receive, recvfrom.
  destruct (set_from_socket a s (k_name k) (k_type k)) as [a1 [[]|e| |]]; try reflexivity.
  destruct (negb _); [reflexivity|]. fold got. destruct got, (is_ipv4 a1); try reflexivity.
  - now destruct (set_ipv4 a1 _).
  - now destruct (set_ipv6 a1 _).
Qed.
Print Assumptions C142_object.

(* After a message was received, sendto() on the object gives the system the
   very structure of the sender.  Missing: an IPv6 socket whose own address or
   whose sender is an IPv4-mapped one. *)
Theorem C142_reply_partial : forall k a s size answer text, addr_wf a -> udp_socket k s ->
  0 <= k_count k < 2 ^ 31 -> full (k_sender k) ->
  (forall n, k_name k = Some n -> one_family n (k_sender k) /\ ~ mapped n) -> ~ mapped (k_sender k) ->
  exists b calls, receive k a s size = (b, calls, Ok (k_count k))
    /\ sendto answer b s text = ([Sys_sendto s text (k_sender k)], Ok (answer (Sys_sendto s text (k_sender k)))).
Proof.
  intros k a s size answer text W U C Fu O Ms.
  destruct (udp_described k a s W U) as (n & a1 & N & F & W1 & M & P & R & L).
  destruct (O n N) as [One Mn].
  unfold receive. rewrite F, P, L, s32_id by (change (2 ^ 31) with 2147483648 in *; lia).
  cbn [IPPROTO_UDP Z.eqb Pos.eqb negb app]. replace (k_count k >=? 0) with true by lia.
  pose proof (is_ipv4_value a1 W1) as I.
  destruct U as (_ & (n' & N' & _ & Hn) & _). assert (n' = n) as -> by congruence.
  destruct n as [x|x|], (k_sender k) as [y|y|]; cbn [one_family] in One; try tauto;
    cbn [full received4 received6] in *; destruct Fu as [Hy Fy].
  - assert (is_ipv4 a1 = true) as ->.
    { apply I. destruct M as [-> _]. destruct Hn as (_ & _ & Rx). unfold is_v4_value. pose proof (bswap32_range (s_addr x)). lia. }
    destruct (C06_set_get_ipv4 a1 y W1 Hy Fy) as (b & E & Wb & Ib & _ & G & _). rewrite E. cbn [rbind].
    exists b. eexists. split; [reflexivity|]. unfold sendto, call_with, system_address. rewrite Ib, G.
    assert (f_protocol b = f_protocol a1) as ->.
    { unfold set_ipv4 in E. destruct (negb _); [discriminate|]. injection E as <-. reflexivity. }
    rewrite P. reflexivity.
  - assert (is_ipv4 a1 = false) as ->.
    { destruct (is_ipv4 a1); [|reflexivity]. exfalso. apply Mn. cbn [mapped]. destruct M as [<- _]. now apply I. }
    destruct (C07_set_get_ipv6 a1 y W1 Hy) as [Q _]. destruct (Q Fy) as (b & E & Wb & G & _ & _ & Pb).
    rewrite E. cbn [rbind]. exists b. eexists. split; [reflexivity|].
    unfold sendto, call_with, system_address. unfold get_protocol in Pb. rewrite Pb, P. cbn [IPPROTO_UDP Z.eqb Pos.eqb negb].
    assert (is_ipv4 b = false) as ->.
    { destruct (is_ipv4 b) eqn:Ib; [|reflexivity]. exfalso. apply Ms. cbn [mapped]. apply (is_ipv4_value b Wb) in Ib.
      rewrite <- G. exact Ib. }
    unfold get_ipv6 in G. rewrite G. reflexivity.
Qed.
Print Assumptions C142_reply_partial.

(* An IPv6 socket which is open to IPv4 as well gets an IPv4 sender as a mapped
   address.  The reply is for the same address and port but in a structure of
   the other family, without the flow information and the scope. *)
Theorem C142_dual_stack : forall k a s size answer text x y, addr_wf a -> udp_socket k s ->
  0 <= k_count k < 2 ^ 31 -> k_name k = Some (SN_in6 x) -> ~ mapped (SN_in6 x) ->
  k_sender k = SN_in6 y -> full (SN_in6 y) -> mapped (SN_in6 y) ->
  exists b calls z, receive k a s size = (b, calls, Ok (k_count k))
    /\ sendto answer b s text = ([Sys_sendto s text (SN_in z)], Ok (answer (Sys_sendto s text (SN_in z))))
    /\ sin_family z = AF_INET /\ sin_port z = sin6_port y /\ v4_base + bswap32 (s_addr z) = num (sin6_addr y).
Proof.
  intros k a s size answer text x y W U C N Mn Sy Fy My.
  destruct (udp_described k a s W U) as (n & a1 & N' & F & W1 & M & P & R & L).
  assert (n = SN_in6 x) as -> by congruence. clear N'.
  unfold receive. rewrite F, P, L, s32_id, Sy by (change (2 ^ 31) with 2147483648 in *; lia).
  cbn [IPPROTO_UDP Z.eqb Pos.eqb negb app received6]. replace (k_count k >=? 0) with true by lia.
  pose proof (is_ipv4_value a1 W1) as I.
  assert (is_ipv4 a1 = false) as ->.
  { destruct (is_ipv4 a1); [|reflexivity]. exfalso. apply Mn. cbn [mapped]. destruct M as [<- _]. now apply I. }
  cbn [full] in Fy. destruct Fy as [Hy Fy].
  destruct (C07_set_get_ipv6 a1 y W1 Hy) as [Q _]. destruct (Q Fy) as (b & E & Wb & G & _ & _ & Pb).
  rewrite E. cbn [rbind]. exists b. eexists.
  assert (value b = num (sin6_addr y)) as V by (rewrite <- G; reflexivity).
  cbn [mapped] in My. rewrite <- V in My.
  destruct (C06_get_ipv4_domain b Wb) as [D _]. destruct (D My) as (Ib & z & Gz & Fz & Pz & Vz).
  exists z. split; [reflexivity|]. split.
  - unfold sendto, call_with, system_address. unfold get_protocol in Pb. rewrite Pb, P, Ib, Gz. reflexivity.
  - split; [exact Fz|]. split; [|congruence]. unfold get_ipv4 in Gz. rewrite Ib in Gz.
    assert (z = mk_in AF_INET (sin6_port (f_address b)) (load32 (s6 b) 3)) as -> by congruence.
    cbn [sin_port]. unfold get_ipv6 in G. now rewrite G.
Qed.
Print Assumptions C142_dual_stack.

Definition open6 : sockaddr_in6 := mk_in6 AF_INET6 (bswap16 53) 0 (zeroes 16) 0.
Definition mapped9 : sockaddr_in6 := get_ipv6 (fst (set_ipv4 addr_new peer4)).
Definition open_kernel : kernel := mk_kernel (Some (SN_in6 open6)) (Some SOCK_DGRAM) 12 (SN_in6 mapped9).
Lemma mapped9_full : full (SN_in6 mapped9).
Proof.
  assert (addr_wf (fst (set_ipv4 addr_new peer4))) as [] by now apply addr_wfb_ok.
  split; [|reflexivity]. unfold sockaddr_in6_ok, mapped9, get_ipv6. split; [rewrite wf_family; vm_compute; split; congruence|auto].
Qed.
Lemma open6_ok : sockaddr_in6_ok open6.
Proof.
  unfold sockaddr_in6_ok, open6, bytes16. cbn [sin6_family sin6_port sin6_flowinfo sin6_addr sin6_scope_id].
  assert (Forall is_byte (zeroes 16)) by (unfold zeroes; cbn; repeat constructor; lia).
  repeat split; try (vm_compute; congruence); auto.
Qed.
Lemma open_kernel_udp : udp_socket open_kernel 3.
Proof.
  split; [lia|]. split; [|reflexivity]. exists (SN_in6 open6). split; [reflexivity|]. split; [discriminate|]. exact open6_ok.
Qed.
(* So it is false that the reply is given the structure of the sender, or one of
   the family of the socket. *)
Theorem C142_same_structure_refuted : exists k a s size text, addr_wf a /\ udp_socket k s /\ full (k_sender k)
  /\ (forall n, k_name k = Some n -> one_family n (k_sender k))
  /\ exists b calls n, receive k a s size = (b, calls, Ok 12) /\ fst (sendto yes b s text) = [Sys_sendto s text n]
  /\ ~ one_family n (k_sender k).
Proof.
  exists open_kernel, addr_new, 3, 100, (lit "ok"). split; [now apply addr_wfb_ok|]. split; [exact open_kernel_udp|].
  split; [exact mapped9_full|]. split; [intros n H; injection H as <-; exact I|].
  destruct (C142_dual_stack open_kernel addr_new 3 100 yes (lit "ok") open6 mapped9) as (b & calls & z & E & S & _).
  - now apply addr_wfb_ok.
  - exact open_kernel_udp.
  - cbn. lia.
  - reflexivity.
  - unfold mapped, is_v4_value. vm_compute. intros [H _]. now apply H.
  - reflexivity.
  - exact mapped9_full.
  - unfold mapped, is_v4_value. vm_compute. split; congruence.
  - exists b, calls, (SN_in z). split; [exact E|]. split; [now rewrite S|]. cbn. auto.
Qed.
Print Assumptions C142_same_structure_refuted.

Definition kernel4 : kernel := mk_kernel (Some name4) (Some SOCK_DGRAM) 5 (SN_in peer4).
Example C142_witness : addr_wf w6 /\ udp_socket kernel4 3 /\ full (k_sender kernel4)
  /\ (forall n, k_name kernel4 = Some n -> one_family n (k_sender kernel4) /\ ~ mapped n) /\ ~ mapped (k_sender kernel4)
  /\ snd (receive kernel4 w6 3 64) = Ok 5
  /\ snd (fst (receive kernel4 w6 3 64)) = [Rc_name 3; Rc_type 3; Rc_receive 3 64]
  /\ fst (sendto yes (fst (fst (receive kernel4 w6 3 64))) 3 (lit "pong")) = [Sys_sendto 3 (lit "pong") (SN_in peer4)]
  /\ receive (mk_kernel (Some name4) (Some SOCK_STREAM) 5 (SN_in peer4)) w6 3 64
     = (fst (set_from_socket w6 3 (Some name4) (Some SOCK_STREAM)), [Rc_name 3; Rc_type 3], Ok (-1)).
Proof.
  split; [apply w6_wf|]. split.
  { split; [lia|]. split; [|reflexivity]. exists name4. split; [reflexivity|]. split; [discriminate|apply name4_ok]. }
  split; [split; [unfold sockaddr_in_ok; vm_compute; repeat split; congruence|reflexivity]|].
  split; [intros n H; injection H as <-; cbn; auto|]. split; [cbn; auto|].
  vm_compute. auto 10.
Qed.
