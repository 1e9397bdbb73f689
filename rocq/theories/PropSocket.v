(* Properties C67-C69 and C75: the socket functions of addr. *)
From Coq Require Import ZifyBool.
From Verif Require Import Base Addr Spec Socket.
From Verif Require AddrProofs AddrProofs2 AddrProofs3 AddrProofs4 PropAddr.
Import AddrProofs AddrProofs2 AddrProofs3 AddrProofs4 PropAddr.
Local Open Scope Z_scope.

(* A kernel which opens socket 5 and says yes to everything else. *)
Definition yes : syscall -> Z := fun c => match c with Sys_socket _ _ _ => 5 | _ => 0 end.
Definition u4 : addr := with_protocol w4 IPPROTO_UDP.

Lemma protocol_cases a : addr_wf a ->
  f_protocol a = IPPROTO_UDP \/ (f_protocol a = IPPROTO_IP \/ f_protocol a = IPPROTO_TCP).
Proof. intros W. pose proof (wf_protocol _ W) as [|[|]]; auto. Qed.

(* ---------- C67 ---------- *)
(* The type of socket, with the flags requested. *)
Definition socket_type (datagram cloexec nonblock : bool) : Z :=
  (if datagram then 2 else 1) + (if cloexec then 0x80000 else 0) + (if nonblock then 0x800 else 0).
Definition requested (flags bit : Z) : bool := Z.testbit flags bit.

Theorem C67_one_socket : forall answer a flags, addr_wf a -> 0 <= flags < 8 ->
  let udp := get_protocol a =? IPPROTO_UDP in
  let call := Sys_socket (get_family a)
    (socket_type udp (requested flags 0) (requested flags 1)) (if udp then IPPROTO_UDP else IPPROTO_TCP) in
  create_socket answer a flags
  = (call :: (if negb udp && requested flags 2 && (0 <=? answer call)
              then [Sys_reuseaddr (answer call)] else []), Ok (answer call)).
Proof.
  intros answer a flags W F. unfold get_protocol. cbv zeta.
  assert (flags = 0 \/ flags = 1 \/ flags = 2 \/ flags = 3 \/ flags = 4 \/ flags = 5 \/ flags = 6 \/ flags = 7) as D by lia.
  unfold create_socket. fold (get_family a).
  destruct (protocol_cases a W) as [E|[E|E]]; rewrite E;
    repeat (destruct D as [->|D]; [|]); try rewrite D; cbn;
    repeat match goal with |- context [?x >=? 0] => replace (x >=? 0) with (0 <=? x) by lia end; try reflexivity;
    destruct (0 <=? _); reflexivity.
Qed.
Print Assumptions C67_one_socket.

Theorem C67_family : forall a, addr_wf a ->
  (is_v4_value (value a) -> get_family a = AF_INET) /\ (~ is_v4_value (value a) -> get_family a = AF_INET6).
Proof.
  intros a W. pose proof (is_ipv4_value a W) as I. unfold get_family. split; intros H; destruct (is_ipv4 a); tauto || reflexivity || idtac.
  - apply I in H. discriminate.
Qed.
Print Assumptions C67_family.

Example C67_witness : addr_wf w4 /\ addr_wf u4 /\ addr_wf w6
  /\ create_socket yes w4 7 = ([Sys_socket AF_INET 0x80801 IPPROTO_TCP; Sys_reuseaddr 5], Ok 5)
  /\ create_socket yes u4 4 = ([Sys_socket AF_INET 2 IPPROTO_UDP], Ok 5)
  /\ create_socket (fun _ => -1) w6 4 = ([Sys_socket AF_INET6 1 IPPROTO_TCP], Ok (-1)).
Proof. split; [apply w4_wf|]. split; [now apply addr_wfb_ok|]. split; [apply w6_wf|]. vm_compute. auto. Qed.

(* ---------- C68 ---------- *)
(* The socket address n stands for the address and port of a, in the family
   of the socket create_socket() opens. *)
Definition stands_for (n : sockname) (a : addr) : Prop :=
  match n with
  | SN_in x => get_family a = AF_INET /\ sin_family x = AF_INET
      /\ v4_base + bswap32 (s_addr x) = value a /\ bswap16 (sin_port x) = get_port a
  | SN_in6 x => get_family a = AF_INET6 /\ sin6_family x = AF_INET6
      /\ num (sin6_addr x) = value a /\ bswap16 (sin6_port x) = get_port a
      /\ x = get_ipv6 a
  | SN_other => False
  end.

Lemma system_address_ok a : addr_wf a -> exists n, system_address a = Ok n /\ stands_for n a.
Proof.
  intros W. pose proof (is_ipv4_value a W) as I. unfold system_address. destruct (C06_get_ipv4_domain a W) as [V N].
  destruct (is_ipv4 a) eqn:E.
  - destruct V as (_ & x & G & F & P & A); [now apply I|]. rewrite G. cbn [rbind]. eexists. split; [reflexivity|].
    cbn [stands_for]. unfold get_family. rewrite E. auto.
  - eexists. split; [reflexivity|]. cbn [stands_for]. unfold get_family. rewrite E. repeat split. apply W.
Qed.

Theorem C68_connect : forall answer a s, addr_wf a ->
  (get_protocol a = IPPROTO_UDP -> connect answer a s = ([], Ok (-1)))
  /\ (get_protocol a <> IPPROTO_UDP -> exists n, stands_for n a
        /\ connect answer a s = ([Sys_connect s n], Ok (answer (Sys_connect s n)))).
Proof.
  intros answer a s W. unfold get_protocol, connect. split; intros H.
  - now rewrite H.
  - destruct (protocol_cases a W) as [E|E]; [tauto|]. replace ((f_protocol a =? IPPROTO_IP) || _) with true
      by (symmetry; apply orb_true_iff; rewrite !Z.eqb_eq; tauto).
    destruct (system_address_ok a W) as (n & E1 & S). exists n. split; [exact S|]. unfold call_with. now rewrite E1.
Qed.
Print Assumptions C68_connect.

Theorem C68_sendto : forall answer a s buffer, addr_wf a ->
  (get_protocol a <> IPPROTO_UDP -> sendto answer a s buffer = ([], Ok (-1)))
  /\ (get_protocol a = IPPROTO_UDP -> exists n, stands_for n a
        /\ sendto answer a s buffer = ([Sys_sendto s buffer n], Ok (answer (Sys_sendto s buffer n)))).
Proof.
  intros answer a s buffer W. unfold get_protocol, sendto. split; intros H.
  - now replace (f_protocol a =? IPPROTO_UDP) with false by lia.
  - rewrite H, Z.eqb_refl. cbn [negb].
    destruct (system_address_ok a W) as (n & E1 & S). exists n. split; [exact S|]. unfold call_with. now rewrite E1.
Qed.
Print Assumptions C68_sendto.

Theorem C68_bind : forall answer name type a s, addr_wf a -> exists n, stands_for n a
  /\ snd (fst (bind_socket answer name type a s)) = [Sys_bind s n]
  /\ bind_const answer a s = ([Sys_bind s n], Ok (answer (Sys_bind s n))).
Proof.
  intros answer name type a s W. destruct (system_address_ok a W) as (n & E1 & S). exists n. split; [exact S|].
  assert (bind_const answer a s = ([Sys_bind s n], Ok (answer (Sys_bind s n)))) as B
    by (unfold bind_const, call_with; now rewrite E1).
  split; [|exact B]. unfold bind_socket. rewrite B. destruct (_ && _); [|reflexivity].
  destruct (set_from_socket a s name type). reflexivity.
Qed.
Print Assumptions C68_bind.

Example C68_witness : addr_wf w4 /\ addr_wf w6
  /\ connect yes w4 5 = ([Sys_connect 5 (SN_in (mk_in AF_INET (bswap16 443) (bswap32 (quad 192 168 3 17))))], Ok 0)
  /\ connect yes u4 5 = ([], Ok (-1))
  /\ bind_const yes w6 5 = ([Sys_bind 5 (SN_in6 (get_ipv6 w6))], Ok 0)
  /\ sendto yes u4 5 (lit "hello")
     = ([Sys_sendto 5 (lit "hello") (SN_in (mk_in AF_INET (bswap16 443) (bswap32 (quad 192 168 3 17))))], Ok 0).
Proof. split; [apply w4_wf|]. split; [apply w6_wf|]. vm_compute. auto. Qed.

(* ---------- C69 ---------- *)
(* a has the address and port of the socket name n. *)
Definition named (n : sockname) (a : addr) : Prop :=
  match n with
  | SN_in x => value a = v4_base + bswap32 (s_addr x) /\ get_port a = bswap16 (sin_port x)
  | SN_in6 x => value a = num (sin6_addr x) /\ get_port a = bswap16 (sin6_port x)
      /\ sin6_scope_id (get_ipv6 a) = sin6_scope_id x /\ sin6_flowinfo (get_ipv6 a) = sin6_flowinfo x
  | SN_other => False
  end.
(* Everything set_from_socket() has no business changing. *)
Definition same_rest (a b : addr) : Prop :=
  f_mask a = f_mask b /\ is_mask_defined a = is_mask_defined b /\ is_port_defined a = is_port_defined b
  /\ is_protocol_defined a = is_protocol_defined b /\ f_hostname a = f_hostname b
  /\ f_interface a = f_interface b.

Lemma get_port_sin6 a : get_port a = bswap16 (sin6_port (f_address a)).
Proof. reflexivity. Qed.

Lemma set_name a n : addr_wf a -> sockname_ok n -> n <> SN_other -> exists b,
  match n with
  | SN_in x => set_ipv4 a (mk_in AF_INET (sin_port x) (s_addr x))
  | SN_in6 x => set_ipv6 a (mk_in6 AF_INET6 (sin6_port x) (sin6_flowinfo x) (sin6_addr x) (sin6_scope_id x))
  | SN_other => (a, Throw E_invalid_state)
  end = (b, Ok tt) /\ named n b /\ same_rest a b /\ get_protocol b = get_protocol a.
Proof.
  intros W H N. destruct n as [x|x|]; [| |congruence].
  - destruct (set_ipv4_spec a (mk_in AF_INET (sin_port x) (s_addr x)) W) as (b & E & Wb & V & G).
    { destruct H as (? & ? & ?). unfold sockaddr_in_ok, AF_INET; cbn [sin_family sin_port s_addr]. lia. }
    { reflexivity. }
    exists b. split; [exact E|]. unfold set_ipv4 in E. cbn [sin_family negb Z.eqb AF_INET] in E.
    split; [|assert (b = fst (b, Ok tt)) as -> by reflexivity; rewrite <- E; repeat split].
    split; [exact V|]. assert (b = fst (b, Ok tt)) as -> by reflexivity. rewrite <- E. reflexivity.
  - eexists. split; [reflexivity|]. repeat split.
Qed.

Theorem C69_describes_the_socket : forall a s n t, addr_wf a -> sockname_ok n -> 0 <= s -> n <> SN_other ->
  t = SOCK_STREAM \/ t = SOCK_DGRAM ->
  exists b, set_from_socket a s (Some n) (Some t) = (b, Ok tt) /\ addr_wf b
    /\ named n b /\ get_protocol b = (if t =? SOCK_STREAM then IPPROTO_TCP else IPPROTO_UDP) /\ same_rest a b.
Proof.
  intros a s n t W H S N T. destruct (set_name a n W H N) as (b & E & M & R & _).
  assert (exists b', set_from_socket a s (Some n) (Some t) = (b', Ok tt)
    /\ b' = with_protocol b (if t =? SOCK_STREAM then IPPROTO_TCP else IPPROTO_UDP)) as (b' & E' & ->).
  { unfold set_from_socket. replace (s <? 0) with false by lia. rewrite E. destruct T as [-> | ->]; cbn; eauto. }
  eexists. split; [exact E'|]. split; [eapply set_from_socket_wf; [exact W| |exact E']; exact H|].
  split; [destruct n; exact M|]. split; [reflexivity|exact R].
Qed.
Print Assumptions C69_describes_the_socket.

(* Exactly the other cases throw. *)
Theorem C69_failures : forall a s name type, addr_wf a -> opt_ok sockname_ok name ->
  (snd (set_from_socket a s name type) = Ok tt
     <-> 0 <= s /\ (exists n, name = Some n /\ n <> SN_other)
         /\ (type = Some SOCK_STREAM \/ type = Some SOCK_DGRAM))
  /\ (snd (set_from_socket a s name type) <> Ok tt ->
        snd (set_from_socket a s name type) = Throw
          (if s <? 0 then E_invalid_argument else
           match name, type with
           | None, _ => E_io_error
           | Some SN_other, _ => E_invalid_state
           | _, None => E_io_error
           | _, _ => E_invalid_state
           end)).
Proof.
  intros a s name type W H. unfold set_from_socket. destruct (s <? 0) eqn:S; cbn [snd].
  { split; [split; [discriminate|lia]|reflexivity]. }
  destruct name as [n|]; cbn [snd].
  2: { split; [split; [discriminate|intros (_ & (n & X & _) & _); discriminate]|reflexivity]. }
  destruct n as [x|x|].
  3: { cbn [snd]. split; [split; [discriminate|intros (_ & (n & X & Y) & _); congruence]|reflexivity]. }
  all: cbn [opt_ok] in H; destruct (set_name a _ W H ltac:(discriminate)) as (b & -> & _);
    (destruct type as [t|]; cbn [snd]; [|split; [split; [discriminate|intros (_ & _ & [X|X]); discriminate]|reflexivity]]);
    (destruct (Z.eqb_spec t SOCK_STREAM) as [->|T1]; cbn [snd];
      [split; [split; [|reflexivity]|congruence]; intros _; split; [lia|]; split; [|now left]; eexists; split; [reflexivity|discriminate]|]);
    (destruct (Z.eqb_spec t SOCK_DGRAM) as [->|T2]; cbn [snd];
      [split; [split; [|reflexivity]|congruence]; intros _; split; [lia|]; split; [|now right]; eexists; split; [reflexivity|discriminate]|]);
    (split; [split; [discriminate|intros (_ & _ & [X|X]); congruence]|reflexivity]).
Qed.
Print Assumptions C69_failures.

(* A successful bind() to port 0 leaves the object with the address and port
   the system gave the socket; any other bind() leaves the object alone. *)
Theorem C69_bind_learns_the_port : forall answer name type a s, addr_wf a -> opt_ok sockname_ok name ->
  forall b calls r, bind_socket answer name type a s = (b, calls, r) ->
  (get_port a <> 0 -> b = a)
  /\ (forall v, r = Ok v -> v <> 0 -> b = a)
  /\ (get_port a = 0 -> r = Ok 0 -> exists n, name = Some n /\ named n b).
Proof.
  intros answer name type a s W H b calls r E. unfold bind_socket in E.
  destruct (C68_bind answer name type a s W) as (n & _ & _ & B). rewrite B in E.
  destruct (answer (Sys_bind s n) =? 0) eqn:A; cbn [andb] in E.
  2: { assert (b = a) as -> by congruence. assert (r = Ok (answer (Sys_bind s n))) as -> by congruence.
       split; [auto|]. split; [auto|]. intros _ X. assert (answer (Sys_bind s n) = 0) by congruence. lia. }
  destruct (get_port a =? 0) eqn:P.
  2: { assert (b = a) as -> by congruence. split; [auto|]. split; [auto|]. lia. }
  destruct (set_from_socket a s name type) as [a' r'] eqn:F.
  assert (a' = b) as -> by congruence. assert (r = rbind r' (fun _ => Ok (answer (Sys_bind s n)))) as -> by congruence.
  split; [lia|]. split.
  - intros v. destruct r'; cbn [rbind]; try discriminate. intros X. assert (answer (Sys_bind s n) = v) by congruence. lia.
  - intros _. destruct r' as [[]|e| |]; cbn [rbind]; try discriminate. intros _.
    destruct (C69_failures a s name type W H) as [[K _] _]. rewrite F in K. destruct (K eq_refl) as (S & (m & -> & M) & T).
    exists m. split; [reflexivity|]. cbn [opt_ok] in H.
    assert (exists t, type = Some t /\ (t = SOCK_STREAM \/ t = SOCK_DGRAM)) as (t & -> & Tt) by (destruct T as [-> | ->]; eauto).
    destruct (C69_describes_the_socket a s m t W H S M Tt) as (b' & E' & _ & N & _).
    assert (b' = b) as -> by congruence. exact N.
Qed.
Print Assumptions C69_bind_learns_the_port.

Definition name4 : sockname := SN_in (mk_in AF_INET (bswap16 4321) (bswap32 (quad 10 0 0 7))).
Definition peer4 : sockaddr_in := mk_in AF_INET (bswap16 99) (bswap32 (quad 10 0 0 9)).
Lemma name4_ok : sockname_ok name4.
Proof. unfold sockname_ok, sockaddr_in_ok. vm_compute. repeat split; congruence. Qed.
Definition any4 : addr := fst (set_ipv4 addr_new (mk_in AF_INET 0 0)).
Example C69_witness : addr_wf w6 /\ sockname_ok name4 /\ named name4 (fst (set_from_socket w6 3 (Some name4) (Some SOCK_DGRAM)))
  /\ get_protocol (fst (set_from_socket w6 3 (Some name4) (Some SOCK_DGRAM))) = IPPROTO_UDP
  /\ snd (set_from_socket w6 3 (Some name4) (Some 3)) = Throw E_invalid_state
  /\ get_port any4 = 0
  /\ get_port (fst (fst (bind_socket yes (Some name4) (Some SOCK_STREAM) any4 5))) = 4321.
Proof. split; [apply w6_wf|]. split; [apply name4_ok|]. vm_compute. auto. Qed.

(* ---------- C75 ---------- *)
(* The sender is in the object after a successful call on a UDP socket, where
   the system answers with an address of the family of the socket. *)
Theorem C75_sender_partial : forall a s n p4 p6, addr_wf a -> sockname_ok n -> 0 <= s ->
  (match n with SN_in _ => sockaddr_in_ok p4 /\ sin_family p4 = AF_INET
     | SN_in6 x => sockaddr_in6_ok p6 /\ sin6_family p6 = AF_INET6 /\ ~ is_v4_value (num (sin6_addr x))
     | SN_other => False end) ->
  exists b, recvfrom a s (Some n) (Some SOCK_DGRAM) (Some p4) (Some p6) = (b, Ok tt)
    /\ named (match n with SN_in _ => SN_in p4 | _ => SN_in6 p6 end) b
    /\ get_protocol b = IPPROTO_UDP /\ same_rest a b.
Proof.
  intros a s n p4 p6 W H S P.
  assert (n <> SN_other) as N by (intros ->; exact P).
  destruct (C69_describes_the_socket a s n SOCK_DGRAM W H S N (or_intror eq_refl)) as (b & E & Wb & M & Pr & R).
  unfold recvfrom. rewrite E. unfold get_protocol in Pr. rewrite Pr. cbn [SOCK_DGRAM SOCK_STREAM Z.eqb IPPROTO_UDP Pos.eqb negb].
  pose proof (is_ipv4_value b Wb) as I.
  assert (forall c, same_rest b c -> same_rest a c) as Tr.
  { intros c. unfold same_rest in *. intuition congruence. }
  destruct n as [x|x|]; [| |tauto].
  - destruct P as [P F]. assert (is_ipv4 b = true) as ->.
    { apply I. destruct M as [-> _]. destruct H as (_ & _ & Rx). unfold is_v4_value. pose proof (bswap32_range (s_addr x)). lia. }
    destruct (set_name b (SN_in p4) Wb P ltac:(discriminate)) as (c & Ec & Mc & Rc & Pc).
    exists c. split; [|split; [exact Mc|split; [|now apply Tr]]].
    + rewrite <- Ec. destruct p4 as [pf pp pa]. cbn [sin_family] in F. now rewrite F.
    + rewrite Pc. exact Pr.
  - destruct P as (P & F & V). assert (is_ipv4 b = false) as ->.
    { destruct (is_ipv4 b); [|reflexivity]. exfalso. apply V. destruct M as [<- _]. now apply I. }
    destruct (set_name b (SN_in6 p6) Wb P ltac:(discriminate)) as (c & Ec & Mc & Rc & Pc).
    exists c. split; [|split; [exact Mc|split; [|now apply Tr]]].
    + rewrite <- Ec. destruct p6 as [pf pp pl pa ps]. cbn [sin6_family] in F. now rewrite F.
    + rewrite Pc. exact Pr.
Qed.
Print Assumptions C75_sender_partial.

(* Another socket, or nothing received: the object describes the socket. *)
Theorem C75_no_sender : forall a s name type p4 p6,
  type <> Some SOCK_DGRAM \/ (p4 = None /\ p6 = None) ->
  recvfrom a s name type p4 p6 = set_from_socket a s name type.
Proof.
  intros a s name type p4 p6 H. unfold recvfrom.
  destruct (set_from_socket a s name type) as [b r] eqn:E. destruct r as [[]|e| |]; try reflexivity.
  destruct (f_protocol b =? IPPROTO_UDP) eqn:P; [|reflexivity]. cbn [negb].
  destruct H as [H|[-> ->]]; [|destruct (is_ipv4 b); reflexivity]. exfalso.
  unfold set_from_socket in E. destruct (s <? 0); [discriminate|]. destruct name as [n|]; [|discriminate].
  destruct (match n with SN_in _ => _ | SN_in6 _ => _ | SN_other => _ end) as [a1 [u|e| |]]; try discriminate.
  destruct type as [t|]; [|discriminate].
  destruct (t =? SOCK_STREAM).
  - assert (b = with_protocol a1 IPPROTO_TCP) as -> by congruence. discriminate.
  - destruct (t =? SOCK_DGRAM) eqn:T; [|discriminate]. apply H. f_equal. lia.
Qed.
Print Assumptions C75_no_sender.

(* An IPv6 socket bound to an IPv4-mapped address: the system answers in the
   IPv6 family, recvfrom() reads it as an IPv4 one and throws after the message
   was taken. *)
Theorem C75_mapped_socket_refuted : exists a s n p4 p6, addr_wf a /\ 0 <= s /\ sockname_ok n
  /\ (exists x, n = SN_in6 x) /\ sockaddr_in6_ok p6 /\ sin6_family p6 = AF_INET6
  (* p4 is the beginning of p6, which is what a 16 byte buffer receives *)
  /\ sin_family p4 = sin6_family p6 /\ sin_port p4 = sin6_port p6 /\ s_addr p4 = sin6_flowinfo p6
  /\ snd (recvfrom a s (Some n) (Some SOCK_DGRAM) (Some p4) (Some p6)) = Throw E_invalid_argument.
Proof.
  set (x := get_ipv6 (fst (set_ipv4 addr_new peer4))).
  exists addr_new, 3, (SN_in6 x), (mk_in AF_INET6 (sin6_port x) 0), x.
  assert (sockaddr_in6_ok x) as X.
  { assert (addr_wf (fst (set_ipv4 addr_new peer4))) as [] by now apply addr_wfb_ok.
    unfold x, get_ipv6, sockaddr_in6_ok. split; [rewrite wf_family; vm_compute; split; congruence|auto]. }
  split; [now apply addr_wfb_ok|]. split; [lia|]. split; [exact X|]. split; [eauto|]. split; [exact X|].
  vm_compute. auto.
Qed.
Print Assumptions C75_mapped_socket_refuted.

Example C75_witness : addr_wf w6 /\ sockname_ok name4 /\ sockaddr_in_ok peer4 /\ sin_family peer4 = AF_INET
  /\ (let b := fst (recvfrom w6 3 (Some name4) (Some SOCK_DGRAM) (Some peer4) None) in
      get_port b = 99 /\ value b = v4_base + quad 10 0 0 9)
  /\ (let b := fst (recvfrom w6 3 (Some name4) (Some SOCK_STREAM) (Some peer4) None) in get_port b = 4321).
Proof.
  split; [apply w6_wf|]. split; [apply name4_ok|].
  split; [unfold sockaddr_in_ok; vm_compute; repeat split; congruence|]. vm_compute. auto.
Qed.
