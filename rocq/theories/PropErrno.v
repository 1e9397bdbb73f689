(* Property C154: a function which answers with a failure leaves the reason in
   errno. *)
From Coq Require Import ZifyBool ZifyNat.
From Verif Require Import Base Addr Spec Socket Receive Unix Route SpecRoute Errno.
From Verif Require AddrProofs4 AddrProofs AddrProofs2 RouteProofs PropAddr PropSocket PropReceive PropRoute2.
Import AddrProofs PropAddr PropSocket PropReceive PropRoute2.
Local Open Scope Z_scope.

(* The system: a call which fails puts its reason in errno; what the other
   calls do to errno does not matter. *)
Definition tells {call : Type} (answer : call -> Z) (after : call -> Z -> Z) (reason : call -> Z) : Prop :=
  forall c e, answer c < 0 -> after c e = reason c.
(* The system calls of recvfrom() which can fail without an exception. *)
Definition receive_tells (k : kernel) (after : receive_call -> Z -> Z) (reason : Z) : Prop :=
  k_count k < 0 -> forall s size e, after (Rc_receive s size) e = reason.

(* ---------- C154 ---------- *)
(* A failure of create_socket() is a failure of socket(). *)
Theorem C154_create_socket : forall answer after reason a flags errno v e, addr_wf a -> 0 <= flags < 8 -> tells answer after reason ->
  create_socket_errno answer after a flags errno = (Ok v, e) -> v < 0 ->
  exists family type protocol, answer (Sys_socket family type protocol) = v /\ e = reason (Sys_socket family type protocol).
Proof.
  intros answer after reason a flags errno v e W F T E V. unfold create_socket_errno in E.
  rewrite (C67_one_socket answer a flags W F) in E. cbv zeta in E.
  set (c := Sys_socket _ _ _) in E.
  assert (answer c = v) as A by congruence.
  replace (0 <=? answer c) with false in E by lia. rewrite andb_false_r in E. cbn [after_calls fold_left] in E.
  unfold c in *. eexists _, _, _. split; [exact A|]. apply (f_equal snd) in E. cbn [snd] in E. rewrite <- E. unfold after_calls. cbn [fold_left].
  apply T. lia.
Qed.
Print Assumptions C154_create_socket.

(* A failure of bind(), of both versions, is a failure of ::bind(). *)
Theorem C154_bind : forall answer after reason named name type a s errno v e, addr_wf a -> tells answer after reason -> v < 0 ->
  bind_const_errno answer after a s errno = (Ok v, e) \/ bind_errno answer after named name type a s errno = (Ok v, e) ->
  exists n, answer (Sys_bind s n) = v /\ e = reason (Sys_bind s n).
Proof.
  intros answer after reason named name type a s errno v e W T V E.
  destruct (C68_bind answer name type a s W) as (n & _ & B1 & B2). exists n. destruct E as [E|E].
  - unfold bind_const_errno in E. rewrite B2 in E. assert (answer (Sys_bind s n) = v) as A by congruence. split; [exact A|].
    apply (f_equal snd) in E. cbn in E. rewrite <- E. apply T. lia.
  - unfold bind_errno, bind_socket in *. rewrite B2 in *. cbn [snd fst] in *.
    destruct ((answer (Sys_bind s n) =? 0) && (get_port a =? 0)) eqn:Z0.
    + exfalso. destruct (Addr.set_from_socket a s name type) as [a2 [u|x| |]]; cbn [rbind] in E; try discriminate.
      assert (answer (Sys_bind s n) = v) by congruence. lia.
    + assert (answer (Sys_bind s n) = v) as A by congruence. split; [exact A|].
      apply (f_equal snd) in E. cbn in E. rewrite <- E. apply T. lia.
Qed.
Print Assumptions C154_bind.

(* A failure of connect() of a TCP or IP address is a failure of ::connect().
   Missing: UDP, see below. *)
Theorem C154_connect_partial : forall answer after reason a s errno v e, addr_wf a -> tells answer after reason ->
  get_protocol a <> IPPROTO_UDP -> connect_errno answer after a s errno = (Ok v, e) -> v < 0 ->
  exists n, answer (Sys_connect s n) = v /\ e = reason (Sys_connect s n).
Proof.
  intros answer after reason a s errno v e W T U E V.
  destruct (proj2 (C68_connect answer a s W) U) as (n & _ & C). unfold connect_errno in E. rewrite C in E.
  exists n. assert (answer (Sys_connect s n) = v) as A by congruence. split; [exact A|].
  apply (f_equal snd) in E. cbn in E. rewrite <- E. apply T. lia.
Qed.
Print Assumptions C154_connect_partial.

(* connect() of a UDP address fails and leaves errno as it was: a caller which
   cleared errno finds "Success" as the reason. *)
Theorem C154_connect_refuted : forall answer after a s errno, addr_wf a -> get_protocol a = IPPROTO_UDP ->
  connect_errno answer after a s errno = (Ok (-1), errno).
Proof.
  intros answer after a s errno W U. unfold connect_errno. rewrite (proj1 (C68_connect answer a s W) U). reflexivity.
Qed.
Print Assumptions C154_connect_refuted.

(* sendto(): EINVAL without UDP, otherwise the reason of ::sendto(). *)
Theorem C154_sendto : forall answer after reason a s buffer errno v e, addr_wf a -> tells answer after reason ->
  sendto_errno answer after a s buffer errno = (Ok v, e) -> v < 0 ->
  (get_protocol a <> IPPROTO_UDP /\ fst (sendto answer a s buffer) = [] /\ v = -1 /\ e = EINVAL)
  \/ (get_protocol a = IPPROTO_UDP /\ exists n, answer (Sys_sendto s buffer n) = v /\ e = reason (Sys_sendto s buffer n)).
Proof.
  intros answer after reason a s buffer errno v e W T E V. destruct (C68_sendto answer a s buffer W) as [N U].
  unfold sendto_errno in E. destruct (Z.eq_dec (get_protocol a) IPPROTO_UDP) as [P|P].
  - right. split; [exact P|]. destruct (U P) as (n & _ & C). exists n. rewrite C in E. unfold get_protocol in P. rewrite P in E. cbn in E.
    assert (answer (Sys_sendto s buffer n) = v) as A by congruence. split; [exact A|].
    apply (f_equal snd) in E. cbn in E. rewrite <- E. apply T. lia.
  - left. split; [exact P|]. rewrite (N P) in *. unfold get_protocol in P. replace (f_protocol a =? IPPROTO_UDP) with false in E by lia.
    cbn in E. split; [reflexivity|]. split; congruence.
Qed.
Print Assumptions C154_sendto.

(* recvfrom(): EINVAL for a socket which is not a datagram socket, otherwise
   the reason of ::recvfrom(). *)
Theorem C154_recvfrom : forall k after reason a s size errno v e, receive_tells k after reason -> -1 <= k_count k < 2 ^ 31 ->
  receive_errno k after a s size errno = (Ok v, e) -> v < 0 ->
  v = -1 /\ ((k_type k <> Some SOCK_DGRAM /\ e = EINVAL) \/ (k_type k = Some SOCK_DGRAM /\ k_count k = -1 /\ e = reason)).
Proof.
  intros k after reason a s size errno v e T C E V. unfold receive_errno, receive in E.
  destruct (Addr.set_from_socket a s (k_name k) (k_type k)) as [a1 r] eqn:F. cbn [fst] in E.
  destruct r as [[]|x| |]; try discriminate.
  destruct (f_protocol a1 =? IPPROTO_UDP) eqn:P; cbn [negb] in E.
  - assert (k_type k = Some SOCK_DGRAM) as K by (eapply from_socket_udp; [exact F|lia]).
    rewrite s32_id in E by (change (2 ^ 31) with 2147483648 in *; lia).
    destruct (k_count k >=? 0) eqn:G.
    + exfalso. destruct (if is_ipv4 a1 then _ else _) as [a2 u] eqn:D. destruct u as [[]|x| |]; cbn [rbind] in E; try discriminate.
      assert (k_count k = v) by congruence. lia.
    + cbn [rbind] in E. assert (k_count k = v) as A by congruence. split; [lia|]. right. split; [exact K|]. split; [lia|].
      apply (f_equal snd) in E. cbn [snd] in E. rewrite <- E. unfold after_calls. rewrite fold_left_app. cbn [fold_left].
      apply T. lia.
  - split; [congruence|]. left. split; [|congruence]. intros K.
    assert (f_protocol a1 = IPPROTO_UDP); [|lia].
    rewrite K in F. clear - F. unfold Addr.set_from_socket in F. destruct (s <? 0); [discriminate|].
    destruct (k_name k) as [n|]; [|discriminate].
    destruct (match n with SN_in _ => _ | SN_in6 _ => _ | SN_other => _ end) as [a2 [u|e| |]]; try discriminate.
    change (SOCK_DGRAM =? SOCK_STREAM) with false in F. change (SOCK_DGRAM =? SOCK_DGRAM) with true in F. cbv iota in F.
    assert (a1 = with_protocol a2 IPPROTO_UDP) as -> by congruence. reflexivity.
Qed.
Print Assumptions C154_recvfrom.

(* addr_unix::set_from_socket(): the reason of getsockname(), or EADDRNOTAVAIL
   for a socket of another family; the object is what it was. *)
Theorem C154_unix : forall decode after u name errno u2 e,
  unix_from_socket_errno decode after u name errno = (u2, Ok false, e) ->
  u2 = u /\ ((name = None /\ e = after errno)
             \/ (exists family path, name = Some (family, path) /\ family <> AF_UNIX /\ e = EADDRNOTAVAIL)).
Proof.
  intros decode after u name errno u2 e E. unfold unix_from_socket_errno, Unix.set_from_socket in E.
  destruct name as [[family path]|].
  - destruct (negb (family =? AF_UNIX)) eqn:F.
    + split; [congruence|]. right. exists family, path. split; [reflexivity|]. split; [lia|congruence].
    + exfalso. destruct (set_un _ _ _) as [u1 [[]|x| |]]; discriminate.
  - split; [congruence|]. left. split; congruence.
Qed.
Print Assumptions C154_unix.

(* unlink() of an address which is not a file leaves errno alone and succeeds;
   otherwise result and errno are those of ::unlink(). *)
Theorem C154_unlink : forall answer after u errno,
  (is_file u = false -> unlink_errno answer after u errno = (Ok 0, errno))
  /\ (forall v e, unlink_errno answer after u errno = (Ok v, e) -> v < 0 ->
      exists p, answer p = v /\ e = after p errno).
Proof.
  intros answer after u errno. unfold unlink_errno, unlink. split.
  - intros ->. reflexivity.
  - intros v e E V. destruct (is_file u).
    + destruct (c_string _) as [p|x| |]; cbn [rbind] in E; try discriminate. exists p. split; congruence.
    + assert (v = 0) by congruence. lia.
Qed.
Print Assumptions C154_unlink.

(* get_ipv4_routes(): a file which cannot be opened gives no route and the
   reason of the system; a complete first line without one of the columns gives
   no route and ENODATA.  Missing: see below. *)
Theorem C154_routes_partial : forall opened errno,
  get_ipv4_routes_errno opened None errno = (Ok [], opened errno)
  /\ (forall line hs rest, ~ In 10 line -> line_words line hs -> (exists n, In n needed /\ ~ In n hs) ->
      get_ipv4_routes_errno opened (Some (line ++ 10 :: rest)) errno = (Ok [], ENODATA)).
Proof.
  intros opened errno. split; [reflexivity|]. intros line hs rest N L (n & I & M).
  unfold get_ipv4_routes_errno, get_ipv4_routes. rewrite (read_words line hs rest L).
  assert ((get_position hs (lit "Iface") =? -1) || (get_position hs (lit "Destination") =? -1)
          || (get_position hs (lit "Gateway") =? -1) = true) as ->; [|reflexivity].
  apply not_there in M. rewrite !orb_true_iff, !Z.eqb_eq.
  destruct I as [<-|[<-|[<-|[]]]]; tauto.
Qed.
Print Assumptions C154_routes_partial.

(* A file without a complete first line gives no route either, and errno is
   not set. *)
Theorem C154_routes_refuted : forall errno text, ~ In 10 text ->
  get_ipv4_routes_errno (fun e => e) (Some text) errno = (Ok [], errno).
Proof.
  intros errno text N. unfold get_ipv4_routes_errno, get_ipv4_routes.
  assert (readwords text = None) as ->; [|reflexivity]. unfold readwords.
  generalize (@nil str), (@nil Z). induction text as [|c t IH]; intros ws w; [reflexivity|]. cbn [readwords_loop].
  replace (c =? 10) with false by (symmetry; apply Z.eqb_neq; intros ->; apply N; now left).
  assert (~ In 10 t) as Nt by (intros X; apply N; now right).
  destruct ((c =? 9) || (c =? 32)); [destruct w|]; now apply IH.
Qed.
Print Assumptions C154_routes_refuted.

(* A system on which everything fails with EACCES (13). *)
Definition no_luck {call : Type} : call -> Z := fun _ => -1.
Definition denied {call : Type} : call -> Z -> Z := fun _ _ => 13.
Definition closed : kernel := mk_kernel (Some (SN_in (mk_in AF_INET 0 0))) (Some SOCK_DGRAM) (-1) SN_other.
Example C154_witness : tells (@no_luck syscall) denied (fun _ => 13) /\ receive_tells closed denied 13
  /\ addr_wf w4 /\ addr_wf u4 /\ get_protocol w4 = IPPROTO_TCP /\ get_protocol u4 = IPPROTO_UDP
  /\ create_socket_errno no_luck denied w4 0 0 = (Ok (-1), 13) /\ connect_errno no_luck denied w4 5 0 = (Ok (-1), 13)
  /\ connect_errno no_luck denied u4 5 0 = (Ok (-1), 0)
  /\ sendto_errno no_luck denied w4 5 (lit "x") 0 = (Ok (-1), EINVAL) /\ sendto_errno no_luck denied u4 5 (lit "x") 0 = (Ok (-1), 13)
  /\ receive_errno closed denied addr_new 5 10 0 = (Ok (-1), 13)
  /\ line_words (lit "Iface ") [lit "Iface"] /\ In (lit "Gateway") needed.
Proof.
  split; [intros c e _; reflexivity|]. split; [intros _ s size e; reflexivity|]. split; [apply w4_wf|].
  split; [now apply AddrProofs4.addr_wfb_ok|]. do 8 (split; [vm_compute; reflexivity|]).
  split; [|right; right; now left].
  exists (lit "Iface "), []. split; [reflexivity|]. split; [|constructor].
  change (lit "Iface ") with (@nil Z ++ lit "Iface" ++ 32 :: []). constructor; [constructor| |now right|constructor; constructor].
  split; [discriminate|]. repeat constructor; unfold blank; try (intros [X|X]; discriminate); discriminate.
Qed.
