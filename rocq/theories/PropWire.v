(* Properties C147 and C148: from a text to the socket address handed to the
   kernel, and back. *)
From Coq Require Import ZifyBool ZifyNat.
From Verif Require Import Base Addr Spec Range SpecRange Inet AddrText Parser SpecParser SpecParser2 Socket.
From Verif Require AddrProofs AddrProofs2 AddrProofs3 AddrProofs4 RangeProofs ParserProofs ParserProofs2 ParserProofs3
  PropAddr PropParser PropParser2 PropParser4 PropParser5 PropSocket.
Import AddrProofs AddrProofs2 AddrProofs3 AddrProofs4 ParserProofs ParserProofs2 ParserProofs3 PropAddr PropParser PropParser2 PropParser4 PropParser5.
Local Open Scope Z_scope.

(* ---------- specification ---------- *)
(* The socket address n says: the address v (a number of 128 bits), the port
   n, nothing else. *)
Definition says (n : sockname) (v port : Z) : Prop :=
  match n with
  | SN_in x => sin_family x = AF_INET /\ v4_base + bswap32 (s_addr x) = v /\ bswap16 (sin_port x) = port
  | SN_in6 x => sin6_family x = AF_INET6 /\ ~ is_v4_value v /\ num (sin6_addr x) = v /\ bswap16 (sin6_port x) = port
      /\ sin6_flowinfo x = 0 /\ sin6_scope_id x = 0
  | SN_other => False
  end.
(* the family of a socket for the address v *)
Definition family_of (v family : Z) : Prop := (is_v4_value v -> family = AF_INET) /\ (~ is_v4_value v -> family = AF_INET6).

(* ---------- addresses parsed without lookup have no scope ---------- *)
Definition plain (a : addr) : Prop := sin6_flowinfo (f_address a) = 0 /\ sin6_scope_id (f_address a) = 0.
Lemma plain_mask a m : plain a -> bytes16 m -> plain (set_mask a m).
Proof. intros H _. exact H. Qed.
Lemma protocol_keeps a proto b o : set_protocol a proto = (b, o) -> f_address b = f_address a.
Proof. unfold set_protocol. repeat match goal with |- context [if ?c then _ else _] => destruct c end; intros E; injection E as <- _; reflexivity. Qed.
Lemma finish_plain a proto dp r : plain a ->
  rbind (if negb (proto =? -1) then on (set_protocol a proto) else Ok a)
    (fun a => Ok (set_from range_new (set_port_defined a dp))) = Ok r -> plain (f_from r).
Proof.
  intros P. destruct (negb (proto =? -1)).
  - unfold on. destruct (set_protocol a proto) as [b o] eqn:E. apply protocol_keeps in E. destruct o; cbn [rbind]; try discriminate.
    intros X. injection X as <-. unfold plain in *. cbn. now rewrite E.
  - cbn [rbind]. intros X. injection X as <-. exact P.
Qed.
Lemma range4_plain x host proto dp r : range4 x host proto dp = Ok r -> plain (f_from r).
Proof.
  unfold range4, set_ipv4, on. destruct (negb (sin_family x =? AF_INET)); cbn [rbind]; [discriminate|].
  apply finish_plain. split; reflexivity.
Qed.
Lemma range6_plain x host proto dp r : sin6_flowinfo x = 0 -> sin6_scope_id x = 0 ->
  range6 x host proto dp = Ok r -> plain (f_from r).
Proof.
  intros F S. unfold range6, set_ipv6, on. destruct (negb (sin6_family x =? AF_INET6)); cbn [rbind]; [discriminate|].
  apply finish_plain. split; [exact F|exact S].
Qed.
Lemma numeric_plain p0 address port dp : wp p0 (numeric_address address port dp)
  (fun r _ => forall l, r = Ok l -> Forall (fun r => plain (f_from r)) l).
Proof.
  unfold numeric_address. wask. destruct (inet_pton4 (c_str address)) as [q|].
  - wbind. apply wp_lift. destruct (range4 _ _ _ _) as [r|x| |] eqn:E; try discriminate.
    apply wp_ret. intros l X. injection X as <-. constructor; [|constructor]. eapply range4_plain; exact E.
  - destruct (inet_pton6 (c_str address)) as [q|].
    + wbind. apply wp_lift. destruct (range6 _ _ _ _) as [r|x| |] eqn:E; try discriminate.
      apply wp_ret. intros l X. injection X as <-. constructor; [|constructor]. eapply range6_plain; [| |exact E]; reflexivity.
    + apply wp_fail. intros l X. injection X as <-. constructor.
Qed.
Lemma port_plain y g p0 address port_str ipv6 : allow p0 ALLOW_ADDRESS_LOOKUP = false ->
  wp p0 (parse_address_port y g address port_str ipv6)
  (fun r _ => forall l, r = Ok l -> Forall (fun r => plain (f_from r)) l).
Proof.
  intros HL.
  assert (forall msg, wp p0 (fail msg) (fun r _ => forall l, r = Ok l -> Forall (fun r => plain (f_from r)) l)) as BAD.
  { intros msg. apply wp_fail. intros l X. injection X as <-. constructor. }
  unfold parse_address_port. cbv zeta. wallow.
  destruct (_ && _); [apply BAD|]. wask. wallow. destruct (_ && _); [apply BAD|]. wask. wallow. rewrite HL. wallow.
  destruct (_ || _).
  - destruct (convert_string y _); [|apply BAD]. destruct (_ || _); [apply BAD|]. destruct (_ && _); [apply BAD|]. apply numeric_plain.
  - apply numeric_plain.
Qed.
Lemma wp_and {A} p (m : M A) Q R : wp p m Q -> wp p m (fun r _ => R r) -> wp p m (fun r ms => Q r ms /\ R r).
Proof.
  intros (ms & r & E & HQ) (ms2 & r2 & E2 & H2). exists ms, r. split; [exact E|]. split; [exact HQ|].
  specialize (E [] 0). specialize (E2 [] 0). rewrite E in E2. assert (r = r2) as -> by congruence. exact H2.
Qed.
Lemma parse_plain y g p s : resolver_ok g -> allow p ALLOW_ADDRESS_LOOKUP = false ->
  forall p' l, parse y g s p = (p', Ok l) -> Forall (ParserProofs.ends plain) l.
Proof.
  intros HG HL p' l E.
  assert (wp p (parse_entries y g s) (fun r _ => OKall plain (resolver_ok g) r)) as EN.
  { apply entries_ok; [|apply plain_mask|exact (fun H => H)]. intros ad ps i6.
    eapply wp_conseq; [apply wp_and; [apply address_port_ok|apply (port_plain y g p ad ps i6 HL)]|].
    cbv beta. intros r ms ([N H] & R). split; [exact N|]. intros G0. destruct (H G0) as [U K]. split; [exact U|].
    intros l0 X. destruct (K l0 X) as [K1 K2]. split; [|exact K2]. specialize (R l0 X).
    rewrite Forall_forall in *. intros r0 I. destruct (K1 r0 I) as (F & T & W & _). repeat split; try apply W; auto; now apply R. }
  assert (wp p (parse y g s) (fun r _ => forall l, r = Ok l -> Forall (ParserProofs.ends plain) l)) as W.
  { unfold parse. wbind. eapply wp_conseq; [apply EN|]. cbv beta. intros r ms (N & H).
    destruct r as [l0|x| |]; try discriminate. wask. apply wp_lift.
    destruct (H HG) as [_ H']. specialize (H' l0 eq_refl).
    destruct (arrange_ends plain (f_sort p) l0 plain_mask H') as [[x X]|(l' & X & F)]; rewrite X; try discriminate.
    intros l2 Y. injection Y as <-. exact F. }
  destruct (wp_run p _ _ p W (same_config_refl p)) as (ms & r0 & E2 & K).
  apply K. congruence.
Qed.

(* ---------- C147 ---------- *)
Lemma says_of n a v port : PropSocket.stands_for n a -> addr_wf a -> plain a -> value a = v -> get_port a = port -> says n v port.
Proof.
  intros S W [P1 P2] <- <-. pose proof (is_ipv4_value a W) as I. destruct n as [x|x|]; cbn [PropSocket.stands_for says] in *; [tauto| |exact S].
  destruct S as (F & S1 & S2 & S3 & ->). split; [exact S1|]. split; [|tauto].
  intros V. apply I in V. unfold get_family in F. rewrite V in F. discriminate.
Qed.

Lemma parsed_name y g p A v P n given s : resolver_ok g -> converts_decimals y -> takes_numbers p ->
  denotes A v -> port_part p P n given -> written A P s ->
  exists r name, parse y g s p = (p, Ok [r]) /\ has_from r = true /\ SpecParser2.stands_for p v n given A (get_from r)
    /\ system_address (get_from r) = Ok name /\ says name v n.
Proof.
  intros HG C TN D HP HW.
  destruct (C76_one_address y g p A v P n given s C TN D HP HW) as (r & E & F & T & S).
  assert (plain (get_from r)) as PL.
  { pose proof (tn_lookup p TN) as L. allowed L. pose proof (parse_plain y g p s HG L p [r] E) as X.
    inversion X as [|? ? (_ & _ & X1 & _) _]; subst. now apply X1. }
  pose proof (st_wf _ _ _ _ _ _ S) as W. destruct (PropSocket.system_address_ok _ W) as (nm & SA & SF).
  exists r, nm. repeat (split; [assumption|]). apply (says_of nm (get_from r)); auto; apply S.
Qed.
Lemma named_connect answer a k nm : addr_wf a -> system_address a = Ok nm -> get_protocol a <> IPPROTO_UDP ->
  connect answer a k = ([Sys_connect k nm], Ok (answer (Sys_connect k nm))).
Proof.
  intros W SA NU. unfold get_protocol in NU. unfold connect, call_with. rewrite SA.
  destruct (PropSocket.protocol_cases a W) as [E|E]; [tauto|]. replace ((f_protocol a =? IPPROTO_IP) || _) with true
    by (symmetry; apply orb_true_iff; rewrite !Z.eqb_eq; tauto). reflexivity.
Qed.

(* A numeric text and what the kernel is asked: the text is the address A, the
   port part P, s the two together. *)
Theorem C147_connect : forall y g p A v P n given s,
  resolver_ok g -> converts_decimals y -> takes_numbers p ->
  parser_get_protocol p <> IPPROTO_UDP ->
  denotes A v -> port_part p P n given -> written A P s ->
  exists r family name, parse y g s p = (p, Ok [r]) /\ has_from r = true
    /\ family_of v family /\ says name v n
    /\ (forall answer, fst (create_socket answer (get_from r) 0) = [Sys_socket family SOCK_STREAM IPPROTO_TCP])
    /\ (forall answer k, connect answer (get_from r) k = ([Sys_connect k name], Ok (answer (Sys_connect k name)))).
Proof.
  intros y g p A v P n d s HG C TN NU D HP HW.
  destruct (parsed_name y g p A v P n d s HG C TN D HP HW) as (r & nm & E & F & S & SA & SY).
  pose proof (st_wf _ _ _ _ _ _ S) as W.
  assert (get_protocol (get_from r) <> IPPROTO_UDP) as NU2.
  { rewrite (st_protocol _ _ _ _ _ _ S). destruct (parser_get_protocol p =? -1); [discriminate|exact NU]. }
  exists r, (get_family (get_from r)), nm. split; [exact E|]. split; [exact F|].
  split. { destruct (PropSocket.C67_family _ W) as [F1 F2]. rewrite (st_value _ _ _ _ _ _ S) in *. now split. }
  split; [exact SY|].
  split.
  - intros answer. rewrite PropSocket.C67_one_socket by (auto; lia). replace (_ =? IPPROTO_UDP) with false by lia. reflexivity.
  - intros answer k. apply (named_connect answer (get_from r) k nm W SA). exact NU2.
Qed.
Print Assumptions C147_connect.

(* The same for datagrams: the message goes to the address written. *)
Theorem C147_sendto : forall y g p A v P n given s,
  resolver_ok g -> converts_decimals y -> takes_numbers p ->
  parser_get_protocol p = IPPROTO_UDP ->
  denotes A v -> port_part p P n given -> written A P s ->
  exists r family name, parse y g s p = (p, Ok [r]) /\ has_from r = true
    /\ family_of v family /\ says name v n
    /\ (forall answer, fst (create_socket answer (get_from r) 0) = [Sys_socket family SOCK_DGRAM IPPROTO_UDP])
    /\ (forall answer k message, sendto answer (get_from r) k message
          = ([Sys_sendto k message name], Ok (answer (Sys_sendto k message name)))).
Proof.
  intros y g p A v P n d s HG C TN U D HP HW.
  destruct (parsed_name y g p A v P n d s HG C TN D HP HW) as (r & nm & E & F & S & SA & SY).
  pose proof (st_wf _ _ _ _ _ _ S) as W.
  assert (get_protocol (get_from r) = IPPROTO_UDP) as U2.
  { rewrite (st_protocol _ _ _ _ _ _ S). rewrite U. reflexivity. }
  exists r, (get_family (get_from r)), nm. split; [exact E|]. split; [exact F|].
  split. { destruct (PropSocket.C67_family _ W) as [F1 F2]. rewrite (st_value _ _ _ _ _ _ S) in *. now split. }
  split; [exact SY|]. split.
  - intros answer. rewrite PropSocket.C67_one_socket by (auto; lia). rewrite U2. reflexivity.
  - intros answer k m. unfold get_protocol in U2. unfold sendto, call_with. rewrite U2, Z.eqb_refl, SA. reflexivity.
Qed.
Print Assumptions C147_sendto.

(* Listening: bind() is asked for the address and port written. *)
Theorem C147_bind : forall y g p A v P n given s,
  resolver_ok g -> converts_decimals y -> takes_numbers p ->
  denotes A v -> port_part p P n given -> written A P s ->
  exists r name, parse y g s p = (p, Ok [r]) /\ has_from r = true /\ says name v n
    /\ forall answer k, bind_const answer (get_from r) k = ([Sys_bind k name], Ok (answer (Sys_bind k name))).
Proof.
  intros y g p A v P n d s HG C TN D HP HW.
  destruct (parsed_name y g p A v P n d s HG C TN D HP HW) as (r & nm & E & F & S & SA & SY).
  exists r, nm. split; [exact E|]. split; [exact F|]. split; [exact SY|].
  intros answer k. unfold bind_const, call_with. now rewrite SA.
Qed.
Print Assumptions C147_bind.

(* ---------- C148 ---------- *)
Lemma same_names a b : addr_wf a -> addr_wf b -> value a = value b -> get_port a = get_port b ->
  is_v4_value (value a) \/ (plain a /\ plain b) -> system_address a = system_address b.
Proof.
  intros Wa Wb V P H.
  assert (s6 a = s6 b) as S6.
  { destruct (wf_ip _ Wa) as [L1 F1], (wf_ip _ Wb) as [L2 F2]. apply num_inj; auto. congruence. }
  assert (sin6_port (f_address a) = sin6_port (f_address b)) as PP.
  { rewrite <- (bswap16_invol _ (wf_port _ Wa)), <- (bswap16_invol _ (wf_port _ Wb)). unfold get_port in P. congruence. }
  assert (is_ipv4 a = is_ipv4 b) as I by (rewrite !is_ipv4_bool by assumption; now rewrite V).
  pose proof (is_ipv4_value a Wa) as IA.
  unfold system_address, get_ipv4. rewrite <- I. destruct (is_ipv4 a) eqn:E.
  - cbn [rbind]. now rewrite S6, PP.
  - destruct H as [H|[[A1 A2] [B1 B2]]]; [apply IA in H; discriminate|]. do 2 f_equal.
    pose proof (wf_family _ Wa) as X1. pose proof (wf_family _ Wb) as X2. unfold s6 in S6.
    destruct (f_address a), (f_address b). cbn in *. congruence.
Qed.

(* An address printed in full and parsed is, for the kernel, the same address:
   IPv4, or IPv6 with neither a scope nor a flow. *)
Theorem C148_same_name_partial : forall y y2 g p a,
  resolver_ok g -> converts_decimals y2 -> takes_numbers p ->
  get_allow p ALLOW_MASK = Ok true ->
  get_allow p ALLOW_PORT = Ok true \/ get_allow p ALLOW_REQUIRED_PORT = Ok true ->
  addr_wf a -> mask_value a = LAST ->
  is_v4_value (value a) \/ (sin6_scope_id (get_ipv6 a) = 0 /\ sin6_flowinfo (get_ipv6 a) = 0) ->
  exists s r, to_ipv4or6_string y a STRING_IP_ALL = Ok s /\ parse y2 g s p = (p, Ok [r])
    /\ (forall answer k, bind_const answer (get_from r) k = bind_const answer a k)
    /\ (get_protocol (get_from r) = get_protocol a ->
        (forall answer flags, create_socket answer (get_from r) flags = create_socket answer a flags)
        /\ (forall answer k, connect answer (get_from r) k = connect answer a k)
        /\ (forall answer k m, sendto answer (get_from r) k m = sendto answer a k m)).
Proof.
  intros y y2 g p a HG C TN AM AP W M H.
  destruct (C22_printed_is_read_back y y2 g p a 128 C TN AM AP W) as (s & r & ES & EP & F & T & V & P & _).
  { lia. } { rewrite M. reflexivity. } { lia. }
  pose proof (tn_lookup p TN) as L. allowed L. pose proof (parse_plain y2 g p s HG L p [r] EP) as X.
  inversion X as [|? ? (_ & [WF _] & X1 & _) _]; subst. specialize (X1 F). clear X.
  assert (system_address (get_from r) = system_address a) as SA.
  { apply same_names; auto. rewrite V. destruct H as [H|[H1 H2]]; [now left|right]. split; [exact X1|]. now split. }
  assert (is_ipv4 (get_from r) = is_ipv4 a) as I by (rewrite !is_ipv4_bool by assumption; now rewrite V).
  exists s, r. split; [exact ES|]. split; [exact EP|].
  split. { intros answer k. unfold bind_const, call_with. now rewrite SA. }
  unfold get_protocol. intros PR. split; [|split]; intros; unfold create_socket, connect, sendto, call_with, get_family.
  - now rewrite PR, I.
  - now rewrite PR, SA.
  - now rewrite PR, SA.
Qed.
Print Assumptions C148_same_name_partial.

(* For IPv6 that is exact: no text which is not looked up gives the socket
   address of an IPv6 address with a scope or a flow. *)
Theorem C148_exact : forall y g p p' s l r a answer k,
  resolver_ok g -> get_allow p ALLOW_ADDRESS_LOOKUP = Ok false -> addr_wf a -> ~ is_v4_value (value a) ->
  parse y g s p = (p', Ok l) -> In r l -> has_from r = true ->
  bind_const answer (get_from r) k = bind_const answer a k ->
  sin6_scope_id (get_ipv6 a) = 0 /\ sin6_flowinfo (get_ipv6 a) = 0.
Proof.
  intros y g p p' s l r a answer k HG L W N EP IR F E.
  allowed L. pose proof (parse_plain y g p s HG L p' l EP) as X. rewrite Forall_forall in X.
  destruct (X r IR) as (_ & [WF _] & X1 & _). specialize (X1 F). clear X.
  unfold bind_const, call_with in E. pose proof (is_ipv4_value a W) as IA.
  assert (system_address a = Ok (SN_in6 (f_address a))) as S.
  { unfold system_address. destruct (is_ipv4 a); [tauto|reflexivity]. }
  rewrite S in E. destruct (PropSocket.system_address_ok _ WF) as (nm & SR & SF). unfold get_from in E. rewrite SR in E.
  apply (f_equal fst) in E. cbn [fst] in E. injection E as ->. cbn [PropSocket.stands_for] in SF.
  destruct SF as (_ & _ & _ & _ & SF). unfold get_ipv6 in *. rewrite SF. destruct X1 as [X1 X2]. split; assumption.
Qed.
Print Assumptions C148_exact.

(* A link-local address as accept() or recvfrom() report it, with the index
   of its interface: the scope is neither printed nor read, so what was
   fe80::1 on interface 2 becomes fe80::1 on no interface. *)
Definition local_peer : addr := fst (set_ipv6 addr_new (mk_in6 AF_INET6 (bswap16 80) 0 (254 :: 128 :: repeat 0 13 ++ [1]) 2)).
Theorem C148_scope_refuted : exists y g p s r, addr_wf local_peer /\ mask_value local_peer = LAST
  /\ resolver_ok g /\ converts_decimals y /\ takes_numbers p
  /\ get_allow p ALLOW_MASK = Ok true /\ get_allow p ALLOW_PORT = Ok true
  /\ to_ipv4or6_string y local_peer STRING_IP_ALL = Ok s /\ s = lit "[fe80::1]:80/128"
  /\ parse y g s p = (p, Ok [r]) /\ get_protocol (get_from r) = get_protocol local_peer
  /\ eq_ (get_from r) local_peer = true
  /\ forall answer, connect answer (get_from r) 5 <> connect answer local_peer 5.
Proof.
  exists ref_sys, no_answer, bare. eexists _, _.
  split; [now apply addr_wfb_ok|]. split; [vm_compute; reflexivity|]. split; [exact no_answer_ok|].
  split; [exact AddrProofs4.ref_sys_converts|].
  split. { constructor; [now apply no_seps|now apply no_comments|reflexivity|reflexivity|now left|right; now split]. }
  split; [reflexivity|]. split; [reflexivity|]. split; [vm_compute; reflexivity|]. split; [reflexivity|].
  split; [vm_compute; reflexivity|]. split; [reflexivity|]. split; [vm_compute; reflexivity|].
  intros answer E. apply (f_equal fst) in E. vm_compute in E. discriminate.
Qed.
Print Assumptions C148_scope_refuted.

(* Texts for C147, and the IPv4 peer of C148. *)
Definition bare_udp : parser := fst (parser_set_protocol bare IPPROTO_UDP).
Definition peer4 : addr := fst (set_ipv4 addr_new (mk_in AF_INET (bswap16 8080) (bswap32 (quad 10 1 2 3)))).
Example C147_witness : converts_decimals ref_sys /\ resolver_ok no_answer /\ takes_numbers bare /\ takes_numbers bare_udp
  /\ parser_get_protocol bare <> IPPROTO_UDP /\ parser_get_protocol bare_udp = IPPROTO_UDP
  /\ denotes (lit "fe80::1") (num (254 :: 128 :: repeat 0 13 ++ [1]))
  /\ port_part bare (lit ":8080") 8080 true /\ written (lit "fe80::1") (lit ":8080") (lit "[fe80::1]:8080")
  /\ (exists r, parse ref_sys no_answer (lit "[fe80::1]:8080") bare = (bare, Ok [r])
      /\ connect PropSocket.yes (get_from r) 5
         = ([Sys_connect 5 (SN_in6 (mk_in6 AF_INET6 (bswap16 8080) 0 (254 :: 128 :: repeat 0 13 ++ [1]) 0))], Ok 0))
  /\ (exists r, parse ref_sys no_answer (lit "10.1.2.3:8080") bare_udp = (bare_udp, Ok [r])
      /\ sendto PropSocket.yes (get_from r) 5 (lit "hello")
         = ([Sys_sendto 5 (lit "hello") (SN_in (mk_in AF_INET (bswap16 8080) (bswap32 (quad 10 1 2 3))))], Ok 0)).
Proof.
  split; [apply ref_sys_converts|]. split; [exact no_answer_ok|].
  split. { constructor; [now apply no_seps|now apply no_comments|reflexivity|reflexivity|now left|right; now split]. }
  split. { constructor; [now apply no_seps|now apply no_comments|reflexivity|reflexivity|right; unfold protocol_ok; cbn; auto|right; now split]. }
  split; [discriminate|]. split; [reflexivity|]. split; [now apply denotes_lit|].
  split. { apply (port_given bare (lit "8080") 8080); [now repeat split|lia|left; reflexivity]. }
  split; [apply (written_brackets (lit "fe80::1"))|].
  split; eexists; (split; vm_compute; reflexivity).
Qed.
Example C148_witness : addr_wf peer4 /\ is_v4_value (value peer4) /\ mask_value peer4 = LAST
  /\ to_ipv4or6_string ref_sys peer4 STRING_IP_ALL = Ok (lit "10.1.2.3:8080/32")
  /\ bind_const PropSocket.yes peer4 5
     = ([Sys_bind 5 (SN_in (mk_in AF_INET (bswap16 8080) (bswap32 (quad 10 1 2 3))))], Ok 0).
Proof.
  split; [now apply addr_wfb_ok|]. split; [vm_compute; split; congruence|].
  split; [vm_compute; reflexivity|]. split; vm_compute; reflexivity.
Qed.
