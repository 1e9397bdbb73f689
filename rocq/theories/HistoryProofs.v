(* The object holds what its history tells. *)
From Coq Require Import ZifyBool ZifyNat.
From Verif Require Import Base Addr Spec SpecHistory AddrProofs AddrProofs2 AddrProofs3 AddrProofs4.
Local Open Scope Z_scope.

Record agrees (y : sys) (h : list event) (a : addr) : Prop := mk_agrees {
  ag_value : value a = address_told h;
  ag_port : get_port a = port_told y h;
  ag_flow : sin6_flowinfo (f_address a) = flow_told h;
  ag_scope : sin6_scope_id (f_address a) = scope_told h;
  ag_port_flag : f_port_defined a = port_flag_told y h;
  ag_protocol : f_protocol a = protocol_told y h;
  ag_protocol_flag : f_protocol_defined a = protocol_flag_told y h;
  ag_mask : mask_value a = mask_told h;
  ag_mask_flag : f_mask_defined a = mask_flag_told h;
  ag_interface : f_interface a = interface_told h;
  ag_hostname : f_hostname a = hostname_told h
}.

Lemma lived_reachable y h a : lived y h a -> reachable y a.
Proof. induction 1; [constructor|]. econstructor; eauto. Qed.

(* what a call leaves alone *)
Definition silent (y : sys) (e : event) : Prop := forall r,
  gives_interface r e = None /\ gives_hostname r e = None /\ gives_mask r e = None /\ gives_mask_flag r e = None
  /\ gives_protocol y r e = None /\ gives_protocol_flag y r e = None /\ gives_port y r e = None
  /\ gives_port_flag y r e = None /\ gives_flow r e = None /\ gives_scope r e = None
  /\ address_told (e :: r) = address_told r.

Lemma agrees_silent y h a e : silent y e -> agrees y h a -> agrees y (e :: h) a.
Proof.
  intros S []. destruct (S h) as (H1 & H2 & H3 & H4 & H5 & H6 & H7 & H8 & H9 & H10 & H11).
  constructor; try (rewrite H11; assumption);
    unfold port_told, flow_told, scope_told, port_flag_told, protocol_told, protocol_flag_told, mask_told, mask_flag_told,
           interface_told, hostname_told in *; cbn [latest];
    rewrite ?H1, ?H2, ?H3, ?H4, ?H5, ?H6, ?H7, ?H8, ?H9, ?H10; assumption.
Qed.

Ltac tell := unfold port_told, flow_told, scope_told, port_flag_told, protocol_told, protocol_flag_told, mask_told, mask_flag_told,
           interface_told, hostname_told in *; cbn [latest].
(* the rest of the history is what a holds *)
Ltac held := match goal with ag : agrees _ _ _ |- _ =>
  destruct ag; constructor; unfold mask_value in *; tell;
  try match goal with E : ?x = latest ?f ?d ?h |- context [latest ?f ?d ?h] => rewrite <- E end end.

(* the IP moved, nothing else *)
Lemma agrees_moved y h a b op v :
  same_but_ip a b -> value b = v ->
  (forall r, gives_interface h (mk_event op r) = None /\ gives_hostname h (mk_event op r) = None /\ gives_mask h (mk_event op r) = None
    /\ gives_mask_flag h (mk_event op r) = None /\ gives_protocol y h (mk_event op r) = None
    /\ gives_protocol_flag y h (mk_event op r) = None /\ gives_port y h (mk_event op r) = None
    /\ gives_port_flag y h (mk_event op r) = None /\ gives_flow h (mk_event op r) = None /\ gives_scope h (mk_event op r) = None
    /\ address_told (mk_event op r :: h) = v) ->
  forall r, agrees y h a -> agrees y (mk_event op r :: h) b.
Proof.
  intros [] V S r []. destruct (S r) as (H1 & H2 & H3 & H4 & H5 & H6 & H7 & H8 & H9 & H10 & H11).
  constructor; try (now rewrite H11); unfold get_port, mask_value in *; tell;
    rewrite ?H1, ?H2, ?H3, ?H4, ?H5, ?H6, ?H7, ?H8, ?H9, ?H10; congruence.
Qed.

(* a whole structure replaces the address *)
Lemma agrees_endpoint y h a b op r x :
  agrees y h a ->
  value b = e_ip x -> get_port b = e_port x -> sin6_flowinfo (f_address b) = e_flow x ->
  sin6_scope_id (f_address b) = e_scope x ->
  f_port_defined b = f_port_defined a -> f_protocol_defined b = f_protocol_defined a ->
  f_mask b = f_mask a -> f_mask_defined b = f_mask_defined a -> f_interface b = f_interface a ->
  f_hostname b = f_hostname a ->
  f_protocol b = match gives_protocol y h (mk_event op r) with Some p => p | None => f_protocol a end ->
  gives_endpoint (mk_event op r) = Some x ->
  agrees y (mk_event op r :: h) b.
Proof.
  intros A V P F S D1 D2 M D3 I H Pr G.
  assert (K : match op with Op_set_ipv4 _ | Op_set_ipv6 _ | Op_set_from_socket _ _ _ | Op_recvfrom _ _ _ _ _ => True | _ => False end)
    by (unfold gives_endpoint in G; cbn [call] in G; destruct op; try discriminate G; exact Logic.I).
  held; unfold gives_interface, gives_hostname, gives_mask, gives_mask_flag, gives_protocol_flag, gives_port, gives_port_flag, gives_flow, gives_scope;
    cbn [address_told call];
    destruct op; try contradiction; cbn [call]; rewrite ?G; cbn [option_map]; congruence.
Qed.

Lemma set_ipv4_shape a x b r : set_ipv4 a x = (b, r) -> sockaddr_in_ok x ->
  (sin_family x <> AF_INET /\ b = a /\ r = Throw E_invalid_argument)
  \/ (sin_family x = AF_INET /\ r = Ok tt
      /\ value b = e_ip (endpoint_in x) /\ get_port b = e_port (endpoint_in x)
      /\ sin6_flowinfo (f_address b) = 0 /\ sin6_scope_id (f_address b) = 0
      /\ f_port_defined b = f_port_defined a /\ f_protocol_defined b = f_protocol_defined a
      /\ f_mask b = f_mask a /\ f_mask_defined b = f_mask_defined a /\ f_interface b = f_interface a
      /\ f_hostname b = f_hostname a /\ f_protocol b = f_protocol a).
Proof.
  intros E (F & P & S). unfold set_ipv4 in E. destruct (sin_family x =? AF_INET) eqn:K; cbn [negb] in E; inversion E; subst.
  - right. split; [lia|]. split; [reflexivity|]. split; [apply v4_bytes_num; exact S|]. repeat split.
  - left. split; [lia|]. auto.
Qed.

Lemma set_ipv6_shape a x b r : set_ipv6 a x = (b, r) ->
  (sin6_family x <> AF_INET6 /\ b = a /\ r = Throw E_invalid_argument)
  \/ (sin6_family x = AF_INET6 /\ r = Ok tt
      /\ value b = e_ip (endpoint_in6 x) /\ get_port b = e_port (endpoint_in6 x)
      /\ sin6_flowinfo (f_address b) = e_flow (endpoint_in6 x) /\ sin6_scope_id (f_address b) = e_scope (endpoint_in6 x)
      /\ f_port_defined b = f_port_defined a /\ f_protocol_defined b = f_protocol_defined a
      /\ f_mask b = f_mask a /\ f_mask_defined b = f_mask_defined a /\ f_interface b = f_interface a
      /\ f_hostname b = f_hostname a /\ f_protocol b = f_protocol a).
Proof.
  intros E. unfold set_ipv6 in E. destruct (sin6_family x =? AF_INET6) eqn:K; cbn [negb] in E; inversion E; subst.
  - right. split; [lia|]. repeat split.
  - left. split; [lia|]. auto.
Qed.

Definition rest_same (a b : addr) : Prop :=
  f_port_defined b = f_port_defined a /\ f_protocol_defined b = f_protocol_defined a
  /\ f_mask b = f_mask a /\ f_mask_defined b = f_mask_defined a /\ f_interface b = f_interface a
  /\ f_hostname b = f_hostname a.
Definition holds (b : addr) (x : endpoint) : Prop :=
  value b = e_ip x /\ get_port b = e_port x /\ sin6_flowinfo (f_address b) = e_flow x /\ sin6_scope_id (f_address b) = e_scope x.

Lemma from_socket_shape a s n t b r : set_from_socket a s n t = (b, r) -> opt_ok sockname_ok n ->
  (ip_name s n = None /\ b = a /\ r <> Ok tt)
  \/ (exists w, ip_name s n = Some w /\ holds b (endpoint_name w) /\ rest_same a b
       /\ f_protocol b = match socket_protocol s n t with Some p => p | None => f_protocol a end
       /\ (r = Ok tt <-> socket_protocol s n t <> None)).
Proof.
  intros E N. unfold set_from_socket in E. unfold socket_protocol, ip_name.
  destruct (s <? 0) eqn:Hs. { inversion E; subst. left. split; [auto|]. split; [auto|discriminate]. }
  destruct n as [w|]; [|inversion E; subst; left; split; [auto|]; split; [auto|discriminate]].
  destruct (match w with SN_in _ => _ | SN_in6 _ => _ | SN_other => _ end) as [a1 r1] eqn:E1.
  assert (K : (w = SN_other /\ a1 = a /\ r1 = Throw E_invalid_state)
     \/ (match Some w with Some (SN_in _) | Some (SN_in6 _) => Some w | _ => None end = Some w
         /\ r1 = Ok tt /\ holds a1 (endpoint_name w) /\ rest_same a a1 /\ f_protocol a1 = f_protocol a)).
  { destruct w as [x|x|]; cbn [opt_ok sockname_ok] in N.
    - right. destruct (set_ipv4_shape _ _ _ _ E1) as [[Q _]|(_ & -> & V & P & F & S & D)].
      + destruct N as (? & ? & ?). split; cbn; [unfold AF_INET; lia|auto].
      + elim Q. reflexivity.
      + unfold holds, rest_same. tauto.
    - right. destruct (set_ipv6_shape _ _ _ _ E1) as [[Q _]|(_ & -> & V & P & F & S & D)].
      + elim Q. reflexivity.
      + unfold holds, rest_same. tauto.
    - left. inversion E1; subst. auto. }
  destruct K as [(-> & -> & ->)|(K1 & -> & H & R & P)].
  { inversion E; subst. left. split; [auto|]. split; [auto|discriminate]. }
  right. exists w. rewrite K1. split; [reflexivity|].
  destruct t as [t|].
  - destruct (t =? SOCK_STREAM); [|destruct (t =? SOCK_DGRAM)]; inversion E; subst.
    + split; [exact H|]. split; [exact R|]. split; [reflexivity|]. split; [discriminate|reflexivity].
    + split; [exact H|]. split; [exact R|]. split; [reflexivity|]. split; [discriminate|reflexivity].
    + split; [exact H|]. split; [exact R|]. split; [exact P|]. split; [discriminate|]. intros Q; now elim Q.
  - inversion E; subst. split; [exact H|]. split; [exact R|]. split; [exact P|]. split; [discriminate|]. intros Q; now elim Q.
Qed.

Lemma is_v4b_ok a : addr_wf a -> is_ipv4 a = is_v4b (value a).
Proof. intros W. rewrite is_ipv4_bool by auto. reflexivity. Qed.

Lemma recvfrom_shape a s n t p4 p6 b r : addr_wf a ->
  recvfrom a s n t p4 p6 = (b, r) -> opt_ok sockname_ok n -> opt_ok sockaddr_in_ok p4 ->
  (ip_name s n = None /\ b = a)
  \/ (exists x, gives_endpoint (mk_event (Op_recvfrom s n t p4 p6) r) = Some x /\ holds b x /\ rest_same a b
       /\ f_protocol b = match socket_protocol s n t with Some p => p | None => f_protocol a end).
Proof.
  intros W E N N4. unfold recvfrom in E. destruct (set_from_socket a s n t) as [a1 r1] eqn:E1.
  pose proof (set_from_socket_wf _ _ _ _ _ _ W N E1) as W1.
  destruct (from_socket_shape _ _ _ _ _ _ E1 N) as [(K & -> & Q)|(w & K & H & R & P & Q)].
  - left. split; [exact K|]. destruct r1 as [[]| | |]; [now elim Q|inversion E; reflexivity..].
  - right. cbn [gives_endpoint call]. rewrite K.
    destruct (socket_protocol s n t) as [pr|] eqn:SP.
    + assert (r1 = Ok tt) by (apply Q; discriminate). subst r1. rewrite P in E.
      destruct (pr =? IPPROTO_UDP) eqn:U; cbn [negb] in E.
      * rewrite is_v4b_ok in E by auto. destruct H as (V & H'). rewrite V in E. unfold sender.
        destruct (is_v4b (e_ip (endpoint_name w))).
        -- destruct p4 as [x|].
           ++ destruct (set_ipv4_shape _ _ _ _ E N4) as [(F & -> & _)|(F & _ & V4 & P4 & F4 & S4 & R4)].
              ** replace (sin_family x =? AF_INET) with false by lia. exists (endpoint_name w). unfold holds. tauto.
              ** replace (sin_family x =? AF_INET) with true by lia. exists (endpoint_in x). unfold holds, rest_same in *.
                 intuition congruence.
           ++ inversion E; subst. exists (endpoint_name w). unfold holds. tauto.
        -- destruct p6 as [x|].
           ++ destruct (set_ipv6_shape _ _ _ _ E) as [(F & -> & _)|(F & _ & V4 & P4 & F4 & S4 & R4)].
              ** replace (sin6_family x =? AF_INET6) with false by lia. exists (endpoint_name w). unfold holds. tauto.
              ** replace (sin6_family x =? AF_INET6) with true by lia. exists (endpoint_in6 x). unfold holds, rest_same in *.
                 intuition congruence.
           ++ inversion E; subst. exists (endpoint_name w). unfold holds. tauto.
      * inversion E; subst. exists (endpoint_name w). tauto.
    + exists (endpoint_name w). destruct r1 as [[]| | |]; [assert (@None Z <> None) by (now apply Q); congruence|inversion E; subst; tauto..].
Qed.

Lemma agrees_port y h a b op r p :
  agrees y h a -> get_port b = p -> f_port_defined b = true ->
  value b = value a -> sin6_flowinfo (f_address b) = sin6_flowinfo (f_address a) ->
  sin6_scope_id (f_address b) = sin6_scope_id (f_address a) -> f_protocol_defined b = f_protocol_defined a ->
  f_mask b = f_mask a -> f_mask_defined b = f_mask_defined a -> f_interface b = f_interface a ->
  f_hostname b = f_hostname a -> f_protocol b = f_protocol a ->
  match op with Op_set_port _ | Op_set_port_str _ => True | _ => False end ->
  gives_port y h (mk_event op r) = Some p -> agrees y (mk_event op r :: h) b.
Proof.
  intros A P D V F S D2 M D3 I H Pr K G.
  held; unfold gives_port_flag; rewrite ?G; destruct op; try contradiction; cbn; congruence.
Qed.

Lemma set_port_shape a p b r : set_port a p = (b, r) ->
  (r = Throw E_invalid_argument /\ b = a /\ ~ 0 <= p <= 65535)
  \/ (r = Ok tt /\ 0 <= p <= 65535 /\ b = with_sin6_port (with_port_defined a true) (bswap16 p)).
Proof.
  unfold set_port. destruct ((p >? 65535) || (p <? 0)) eqn:K; intros E; inversion E; subst.
  - left. split; [auto|]. split; [auto|lia].
  - right. split; [auto|]. split; [lia|auto].
Qed.

Lemma agrees_protocol y h a op p b r : set_protocol a p = (b, r) -> agrees y h a ->
  gives_protocol y h (mk_event op r) = (if accepted (mk_event op r) then Some p else None) ->
  match op with Op_set_protocol _ | Op_set_protocol_str _ => True | _ => False end ->
  agrees y (mk_event op r :: h) b.
Proof.
  intros E A G K. unfold set_protocol in E.
  destruct ((p =? IPPROTO_IP) || (p =? IPPROTO_TCP) || (p =? IPPROTO_UDP)).
  - destruct (p =? f_protocol a) eqn:Q; cbn [negb] in E; inversion E; subst; cbn [accepted outcome] in G;
      held; unfold gives_protocol_flag; rewrite ?G;
      destruct op; try contradiction; cbn; fold (protocol_told y h) in *; rewrite <- ?ag_protocol0, ?Q; try assumption;
      try reflexivity; lia.
  - inversion E; subst. apply agrees_silent; auto. cbn [accepted outcome] in G.
    destruct op; try contradiction; unfold silent, gives_protocol_flag; cbn [call];
      intros r0; change (gives_protocol y r0 ?e) with (gives_protocol y h e); rewrite G; repeat split.
Qed.

Lemma s32_low v : 0 <= s32 v <= 65535 -> s32 v = v mod 2 ^ 32.
Proof. unfold s32. change (2 ^ 31) with 2147483648. change (2 ^ 32) with 4294967296. pose proof (Z.mod_pos_bound v 4294967296 ltac:(lia)). lia. Qed.

Lemma agrees_step y h a op b r : addr_wf a -> agrees y h a -> addr_op_ok op -> addr_step y a op = (b, r) -> r <> UB ->
  agrees y (mk_event op r :: h) b.
Proof.
  intros W A O E U. destruct op; cbn [addr_step addr_op_ok] in *.
  - (* set_ipv4 *)
    destruct (set_ipv4_shape _ _ _ _ E O) as [(F & -> & ->)|(F & -> & V & P & Fl & S & R1 & R2 & R3 & R4 & R5 & R6 & R7)].
    + apply agrees_silent; [|exact A]. repeat split.
    + eapply agrees_endpoint; try eassumption; reflexivity.
  - (* set_ipv4_loopback *)
    unfold set_ipv4_loopback in E.
    destruct (set_ipv4_shape _ _ _ _ E) as [(F & _)|(F & -> & V & P & Fl & S & R1 & R2 & R3 & R4 & R5 & R6 & R7)].
    + pose proof (wf_port _ W). split; cbn; [unfold AF_INET; lia|]. split; [lia|]. vm_compute. split; [discriminate|reflexivity].
    + elim F. reflexivity.
    + held; cbn; try congruence.
      * etransitivity; [exact V|]. vm_compute. reflexivity.
      * rewrite P. reflexivity.
  - (* set_ipv6 *)
    destruct (set_ipv6_shape _ _ _ _ E) as [(F & -> & ->)|(F & -> & V & P & Fl & S & R1 & R2 & R3 & R4 & R5 & R6 & R7)].
    + apply agrees_silent; [|exact A]. repeat split.
    + eapply agrees_endpoint; try eassumption; reflexivity.
  - (* set_ipv6_loopback *)
    unfold set_ipv6_loopback in E.
    destruct (set_ipv6_shape _ _ _ _ E) as [(F & _)|(F & -> & V & P & Fl & S & R1 & R2 & R3 & R4 & R5 & R6 & R7)].
    + elim F. reflexivity.
    + held; cbn; try congruence.
      * etransitivity; [exact V|]. vm_compute. reflexivity.
      * rewrite P. reflexivity.
      * rewrite Fl. reflexivity.
      * rewrite S. reflexivity.
  - inversion E; subst. held; cbn; assumption || reflexivity.
  - (* set_port *)
    destruct (set_port_shape _ _ _ _ E) as [(-> & -> & _)|(-> & R & ->)].
    + apply agrees_silent; [|exact A]. repeat split.
    + eapply (agrees_port y h a _ _ _ p A); try reflexivity; try exact I.
      unfold get_port; cbn. apply bswap16_invol. lia.
  - (* set_port(name) *)
    unfold drop_result in E. unfold set_port_str in E.
    destruct (convert_string y p) as [v|] eqn:C.
    + destruct (set_port a (s32 v)) as [a' r'] eqn:E'. cbn in E. inversion E; subst.
      destruct (set_port_shape _ _ _ _ E') as [(-> & -> & _)|(-> & R & ->)]; cbn [rbind] in *.
      * apply agrees_silent; [|exact A]. repeat split.
      * eapply (agrees_port y h a _ _ _ (v mod 2 ^ 32) A); try reflexivity; try exact I.
        -- rewrite <- s32_low by exact R. unfold get_port; cbn [f_address with_sin6_port with_address sin6_port]. apply bswap16_invol. lia.
        -- cbn [gives_port call accepted outcome]. unfold port_text. rewrite C. reflexivity.
    + unfold get_protocol_name in E. rewrite (ag_protocol _ _ _ A) in E.
      assert (G : forall n, (getprotobynumber y (protocol_told y h) = Found n \/ getprotobynumber y (protocol_told y h) = Failed /\ n = []) ->
        port_text y h p = match getservbyname y p n with Found sp => Some (bswap16 sp) | _ => None end).
      { intros n [N|[N ->]]; unfold port_text; rewrite C, N; reflexivity. }
      assert (K : forall n, (getprotobynumber y (protocol_told y h) = Found n \/ getprotobynumber y (protocol_told y h) = Failed /\ n = []) ->
        (let x := match getservbyname y p n with
          | Found sp => let '(a', r) := set_port a (bswap16 sp) in (a', let! _ := r in Ok true)
          | NoEntry | Failed => (a, Ok false) end in (fst x, let! _ := snd x in Ok tt)) = (b, r) ->
        agrees y (mk_event (Op_set_port_str p) r :: h) b).
      { intros n N X. specialize (G n N). destruct (getservbyname y p n) as [sp| |].
        - destruct (set_port a (bswap16 sp)) as [a' r'] eqn:E'. cbn in X. inversion X; subst.
          pose proof (bswap16_range sp).
          destruct (set_port_shape _ _ _ _ E') as [(_ & _ & Q)|(-> & R & ->)]; [lia|]. cbn [rbind] in *.
          eapply (agrees_port y h a _ _ _ (bswap16 sp) A); try reflexivity; try exact I.
          + unfold get_port; cbn [f_address with_sin6_port with_address sin6_port]. apply bswap16_invol. lia.
          + cbn [gives_port call accepted outcome]. exact G.
        - inversion X; subst. held; unfold gives_port_flag; cbn [gives_port call accepted outcome rbind]; rewrite ?G; cbn; assumption || reflexivity.
        - inversion X; subst. held; unfold gives_port_flag; cbn [gives_port call accepted outcome rbind]; rewrite ?G; cbn; assumption || reflexivity. }
      destruct (getprotobynumber y (protocol_told y h)) as [n| |].
      * apply (K n); auto.
      * cbn in E. inversion E; subst. now elim U.
      * apply (K []); auto.
  - inversion E; subst. held; cbn; assumption || reflexivity.
  - (* set_protocol *) eapply agrees_protocol; try eassumption; [reflexivity|exact I].
  - (* set_protocol(name) *)
    destruct p as [s|]; cbn [set_protocol_str] in E.
    + destruct (getprotobyname y s) as [n| |] eqn:G.
      * eapply agrees_protocol; try eassumption; try exact I. cbn [gives_protocol call]. rewrite G. reflexivity.
      * inversion E; subst. apply agrees_silent; [|exact A]. unfold silent, gives_protocol_flag; cbn. repeat split.
      * inversion E; subst. apply agrees_silent; [|exact A]. unfold silent, gives_protocol_flag; cbn. repeat split.
    + inversion E; subst. apply agrees_silent; [|exact A]. repeat split.
  - inversion E; subst. held; cbn; assumption || reflexivity.
  - inversion E; subst. held; cbn; assumption || reflexivity.
  - (* set_mask_count *)
    pose proof (set_mask_count_spec a n W) as S. cbv zeta in S.
    destruct (((if is_ipv4 a then 96 else 0) <=? n) && (n <=? 128)) eqn:K.
    + destruct S as (c & E' & _ & M & _). rewrite E in E'. inversion E'; subst c r.
      assert (b = with_mask (with_mask_defined a true) (mask_count_bytes 16 n)).
      { unfold set_mask_count in E. destruct ((n <? _) || (n >? 128)); [discriminate|]. remember (mask_count_bytes 16 n) as m. congruence. }
      unfold mask_value in M. subst b. held; cbn [gives_mask gives_mask_flag call accepted outcome]; try exact M; cbn; assumption || reflexivity.
    + rewrite E in S. inversion S; subst. apply agrees_silent; [|exact A]. repeat split.
  - (* apply_mask *)
    inversion E; subst. destruct inversed.
    + eapply agrees_moved; [apply apply_mask_same|exact (proj2 (apply_mask_true a W))| |exact A].
      intros r. rewrite (ag_value _ _ _ A), (ag_mask _ _ _ A). cbn [address_told call]. repeat split.
    + eapply agrees_moved; [apply apply_mask_same|exact (proj2 (apply_mask_false a W))| |exact A].
      intros r. rewrite (ag_value _ _ _ A), (ag_mask _ _ _ A). cbn [address_told call]. repeat split.
  - (* ip_from_uint128 *)
    inversion E; subst. destruct (ip_from_spec a u O) as [_ V].
    eapply agrees_moved; [apply ip_from_same|exact V| |exact A]. repeat split.
  - inversion E; subst. held; cbn; assumption || reflexivity.
  - inversion E; subst. held; cbn; assumption || reflexivity.
  - (* get_network_type *)
    inversion E; subst. unfold get_network_type.
    destruct (f_private_network a); try (apply agrees_silent; [repeat split|exact A]).
    cbn [fst]. held; cbn; assumption || reflexivity.
  - inversion E; subst. destruct (incr_moved a W) as (_ & S & V). eapply agrees_moved; [exact S|exact V| |exact A].
    intros r. cbn [address_told call]. rewrite (ag_value _ _ _ A). repeat split.
  - inversion E; subst. destruct (decr_moved a W) as (_ & S & V). eapply agrees_moved; [exact S|exact V| |exact A].
    intros r. cbn [address_told call]. rewrite (ag_value _ _ _ A). repeat split.
  - assert (n <> INT_MIN).
    { intros ->. apply U. unfold add_assign, neg_int in E. cbn in E. congruence. }
    destruct (add_assign_moved a n W O H) as (c & E' & _ & S & V). rewrite E in E'. inversion E'; subst.
    eapply agrees_moved; [exact S|exact V| |exact A].
    intros r. cbn [address_told call]. rewrite (ag_value _ _ _ A). repeat split.
  - assert (n <> INT_MIN).
    { intros ->. apply U. unfold sub_assign, neg_int in E. cbn in E. congruence. }
    destruct (sub_assign_moved a n W O H) as (c & E' & _ & S & V). rewrite E in E'. inversion E'; subst.
    eapply agrees_moved; [exact S|exact V| |exact A].
    intros r. cbn [address_told call]. rewrite (ag_value _ _ _ A). repeat split.
  - (* set_from_socket *)
    destruct (from_socket_shape _ _ _ _ _ _ E O) as [(K & -> & Q)|(w & K & (V & P & F & S) & (R1 & R2 & R3 & R4 & R5 & R6) & Pr & _)].
    + apply agrees_silent; [|exact A]. unfold silent, gives_protocol_flag, gives_port_flag, gives_flow, gives_scope, gives_port.
      cbn [call address_told gives_endpoint gives_protocol]. unfold socket_protocol. rewrite K. repeat split.
    + eapply agrees_endpoint; try eassumption. cbn [gives_endpoint call]. rewrite K. reflexivity.
  - (* recvfrom *)
    destruct O as (O1 & O2 & O3).
    destruct (recvfrom_shape _ _ _ _ _ _ _ _ W E O1 O2) as [(K & ->)|(x & G & (V & P & F & S) & (R1 & R2 & R3 & R4 & R5 & R6) & Pr)].
    + apply agrees_silent; [|exact A]. unfold silent, gives_protocol_flag, gives_port_flag, gives_flow, gives_scope, gives_port.
      cbn [call address_told gives_endpoint gives_protocol]. unfold socket_protocol. rewrite K. repeat split.
    + eapply agrees_endpoint; try eassumption.
Qed.

Lemma lived_agrees y h a : lived y h a -> agrees y h a.
Proof.
  induction 1 as [|h a op b r L IH O E U].
  - constructor; reflexivity.
  - eapply agrees_step; eauto. eapply reachable_wf, lived_reachable; eauto.
Qed.
