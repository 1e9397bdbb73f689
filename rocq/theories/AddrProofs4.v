From Verif Require Import Base Addr Spec AddrProofs AddrProofs2 AddrProofs3.
From Coq Require Import ZifyBool ZifyNat.
Local Open Scope Z_scope.
Ltac Zify.zify_post_hook ::= Z.div_mod_to_equations.

(* ---------- the memoised network type ---------- *)

Definition memo_ok (a : addr) : Prop :=
  f_private_network a = NETWORK_TYPE_UNDEFINED
  \/ f_private_network a = spec_network_type (value a).

Lemma memo_ok_type a : addr_wf a -> memo_ok a ->
  snd (get_network_type a) = spec_network_type (value a).
Proof.
  intros W [H|H].
  - now apply network_type_spec.
  - unfold get_network_type. rewrite H. pose proof (spec_network_defined (value a)).
    destruct (spec_network_type (value a)) eqn:E; try reflexivity. congruence.
Qed.

Lemma memo_same a b : s6 b = s6 a -> f_private_network b = f_private_network a ->
  memo_ok a -> memo_ok b.
Proof. unfold memo_ok, value. intros -> ->. auto. Qed.

Lemma set_port_memo a p b r : set_port a p = (b, r) -> memo_ok a -> memo_ok b.
Proof. unfold set_port. destruct (_ || _); intros H; inversion H; subst; auto. Qed.

Lemma set_protocol_memo a p b r : set_protocol a p = (b, r) -> memo_ok a -> memo_ok b.
Proof.
  unfold set_protocol. destruct (_ || _ || _); [destruct (negb _)|]; intros H; inversion H; subst; auto.
  intros _. left. reflexivity.
Qed.

Lemma set_ipv4_memo_ok a x b r : set_ipv4 a x = (b, r) -> memo_ok a -> memo_ok b.
Proof.
  unfold set_ipv4. destruct (negb _); intros H; inversion H; subst; auto.
  intros _. left. reflexivity.
Qed.
Lemma set_ipv6_memo_ok a x b r : set_ipv6 a x = (b, r) -> memo_ok a -> memo_ok b.
Proof.
  unfold set_ipv6. destruct (negb _); intros H; inversion H; subst; auto.
  intros _. left. reflexivity.
Qed.

Lemma set_from_socket_memo a s n t b r : set_from_socket a s n t = (b, r) -> memo_ok a -> memo_ok b.
Proof.
  unfold set_from_socket. intros E M.
  destruct (s <? 0); [inversion E; now subst|].
  destruct n as [n|]; [|inversion E; now subst].
  destruct (match n with SN_in _ => _ | SN_in6 _ => _ | SN_other => _ end) as [a1 r1] eqn:E1.
  assert (M1 : memo_ok a1).
  { destruct n; [eapply set_ipv4_memo_ok; eauto|eapply set_ipv6_memo_ok; eauto|inversion E1; now subst]. }
  destruct r1; [|inversion E; now subst..].
  destruct t as [t|]; [|inversion E; now subst].
  destruct (t =? SOCK_STREAM); [inversion E; subst; exact M1|].
  destruct (t =? SOCK_DGRAM); inversion E; subst; exact M1.
Qed.

Lemma recvfrom_memo a s n t p4 p6 b r : recvfrom a s n t p4 p6 = (b, r) -> memo_ok a -> memo_ok b.
Proof.
  unfold recvfrom. intros E M.
  destruct (set_from_socket a s n t) as [a1 r1] eqn:E1.
  pose proof (set_from_socket_memo _ _ _ _ _ _ E1 M) as M1.
  destruct r1; [|inversion E; now subst..].
  destruct (negb _); [inversion E; now subst|].
  destruct (is_ipv4 a1); [destruct p4|destruct p6]; try (inversion E; now subst).
  - eapply set_ipv4_memo_ok; eauto.
  - eapply set_ipv6_memo_ok; eauto.
Qed.

Lemma step_memo y a op b r : addr_wf a -> memo_ok a -> in_place op = false ->
  addr_step y a op = (b, r) -> memo_ok b.
Proof.
  intros W M I E. destruct op; cbn [addr_step in_place] in *; try discriminate;
    try (inversion E; subst; exact M).
  - eapply set_ipv4_memo_ok; eauto.
  - eapply set_ipv4_memo_ok; eauto.
  - eapply set_ipv6_memo_ok; eauto.
  - eapply set_ipv6_memo_ok; eauto.
  - eapply set_port_memo; eauto.
  - unfold drop_result in E. inversion E; subst. clear E.
    unfold set_port_str. destruct (convert_string y p) as [v|].
    + destruct (set_port a (s32 v)) eqn:E'. cbn. eapply set_port_memo; eauto.
    + destruct (get_protocol_name y a); auto. destruct (getservbyname y p _); auto.
      destruct (set_port a (bswap16 _)) eqn:E'. cbn. eapply set_port_memo; eauto.
  - eapply set_protocol_memo; eauto.
  - unfold set_protocol_str in E. destruct p; [|inversion E; now subst].
    destruct (getprotobyname y s); try (inversion E; now subst). eapply set_protocol_memo; eauto.
  - unfold set_mask_count in E. cbv zeta in E. apply (f_equal fst) in E.
    destruct (_ || _) in E; cbn [fst] in E; subst b; exact M.
  - inversion E; subst. pose proof (memo_ok_type a W M) as T. revert T.
    unfold get_network_type. destruct (f_private_network a) eqn:F; cbn [fst snd]; auto.
    intros T. right. exact T.
  - eapply set_from_socket_memo; eauto.
  - eapply recvfrom_memo; eauto.
Qed.

Lemma rwip_inv y a : reachable_without_in_place y a -> addr_wf a /\ memo_ok a.
Proof.
  induction 1 as [|a op a' r R [W M] Hop I E Hr].
  - split; [apply new_wf|left; reflexivity].
  - split; [eapply step_wf; eauto|eapply step_memo; eauto].
Qed.

Lemma type_current y a : reachable_without_in_place y a ->
  snd (get_network_type a) = spec_network_type (value a).
Proof. intros R. destruct (rwip_inv y a R). now apply memo_ok_type. Qed.

(* a history after which the type is stale: loopback, query, then 8.8.8.8 *)
Definition stale_1 : addr := fst (set_ipv4_loopback addr_new).
Definition stale_2 : addr := fst (get_network_type stale_1).
Definition stale_3 : addr := ip_from_uint128 stale_2 (v4_base + quad 8 8 8 8).

Lemma stale_reachable y : reachable y stale_3.
Proof.
  apply (reach_step y stale_2 (Op_ip_from_uint128 (v4_base + quad 8 8 8 8)) stale_3 (Ok tt)).
  - apply (reach_step y stale_1 Op_get_network_type stale_2 (Ok tt)).
    + apply (reach_step y addr_new Op_set_ipv4_loopback stale_1 (Ok tt)).
      * constructor.
      * exact I.
      * reflexivity.
      * discriminate.
    + exact I.
    + reflexivity.
    + discriminate.
  - cbn [addr_op_ok]. unfold v4_base, quad. lia.
  - reflexivity.
  - discriminate.
Qed.

Lemma stale_wrong :
  snd (get_network_type stale_3) = NETWORK_TYPE_LOOPBACK
  /\ spec_network_type (value stale_3) = NETWORK_TYPE_PUBLIC
  /\ value stale_3 = v4_base + quad 8 8 8 8.
Proof. vm_compute. auto. Qed.

(* ---------- protocol ---------- *)

Lemma set_protocol_ok_spec a p : addr_wf a ->
  (protocol_ok p /\ exists b, set_protocol a p = (b, Ok tt) /\ get_protocol b = p
     /\ f_address b = f_address a /\ f_mask b = f_mask a
     /\ is_protocol_defined b = (is_protocol_defined a || negb (p =? get_protocol a))%bool)
  \/ (~ protocol_ok p /\ set_protocol a p = (a, Throw E_invalid_argument)).
Proof.
  intros W. unfold set_protocol, protocol_ok, get_protocol, is_protocol_defined.
  destruct ((p =? IPPROTO_IP) || (p =? IPPROTO_TCP) || (p =? IPPROTO_UDP)) eqn:E.
  - left. split; [lia|]. destruct (p =? f_protocol a) eqn:E2; cbn [negb].
    + exists a. rewrite orb_false_r. repeat split; auto; lia.
    + eexists. split; [reflexivity|]. cbn. rewrite orb_true_r. auto.
  - right. split; [lia|reflexivity].
Qed.

(* ---------- undefined behaviour ---------- *)

Lemma set_port_not_ub a p b r : set_port a p = (b, r) -> r <> UB /\ r <> OutOfFuel.
Proof. unfold set_port. destruct (_ || _); intros H; inversion H; split; discriminate. Qed.
Lemma set_protocol_not_ub a p b r : set_protocol a p = (b, r) -> r <> UB /\ r <> OutOfFuel.
Proof. unfold set_protocol. destruct (_ || _); [destruct (negb _)|]; intros H; inversion H; split; discriminate. Qed.
Lemma set_ipv4_not_ub a x b r : set_ipv4 a x = (b, r) -> r <> UB /\ r <> OutOfFuel.
Proof. unfold set_ipv4. destruct (negb _); intros H; inversion H; split; discriminate. Qed.
Lemma set_ipv6_not_ub a x b r : set_ipv6 a x = (b, r) -> r <> UB /\ r <> OutOfFuel.
Proof. unfold set_ipv6. destruct (negb _); intros H; inversion H; split; discriminate. Qed.
Lemma set_from_socket_not_ub a s n t b r : set_from_socket a s n t = (b, r) -> r <> UB /\ r <> OutOfFuel.
Proof.
  unfold set_from_socket. intros E.
  destruct (s <? 0); [inversion E; split; discriminate|].
  destruct n as [n|]; [|inversion E; split; discriminate].
  destruct (match n with SN_in _ => _ | SN_in6 _ => _ | SN_other => _ end) as [a1 r1] eqn:E1.
  assert (M1 : r1 <> UB /\ r1 <> OutOfFuel).
  { destruct n; [eapply set_ipv4_not_ub; eauto|eapply set_ipv6_not_ub; eauto|inversion E1; split; discriminate]. }
  destruct r1; try (inversion E; subst; auto; split; discriminate); try tauto.
  destruct t as [t|]; [|inversion E; split; discriminate].
  destruct (t =? SOCK_STREAM); [inversion E; split; discriminate|].
  destruct (t =? SOCK_DGRAM); inversion E; split; discriminate.
Qed.

Lemma step_ub y a op b r : addr_op_ok op -> addr_step y a op = (b, r) ->
  r <> OutOfFuel /\ (r = UB <-> out_of_contract y a op).
Proof.
  intros Hop E.
  assert (K : r <> UB /\ r <> OutOfFuel -> (out_of_contract y a op -> False) ->
              r <> OutOfFuel /\ (r = UB <-> out_of_contract y a op)) by tauto.
  destruct op; cbn [addr_step out_of_contract addr_op_ok] in *;
    try (inversion E; subst; split; [discriminate|split; [discriminate|tauto]]).
  - apply K; [|tauto]. eapply set_ipv4_not_ub; exact E.
  - apply K; [|tauto]. eapply set_ipv6_not_ub; exact E.
  - apply K; [|tauto]. eapply set_port_not_ub; eauto.
  - unfold drop_result in E. inversion E; subst. clear E K.
    unfold set_port_str, get_protocol_name, get_protocol.
    destruct (convert_string y p) as [v|].
    + destruct (set_port a (s32 v)) as [a' r'] eqn:E. apply set_port_not_ub in E.
      destruct r'; cbn; split; try tauto; try discriminate;
        (split; [discriminate|intros [? _]; discriminate]).
    + destruct (getprotobynumber y (f_protocol a)).
      * destruct (getservbyname y p a0).
        -- destruct (set_port a (bswap16 a1)) as [a' r'] eqn:E. apply set_port_not_ub in E.
           destruct r'; cbn; split; try tauto; try discriminate;
             (split; [discriminate|intros [_ ?]; discriminate]).
        -- cbn. split; [discriminate|]. split; [discriminate|intros [_ ?]; discriminate].
        -- cbn. split; [discriminate|]. split; [discriminate|intros [_ ?]; discriminate].
      * cbn. split; [discriminate|]. tauto.
      * destruct (getservbyname y p []).
        -- destruct (set_port a (bswap16 a0)) as [a' r'] eqn:E. apply set_port_not_ub in E.
           destruct r'; cbn; split; try tauto; try discriminate;
             (split; [discriminate|intros [_ ?]; discriminate]).
        -- cbn. split; [discriminate|]. split; [discriminate|intros [_ ?]; discriminate].
        -- cbn. split; [discriminate|]. split; [discriminate|intros [_ ?]; discriminate].
  - apply K; [|tauto]. eapply set_protocol_not_ub; eauto.
  - apply K; [|tauto]. unfold set_protocol_str in E.
    destruct p; [|inversion E; split; discriminate].
    destruct (getprotobyname y s); try (inversion E; split; discriminate).
    eapply set_protocol_not_ub; eauto.
  - apply K; [|tauto]. unfold set_mask_count in E. cbv zeta in E. apply (f_equal snd) in E.
    destruct (_ || _) in E; cbn [snd] in E; subst r; split; discriminate.
  - unfold add_assign, neg_int, INT_MIN in *. clear K. destruct (n <? 0) eqn:N.
    + destruct (n =? - 2 ^ 31) eqn:M; inversion E; subst; split; try discriminate.
      * split; auto. intros _. lia.
      * split; [discriminate|lia].
    + inversion E; subst. split; [discriminate|]. split; [discriminate|lia].
  - unfold sub_assign, neg_int, INT_MIN in *. clear K. destruct (n <? 0) eqn:N.
    + destruct (n =? - 2 ^ 31) eqn:M; inversion E; subst; split; try discriminate.
      * split; auto. intros _. lia.
      * split; [discriminate|lia].
    + inversion E; subst. split; [discriminate|]. split; [discriminate|lia].
  - apply K; [|tauto]. eapply set_from_socket_not_ub; eauto.
  - apply K; [|tauto]. unfold recvfrom in E.
    destruct (set_from_socket a s name type) as [a1 r1] eqn:E1.
    apply set_from_socket_not_ub in E1.
    destruct r1; try (inversion E; subst; tauto).
    destruct (negb _); [inversion E; subst; split; discriminate|].
    destruct (is_ipv4 a1); [destruct peer4|destruct peer6]; try (inversion E; subst; split; discriminate).
    + eapply set_ipv4_not_ub; eauto.
    + eapply set_ipv6_not_ub; eauto.
Qed.

(* ---------- lan, wan, default ---------- *)

Lemma lan_wan_disjoint a x y : snd (is_lan a x) = true -> snd (is_wan a y) = true -> False.
Proof.
  unfold is_lan, is_wan. destruct (get_network_type a) as [a' t]. cbn [snd].
  destruct t, x, y; discriminate.
Qed.

Lemma net_lookup_not ty w v t : ty <> NETWORK_TYPE_PUBLIC ->
  net_lookup w v t = ty -> exists net n, In (net, n, ty) t /\ in_net w net n v = true.
Proof.
  intros P. induction t as [|[[net n] ty'] r IH]; cbn [net_lookup]; [congruence|].
  destruct (in_net w net n v) eqn:E.
  - intros ->. exists net, n. split; auto. now left.
  - intros H. destruct (IH H) as (net' & n' & I & J). exists net', n'. split; auto. now right.
Qed.

Lemma any_value v : 0 <= v < 2 ^ 128 ->
  (spec_network_type v = NETWORK_TYPE_ANY <-> v = 0 \/ v = v4_base).
Proof.
  intros Hv. split.
  - unfold spec_network_type. destruct (_ && _) eqn:E; intros H;
      apply net_lookup_not in H; try discriminate; destruct H as (net & n & I & J).
    + right. unfold table4 in I. cbn [In] in I.
      repeat (destruct I as [I|I]; [try discriminate I|]); try contradiction.
      inversion I; subst. unfold in_net in J. change (2 ^ (32 - 32)) with 1 in J.
      rewrite !Z.div_1_r in J. change (quad 0 0 0 0) with 0 in J. lia.
    + left. unfold table6, nibbles in I. cbn [In app map] in I.
      repeat (destruct I as [I|I]; [try discriminate I|]); try contradiction.
      inversion I; subst. rewrite I_128 in J. lia.
  - intros [->| ->]; vm_compute; reflexivity.
Qed.

(* the documentation blocks, spelled out *)
Definition documentation (v : Z) : Prop :=
  in_net 128 (group0 0x2001 + 0x0DB8 * 2 ^ 96) 32 v = true
  \/ in_net 128 (group0 0x3FFF) 20 v = true.

Lemma lan_spec a x : addr_wf a -> memo_ok a ->
  snd (is_lan a x) = match spec_network_type (value a) with
    | NETWORK_TYPE_PRIVATE | NETWORK_TYPE_LOOPBACK => true
    | NETWORK_TYPE_CARRIER | NETWORK_TYPE_LINK_LOCAL | NETWORK_TYPE_MULTICAST => x
    | _ => false end.
Proof.
  intros W M. rewrite <- (memo_ok_type a W M). unfold is_lan.
  destruct (get_network_type a) as [a' t]. reflexivity.
Qed.
Lemma wan_spec a x : addr_wf a -> memo_ok a ->
  snd (is_wan a x) = match spec_network_type (value a) with
    | NETWORK_TYPE_UNKNOWN => true | NETWORK_TYPE_ANY => x | _ => false end.
Proof.
  intros W M. rewrite <- (memo_ok_type a W M). unfold is_wan.
  destruct (get_network_type a) as [a' t]. reflexivity.
Qed.
Lemma valid_spec a : addr_wf a -> memo_ok a ->
  (snd (is_valid a) = false <-> spec_network_type (value a) = NETWORK_TYPE_DOCUMENTATION).
Proof.
  intros W M. pose proof (memo_ok_type a W M) as T. pose proof (spec_network_defined (value a)) as D.
  rewrite <- T in *. unfold is_valid.
  destruct (get_network_type a) as [a' t]. cbn [snd] in *. destruct t; split; auto; try discriminate; congruence.
Qed.

(* a decidable version of addr_wf for examples *)
Definition bytes16b (l : list Z) : bool := (length l =? 16)%nat && forallb is_byteb l.
Definition addr_wfb (a : addr) : bool :=
  (sin6_family (f_address a) =? AF_INET6)
  && (0 <=? sin6_port (f_address a)) && (sin6_port (f_address a) <? 2 ^ 16)
  && (0 <=? sin6_flowinfo (f_address a)) && (sin6_flowinfo (f_address a) <? 2 ^ 32)
  && bytes16b (s6 a)
  && (0 <=? sin6_scope_id (f_address a)) && (sin6_scope_id (f_address a) <? 2 ^ 32)
  && bytes16b (f_mask a)
  && ((f_protocol a =? IPPROTO_IP) || (f_protocol a =? IPPROTO_TCP) || (f_protocol a =? IPPROTO_UDP)).

Lemma bytes16b_ok l : bytes16b l = true -> bytes16 l.
Proof.
  unfold bytes16b. rewrite andb_true_iff. intros [A B]. split; [now apply Nat.eqb_eq|].
  apply Forall_forall. rewrite forallb_forall in B. intros x Hx. now apply is_byteb_spec, B.
Qed.

Lemma addr_wfb_ok a : addr_wfb a = true -> addr_wf a.
Proof.
  unfold addr_wfb. rewrite !andb_true_iff.
  intros [[[[[[[[[A B] C] D] E] F] G] H] I] J].
  constructor; try lia; try (now apply bytes16b_ok). unfold protocol_ok. lia.
Qed.

(* decimal conversion: a concrete service *)
Definition ref_convert (s : str) : option Z :=
  match s with
  | [] => None
  | _ => if forallb is_digit s && (decimal_value s <? 2 ^ 63) then Some (decimal_value s) else None
  end.
Definition ref_sys : sys :=
  mk_sys ref_convert
    (fun n _ => if str_eqb n (lit "http") then Found (bswap16 80) else NoEntry)
    (fun p _ => if p =? bswap16 80 then Found (lit "http") else NoEntry)
    (fun n => if str_eqb n (lit "tcp") then Found IPPROTO_TCP
              else if str_eqb n (lit "udp") then Found IPPROTO_UDP else NoEntry)
    (fun p => if p =? IPPROTO_TCP then Found (lit "tcp")
              else if p =? IPPROTO_UDP then Found (lit "udp") else Found (lit "ip")).
Lemma ref_sys_converts : converts_decimals ref_sys.
Proof.
  intros s v (N & D & V) H. cbn. unfold ref_convert. destruct s as [|c r]; [congruence|].
  rewrite D, V. cbn [andb]. now replace (v <? 2 ^ 63) with true by lia.
Qed.
