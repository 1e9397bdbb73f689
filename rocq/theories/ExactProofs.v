(* Proofs for PropExact.v: the remembered type. *)
From Verif Require Import Base Addr Spec AddrProofs AddrProofs2 AddrProofs3 AddrProofs4 SpecExact.
From Coq Require Import ZifyBool ZifyNat.
Local Open Scope Z_scope.

(* f_private_network of an object with history m *)
Definition memo (a : addr) (m : option Z) : Prop :=
  f_private_network a = match m with None => NETWORK_TYPE_UNDEFINED | Some v => spec_network_type v end.

Lemma memo_type a m : addr_wf a -> memo a m ->
  snd (get_network_type a) = spec_network_type (match m with Some v => v | None => value a end).
Proof.
  unfold memo. destruct m as [v|]; intros W H.
  - unfold get_network_type. rewrite H. pose proof (spec_network_defined v).
    destruct (spec_network_type v); try reflexivity. congruence.
  - now apply network_type_spec.
Qed.

Lemma set_port_f a p : f_private_network (fst (set_port a p)) = f_private_network a.
Proof. unfold set_port. now destruct (_ || _). Qed.

Lemma set_protocol_f a p b r : set_protocol a p = (b, r) ->
  f_private_network b = if negb (get_protocol b =? get_protocol a) then NETWORK_TYPE_UNDEFINED else f_private_network a.
Proof.
  unfold set_protocol, get_protocol. destruct (_ || _ || _); [destruct (negb _) eqn:E|]; intros H; inversion H; subst; cbn;
    try (rewrite Z.eqb_refl; reflexivity). 
  now rewrite E.
Qed.

Lemma set_ipv4_f a x b r : set_ipv4 a x = (b, r) ->
  f_private_network b = match r with Ok _ => NETWORK_TYPE_UNDEFINED | _ => f_private_network a end.
Proof. unfold set_ipv4. destruct (negb _); intros H; inversion H; subst; reflexivity. Qed.
Lemma set_ipv6_f a x b r : set_ipv6 a x = (b, r) ->
  f_private_network b = match r with Ok _ => NETWORK_TYPE_UNDEFINED | _ => f_private_network a end.
Proof. unfold set_ipv6. destruct (negb _); intros H; inversion H; subst; reflexivity. Qed.

Definition usable (s : Z) (name : option sockname) : bool :=
  (0 <=? s) && match name with Some (SN_in _) | Some (SN_in6 _) => true | _ => false end.

Lemma set_from_socket_f a s n t b r : set_from_socket a s n t = (b, r) ->
  f_private_network b = (if usable s n then NETWORK_TYPE_UNDEFINED else f_private_network a)
  /\ (usable s n = false -> forall u, r <> Ok u).
Proof.
  unfold set_from_socket, usable. intros E.
  destruct (s <? 0) eqn:S.
  { inversion E; subst. replace (0 <=? s) with false by lia. cbn. split; [reflexivity|discriminate]. }
  replace (0 <=? s) with true by lia. cbn [andb].
  destruct n as [n|]; [|inversion E; subst; split; [reflexivity|discriminate]].
  destruct n as [x|x|].
  - unfold set_ipv4 in E. cbn [sin_family] in E. rewrite Z.eqb_refl in E. cbn [negb] in E.
    destruct t as [t|]; [|inversion E; subst; split; [reflexivity|discriminate]].
    destruct (t =? SOCK_STREAM); [|destruct (t =? SOCK_DGRAM)]; inversion E; subst; split; (reflexivity || discriminate).
  - unfold set_ipv6 in E. cbn [sin6_family] in E. rewrite Z.eqb_refl in E. cbn [negb] in E.
    destruct t as [t|]; [|inversion E; subst; split; [reflexivity|discriminate]].
    destruct (t =? SOCK_STREAM); [|destruct (t =? SOCK_DGRAM)]; inversion E; subst; split; (reflexivity || discriminate).
  - inversion E; subst. split; [reflexivity|discriminate].
Qed.

Lemma recvfrom_f a s n t p4 p6 b r : recvfrom a s n t p4 p6 = (b, r) ->
  f_private_network b = if usable s n then NETWORK_TYPE_UNDEFINED else f_private_network a.
Proof.
  unfold recvfrom. intros E.
  destruct (set_from_socket a s n t) as [a1 r1] eqn:E1.
  destruct (set_from_socket_f _ _ _ _ _ _ E1) as [F N].
  destruct r1 as [u| | |]; [|inversion E; now subst..].
  destruct (usable s n); [|now elim (N eq_refl u)].
  destruct (negb _); [inversion E; now subst|].
  destruct (is_ipv4 a1); [destruct p4|destruct p6]; try (inversion E; now subst).
  - apply set_ipv4_f in E. rewrite E. destruct r; auto.
  - apply set_ipv6_f in E. rewrite E. destruct r; auto.
Qed.

Lemma step_f y a op b r : addr_step y a op = (b, r) ->
  replaces op a b r = false -> asks op = false -> f_private_network b = f_private_network a.
Proof.
  intros E R K. destruct op; cbn [addr_step replaces asks] in *; try discriminate;
    try (inversion E; subst; reflexivity).
  - apply set_ipv4_f in E. rewrite E. destruct r; auto. discriminate.
  - apply set_ipv4_f in E. rewrite E. destruct r; auto. discriminate.
  - apply set_ipv6_f in E. rewrite E. destruct r; auto. discriminate.
  - apply set_ipv6_f in E. rewrite E. destruct r; auto. discriminate.
  - apply (f_equal fst) in E. cbn [fst] in E. subst b. apply set_port_f.
  - unfold drop_result in E. inversion E; subst. clear E.
    unfold set_port_str. destruct (convert_string y p) as [v|].
    + rewrite <- (set_port_f a (s32 v)). now destruct (set_port a (s32 v)).
    + destruct (get_protocol_name y a); auto. destruct (getservbyname y p _) as [sp| |]; auto.
      rewrite <- (set_port_f a (bswap16 sp)). now destruct (set_port a (bswap16 sp)).
  - apply set_protocol_f in E. now rewrite R in E.
  - unfold set_protocol_str in E. destruct p; [|inversion E; now subst].
    destruct (getprotobyname y s); try (inversion E; now subst). apply set_protocol_f in E. now rewrite R in E.
  - unfold set_mask_count in E. cbv zeta in E. apply (f_equal fst) in E.
    destruct (_ || _) in E; cbn [fst] in E; subst b; reflexivity.
  - unfold add_assign in E. destruct (_ <? 0); [destruct (neg_int n)|]; inversion E; subst; reflexivity.
  - unfold sub_assign in E. destruct (_ <? 0); [destruct (neg_int n)|]; inversion E; subst; reflexivity.
  - apply set_from_socket_f in E. destruct E as [E _]. unfold usable in E. now rewrite R in E.
  - apply recvfrom_f in E. unfold usable in E. now rewrite R in E.
Qed.

Lemma step_replaces y a op b r : addr_step y a op = (b, r) ->
  replaces op a b r = true -> f_private_network b = NETWORK_TYPE_UNDEFINED.
Proof.
  intros E R. destruct op; cbn [addr_step replaces] in *; try discriminate.
  - apply set_ipv4_f in E. rewrite E. destruct r; auto; discriminate.
  - apply set_ipv4_f in E. rewrite E. destruct r; auto; discriminate.
  - apply set_ipv6_f in E. rewrite E. destruct r; auto; discriminate.
  - apply set_ipv6_f in E. rewrite E. destruct r; auto; discriminate.
  - apply set_protocol_f in E. now rewrite R in E.
  - unfold set_protocol_str in E. destruct p; [|inversion E; subst; rewrite Z.eqb_refl in R; discriminate].
    destruct (getprotobyname y s); try (inversion E; subst; rewrite Z.eqb_refl in R; discriminate).
    apply set_protocol_f in E. now rewrite R in E.
  - apply set_from_socket_f in E. destruct E as [E _]. unfold usable in E. now rewrite R in E.
  - apply recvfrom_f in E. unfold usable in E. now rewrite R in E.
Qed.

Lemma history_inv y a m : history y a m -> addr_wf a /\ memo a m.
Proof.
  induction 1 as [|a m op a' r R [W M] Hop E Hr].
  - split; [apply new_wf|reflexivity].
  - split; [eapply step_wf; eauto|]. unfold memo.
    destruct (replaces op a a' r) eqn:P; [eapply step_replaces; eauto|].
    destruct (asks op) eqn:K.
    + destruct op; try discriminate. cbn [addr_step] in E. inversion E; subst.
      pose proof (memo_type a m W M) as T. unfold memo in M. revert T. unfold get_network_type.
      destruct m as [v|].
      * pose proof (spec_network_defined v). rewrite M. destruct (spec_network_type v); cbn [fst snd]; auto; congruence.
      * rewrite M. cbn. auto.
    + rewrite (step_f _ _ _ _ _ E P K). exact M.
Qed.
