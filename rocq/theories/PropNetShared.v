(* Property C131: the type of an address which several threads share. *)
From Coq Require Import ZifyBool ZifyNat.
From Verif Require Import Base Addr Spec Iface NetShared SpecNetShared.
From Verif Require AddrProofs AddrProofs2 AddrProofs3 AddrProofs4 NetSharedProofs.
Import AddrProofs AddrProofs2 AddrProofs3 AddrProofs4 NetSharedProofs.

(* An execution from a list of its steps. *)
Inductive path : state -> list (label * state) -> Prop :=
| path_nil x : path x []
| path_cons x l x' r : step x l x' -> path x' r -> path x ((l, x') :: r).
Definition states (x : state) (r : list (label * state)) (i : nat) : state := nth i (x :: map snd r) x.
Definition labels (r : list (label * state)) (i : nat) : label := nth i (map fst r) (L_tau 0).
Lemma path_execution a r : path (init a) r -> execution a (states (init a) r) (labels r) (length r).
Proof.
  intros P. split; [reflexivity|]. unfold states, labels.
  assert (G : forall d e x, path x r -> forall i, i < length r -> step (nth i (x :: map snd r) d) (nth i (map fst r) e) (nth (S i) (x :: map snd r) d)).
  { intros d e. clear P. induction r as [|[l x'] r IH]; intros x P i L; [cbn in L; lia|]. inversion P; subst.
    destruct i as [|i]; [assumption|]. cbn [map nth fst snd]. apply (IH x'); [assumption|cbn in L; lia]. }
  intros i L. now apply G.
Qed.

(* One thread at a time the model of the steps is get_network_type(). *)
Theorem C131_one_thread : forall a k, exists s lab n, execution a s lab n
  /\ (forall i, i < n -> done_by (lab i) k)
  /\ lab 0 = L_call k /\ lab (n - 1) = L_return k (snd (get_network_type a)) /\ object (s n) = fst (get_network_type a).
Proof.
  intros a k. set (x1 := with_pc (init a) k At_test).
  assert (T : forall x p, thread (with_pc x k p) k = p) by (intros; apply thread_same).
  pose proof (S_call (init a) k eq_refl) as C1. fold x1 in C1.
  pose proof (S_test x1 k (T _ _)) as C2.
  destruct (network_type_t_beq (f_private_network (object x1)) NETWORK_TYPE_UNDEFINED) eqn:Q.
  - set (x2 := with_pc x1 k At_unknown) in *.
    pose proof (S_unknown x2 k (T _ _)) as C3. set (x3 := with_type (with_pc x2 k At_write) NETWORK_TYPE_UNKNOWN) in *.
    pose proof (S_write x3 k (T _ _)) as C4. set (x4 := if network_type_t_beq (classify (object x3)) _ then _ else _) in *.
    assert (T4 : thread x4 k = At_return) by (unfold x4; destruct (network_type_t_beq (classify (object x3)) NETWORK_TYPE_UNKNOWN); apply T).
    pose proof (S_return x4 k T4) as C5. set (x5 := with_pc x4 k Idle) in *.
    apply type_beq in Q. change (f_private_network (object x1)) with (f_private_network a) in Q.
    assert (O : object x4 = with_private_network a (classify a)).
    { unfold x4. change (classify (object x3)) with (classify a). destruct (network_type_t_beq (classify a) NETWORK_TYPE_UNKNOWN) eqn:U; [|reflexivity].
      apply type_beq in U. rewrite U. reflexivity. }
    set (r := [(L_call k, x1); (L_tau k, x2); (L_tau k, x3); (L_tau k, x4); (L_return k (f_private_network (object x4)), x5)]).
    exists (states (init a) r), (labels r), 5. split.
    { apply (path_execution a r). unfold r. repeat (eapply path_cons; [eassumption|]). constructor. }
    split. { intros i L. do 5 (destruct i as [|i]; [reflexivity|]). lia. }
    split; [reflexivity|]. unfold get_network_type. rewrite Q. fold (classify a). split.
    + change (labels r (5 - 1)) with (L_return k (f_private_network (object x4))). now rewrite O.
    + change (states (init a) r 5) with x5. exact O.
  - set (x2 := with_pc x1 k At_return) in *.
    pose proof (S_return x2 k (T _ _)) as C3. set (x3 := with_pc x2 k Idle) in *.
    apply type_neq in Q. change (f_private_network (object x1)) with (f_private_network a) in Q.
    set (r := [(L_call k, x1); (L_tau k, x2); (L_return k (f_private_network (object x2)), x3)]).
    exists (states (init a) r), (labels r), 3. split.
    { apply (path_execution a r). unfold r. repeat (eapply path_cons; [eassumption|]). constructor. }
    split. { intros i L. do 3 (destruct i as [|i]; [reflexivity|]). lia. }
    split; [reflexivity|].
    assert (G : get_network_type a = (a, f_private_network a)) by (unfold get_network_type; destruct (f_private_network a); congruence).
    rewrite G. split; reflexivity.
Qed.
Print Assumptions C131_one_thread.

(* Any answer is the type of the address, or unknown (that is: public). *)
Theorem C131_right_or_unknown : forall a s lab n, addr_wf a -> not_asked a -> execution a s lab n ->
  forall i k t, i < n -> lab i = L_return k t -> t = type_of a \/ t = NETWORK_TYPE_UNKNOWN.
Proof.
  intros a s lab n W NA E i k t L R. pose proof (memo_values a s lab n E W i ltac:(lia) NA) as M.
  destruct E as [_ ES]. pose proof (ES i L) as H. cases H j T Lb X; rewrite Lb in R; try discriminate. injection R as -> <-.
  destruct M as [(_ & I2 & _)|[M|[M _]]]; auto. destruct (I2 k) as [Q|[Q|Q]]; congruence.
Qed.
Print Assumptions C131_right_or_unknown.

(* A wrong one is due to another call which is still going on and which
   started before any call had ended. *)
Theorem C131_wrong_only_at_first : forall a s lab n, addr_wf a -> not_asked a -> execution a s lab n ->
  forall i k t, i < n -> lab i = L_return k t -> t <> type_of a ->
  exists j c, j <> k /\ in_call lab j c i /\ forall r m u, r < i -> lab r = L_return m u -> c < r.
Proof.
  intros a s lab n W NA E i k t L R NT. pose proof (memo_values a s lab n E W i ltac:(lia) NA) as M.
  pose proof E as [_ ES]. pose proof (ES i L) as H. cases H x T Lb X; rewrite Lb in R; try discriminate. injection R as -> <-.
  destruct M as [(_ & I2 & _)|[M|[M (j & J)]]].
  - destruct (I2 k) as [Q|[Q|Q]]; congruence.
  - unfold memo in M. congruence.
  - destruct (writers a s lab n E W j i ltac:(lia) NA (or_intror J)) as (c & C & F). exists j, c.
    split; [congruence|]. auto.
Qed.
Print Assumptions C131_wrong_only_at_first.

(* So calls which overlap no other are right. *)
Theorem C131_alone_partial : forall a s lab n, addr_wf a -> not_asked a -> execution a s lab n ->
  forall i k t, i < n -> lab i = L_return k t ->
  (forall j c, j <> k -> ~ in_call lab j c i) -> t = type_of a.
Proof.
  intros a s lab n W NA E i k t L R AL. destruct (network_type_t_eq_dec t (type_of a)) as [|N]; [assumption|].
  destruct (C131_wrong_only_at_first a s lab n W NA E i k t L R N) as (j & c & J & C & _). destruct (AL j c J C).
Qed.
Print Assumptions C131_alone_partial.

(* An object which was asked before it is shared always answers right, and
   the threads do not race. *)
Theorem C131_asked_before : forall a s lab n, addr_wf a -> not_asked a ->
  execution (fst (get_network_type a)) s lab n ->
  (forall i k t, i < n -> lab i = L_return k t -> t = type_of a) /\ (forall i, i <= n -> ~ data_race (s i)).
Proof.
  intros a s lab n W NA E.
  assert (F : f_private_network (fst (get_network_type a)) = type_of a).
  { pose proof (network_type_spec a W NA) as T. unfold get_network_type in *. unfold not_asked in NA. rewrite NA in *. exact T. }
  assert (N : ~ not_asked (fst (get_network_type a))) by (unfold not_asked; rewrite F; apply type_defined).
  split.
  - intros i k t L R. destruct (memo_asked _ s lab n E i ltac:(lia) N) as [M _].
    destruct E as [_ ES]. pose proof (ES i L) as H. cases H j T Lb X; rewrite Lb in R; try discriminate. injection R as -> <-.
    unfold memo in M. congruence.
  - intros i L (j & k & _ & (t & l & s' & [ST D] & NW) & _). destruct (memo_asked _ s lab n E i L N) as [_ I2].
    cases ST x T Lb X; rewrite Lb in D; cbn in D; subst x; cbn in T;
      try (destruct (I2 j) as [Q|[Q|Q]]; rewrite Q in T; discriminate); rewrite X in NW; now apply NW.
Qed.
Print Assumptions C131_asked_before.

(* ---------- refuted ---------- *)
(* 10.0.0.1, asked by two threads: the second one is told that it is public,
   and one of the next steps of both is a race. *)
Definition ten : addr := fst (set_ipv4 addr_new (mk_in AF_INET 0 (load32 [10; 0; 0; 1]%Z 0))).
Definition x1 := with_pc (init ten) 1 At_test.
Definition x2 := with_pc x1 1 At_unknown.
Definition x3 := with_type (with_pc x2 1 At_write) NETWORK_TYPE_UNKNOWN.
Definition x4 := with_pc x3 2 At_test.
Definition x5 := with_pc x4 2 At_return.
Definition x6 := with_pc x5 2 Idle.
Definition schedule := [(L_call 1, x1); (L_tau 1, x2); (L_tau 1, x3); (L_call 2, x4); (L_tau 2, x5);
  (L_return 2 NETWORK_TYPE_UNKNOWN, x6)].
Lemma schedule_path : path (init ten) schedule.
Proof.
  unfold schedule.
  apply path_cons; [exact (S_call (init ten) 1 eq_refl)|].
  apply path_cons; [exact (S_test x1 1 eq_refl)|].
  apply path_cons; [exact (S_unknown x2 1 eq_refl)|].
  apply path_cons; [exact (S_call x3 2 eq_refl)|].
  apply path_cons; [exact (S_test x4 2 eq_refl)|].
  apply path_cons; [exact (S_return x5 2 eq_refl)|]. constructor.
Qed.
Theorem C131_threads_refuted : exists a s lab n i k,
  addr_wf a /\ not_asked a /\ execution a s lab n /\ i < n
  /\ lab i = L_return k NETWORK_TYPE_UNKNOWN /\ type_of a = NETWORK_TYPE_PRIVATE
  /\ exists j, j <= n /\ data_race (s j).
Proof.
  exists ten, (states (init ten) schedule), (labels schedule), 6, 5, 2. split; [now apply addr_wfb_ok|].
  split; [reflexivity|]. split; [exact (path_execution ten schedule schedule_path)|]. split; [lia|]. split; [reflexivity|].
  split; [vm_compute; reflexivity|]. exists 5. split; [lia|]. change (states (init ten) schedule 5) with x5.
  exists 1, 2. split; [discriminate|]. split.
  - exists NETWORK_TYPE_UNKNOWN, (L_tau 1). eexists. split; [split; [exact (S_write (set x5 NETWORK_TYPE_UNKNOWN) 1 eq_refl)|reflexivity]|].
    vm_compute. discriminate.
  - right. exists NETWORK_TYPE_UNKNOWN, NETWORK_TYPE_PRIVATE, (L_return 2 NETWORK_TYPE_UNKNOWN). eexists.
    split; [split; [exact (S_return (set x5 NETWORK_TYPE_UNKNOWN) 2 eq_refl)|reflexivity]|].
    intros s'' [H _]. cases H j T Lb X; try discriminate.
Qed.
Print Assumptions C131_threads_refuted.
(* What that thread is told by the functions which ask for the type. *)
Example C131_witness : addr_wf ten /\ not_asked ten /\ execution ten (states (init ten) schedule) (labels schedule) 6
  /\ snd (is_wan (object x5) false) = true /\ snd (is_lan (object x5) false) = false
  /\ snd (is_wan ten false) = false /\ snd (is_lan ten false) = true.
Proof.
  split; [now apply addr_wfb_ok|]. split; [reflexivity|]. split; [exact (path_execution ten schedule schedule_path)|].
  vm_compute. auto.
Qed.
(* And one in which the calls do not overlap. *)
Definition z4 := with_type (with_pc x3 1 At_return) NETWORK_TYPE_PRIVATE.
Definition z5 := with_pc z4 1 Idle.
Definition z6 := with_pc z5 2 At_test.
Definition z7 := with_pc z6 2 At_return.
Definition z8 := with_pc z7 2 Idle.
Definition one_by_one := [(L_call 1, x1); (L_tau 1, x2); (L_tau 1, x3); (L_tau 1, z4); (L_return 1 NETWORK_TYPE_PRIVATE, z5);
  (L_call 2, z6); (L_tau 2, z7); (L_return 2 NETWORK_TYPE_PRIVATE, z8)].
Example C131_witness_alone : execution ten (states (init ten) one_by_one) (labels one_by_one) 8
  /\ labels one_by_one 7 = L_return 2 NETWORK_TYPE_PRIVATE
  /\ forall j c, j <> 2 -> ~ in_call (labels one_by_one) j c 7.
Proof.
  split; [|split; [reflexivity|]].
  - apply (path_execution ten one_by_one). unfold one_by_one.
    apply path_cons; [exact (S_call (init ten) 1 eq_refl)|].
    apply path_cons; [exact (S_test x1 1 eq_refl)|].
    apply path_cons; [exact (S_unknown x2 1 eq_refl)|].
    apply path_cons; [exact (S_write x3 1 eq_refl)|].
    apply path_cons; [exact (S_return z4 1 eq_refl)|].
    apply path_cons; [exact (S_call z5 2 eq_refl)|].
    apply path_cons; [exact (S_test z6 2 eq_refl)|].
    apply path_cons; [exact (S_return z7 2 eq_refl)|]. constructor.
  - intros j c N (L & C & R). destruct c as [|[|[|[|[|[|[|c]]]]]]]; try discriminate; try lia.
    + injection C as <-. apply (R 4 NETWORK_TYPE_PRIVATE); [lia|reflexivity].
    + injection C as <-. congruence.
Qed.

(* The lists of get_local_addresses(), which all threads share, are made of
   addresses which were not asked. *)
Lemma from4 s a : set_ipv4_from addr_new s = Ok a -> not_asked a.
Proof.
  unfold set_ipv4_from. destruct s; cbv beta iota; try discriminate.
  unfold set_ipv4. destruct (negb _); cbn; intros H; [discriminate|]. injection H as <-. reflexivity.
Qed.
Lemma from6 s a : set_ipv6_from addr_new s = Ok a -> not_asked a.
Proof.
  unfold set_ipv6_from. destruct s; cbv beta iota; try discriminate.
  unfold set_ipv6. destruct (negb _); cbn; intros H; [discriminate|]. injection H as <-. reflexivity.
Qed.
Lemma when_asked b p a f c : not_asked a -> (forall s a', f a s = Ok a' -> not_asked a') -> when b p a f = Ok c -> not_asked c.
Proof. intros A F. unfold when. destruct p; [destruct b|]; intros H; eauto; injection H as <-; exact A. Qed.
Theorem C131_interfaces : forall l r i, make_ifaces l = Ok r -> In i r ->
  not_asked (get_address i) /\ not_asked (get_broadcast_address i) /\ not_asked (get_iface_destination_address i).
Proof.
  induction l as [|e l IH]; intros r i H I; cbn [make_ifaces] in H; [injection H as <-; contradiction|].
  destruct (make_iface e) as [o|x| |] eqn:M; cbn [rbind] in H; try discriminate.
  destruct (make_ifaces l) as [is|x| |] eqn:L; cbn [rbind] in H; try discriminate. injection H as <-.
  destruct o as [j|]; [|eauto]. destruct I as [<-|I]; [|eauto]. clear IH L is l.
  assert (K : forall b p a (g : sockname -> res (list Z)) c, not_asked a ->
    when b p a (fun a s => let! m := g s in Ok (set_mask a m)) = Ok c -> not_asked c).
  { intros b p a g c A. apply when_asked; [exact A|]. intros s a' X. destruct (g s); cbn [rbind] in X; try discriminate. injection X as <-. exact A. }
  unfold make_iface in M. destruct (ifa_addr e) as [[x|x|]|]; try discriminate.
  - destruct (set_ipv4_from addr_new (SN_in x)) as [a| | |] eqn:A; cbn [rbind] in M; try discriminate.
    destruct (when _ (ifa_ifu e) addr_new set_ipv4_from) as [b| | |] eqn:B; cbn [rbind] in M; try discriminate.
    destruct (when (negb (Z.land (ifa_flags e) IFF_POINTOPOINT =? 0)%Z) (ifa_ifu e) addr_new set_ipv4_from) as [d| | |] eqn:D; cbn [rbind] in M; try discriminate.
    destruct (when true _ _ _) as [c| | |] eqn:C; cbn [rbind] in M; try discriminate. injection M as <-.
    split; [exact (K _ _ _ _ _ (from4 _ _ A) C)|].
    split; [refine (when_asked _ _ _ _ _ _ _ B)|refine (when_asked _ _ _ _ _ _ _ D)]; try reflexivity; apply from4.
  - destruct (set_ipv6_from addr_new (SN_in6 x)) as [a| | |] eqn:A; cbn [rbind] in M; try discriminate.
    destruct (when _ (ifa_ifu e) addr_new set_ipv6_from) as [b| | |] eqn:B; cbn [rbind] in M; try discriminate.
    destruct (when (negb (Z.land (ifa_flags e) IFF_POINTOPOINT =? 0)%Z) (ifa_ifu e) addr_new set_ipv6_from) as [d| | |] eqn:D; cbn [rbind] in M; try discriminate.
    destruct (when true _ _ _) as [c| | |] eqn:C; cbn [rbind] in M; try discriminate. injection M as <-.
    split; [exact (K _ _ _ _ _ (from6 _ _ A) C)|].
    split; [refine (when_asked _ _ _ _ _ _ _ B)|refine (when_asked _ _ _ _ _ _ _ D)]; try reflexivity; apply from6.
Qed.
Print Assumptions C131_interfaces.
Definition lo : ifaddrs := mk_ifaddrs (lit "lo") 0x49%Z (Some (SN_in (mk_in AF_INET 0 (load32 [127; 0; 0; 1]%Z 0)))) None None.
Example C131_witness_interfaces : exists i, make_ifaces [lo] = Ok [i] /\ type_of (get_address i) = NETWORK_TYPE_LOOPBACK.
Proof. eexists. split; [reflexivity|]. vm_compute. reflexivity. Qed.
