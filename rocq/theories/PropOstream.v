(* Properties of the ostream support: C64, C93; C92 about protocol names. *)
From Coq Require Import Lia.
From Verif Require Import Base Addr Spec AddrProofs3 Range Inet AddrText Ostream SpecOstream OstreamProofs.
From Verif Require OstreamIndex SpecOstreamIndex OstreamIndexProofs.
Local Open Scope Z_scope.

(* C64: whatever a program did with its streams, writing to a stream uses the
   mode and separator last given to that stream (or copied, moved or swapped to
   it), and changes no other stream.  Partial: new never fails, and
   /etc/protocols has all the protocols. *)
Theorem C64_settings_partial : forall past, program past -> Forall enough_memory past ->
  exists t, run state_new (rev past) = Some t /\
    forall s, alive past s = true ->
    forall y x w, shows y (fst (settings past s)) (snd (settings past s)) x w ->
    exists t' before,
      run state_new (rev (Print y s x :: past)) = Some t' /\
      content t s = Some before /\ content t' s = Some (before ++ w) /\
      forall k, k <> s -> content t' k = content t k.
Proof.
  intros past P M. destruct (reached past P M) as [t [R I]]. exists t. split; [exact R|].
  intros s A y x w S. destruct (is_live _ _ _ I A) as [z Z]. destruct (inv_info _ _ _ _ I Z) as [i [E F]].
  rewrite <- F in S. apply put_item_shows in S.
  eexists. exists (text z). split; [|split; [|split]].
  - cbn [rev]. rewrite run_app, R. cbn [run step]. unfold live. rewrite Z, E, S. reflexivity.
  - unfold content. now rewrite Z.
  - unfold content, put. cbn [streams]. now rewrite Nat.eqb_refl.
  - intros k H. unfold content, put. cbn [streams]. now destruct (Nat.eqb_spec k s).
Qed.

(* C64: nothing is released twice (run is defined), a settings object belongs
   to one stream, and once the streams are destroyed no object is left. *)
Theorem C64_released_once_partial : forall past, program past -> Forall enough_memory past ->
  exists t, run state_new (rev past) = Some t /\
    (forall p, in_memory t p <-> exists s, alive past s = true /\ exists x, streams t s = Some x /\ pword x = Some p) /\
    (forall s1 s2 x1 x2 p, streams t s1 = Some x1 -> streams t s2 = Some x2 ->
       pword x1 = Some p -> pword x2 = Some p -> s1 = s2) /\
    ((forall s, alive past s = false) -> forall p, ~ in_memory t p).
Proof.
  intros past P M. destruct (reached past P M) as [t [R I]]. exists t. split; [exact R|].
  assert (G : forall p, in_memory t p <-> exists s, alive past s = true /\ exists x, streams t s = Some x /\ pword x = Some p).
  { intros p. split.
    - intros O. destruct (inv_used _ _ I p O) as [s [x [X W]]]. exists s. split; [|eauto].
      rewrite (inv_alive _ _ I), X. reflexivity.
    - intros [s [_ [x [X W]]]]. destruct (inv_some _ _ I _ _ _ X W) as [_ O]. unfold in_memory. congruence. }
  split; [exact G|]. split; [exact (inv_alone _ _ I)|].
  intros D p O. apply G in O as [s [A _]]. rewrite D in A. discriminate.
Qed.

(* C64 is false when memory runs out within copyfmt(): both streams then have
   the same object, which is deleted twice. *)
Definition two_streams : list op :=
  [Destroy 2; Destroy 1; Copyfmt 2 1 false; Construct 2; Set_mode 1 STRING_IP_ADDRESS true true; Construct 1]%nat.
Theorem C64_released_once_refuted : exists past,
  program past /\ (forall s, alive past s = false) /\ run state_new (rev past) = None.
Proof.
  exists two_streams. split; [cbn; tauto|]. split; [|reflexivity].
  intros [|[|[|s]]]; reflexivity.
Qed.

(* A system which knows all the protocols. *)
Definition some_sys : sys :=
  mk_sys (fun _ => None) (fun _ _ => NoEntry) (fun _ _ => NoEntry) (fun _ => NoEntry) (fun _ => Found (lit "tcp")).
(* Two streams, one a copy of the other, then changed. *)
Definition some_past : list op :=
  [Set_sep 2 (lit "; ") true true; Copyfmt 2 1 true; Swap 1 2; Construct 2;
   Set_mode 1 STRING_IP_ADDRESS true true; Construct 1]%nat.
Example C64_satisfiable :
  program some_past /\ Forall enough_memory some_past /\
  alive some_past 1%nat = true /\ alive some_past 2%nat = true /\
  settings some_past 1%nat = initially /\
  settings (Swap 1 2 :: some_past)%nat 1%nat = (STRING_IP_ALL, lit "; ") /\
  shows some_sys STRING_IP_ADDRESS (lit "; ") (I_addrs [addr_new; addr_new]) (lit "::; ::").
Proof.
  repeat split.
  - repeat apply Forall_cons; cbn; auto.
  - change (lit "::; ::") with (separated (lit "; ") [lit "::"; lit "::"]).
    apply Shows_addrs. repeat apply Forall2_cons; try reflexivity. apply Forall2_nil.
Qed.

(* C93: the threads of a program, whatever they do, get the same index from
   get_ostream_index(), an index xalloc() gave to nobody else, and do so
   without a data race; xalloc() is called once at most. *)
Theorem C93_one_index : forall past s, SpecOstreamIndex.execution past s ->
  (forall j k v w, In (OstreamIndex.L_return j v) past -> In (OstreamIndex.L_return k w) past -> v = w) /\
  (forall j v, In (OstreamIndex.L_return j v) past -> ~ In (OstreamIndex.L_other v) past /\ exists k, In (OstreamIndex.L_xalloc k v) past) /\
  (length (filter SpecOstreamIndex.is_xalloc past) <= 1)%nat /\
  ~ SpecOstreamIndex.data_race s.
Proof. exact OstreamIndexProofs.one_index. Qed.

(* C93: a thread in get_ostream_index() can go on or waits for one which can. *)
Theorem C93_no_deadlock : forall past s, SpecOstreamIndex.execution past s ->
  forall k, OstreamIndex.thread s k <> OstreamIndex.Idle -> SpecOstreamIndex.can_go_on s k \/ exists j, OstreamIndex.owner s = Some j /\ SpecOstreamIndex.can_go_on s j.
Proof. exact OstreamIndexProofs.no_deadlock. Qed.

(* Two threads, one after the other, and other code in between. *)
Example C93_satisfiable : exists s, SpecOstreamIndex.execution
  [OstreamIndex.L_return 2 6; OstreamIndex.L_tau 2; OstreamIndex.L_tau 2; OstreamIndex.L_tau 2; OstreamIndex.L_return 1 6; OstreamIndex.L_tau 1; OstreamIndex.L_tau 1;
   OstreamIndex.L_other 7; OstreamIndex.L_xalloc 1 6; OstreamIndex.L_call 2; OstreamIndex.L_tau 1; OstreamIndex.L_tau 1; OstreamIndex.L_tau 1; OstreamIndex.L_call 1; OstreamIndex.L_other 5]%nat s.
Proof.
  pose proof (SpecOstreamIndex.Start 5) as E. unfold OstreamIndex.init in E.
  OstreamIndexProofs.go E (OstreamIndex.S_other).
  OstreamIndexProofs.go E (fun s => OstreamIndex.S_call s 1%nat).
  OstreamIndexProofs.go E (fun s => OstreamIndex.S_lock s 1%nat).
  OstreamIndexProofs.go E (fun s => OstreamIndex.S_test s 1%nat).
  OstreamIndexProofs.go E (fun s => OstreamIndex.S_mark s 1%nat).
  OstreamIndexProofs.go E (fun s => OstreamIndex.S_call s 2%nat).
  OstreamIndexProofs.go E (fun s => OstreamIndex.S_xalloc s 1%nat).
  OstreamIndexProofs.go E (OstreamIndex.S_other).
  OstreamIndexProofs.go E (fun s => OstreamIndex.S_assign s 1%nat 6).
  OstreamIndexProofs.go E (fun s => OstreamIndex.S_read s 1%nat).
  OstreamIndexProofs.go E (fun s => OstreamIndex.S_return s 1%nat 6).
  OstreamIndexProofs.go E (fun s => OstreamIndex.S_lock s 2%nat).
  OstreamIndexProofs.go E (fun s => OstreamIndex.S_test s 2%nat).
  OstreamIndexProofs.go E (fun s => OstreamIndex.S_read s 2%nat).
  OstreamIndexProofs.go E (fun s => OstreamIndex.S_return s 2%nat 6).
  eexists. exact E.
Qed.

(* The steps which could race: each variable is read by one and written by
   another one. *)
Example C93_accesses :
  SpecOstreamIndex.reads OstreamIndex.At_test SpecOstreamIndex.The_flag /\
  SpecOstreamIndex.writes OstreamIndex.At_mark SpecOstreamIndex.The_flag /\
  (forall v, SpecOstreamIndex.writes (OstreamIndex.At_assign v) SpecOstreamIndex.The_index) /\
  SpecOstreamIndex.reads OstreamIndex.At_read SpecOstreamIndex.The_index.
Proof. exact OstreamIndexProofs.accesses. Qed.

(* C92: for any address a program can make, get_protocol_name() and
   get_port_name() give the names the system knows, an empty string when it
   cannot tell.  Partial: undefined when the system says that it has no such
   protocol. *)
Theorem C92_names_partial : forall y0 a y, reachable y0 a ->
  (forall n, n = IPPROTO_IP \/ n = IPPROTO_TCP \/ n = IPPROTO_UDP -> getprotobynumber y n <> NoEntry) ->
  exists n p, get_protocol_name y a = Ok n /\
    match getprotobynumber y (get_protocol a) with Found m => n = m | _ => n = [] end /\
    get_port_name y a = Ok p /\
    match getservbyport y (bswap16 (get_port a)) n with Found m => p = m | _ => p = [] end.
Proof.
  intros y0 a y R K. assert (H : getprotobynumber y (get_protocol a) <> NoEntry).
  { apply K. exact (wf_protocol _ (reachable_wf y0 a R)). }
  unfold get_port_name, get_protocol_name. change (get_protocol a) with (f_protocol a) in *.
  destruct (getprotobynumber y (f_protocol a)) as [m| |]; [|contradiction|]; cbn [rbind];
  match goal with |- context[getservbyport y ?u ?v] => destruct (getservbyport y u v) as [q| |] eqn:E end;
  eexists; eexists; (split; [reflexivity|]); (split; [reflexivity|]); (split; [reflexivity|]); rewrite E; reflexivity.
Qed.
Theorem C92_names_refuted : exists y a, reachable y a /\
  get_protocol_name y a = UB /\ get_port_name y a = UB.
Proof.
  exists (mk_sys (fun _ => None) (fun _ _ => NoEntry) (fun _ _ => NoEntry) (fun _ => NoEntry) (fun _ => NoEntry)), addr_new.
  split; [constructor|]. split; reflexivity.
Qed.
Example C92_satisfiable : reachable some_sys addr_new /\ (forall n, getprotobynumber some_sys n <> NoEntry) /\
  get_protocol_name some_sys addr_new = Ok (lit "tcp").
Proof. split; [constructor|]. split; [discriminate|reflexivity]. Qed.

Print Assumptions C64_settings_partial.
Print Assumptions C64_released_once_partial.
Print Assumptions C64_released_once_refuted.
Print Assumptions C93_one_index.
Print Assumptions C93_no_deadlock.
Print Assumptions C92_names_partial.
Print Assumptions C92_names_refuted.
