(* Proofs about get_ostream_index(). *)
From Coq Require Import Lia.
From Verif Require Import Base OstreamIndex SpecOstreamIndex.
Local Open Scope Z_scope.

Definition holds (p : pc) : bool := match p with Idle | At_lock => false | _ => true end.
Definition mutex (s : state) : Prop := forall k, holds (thread s k) = true <-> owner s = Some k.

Lemma mutex_step s l s' : step s l s' -> mutex s -> mutex s'.
Proof.
  intros ST M j. destruct ST; cbn [thread owner] in *; try exact (M j);
    pose proof (M j) as Mj; pose proof (M k) as Mk; rewrite H in Mk; cbn [holds] in Mk;
    unfold goes; destruct (Nat.eqb_spec j k) as [->|D];
    try destruct (g_ostream_index_allocated s); cbn [holds]; intuition congruence.
Qed.

(* The index xalloc() gave, once it did. *)
Definition recent (past : list label) (s : state) : Prop :=
  forall l, In l past -> match l with L_xalloc _ v | L_other v => v < counter s | _ => True end.
Definition none_yet (past : list label) : Prop :=
  forall l, In l past -> match l with L_xalloc _ _ | L_return _ _ => False | _ => True end.
Definition given (past : list label) (v : Z) : Prop :=
  length (filter is_xalloc past) = 1%nat /\
  (exists k, In (L_xalloc k v) past) /\
  forall l, In l past -> match l with L_return _ w => w = v | L_other w => w <> v | _ => True end.
Definition phase (past : list label) (s : state) : Prop :=
  match owner s with
  | None => if g_ostream_index_allocated s then given past (g_ostream_index s) else none_yet past
  | Some k =>
      match thread s k with
      | At_test => if g_ostream_index_allocated s then given past (g_ostream_index s) else none_yet past
      | At_mark => none_yet past
      | At_xalloc => none_yet past /\ g_ostream_index_allocated s = true
      | At_assign v => given past v /\ g_ostream_index_allocated s = true
      | At_read => given past (g_ostream_index s) /\ g_ostream_index_allocated s = true
      | At_return v => given past (g_ostream_index s) /\ v = g_ostream_index s /\ g_ostream_index_allocated s = true
      | _ => False
      end
  end.

Lemma none_yet_count past : none_yet past -> length (filter is_xalloc past) = 0%nat.
Proof.
  induction past as [|l past IH]; intros N; [reflexivity|]. pose proof (N l (or_introl eq_refl)) as H.
  cbn [filter]. destruct l; try contradiction; cbn [is_xalloc]; apply IH; intros m I; exact (N m (or_intror I)).
Qed.
Lemma given_cons past v l : given past v ->
  match l with L_xalloc _ _ => False | L_return _ w => w = v | L_other w => w <> v | _ => True end -> given (l :: past) v.
Proof.
  intros [C [[k K] R]] H. split; [|split].
  - cbn [filter]. destruct l; try contradiction; exact C.
  - exists k. now right.
  - intros m [<-|I]; [now destruct l|exact (R m I)].
Qed.
Lemma none_cons past l : none_yet past -> match l with L_xalloc _ _ | L_return _ _ => False | _ => True end -> none_yet (l :: past).
Proof. intros N H m [<-|I]; [exact H|exact (N m I)]. Qed.

Definition Inv (past : list label) (s : state) : Prop := mutex s /\ recent past s /\ phase past s.

Lemma Inv_step past s l s' : Inv past s -> step s l s' -> Inv (l :: past) s'.
Proof.
  intros [M [F P]] ST. split; [|split].
  - eapply mutex_step; eassumption.
  - intros m I. destruct I as [E|I].
    + subst m. destruct ST; cbn; exact Logic.I || lia.
    + specialize (F m I). destruct ST, m; cbn [counter] in *; lia || exact Logic.I.
  - unfold phase in P |- *. destruct ST as [s k H|s k H O|s k H|s k H|s k H|s k v H|s k H|s k v H|s];
      cbn [owner thread g_ostream_index g_ostream_index_allocated] in *.
    + destruct (owner s) as [j|] eqn:O.
      * assert (j <> k). { intros ->. apply M in O. rewrite H in O. discriminate. }
        unfold goes. destruct (Nat.eqb_spec j k); [congruence|].
        destruct (thread s j); try destruct (g_ostream_index_allocated s); try contradiction;
          intuition (try (apply given_cons; [assumption|exact Logic.I]); try (apply none_cons; [assumption|exact Logic.I])).
      * destruct (g_ostream_index_allocated s); [apply given_cons|apply none_cons]; try assumption; exact Logic.I.
    + rewrite O in P. unfold goes. rewrite Nat.eqb_refl.
      destruct (g_ostream_index_allocated s); [apply given_cons|apply none_cons]; try assumption; exact Logic.I.
    + assert (O : owner s = Some k) by (apply M; now rewrite H). rewrite O, H in P. rewrite O. unfold goes. rewrite Nat.eqb_refl.
      destruct (g_ostream_index_allocated s); [split; [apply given_cons|reflexivity]|apply none_cons]; try assumption; exact Logic.I.
    + assert (O : owner s = Some k) by (apply M; now rewrite H). rewrite O, H in P. rewrite O. unfold goes. rewrite Nat.eqb_refl.
      split; [apply none_cons; [assumption|exact Logic.I]|reflexivity].
    + assert (O : owner s = Some k) by (apply M; now rewrite H). rewrite O, H in P. rewrite O. unfold goes. rewrite Nat.eqb_refl.
      destruct P as [N A]. split; [|exact A]. split; [|split].
      * cbn [filter is_xalloc length]. now rewrite none_yet_count.
      * exists k. now left.
      * intros m [<-|I]; [exact Logic.I|]. specialize (N m I). specialize (F m I). destruct m; try exact Logic.I; try contradiction. lia.
    + assert (O : owner s = Some k) by (apply M; now rewrite H). rewrite O, H in P. rewrite O. unfold goes. rewrite Nat.eqb_refl.
      destruct P as [G A]. split; [apply given_cons; [exact G|exact Logic.I]|exact A].
    + assert (O : owner s = Some k) by (apply M; now rewrite H). rewrite O, H in P. rewrite O. unfold goes. rewrite Nat.eqb_refl.
      destruct P as [G A]. split; [apply given_cons; [exact G|exact Logic.I]|now split].
    + assert (O : owner s = Some k) by (apply M; now rewrite H). rewrite O, H in P.
      destruct P as [G [E A]]. rewrite A. apply given_cons; [exact G|exact E].
    + assert (X : forall v, given past v -> given (L_other (counter s) :: past) v).
      { intros v G. apply given_cons; [exact G|]. destruct G as [_ [[k K] _]]. specialize (F _ K). cbn in F. lia. }
      destruct (owner s) as [j|]; [destruct (thread s j)|]; try destruct (g_ostream_index_allocated s); try contradiction;
        intuition (first [apply none_cons; [assumption|exact Logic.I] | apply X; assumption | assumption]).
Qed.
Lemma Inv_execution past s : execution past s -> Inv past s.
Proof.
  intros E. induction E as [n|past s l s' E IH ST]; [|eapply Inv_step; eassumption].
  split; [|split].
  - intros k. cbn. split; discriminate.
  - intros l [].
  - intros l [].
Qed.

Lemma writes_holds p x : writes p x -> holds p = true.
Proof.
  intros (s & k & l & s' & <- & [ST B] & N).
  destruct ST as [s j H|s j H O|s j H|s j H|s j H|s j v H|s j H|s j v H|s]; cbn in B; try contradiction; subst k; rewrite H; try reflexivity;
    exfalso; apply N; now destruct x.
Qed.
Lemma reads_holds p x : reads p x -> holds p = true.
Proof.
  intros (s1 & s2 & k & l & s' & <- & _ & EO & _ & ET & [ST B] & N).
  destruct ST as [s j H|s j H O|s j H|s j H|s j H|s j v H|s j H|s j v H|s]; cbn in B; try contradiction; subst k; rewrite H; try reflexivity;
    exfalso.
  - apply (N _ (conj (S_call s2 j ltac:(now rewrite <- ET)) eq_refl)). cbn. unfold goes. now rewrite Nat.eqb_refl.
  - apply (N _ (conj (S_lock s2 j ltac:(now rewrite <- ET) ltac:(now rewrite <- EO)) eq_refl)). cbn. unfold goes. now rewrite Nat.eqb_refl.
Qed.
Lemma race_free s : mutex s -> ~ data_race s.
Proof.
  intros M (x & j & k & D & W & H). apply writes_holds, M in W.
  assert (holds (thread s k) = true) as K by (destruct H as [H|H]; [now apply (writes_holds _ x)|now apply (reads_holds _ x)]).
  apply M in K. congruence.
Qed.

Lemma accesses : reads At_test The_flag /\ writes At_mark The_flag /\ (forall v, writes (At_assign v) The_index) /\ reads At_read The_index.
Proof.
  split; [|split; [|split]].
  - exists (mk_state false 0 None 0 (fun _ => At_test)), (mk_state true 0 None 0 (fun _ => At_test)), 1%nat. do 2 eexists.
    split; [reflexivity|]. split; [intros [] N; congruence || reflexivity|]. do 3 (split; [reflexivity|]).
    split; [split; [now apply (S_test _ 1%nat)|reflexivity]|]. intros s'' [ST B].
    remember (mk_state true 0 None 0 (fun _ => At_test)) as s2. remember (L_tau 1%nat) as lab. destruct ST; try discriminate Heqlab; injection Heqlab as ->; subst; try discriminate; vm_compute; discriminate.
  - exists (mk_state false 0 None 0 (fun _ => At_mark)), 1%nat. do 2 eexists.
    split; [reflexivity|]. split; [split; [now apply (S_mark _ 1%nat)|reflexivity]|]. discriminate.
  - intros v. exists (mk_state false (v + 1) None 0 (fun _ => At_assign v)), 1%nat. do 2 eexists.
    split; [reflexivity|]. split; [split; [now apply (S_assign _ 1%nat v)|reflexivity]|]. cbn. lia.
  - exists (mk_state false 0 None 0 (fun _ => At_read)), (mk_state false 1 None 0 (fun _ => At_read)), 1%nat. do 2 eexists.
    split; [reflexivity|]. split; [intros [] N; congruence || reflexivity|]. do 3 (split; [reflexivity|]).
    split; [split; [now apply (S_read _ 1%nat)|reflexivity]|]. intros s'' [ST B].
    remember (mk_state false 1 None 0 (fun _ => At_read)) as s2. remember (L_tau 1%nat) as lab. destruct ST; try discriminate Heqlab; injection Heqlab as ->; subst; try discriminate; vm_compute; discriminate.
Qed.

Theorem one_index : forall past s, execution past s ->
  (forall j k v w, In (L_return j v) past -> In (L_return k w) past -> v = w) /\
  (forall j v, In (L_return j v) past -> ~ In (L_other v) past /\ exists k, In (L_xalloc k v) past) /\
  (length (filter is_xalloc past) <= 1)%nat /\
  ~ data_race s.
Proof.
  intros past s E. destruct (Inv_execution _ _ E) as [M [F P]].
  assert (G : none_yet past \/ exists v, given past v).
  { unfold phase in P. destruct (owner s) as [k|]; [destruct (thread s k)|];
      try destruct (g_ostream_index_allocated s); try contradiction; intuition eauto. }
  split; [|split; [|split]].
  - intros j k v w A B. destruct G as [N|[u [_ [_ R]]]]; [now apply N in A|].
    apply R in A, B. congruence.
  - intros j v A. destruct G as [N|[u [_ [X R]]]]; [now apply N in A|].
    pose proof (R _ A) as E'. cbn in E'. subst u. split; [|exact X]. intros O. now apply R in O.
  - destruct G as [N|[u [C _]]]; [rewrite none_yet_count by exact N; lia|lia].
  - now apply race_free.
Qed.

Lemma holder_goes s k : holds (thread s k) = true -> can_go_on s k.
Proof.
  intros H. destruct (thread s k) eqn:T; try discriminate; eexists; eexists; (split; [|reflexivity] || (split; [econstructor; eassumption|reflexivity]));
    try (econstructor; eassumption).
Qed.
Theorem no_deadlock : forall past s, execution past s ->
  forall k, thread s k <> Idle -> can_go_on s k \/ exists j, owner s = Some j /\ can_go_on s j.
Proof.
  intros past s E k N. destruct (Inv_execution _ _ E) as [M _].
  destruct (holds (thread s k)) eqn:H; [left; now apply holder_goes|].
  destruct (owner s) as [j|] eqn:O; [right; exists j; split; [reflexivity|]; now apply holder_goes, M|].
  left. destruct (thread s k) eqn:T; try discriminate; [congruence|].
  eexists. eexists. split; [eapply S_lock; eassumption|reflexivity].
Qed.

(* Plays one step of a concrete execution. *)
Ltac go E c :=
  match type of E with
  | execution ?past ?s =>
      let F := fresh in
      pose proof (c s) as F;
      cbn [OstreamIndex.thread OstreamIndex.owner OstreamIndex.counter OstreamIndex.g_ostream_index
           OstreamIndex.g_ostream_index_allocated goes Nat.eqb Z.add Z.mul Pos.add Pos.succ] in F;
      repeat match type of F with ?A -> ?B => specialize (F eq_refl) end;
      apply (Next _ _ _ _ E) in F; clear E; rename F into E
  end.
