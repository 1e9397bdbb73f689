(* Property C138: a validator which threads share. *)
From Coq Require Import Lia ZifyBool ZifyNat.
From Verif Require Import Base Addr Spec Range SpecRange Inet SpecText AddrText Parser SpecParser SpecParser2 Validator SpecValidator
  ValidatorShared SpecValidatorShared.
From Verif Require AddrProofs4 ParserProofs ParserProofs5 ValidatorProofs2 PropParser PropParser2 PropParser4 PropParser5 PropValidator.
Import AddrProofs4 ParserProofs ParserProofs5 ValidatorProofs2 PropParser PropParser2 PropParser4 PropParser5 PropValidator.

(* A parser which was shared has the settings of the first one. *)
Definition clean (p : parser) : Prop := f_error p = [] /\ f_error_count p = 0%Z.

Lemma parsed y g p q v : clean p -> same_config q p ->
  snd (parse y g v q) = snd (parse y g v p)
  /\ error_messages (fst (parse y g v q)) = error_messages q ++ errors_of y g p v
  /\ same_config (fst (parse y g v q)) p
  /\ (refused y g p v <-> errors_of y g p v <> []).
Proof.
  intros [E C] S. destruct (both_parse _ _ y g g v S (or_introl eq_refl)) as (ms & r & E1 & E2).
  specialize (E1 (f_error q) (f_error_count q)). specialize (E2 (f_error p) (f_error_count p)). rewrite with_errors_id in E1, E2.
  unfold errors_of, refused. rewrite E1, E2, E, C. cbn [fst snd]. split; [reflexivity|].
  split; [reflexivity|]. split. { destruct S. constructor; assumption. }
  change (error_count (with_errors p ?a ?b)) with b. change (error_messages (with_errors p ?a ?b)) with a. cbn [app].
  destruct ms as [|m ms]; [cbn; split; [lia|congruence]|]. split; [|intros _; cbn [length]; lia].
  intros _ F. apply flat_nil in F. discriminate.
Qed.

Lemma after_steps y g p s lab n : clean p -> execution y g p s lab n ->
  forall i, i <= n -> same_config (shared (s i)) p /\ error_messages (shared (s i)) = errors_since_clear y g p lab i.
Proof.
  intros C [I X]. induction i as [|i IH]; intros L.
  - rewrite I. cbn [shared init]. split; [now constructor|exact (proj1 C)].
  - destruct (IH ltac:(lia)) as [S M]. cbn [errors_since_clear]. specialize (X i ltac:(lia)).
    destruct X; cbn [shared goes]; auto.
    + split; [|reflexivity]. destruct S. constructor; assumption.
    + destruct (parsed y g p _ v C S) as (_ & E & S' & _). split; [exact S'|]. now rewrite E, M.
Qed.

Lemma pending_errors y g p lab : clean p -> forall i, pending y g p lab i <-> errors_since_clear y g p lab i <> [].
Proof.
  intros C. pose proof (fun v => proj2 (proj2 (proj2 (parsed y g p p v C ltac:(now constructor))))) as R.
  assert (Keep : forall i, (forall k, lab i <> L_clear k) -> (forall k v, lab i <> L_parse k v) ->
    (pending y g p lab (S i) <-> pending y g p lab i)).
  { intros i NC NP. split; intros (j & k & v & L & P & F & N); exists j, k, v.
    - assert (j <> i) by (intros ->; exact (NP _ _ P)). repeat split; auto; [lia|]. intros h k' Hh. apply N. lia.
    - repeat split; auto. intros h k' Hh. destruct (Nat.eq_dec h i) as [->|]; [apply NC|apply N; lia]. }
  induction i as [|i IH].
  - cbn. split; [intros (j & _ & _ & L & _); lia|congruence].
  - cbn [errors_since_clear]. destruct (lab i) as [k v|k|k v|k b|k m|k b|k x] eqn:E;
      try (rewrite Keep by (intros; rewrite E; discriminate); exact IH).
    + split; [|congruence]. intros (j & k' & v & L & P & F & N) _. destruct (Nat.eq_dec j i) as [->|]; [congruence|].
      exact (N i k ltac:(lia) E).
    + split.
      * intros (j & k' & v' & L & P & F & N) Z. apply app_eq_nil in Z. destruct Z as [Z1 Z2].
        destruct (Nat.eq_dec j i) as [->|].
        { rewrite E in P. injection P as <- <-. apply R in F. auto. }
        { apply IH in Z1; auto. exists j, k', v'. repeat split; auto; [lia|]. intros h q Hh. apply N. lia. }
      * intros Z. destruct (errors_of y g p v) as [|c l] eqn:Ev.
        { rewrite app_nil_r in Z. apply IH in Z. destruct Z as (j & k' & v' & L & P & F & N). exists j, k', v'.
          repeat split; auto. intros h q Hh. destruct (Nat.eq_dec h i) as [->|]; [congruence|apply N; lia]. }
        { exists i, k, v. repeat split; auto; [|intros h q H; lia]. apply R. congruence. }
Qed.

(* ---------- C138 ---------- *)
(* What a call says is decided by the errors which are pending when it asks
   for them, whoever they are from. *)
Theorem C138_exact : forall split y g data v log, construct split y g data = Ok (v, log) ->
  forall y g s lab n, execution y g (f_parser v) s lab n -> forall i k, i < n ->
    (forall b, lab i = L_test k b -> (b = true <-> pending y g (f_parser v) lab i))
    /\ (forall m, lab i = L_error k m -> m = errors_since_clear y g (f_parser v) lab i)
    /\ (forall b, lab i = L_return k b -> exists j, j < i /\ lab j = L_test k (negb b)
          /\ forall h, j < h < i -> done_by (lab h) = k -> exists m, lab h = L_error k m).
Proof.
  intros split y0 g0 data v lg H y g s lab n X i k L.
  assert (C : clean (f_parser v)) by (destruct (construct_tidy _ _ _ _ _ _ H) as [_ _ _ _ C]; exact C).
  pose proof (after_steps _ _ _ _ _ _ C X) as A. pose proof X as [I St].
  split; [|split].
  - intros b E. rewrite (pending_errors _ _ _ _ C). destruct (A i ltac:(lia)) as [_ <-].
    specialize (St i L). rewrite E in St. inversion St; subst.
    unfold has_errors, error_messages. destruct (f_error _); split; congruence.
  - intros m E. destruct (A i ltac:(lia)) as [_ <-]. specialize (St i L). rewrite E in St. now inversion St.
  - intros b E.
    (* where a thread which is about to return comes from *)
    assert (W : forall i, i <= n ->
      (thread (s i) k = At_error -> exists j, j < i /\ lab j = L_test k true /\ forall h, j < h < i -> done_by (lab h) <> k)
      /\ (forall b, thread (s i) k = At_return b -> exists j, j < i /\ lab j = L_test k (negb b)
          /\ forall h, j < h < i -> done_by (lab h) = k -> exists m, lab h = L_error k m)).
    { clear i L E b. induction i as [|i IH]; intros L; [rewrite I; cbn; split; discriminate|].
      specialize (IH ltac:(lia)). destruct IH as [IH1 IH2]. specialize (St i ltac:(lia)).
      assert (D : thread (s (S i)) k = thread (s i) k /\ done_by (lab i) <> k
        \/ step y g (s i) (lab i) (s (S i)) /\ done_by (lab i) = k).
      { destruct (Nat.eq_dec (done_by (lab i)) k) as [Ek|Nk]; [right; auto|left]. split; [|exact Nk].
        destruct St; cbn [thread goes done_by] in *; destruct (Nat.eqb_spec k k0); congruence. }
      destruct D as [[-> Nk]|[_ Ek]].
      - split.
        + intros T. destruct (IH1 T) as (j & J1 & J2 & J3). exists j. repeat split; auto.
          intros h Hh. destruct (Nat.eq_dec h i) as [->|]; [exact Nk|apply J3; lia].
        + intros b T. destruct (IH2 b T) as (j & J1 & J2 & J3). exists j. repeat split; auto.
          intros h Hh Hk. destruct (Nat.eq_dec h i) as [->|]; [congruence|apply J3; [lia|exact Hk]].
      - assert (Th : forall c q, thread (goes (s i) k c q) k = c) by (intros; cbn; now rewrite Nat.eqb_refl).
        inversion St as [s' k' v' T ES EL ES'|s' k' v' T ES EL ES'|s' k' v' T ES EL ES'|s' k' T ES EL ES'|s' k' T ES EL ES'|s' k' b' T ES EL ES'|s' k' b' T ES EL ES'];
          rewrite <- EL in Ek; cbn [done_by] in Ek; subst k' s'; rewrite <- ?ES', Th.
        + split; discriminate.
        + split; discriminate.
        + destruct (snd _); split; discriminate.
        + split.
          * destruct (has_errors _) eqn:HE; [|discriminate]. intros _. exists i. split; [lia|]. split; [congruence|]. intros h Hh. lia.
          * intros b. destruct (has_errors _) eqn:HE; [discriminate|]. intros [= <-]. exists i. split; [lia|]. split; [cbn; congruence|]. intros h Hh. lia.
        + split; [discriminate|]. intros b [= <-]. destruct (IH1 T) as (j & J1 & J2 & J3). exists j. split; [lia|]. split; [exact J2|].
          intros h Hh Hk. destruct (Nat.eq_dec h i) as [->|]; [eauto|]. elim (J3 h ltac:(lia) Hk).
        + split; discriminate.
        + split; discriminate. }
    specialize (St i L). rewrite E in St. inversion St; subst. apply (proj2 (W i ltac:(lia))). assumption.
Qed.
Print Assumptions C138_exact.

(* Calls during which no other thread does anything are right. *)
Theorem C138_undisturbed_partial : forall split y g data v log, construct split y g data = Ok (v, log) ->
  forall y g s lab n, execution y g (f_parser v) s lab n ->
  forall k value b e r, e < n -> answered lab k value b e r -> undisturbed lab k b e ->
    (r = false <-> refused y g (f_parser v) value)
    /\ (r = false -> exists i, b < i < e /\ lab i = L_error k (errors_of y g (f_parser v) value)).
Proof.
  intros split y0 g0 data v lg H y g s lab n X k value b e r Le (Lb & Cb & Re & NR) U.
  assert (C : clean (f_parser v)) by (destruct (construct_tidy _ _ _ _ _ _ H) as [_ _ _ _ C]; exact C).
  pose proof (after_steps _ _ _ _ _ _ C X) as A. pose proof X as [I St].
  set (p := f_parser v) in *.
  assert (Th : forall s' c q, thread (goes s' k c q) k = c) by (intros; cbn; now rewrite Nat.eqb_refl).
  assert (T1 : thread (s (S b)) k = At_clear value).
  { pose proof (St b ltac:(lia)) as T. rewrite Cb in T. inversion T; subst. apply Th. }
  assert (N : forall i, b < i <= e -> done_by (lab i) = k).
  { intros i Hi. destruct (Nat.eq_dec i e) as [->|]; [rewrite Re; reflexivity|apply U; lia]. }
  assert (K2 : lab (S b) = L_clear k /\ thread (s (S (S b))) k = At_parse value).
  { pose proof (St (S b) ltac:(lia)) as T. pose proof (N (S b) ltac:(lia)) as D. destruct T; cbn [done_by] in D; subst; rewrite ?Th; try congruence.
    split; congruence. }
  destruct K2 as [L2 T2].
  assert (S b <> e) by (intros <-; congruence).
  assert (K3 : lab (S (S b)) = L_parse k value /\ thread (s (S (S (S b)))) k = after (snd (parse y g value p))).
  { pose proof (St (S (S b)) ltac:(lia)) as T. pose proof (N (S (S b)) ltac:(lia)) as D.
    destruct (A (S (S b)) ltac:(lia)) as [SC _].
    destruct T; cbn [done_by] in D; subst; rewrite ?Th; try congruence.
    assert (v0 = value) by congruence. subst v0. split; [reflexivity|]. f_equal. now destruct (parsed y g p (shared s0) value C SC) as [-> _]. }
  destruct K3 as [L3 T3].
  assert (S (S b) <> e) by (intros <-; congruence).
  assert (Err : errors_since_clear y g p lab (S (S (S b))) = errors_of y g p value).
  { cbn [errors_since_clear]. now rewrite L3, L2. }
  assert (RR : refused y g p value <-> errors_of y g p value <> []) by exact (proj2 (proj2 (proj2 (parsed y g p p value C ltac:(now constructor))))).
  destruct (A (S (S (S b))) ltac:(lia)) as [_ EM]. rewrite Err in EM.
  assert (K4 : (errors_of y g p value = [] /\ thread (s (S (S (S (S b))))) k = At_return true)
    \/ (errors_of y g p value <> [] /\ lab (S (S (S b))) = L_test k true /\ thread (s (S (S (S (S b))))) k = At_error)
    \/ (exists x, snd (parse y g value p) = Throw x)).
  { pose proof (St (S (S (S b))) ltac:(lia)) as T. pose proof (N (S (S (S b))) ltac:(lia)) as D.
    destruct (snd (parse y g value p)) as [l|x| |]; cbn [after] in T3;
      [|right; right; eauto|destruct T; cbn [done_by] in D; subst; congruence..].
    destruct T; cbn [done_by] in D; subst; rewrite ?Th; try congruence.
    rewrite <- EM. unfold has_errors, error_messages. destruct (f_error (shared s0)); [left; auto|right; left; repeat split; congruence]. }
  destruct K4 as [[Z T4]|[(Z & L4 & T4)|[x Tx]]].
  - assert (R3 : S (S (S b)) <> e).
    { intros <-. pose proof (St (S (S (S b))) ltac:(lia)) as T. rewrite Re in T. inversion T; subst.
      match goal with K : thread _ k = At_return _ |- _ => rewrite T3 in K; destruct (snd (parse y g value p)); discriminate end. }
    pose proof (St (S (S (S (S b)))) ltac:(lia)) as T. pose proof (N (S (S (S (S b)))) ltac:(lia)) as D.
    assert (L5 : lab (S (S (S (S b)))) = L_return k true).
    { destruct T; cbn [done_by] in D; subst; try congruence. }
    destruct (Nat.eq_dec (S (S (S (S b)))) e) as [<-|]; [|elim (NR (S (S (S (S b)))) ltac:(lia)); rewrite L5; reflexivity].
    rewrite Re in L5. injection L5 as ->. split; [|discriminate]. rewrite RR, Z. split; congruence.
  - assert (S (S (S b)) <> e) by (intros <-; congruence).
    pose proof (St (S (S (S (S b)))) ltac:(lia)) as T. pose proof (N (S (S (S (S b)))) ltac:(lia)) as D.
    destruct (A (S (S (S (S b)))) ltac:(lia)) as [_ EM4]. cbn [errors_since_clear] in EM4. rewrite L4 in EM4.
    change (match lab (S (S b)) with L_clear _ => [] | L_parse _ v => errors_since_clear y g p lab (S (S b)) ++ errors_of y g p v | _ => errors_since_clear y g p lab (S (S b)) end)
      with (errors_since_clear y g p lab (S (S (S b)))) in EM4.
    rewrite L3, L2 in EM4. cbn [app] in EM4.
    assert (K5 : lab (S (S (S (S b)))) = L_error k (errors_of y g p value) /\ thread (s (S (S (S (S (S b)))))) k = At_return false).
    { destruct T; cbn [done_by] in D; subst; rewrite ?Th; try congruence. split; congruence. }
    destruct K5 as [L5 T5].
    assert (S (S (S (S b))) <> e) by (intros <-; congruence).
    pose proof (St (S (S (S (S (S b))))) ltac:(lia)) as T6. pose proof (N (S (S (S (S (S b))))) ltac:(lia)) as D6.
    assert (L6 : lab (S (S (S (S (S b))))) = L_return k false).
    { destruct T6; cbn [done_by] in D6; subst; try congruence. }
    assert (r = false).
    { destruct (Nat.eq_dec (S (S (S (S (S b))))) e) as [<-|]; [congruence|]. elim (NR (S (S (S (S (S b))))) ltac:(lia)). rewrite L6. reflexivity. }
    subst r. split; [tauto|]. intros _. exists (S (S (S (S b)))). split; [lia|exact L5].
  - exfalso. rewrite Tx in T3. cbn [after] in T3.
    pose proof (St (S (S (S b))) ltac:(lia)) as T. pose proof (N (S (S (S b))) ltac:(lia)) as D.
    assert (K : lab (S (S (S b))) = L_throw k x /\ thread (s (S (S (S (S b))))) k = Idle).
    { destruct T; cbn [done_by] in D; subst; rewrite ?Th; try congruence. split; congruence. }
    destruct K as [L4 T4].
    destruct (Nat.eq_dec (S (S (S b))) e) as [<-|]; [congruence|].
    elim (NR (S (S (S b))) ltac:(lia)). rewrite L4. reflexivity.
Qed.
Print Assumptions C138_undisturbed_partial.

(* ---------- executions ---------- *)
Definition act (y : sys) (g : resolver) (s : state) (c : tid * str) : label * state :=
  let k := fst c in
  match thread s k with
  | Idle => (L_call k (snd c), goes s k (At_clear (snd c)) (shared s))
  | At_clear v => (L_clear k, goes s k (At_parse v) (clear_errors (shared s)))
  | At_parse v => (L_parse k v, goes s k (after (snd (parse y g v (shared s)))) (fst (parse y g v (shared s))))
  | At_test => (L_test k (has_errors (shared s)), goes s k (if has_errors (shared s) then At_error else At_return true) (shared s))
  | At_error => (L_error k (error_messages (shared s)), goes s k (At_return false) (shared s))
  | At_return b => (L_return k b, goes s k Idle (shared s))
  | At_throw x => (L_throw k x, goes s k Idle (shared s))
  | Undefined => (L_clear k, s)
  end.
Lemma act_step y g s c : thread s (fst c) <> Undefined -> step y g s (fst (act y g s c)) (snd (act y g s c)).
Proof. intros N. unfold act. destruct (thread s (fst c)) eqn:E; cbn [fst snd]; try constructor; congruence. Qed.
Fixpoint run (y : sys) (g : resolver) (p : parser) (sch : list (tid * str)) (i : nat) : state :=
  match i with O => init p | S i => snd (act y g (run y g p sch i) (nth i sch (0, []))) end.
Definition labels (y : sys) (g : resolver) (p : parser) (sch : list (tid * str)) (i : nat) : label :=
  fst (act y g (run y g p sch i) (nth i sch (0, []))).
Definition fine (c : pc) : bool := match c with Undefined => false | _ => true end.
Lemma run_execution y g p sch :
  forallb (fun i => fine (thread (run y g p sch i) (fst (nth i sch (0, []))))) (seq 0 (length sch)) = true ->
  execution y g p (run y g p sch) (labels y g p sch) (length sch).
Proof.
  intros F. split; [reflexivity|]. intros i L. cbn [run]. apply act_step.
  rewrite forallb_forall in F. specialize (F i ltac:(apply in_seq; lia)). intros E. rewrite E in F. discriminate.
Qed.

Definition good : str := lit "10.0.0.1".
Definition bad : str := lit "300.0.0.1".
(* The thread 1 is done with parse() when the thread 2 parses. *)
Definition good_refused : list (tid * str) := [(1, good); (2, bad); (2, []); (1, []); (1, []); (2, []); (1, []); (1, []); (1, [])].
(* The thread 1 is done with parse() when the thread 2 clears the errors. *)
Definition bad_accepted : list (tid * str) := [(1, bad); (2, good); (1, []); (1, []); (2, []); (1, []); (1, [])].
Theorem C138_refuted : exists split y g data v log, construct split y g data = Ok (v, log)
  /\ (exists s lab n value b e, execution y g (f_parser v) s lab n /\ e < n
       /\ answered lab 1 value b e false /\ snd (validate y g v value) = Ok true)
  /\ (exists s lab n value b e, execution y g (f_parser v) s lab n /\ e < n
       /\ answered lab 1 value b e true /\ snd (validate y g v value) = Ok false).
Proof.
  eexists words, ref_sys, host_numbers, [], _, _. split; [vm_compute; reflexivity|]. cbn [f_parser].
  match goal with |- context [execution _ _ ?q] => set (p := q) end.
  assert (K : forall (P : nat -> Prop) e, (forall i, In i (seq 1 (e - 1)) -> P i) -> forall i, 0 < i < e -> P i).
  { intros P e A i Hi. apply A, in_seq. lia. }
  split.
  - exists (run ref_sys host_numbers p good_refused), (labels ref_sys host_numbers p good_refused), 9, good, 0, 8.
    split; [apply run_execution; vm_compute; reflexivity|]. split; [lia|]. split; [|vm_compute; reflexivity].
    split; [lia|]. split; [vm_compute; reflexivity|]. split; [vm_compute; reflexivity|].
    apply K. intros i Hi. cbn [Nat.sub seq] in Hi. repeat (destruct Hi as [<-|Hi]; [vm_compute; try discriminate; auto|]). destruct Hi.
  - exists (run ref_sys host_numbers p bad_accepted), (labels ref_sys host_numbers p bad_accepted), 7, bad, 0, 6.
    split; [apply run_execution; vm_compute; reflexivity|]. split; [lia|]. split; [|vm_compute; reflexivity].
    split; [lia|]. split; [vm_compute; reflexivity|]. split; [vm_compute; reflexivity|].
    apply K. intros i Hi. cbn [Nat.sub seq] in Hi. repeat (destruct Hi as [<-|Hi]; [vm_compute; try discriminate; auto|]). destruct Hi.
Qed.
Print Assumptions C138_refuted.

(* Two threads, one call after the other. *)
Definition in_turn : list (tid * str) := [(1, bad); (1, []); (1, []); (1, []); (1, []); (1, []); (2, good); (2, []); (2, []); (2, []); (2, [])].
Example C138_witness : exists v, construct words ref_sys host_numbers [] = Ok (v, [])
  /\ exists s lab, execution ref_sys host_numbers (f_parser v) s lab 11
  /\ answered lab 1 bad 0 5 false /\ undisturbed lab 1 0 5
  /\ answered lab 2 good 6 10 true /\ undisturbed lab 2 6 10
  /\ refused ref_sys host_numbers (f_parser v) bad /\ lab 9 = L_test 2 false /\ exists m, lab 4 = L_error 1 m /\ m <> [].
Proof.
  eexists. split; [vm_compute; reflexivity|]. cbn [f_parser].
  match goal with |- context [execution _ _ ?q] => set (p := q) end.
  exists (run ref_sys host_numbers p in_turn), (labels ref_sys host_numbers p in_turn).
  assert (K : forall (P : nat -> Prop) b e, (forall i, In i (seq (S b) (e - b - 1)) -> P i) -> forall i, b < i < e -> P i).
  { intros P b e A i Hi. apply A, in_seq. lia. }
  split; [apply (run_execution ref_sys host_numbers p in_turn); vm_compute; reflexivity|].
  split; [|split; [|split; [|split; [|split; [vm_compute; reflexivity|split; [vm_compute; reflexivity|]]]]]].
  - split; [lia|]. split; [vm_compute; reflexivity|]. split; [vm_compute; reflexivity|].
    apply K. intros i Hi. cbn [Nat.sub seq] in Hi. repeat (destruct Hi as [<-|Hi]; [vm_compute; try discriminate; auto|]). destruct Hi.
  - unfold undisturbed. apply K. intros i Hi. cbn [Nat.sub seq] in Hi. repeat (destruct Hi as [<-|Hi]; [vm_compute; reflexivity|]). destruct Hi.
  - split; [lia|]. split; [vm_compute; reflexivity|]. split; [vm_compute; reflexivity|].
    apply K. intros i Hi. cbn [Nat.sub seq] in Hi. repeat (destruct Hi as [<-|Hi]; [vm_compute; try discriminate; auto|]). destruct Hi.
  - unfold undisturbed. apply K. intros i Hi. cbn [Nat.sub seq] in Hi. repeat (destruct Hi as [<-|Hi]; [vm_compute; reflexivity|]). destruct Hi.
  - eexists. split; [vm_compute; reflexivity|discriminate].
Qed.
