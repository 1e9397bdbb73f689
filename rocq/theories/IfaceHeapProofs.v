(* Proofs about the sharing of the lists of interfaces. *)
From Coq Require Import ZifyBool ZifyNat.
From Verif Require Import Base Addr Iface IfaceHeap SpecIfaceHeap.
From Verif Require IfaceCache SpecIface.
Local Open Scope Z_scope.

(* The vector a thread has in a local variable. *)
Definition local (p : pc) : option obj :=
  match p with
  | Get_return o => o
  | Get_fill o _ | Get_relock o | Get_now o | Get_ttl o _ | Get_set o _ | Get_swap o => Some o
  | _ => None
  end.
Definition filling (p : pc) : option obj := match p with Get_fill o _ => Some o | _ => None end.

Record inv (s : state) : Prop := {
  inv_cache : forall o, g_cache_iface s = Some o -> (o < length (heap s))%nat /\ forall k, filling (thread s k) <> Some o;
  inv_returned : forall o, returned s o = true -> (o < length (heap s))%nat /\ forall k, filling (thread s k) <> Some o;
  inv_local : forall j o, local (thread s j) = Some o ->
    (o < length (heap s))%nat /\ forall k, k <> j -> filling (thread s k) <> Some o;
  inv_fill : forall k o l, thread s k = Get_fill o l -> exists d, make_ifaces d = Ok (contents s o)
}.

Lemma upd_length {A} (l : list A) i v : length (upd l i v) = length l.
Proof. revert i. induction l as [|x l IH]; intros [|i]; cbn; auto. Qed.
Lemma nth_upd_same {A} (l : list A) i v d : (i < length l)%nat -> nth i (upd l i v) d = v.
Proof. revert i. induction l as [|x l IH]; intros [|i] L; cbn in *; try lia; auto. apply IH. lia. Qed.
Lemma nth_upd_other {A} (l : list A) i j v d : i <> j -> nth j (upd l i v) d = nth j l d.
Proof. revert i j. induction l as [|x l IH]; intros [|i] [|j] N; cbn; auto; try congruence. Qed.

Lemma make_ifaces_snoc d c e i : make_ifaces d = Ok c -> make_iface e = Ok (Some i) -> make_ifaces (d ++ [e]) = Ok (c ++ [i]).
Proof.
  revert c. induction d as [|x d IH]; intros c H E; cbn [make_ifaces app] in *.
  - injection H as <-. rewrite E. reflexivity.
  - destruct (make_iface x) as [o| | |]; cbn [rbind] in *; try discriminate.
    destruct (make_ifaces d) as [c'| | |]; cbn [rbind] in *; try discriminate. rewrite (IH c' eq_refl E). cbn [rbind].
    injection H as <-. now destruct o.
Qed.
Lemma make_ifaces_throw d c e x : make_ifaces d = Ok c -> make_iface e = Throw x -> make_ifaces (d ++ [e]) = Throw x.
Proof.
  revert c. induction d as [|z d IH]; intros c H E; cbn [make_ifaces app] in *.
  - now rewrite E.
  - destruct (make_iface z) as [o| | |]; cbn [rbind] in *; try discriminate.
    destruct (make_ifaces d) as [c'| | |]; cbn [rbind] in *; try discriminate. now rewrite (IH c' eq_refl E).
Qed.

Lemma inv_init now : inv (init now).
Proof. constructor; cbn; try discriminate. Qed.

Ltac fields := cbn [g_cache_ttl g_cache_timeout g_cache_iface owner clock thread heap returned
  with_pc with_ttl with_timeout with_iface with_owner with_clock alloc store hand_out] in *.
(* The threads but the one which goes on are where they were. *)
Ltac who k := match goal with |- context [Nat.eqb ?j k] => destruct (Nat.eqb_spec j k); [subst j|] end.

Lemma contents_app s o : (o < length (heap s))%nat -> nth o (heap s ++ [[]]) [] = contents s o.
Proof. intros L. unfold contents. now rewrite app_nth1. Qed.

Lemma inv_step s l s' : inv s -> step s l s' -> inv s'.
Proof.
  intros [IC IR IL IF] H.
  (* steps of a thread which change its place only, to one with no new object *)
  assert (MOVE : forall k p, filling p = None -> (forall o, local p = Some o -> local (thread s k) = Some o \/ g_cache_iface s = Some o) ->
    inv (with_pc s k p)).
  { intros k p F M. constructor; fields.
    - intros o O. destruct (IC o O) as [A B]. split; [exact A|]. intros j. who k; [congruence|apply B].
    - intros o O. destruct (IR o O) as [A B]. split; [exact A|]. intros j. who k; [congruence|apply B].
    - intros j o. who k.
      + intros O. destruct (M o O) as [X|X].
        * destruct (IL k o X) as [A B]. split; [exact A|]. intros m N. who k; [congruence|now apply B].
        * destruct (IC o X) as [A B]. split; [exact A|]. intros m N. who k; [congruence|now apply B].
      + intros O. destruct (IL j o O) as [A B]. split; [exact A|]. intros m N. who k; [congruence|now apply B].
    - intros j o d. who k; [intros ->; discriminate|]. intros O. exact (IF j o d O). }
  assert (OWN : forall x v, inv x -> inv (with_owner x v)) by (intros x v [A B C D]; constructor; auto).
  assert (TIM : forall x v, inv x -> inv (with_timeout x v)) by (intros x v [A B C D]; constructor; auto).
  assert (TTL : forall x v, inv x -> inv (with_ttl x v)) by (intros x v [A B C D]; constructor; auto).
  assert (CLK : forall x v, inv x -> inv (with_clock x v)) by (intros x v [A B C D]; constructor; auto).
  destruct H as [s t|s k T|s k T O|s k T|s k now T|s k T|s k T|s k o T|s k T|s k T|s k l T|s k T|s k o e l T M|s k o e l i T M
    |s k o e l x T M|s k o T|s k o T O|s k o T|s k o now T|s k o t T|s k o T|s k T|s k T|s k T O|s k T|s k T|s k T|s k v T V|s k v T|s k o l T R];
    try solve [try apply OWN; try apply TIM; try apply TTL; try apply CLK; try (constructor; assumption);
      apply MOVE; [reflexivity|cbn [local]; rewrite ?T; cbn [local]; intros; try discriminate; auto]].
  - (* S_clock *) apply CLK. constructor; assumption.
  - (* S_timeout *) destruct (g_cache_timeout s >=? now); (apply MOVE; [reflexivity|cbn; discriminate]).
  - (* S_test *) destruct (g_cache_iface s); (apply MOVE; [reflexivity|cbn; discriminate]).
  - (* S_return *)
    assert (I : inv (with_owner (with_pc s k Idle) None)) by (apply OWN, MOVE; [reflexivity|cbn; discriminate]).
    destruct I as [A B C D]. constructor; auto. intros x X. cbn [returned hand_out] in X.
    destruct o as [o|]; [|exact (B x X)]. apply orb_prop in X. destruct X as [X|X]; [|exact (B x X)].
    apply Nat.eqb_eq in X. subst x. destruct (IL k o) as [L N]; [now rewrite T|]. split; [exact L|].
    fields. intros j. who k; [discriminate|now apply N].
  - (* S_placeholder *)
    assert (I : inv (with_pc s k Get_unlock)) by (apply MOVE; [reflexivity|cbn; discriminate]).
    destruct I as [A B C D]. constructor; fields; rewrite ?app_length; cbn [length].
    + intros o [= <-]. split; [unfold fresh; lia|]. intros j F.
      assert (X : local (if Nat.eqb j k then Get_unlock else thread s j) = Some (fresh s))
        by (destruct (if Nat.eqb j k then Get_unlock else thread s j); cbn in *; congruence).
      apply C in X. unfold fresh in X. lia.
    + intros o O. destruct (B o O) as [L N]. split; [lia|exact N].
    + intros j o O. destruct (C j o O) as [L N]. split; [lia|exact N].
    + intros j o d O. destruct (D j o d O) as [c E]. exists c. rewrite E. f_equal. unfold contents. fields.
      symmetry. apply app_nth1. apply (C j). now rewrite O.
  - (* S_kernel *)
    assert (NEW : forall j, filling (thread s j) <> Some (fresh s)).
    { intros j F. assert (X : local (thread s j) = Some (fresh s)) by (destruct (thread s j); cbn in *; congruence).
      apply IL in X. unfold fresh in X. lia. }
    constructor; fields; rewrite ?app_length; cbn [length].
    + intros o O. destruct (IC o O) as [L N]. split; [lia|]. intros j. who k; [|apply N].
      cbn. unfold fresh. intros [= E]. lia.
    + intros o O. destruct (IR o O) as [L N]. split; [lia|]. intros j. who k; [|apply N].
      cbn. unfold fresh. intros [= E]. lia.
    + intros j o. who k.
      * cbn [local]. intros [= <-]. split; [unfold fresh; lia|]. intros m M. who k; [congruence|apply NEW].
      * intros O. destruct (IL j o O) as [L N]. split; [lia|]. intros m M. who k; [|now apply N].
        cbn. unfold fresh. intros [= E]. lia.
    + intros j o d. who k.
      * intros [= <- <-]. exists []. cbn. f_equal. unfold contents, fresh. fields. rewrite app_nth2, Nat.sub_diag; auto.
      * intros O. destruct (IF j o d O) as [c E]. exists c. rewrite E. f_equal. unfold contents. fields.
        symmetry. apply app_nth1. apply (IL j). now rewrite O.
  - (* S_skip *) constructor; fields.
    + intros x X. destruct (IC x X) as [L N]. split; [exact L|]. intros j. who k; [|apply N].
      specialize (N k). rewrite T in N. exact N.
    + intros x X. destruct (IR x X) as [L N]. split; [exact L|]. intros j. who k; [|apply N].
      specialize (N k). rewrite T in N. exact N.
    + intros j x X. assert (X' : local (thread s j) = Some x) by (revert X; who k; [now rewrite T|auto]).
      destruct (IL j x X') as [L N]. split; [exact L|]. intros m Q. specialize (N m Q). who k; [|exact N].
      rewrite T in N. exact N.
    + intros j x d. who k; [intros [= <- <-]; exact (IF k o _ T)|]. intros X. exact (IF j x d X).
  - (* S_push *)
    assert (LO : (o < length (heap s))%nat) by (apply (IL k); now rewrite T).
    constructor; fields; rewrite ?upd_length.
    + intros x X. destruct (IC x X) as [L N]. split; [exact L|]. intros j. who k; [|apply N].
      specialize (N k). rewrite T in N. exact N.
    + intros x X. destruct (IR x X) as [L N]. split; [exact L|]. intros j. who k; [|apply N].
      specialize (N k). rewrite T in N. exact N.
    + intros j x X. assert (X' : local (thread s j) = Some x) by (revert X; who k; [now rewrite T|auto]).
      destruct (IL j x X') as [L N]. split; [exact L|]. intros m Q. specialize (N m Q). who k; [|exact N].
      rewrite T in N. exact N.
    + intros j x d. who k.
      * intros [= <- <-]. destruct (IF k o _ T) as [c E]. exists (c ++ [e]).
        rewrite (make_ifaces_snoc c (contents s o) e i E M). f_equal. unfold contents. fields. now rewrite nth_upd_same.
      * intros X. destruct (IF j x d X) as [c E]. exists c. rewrite E. f_equal. unfold contents. fields.
        rewrite nth_upd_other; [reflexivity|]. intros ->. destruct (IL k x) as [_ N]; [now rewrite T|].
        apply (N j n). now rewrite X.
  - (* S_swap *)
    assert (I : inv (with_pc s k Get_copy2)) by (apply MOVE; [reflexivity|cbn; discriminate]).
    destruct I as [A B C D]. constructor; auto. fields. intros x [= <-].
    destruct (IL k o) as [L N]; [now rewrite T|]. split; [exact L|]. intros j. who k; [discriminate|now apply N].
  - (* S_reset_iface *)
    assert (I : inv (with_pc s k Reset_unlock)) by (apply MOVE; [reflexivity|cbn; discriminate]).
    destruct I as [A B C D]. constructor; auto. discriminate.
  - (* S_change *) constructor; fields; rewrite ?upd_length; auto.
    intros j x d X. destruct (IF j x d X) as [c E]. exists c. rewrite E. f_equal. unfold contents. fields.
    rewrite nth_upd_other; [reflexivity|]. intros ->. destruct (IR x R) as [_ N]. apply (N j). now rewrite X.
Qed.

(* A step changes no vector but the one which is being filled and the one a
   caller changes. *)
Lemma contents_step s l s' o : inv s -> step s l s' -> (o < length (heap s))%nat ->
  (forall k, filling (thread s k) <> Some o) -> ~ changes l o -> contents s' o = contents s o.
Proof.
  intros I H L F C. destruct H as [s t|s k T|s k T O|s k T|s k now T|s k T|s k T|s k x T|s k T|s k T|s k l T|s k T|s k x e l T M|s k x e l i T M
    |s k x e l z T M|s k x T|s k x T O|s k x T|s k x now T|s k x t T|s k x T|s k T|s k T|s k T O|s k T|s k T|s k T|s k v T V|s k v T|s k x l T R];
    try reflexivity; unfold contents; fields; try (apply app_nth1; exact L).
  - apply nth_upd_other. intros ->. apply (F k). now rewrite T.
  - apply nth_upd_other. intros ->. apply C. now exists k, l.
Qed.

Lemma step_grows s l s' : step s l s' -> (length (heap s) <= length (heap s'))%nat /\
  (forall o, returned s o = true -> returned s' o = true).
Proof.
  intros H. destruct H as [s t|s k T|s k T O|s k T|s k now T|s k T|s k T|s k x T|s k T|s k T|s k l T|s k T|s k x e l T M|s k x e l i T M
    |s k x e l z T M|s k x T|s k x T O|s k x T|s k x now T|s k x t T|s k x T|s k T|s k T|s k T O|s k T|s k T|s k T|s k v T V|s k v T|s k x l T R];
    fields; rewrite ?app_length, ?upd_length; (split; [lia|]); intros o Q; auto.
  destruct x; [|exact Q]. now rewrite Q, orb_true_r.
Qed.

Lemma execution_inv s lab n i : execution s lab n -> (i <= n)%nat -> inv (s i).
Proof.
  intros [[now [_ E]] H]. induction i as [|i IH]; intros L.
  - rewrite E. apply inv_init.
  - apply (inv_step (s i) (lab i)); [apply IH; lia|apply H; lia].
Qed.

(* A vector which was returned is changed by callers only. *)
Lemma returned_stays s lab n i j o : execution s lab n -> (i <= j <= n)%nat -> returned (s i) o = true ->
  (forall m, (i <= m < j)%nat -> ~ changes (lab m) o) -> contents (s j) o = contents (s i) o /\ returned (s j) o = true.
Proof.
  intros X L R C. destruct L as [L1 L2]. induction j as [|j IH].
  - replace i with 0%nat in * by lia. split; [reflexivity|exact R].
  - destruct (Nat.eq_dec i (S j)) as [->|N]; [split; [reflexivity|exact R]|].
    destruct IH as [E R']; try lia; [intros m M; apply C; lia|].
    pose proof (proj2 X j ltac:(lia)) as ST. pose proof (execution_inv s lab n j X ltac:(lia)) as I.
    split; [|now apply (step_grows _ _ _ ST)]. rewrite <- E.
    destruct (inv_returned _ I o R') as [LL FF].
    apply (contents_step _ _ _ _ I ST LL FF). apply C. lia.
Qed.

(* Where the contents come from. *)
Lemma make_ifaces_skip d c e : make_ifaces d = Ok c -> make_iface e = Ok None -> make_ifaces (d ++ [e]) = Ok c.
Proof.
  revert c. induction d as [|x d IH]; intros c H E; cbn [make_ifaces app] in *.
  - injection H as <-. rewrite E. reflexivity.
  - destruct (make_iface x) as [o| | |]; cbn [rbind] in *; try discriminate.
    destruct (make_ifaces d) as [c'| | |]; cbn [rbind] in *; try discriminate. now rewrite (IH c' eq_refl E).
Qed.

(* A vector someone can read. *)
Definition ref (s : state) (o : obj) : Prop :=
  g_cache_iface s = Some o \/ returned s o = true \/
  exists k, local (thread s k) = Some o /\ filling (thread s k) = None.

Lemma ref_step s l s' o : inv s -> step s l s' -> ref s' o ->
  ref s o \/ contents s' o = [] \/ exists k, thread s k = Get_fill o [] /\ contents s' o = contents s o.
Proof.
  intros I H.
  (* a thread which goes from one place to another *)
  assert (MOVE : forall k p, (forall x, local p = Some x -> filling p = None -> ref s x \/ thread s k = Get_fill x []) ->
    ref (with_pc s k p) o -> ref s o \/ thread s k = Get_fill o []).
  { intros k p M [C|[R|[j [L F]]]]; [left; now left|left; right; now left|]. fields. revert L F. who k.
    - intros L F. exact (M o L F).
    - intros L F. left. right. right. now exists j. }
  destruct H as [s t|s k T|s k T O|s k T|s k now T|s k T|s k T|s k x T|s k T|s k T|s k l T|s k T|s k x e l T M|s k x e l i T M
    |s k x e l z T M|s k x T|s k x T O|s k x T|s k x now T|s k x t T|s k x T|s k T|s k T|s k T O|s k T|s k T|s k T|s k v T V|s k v T|s k x l T R];
    intros RF;
    try solve [apply (MOVE k) in RF;
      [destruct RF as [RF|RF]; [now left|right; right; exists k; split; [exact RF|reflexivity]]
      |cbn [local filling]; intros y Y1 Y2; try discriminate;
       first [left; left; congruence
             |left; right; right; exists k; rewrite T; now split
             |right; congruence]]].
  - left. exact RF.
  - destruct (g_cache_timeout s >=? now); (apply (MOVE k) in RF; [destruct RF as [RF|RF]; [now left|congruence]|cbn; discriminate]).
  - destruct (g_cache_iface s); (apply (MOVE k) in RF; [destruct RF as [RF|RF]; [now left|congruence]|cbn; discriminate]).
  - assert (RF' : ref (with_pc s k Idle) o \/ x = Some o).
    { destruct RF as [C|[R|J]]; [left; now left| |left; right; now right]. cbn [returned hand_out with_owner with_pc] in R.
      destruct x as [x|]; [|left; right; now left]. apply orb_prop in R. destruct R as [R|R]; [right; f_equal; apply Nat.eqb_eq in R; congruence|].
      left. right. now left. }
    destruct RF' as [RF'| ->].
    + apply MOVE in RF'; [destruct RF' as [RF'|RF']; [now left|congruence]|cbn; discriminate].
    + left. right. right. exists k. now rewrite T.
  - destruct (Nat.eq_dec o (fresh s)) as [->|N].
    + right. left. unfold contents, fresh. fields. rewrite app_nth2, Nat.sub_diag; auto.
    + left. assert (RF' : ref (with_pc s k Get_unlock) o).
      { destruct RF as [C|[R|J]]; [fields; congruence|right; now left|right; now right]. }
      apply MOVE in RF'; [destruct RF' as [RF'|RF']; [exact RF'|congruence]|cbn; discriminate].
  - left. assert (RF' : ref (with_pc s k (Get_fill (fresh s) l)) o).
    { destruct RF as [C|[R|J]]; [now left|right; now left|right; now right]. }
    apply MOVE in RF'; [destruct RF' as [RF'|RF']; [exact RF'|congruence]|cbn; discriminate].
  - left. assert (RF' : ref (with_pc s k (Get_fill x l)) o).
    { destruct RF as [C|[R|J]]; [now left|right; now left|right; now right]. }
    apply MOVE in RF'; [|cbn; discriminate]. destruct RF' as [RF'|RF']; [exact RF'|congruence].
  - destruct RF as [C|[Q|[j [L F]]]]; fields.
    + injection C as <-. left. right. right. exists k. now rewrite T.
    + left. right. now left.
    + left. right. right. exists j. revert L F. who k; [discriminate|]. now split.
  - destruct RF as [C|[Q|[j [L F]]]]; fields.
    + discriminate.
    + left. right. now left.
    + left. right. right. exists j. revert L F. who k; [discriminate|]. now split.
  - left. destruct RF as [C|[Q|J]]; [now left|right; now left|right; now right].
Qed.

Lemma fill_step s l s' k o t : inv s -> step s l s' -> thread s' k = Get_fill o t ->
  (thread s k = Get_fill o t /\ contents s' o = contents s o) \/
  (l = L_kernel k t /\ contents s' o = []) \/
  exists e, thread s k = Get_fill o (e :: t) /\
    (make_iface e = Ok None /\ contents s' o = contents s o \/
     exists i, make_iface e = Ok (Some i) /\ contents s' o = contents s o ++ [i]).
Proof.
  intros I H T'.
  destruct H as [s c|s j T|s j T O|s j T|s j now T|s j T|s j T|s j x T|s j T|s j T|s j l T|s j T|s j x e l T M|s j x e l i T M
    |s j x e l z T M|s j x T|s j x T O|s j x T|s j x now T|s j x c T|s j x T|s j T|s j T|s j T O|s j T|s j T|s j T|s j v T V|s j v T|s j x l T R];
    fields;
    try (destruct (Nat.eqb_spec k j) as [->|N];
         [try discriminate
         |left; split; [exact T'|]; unfold contents; fields;
          try (apply app_nth1; apply (inv_local _ I k); now rewrite T')]);
    try reflexivity.
  - left. now split.
  - destruct (g_cache_timeout s >=? now); discriminate.
  - destruct (g_cache_iface s); discriminate.
  - injection T' as <- <-. right. left. split; [reflexivity|]. unfold contents, fresh. fields. rewrite app_nth2, Nat.sub_diag; auto.
  - injection T' as <- <-. right. right. exists e. split; [exact T|]. left. now split.
  - injection T' as <- <-. right. right. exists e. split; [exact T|]. right. exists i. split; [exact M|].
    unfold contents. fields. apply nth_upd_same. apply (inv_local _ I j). now rewrite T.
  - apply nth_upd_other. intros ->. destruct (inv_local _ I j o) as [_ F]; [now rewrite T|]. apply (F k N). now rewrite T'.
  - congruence.
  - apply nth_upd_other. intros ->. destruct (inv_returned _ I o R) as [_ F]. apply (F k). now rewrite T'.
Qed.

Definition known (s : nat -> state) (lab : nat -> label) (n : nat) (o : obj) : Prop :=
  contents (s n) o = [] \/
  exists i k l, (i < n)%nat /\ lab i = L_kernel k l /\ make_ifaces l = Ok (contents (s n) o).

Lemma execution_known s lab n : execution s lab n -> only_read lab n ->
  (forall k o t, thread (s n) k = Get_fill o t ->
    exists i d, (i < n)%nat /\ lab i = L_kernel k (d ++ t) /\ make_ifaces d = Ok (contents (s n) o)) /\
  (forall o, ref (s n) o -> known s lab n o).
Proof.
  induction n as [|n IH]; intros X RO.
  - destruct X as [[now [_ E]] _]. rewrite E. split; [discriminate|].
    intros o [C|[R|[k [L _]]]]; try discriminate.
  - assert (X' : execution s lab n) by (split; [apply X|intros i L; apply X; lia]).
    destruct (IH X') as [IF IK]; [intros i o L; apply RO; lia|].
    pose proof (execution_inv s lab n n X' (Nat.le_refl n)) as I.
    pose proof (proj2 X n (Nat.lt_succ_diag_r n)) as ST. split.
    + intros k o t T. destruct (fill_step _ _ _ _ _ _ I ST T) as [[T0 C]|[[L C]|[e [T0 [[M C]|[i [M C]]]]]]]; rewrite C.
      * destruct (IF k o t T0) as (i & d & L & K & D). exists i, d. repeat split; auto.
      * exists n, []. repeat split; auto.
      * destruct (IF k o _ T0) as (i & d & L & K & D). exists i, (d ++ [e]). rewrite <- app_assoc. repeat split; auto.
        now apply make_ifaces_skip.
      * destruct (IF k o _ T0) as (j & d & L & K & D). exists j, (d ++ [e]). rewrite <- app_assoc. repeat split; auto.
        now apply make_ifaces_snoc.
    + intros o R. destruct (ref_step _ _ _ _ I ST R) as [R0|[C|[k [T C]]]].
      * assert (C : contents (s (S n)) o = contents (s n) o).
        { apply (contents_step _ _ _ _ I ST).
          - destruct R0 as [Q|[Q|[k [Q _]]]]; [apply (inv_cache _ I o Q)|apply (inv_returned _ I o Q)|apply (inv_local _ I k o Q)].
          - destruct R0 as [Q|[Q|[k [Q F]]]]; [apply (inv_cache _ I o Q)|apply (inv_returned _ I o Q)|].
            intros j. destruct (Nat.eq_dec j k) as [->|N]; [congruence|]. now apply (inv_local _ I k o Q).
          - apply RO. lia. }
        destruct (IK o R0) as [E|(i & k & l & L & K & D)]; [left; congruence|]. right. exists i, k, l.
        rewrite C. repeat split; auto.
      * now left.
      * right. destruct (IF k o [] T) as (i & d & L & K & D). rewrite app_nil_r in K. exists i, k, d. rewrite C. repeat split; auto.
Qed.

(* The model with values does the same. *)
Definition abs_pc (s : state) (p : pc) : IfaceCache.pc :=
  match p with
  | Idle => IfaceCache.Idle
  | Get_lock => IfaceCache.Get_lock
  | Get_time => IfaceCache.Get_time
  | Get_timeout now => IfaceCache.Get_timeout now
  | Get_test => IfaceCache.Get_test
  | Get_copy => IfaceCache.Get_copy
  | Get_return o => IfaceCache.Get_return (option_map (contents s) o)
  | Get_placeholder => IfaceCache.Get_placeholder
  | Get_unlock => IfaceCache.Get_unlock
  | Get_kernel | Get_fill _ _ => IfaceCache.Get_kernel
  | Get_relock o => IfaceCache.Get_relock (contents s o)
  | Get_now o => IfaceCache.Get_now (contents s o)
  | Get_ttl o now => IfaceCache.Get_ttl (contents s o) now
  | Get_set o t => IfaceCache.Get_set (contents s o) t
  | Get_swap o => IfaceCache.Get_swap (contents s o)
  | Get_copy2 => IfaceCache.Get_copy2
  | Reset_lock => IfaceCache.Reset_lock
  | Reset_timeout => IfaceCache.Reset_timeout
  | Reset_iface => IfaceCache.Reset_iface
  | Reset_unlock => IfaceCache.Reset_unlock
  | Ttl_set v => IfaceCache.Ttl_set v
  end.
Record same (s : state) (a : IfaceCache.state) : Prop := {
  same_ttl : IfaceCache.g_cache_ttl a = g_cache_ttl s;
  same_timeout : IfaceCache.g_cache_timeout a = g_cache_timeout s;
  same_iface : IfaceCache.g_cache_iface a = option_map (contents s) (g_cache_iface s);
  same_owner : IfaceCache.owner a = owner s;
  same_clock : IfaceCache.clock a = clock s;
  same_thread : forall k, IfaceCache.thread a k = abs_pc s (thread s k)
}.

Lemma abs_eq s s' p : (forall o, local p = Some o -> filling p = None -> contents s' o = contents s o) -> abs_pc s' p = abs_pc s p.
Proof.
  intros H. destruct p; cbn [abs_pc local filling] in *; try reflexivity; rewrite ?(H _ eq_refl eq_refl); try reflexivity.
  destruct o as [o|]; cbn [option_map]; [|reflexivity]. now rewrite (H o eq_refl eq_refl).
Qed.

(* Everything which can be read stays. *)
Lemma stays s l s' : inv s -> step s l s' -> (forall o, ~ changes l o) -> forall o, ref s o -> contents s' o = contents s o.
Proof.
  intros I ST C o R. apply (contents_step _ _ _ _ I ST); [| |apply C].
  - destruct R as [Q|[Q|[k [Q _]]]]; [apply (inv_cache _ I o Q)|apply (inv_returned _ I o Q)|apply (inv_local _ I k o Q)].
  - destruct R as [Q|[Q|[k [Q F]]]]; [apply (inv_cache _ I o Q)|apply (inv_returned _ I o Q)|].
    intros j. destruct (Nat.eq_dec j k) as [->|N]; [congruence|]. now apply (inv_local _ I k o Q).
Qed.

Ltac fields' := cbn [IfaceCache.g_cache_ttl IfaceCache.g_cache_timeout IfaceCache.g_cache_iface IfaceCache.owner IfaceCache.clock IfaceCache.thread
  IfaceCache.with_pc IfaceCache.with_ttl IfaceCache.with_timeout IfaceCache.with_iface IfaceCache.with_owner IfaceCache.with_clock] in *.

Lemma simulation (Q : tid -> list ifaddrs -> Prop) s l s' a : inv s -> step s l s' -> (forall o, ~ changes l o) ->
  (forall k o t, thread s k = Get_fill o t -> exists d, Q k (d ++ t) /\ make_ifaces d = Ok (contents s o)) ->
  same s a ->
  (same s' a /\ event_of s l = []) \/
  exists l' a', IfaceCache.step a l' a' /\ same s' a' /\ event_of_value l' = event_of s l /\
    match l' with IfaceCache.L_kernel k d => Q k d | _ => True end.
Proof.
  intros I ST C FD [E1 E2 E3 E4 E5 E6]. pose proof (stays s l s' I ST C) as K.
  (* the threads which do not go on *)
  assert (OTHER : forall j, abs_pc s' (thread s j) = abs_pc s (thread s j)).
  { intros j. apply abs_eq. intros o L F. apply K. right. right. exists j. now split. }
  assert (CACHE : option_map (contents s') (g_cache_iface s) = option_map (contents s) (g_cache_iface s)).
  { destruct (g_cache_iface s) as [o|] eqn:G; cbn; [|reflexivity]. f_equal. apply K. now left. }
  (* the fields, and the threads *)
  Ltac same_fields k := constructor; fields; fields';
    [try congruence; try assumption|try congruence; try assumption|try congruence; try (etransitivity; [eassumption|]; symmetry; assumption)
    |try congruence; try reflexivity|try congruence; try assumption
    |let j := fresh "j" in intros j; destruct (Nat.eqb_spec j k); [try reflexivity
      |match goal with E6 : forall k, IfaceCache.thread _ k = _ |- _ => rewrite E6 end; symmetry; auto]].
  destruct ST as [s t|s k T|s k T O|s k T|s k now T|s k T|s k T|s k x T|s k T|s k T|s k l T|s k T|s k x e l T M|s k x e l i T M
    |s k x e l z T M|s k x T|s k x T O|s k x T|s k x now T|s k x t T|s k x T|s k T|s k T|s k T O|s k T|s k T|s k T|s k v T V|s k v T|s k x l T R];
    try (pose proof (E6 k) as AT; rewrite T in AT; cbn [abs_pc] in AT).
  - right. exists (IfaceCache.L_clock t). eexists. split; [apply IfaceCache.S_clock|]. split; [|split; [reflexivity|exact Logic.I]].
    constructor; fields; fields'; try assumption. reflexivity.
  - right. eexists. eexists. split; [eapply IfaceCache.S_call; first [eassumption|rewrite E4; exact O]|]. split; [same_fields k|split; [reflexivity|exact Logic.I]].
  - right. eexists. eexists. split; [eapply IfaceCache.S_lock; first [eassumption|rewrite E4; exact O]|]. split; [same_fields k|split; [reflexivity|exact Logic.I]].
  - right. eexists. eexists. split; [eapply IfaceCache.S_time; first [eassumption|rewrite E4; exact O]|]. split; [same_fields k|split; [reflexivity|exact Logic.I]]. rewrite E5. reflexivity.
  - right. eexists. eexists. split; [eapply IfaceCache.S_timeout; first [eassumption|rewrite E4; exact O]|]. split; [same_fields k|split; [reflexivity|exact Logic.I]]. rewrite E2. now destruct (g_cache_timeout s >=? now).
  - right. eexists. eexists. split; [eapply IfaceCache.S_test; first [eassumption|rewrite E4; exact O]|]. split; [same_fields k|split; [reflexivity|exact Logic.I]]. rewrite E3. now destruct (g_cache_iface s).
  - right. eexists. eexists. split; [eapply IfaceCache.S_copy; first [eassumption|rewrite E4; exact O]|]. split; [same_fields k|split; [reflexivity|exact Logic.I]]. rewrite E3. reflexivity.
  - right. eexists. eexists. split; [eapply IfaceCache.S_return; first [eassumption|rewrite E4; exact O]|]. split; [same_fields k|split; [reflexivity|exact Logic.I]].
  - right. eexists. eexists. split; [eapply IfaceCache.S_placeholder; first [eassumption|rewrite E4; exact O]|]. split; [same_fields k|split; [reflexivity|exact Logic.I]]. cbn. unfold contents, fresh. fields. rewrite app_nth2, Nat.sub_diag; auto.
  - right. eexists. eexists. split; [eapply IfaceCache.S_unlock; first [eassumption|rewrite E4; exact O]|]. split; [same_fields k|split; [reflexivity|exact Logic.I]].
  - (* getifaddrs() is read *) left. split; [|reflexivity]. same_fields k. subst j. exact AT.
  - right. eexists. eexists. split; [eapply IfaceCache.S_kernel_fails; first [eassumption|rewrite E4; exact O]|]. split; [same_fields k|split; [reflexivity|exact Logic.I]].
  - left. split; [|reflexivity]. same_fields k. subst j. exact AT.
  - left. split; [|reflexivity]. same_fields k. subst j. exact AT.
  - destruct (FD _ _ _ T) as [d [_ D]].
    right. exists (IfaceCache.L_return k (IfaceCache.Failed z)). eexists.
    split; [exact (IfaceCache.S_kernel_throws a k (d ++ [e]) z AT (make_ifaces_throw d _ e z D M))|].
    split; [same_fields k|split; [reflexivity|first [exact Logic.I|exact QD]]].
  - destruct (FD _ _ _ T) as [d [QD D]]. rewrite app_nil_r in QD.
    right. exists (IfaceCache.L_kernel k d). eexists. split; [exact (IfaceCache.S_kernel a k d _ AT D)|].
    split; [same_fields k|split; [reflexivity|first [exact Logic.I|exact QD]]].
  - right. eexists. eexists. split; [eapply IfaceCache.S_relock; first [eassumption|rewrite E4; exact O]|]. split; [same_fields k|split; [reflexivity|exact Logic.I]].
  - right. eexists. eexists. split; [eapply IfaceCache.S_now; first [eassumption|rewrite E4; exact O]|]. split; [same_fields k|split; [reflexivity|exact Logic.I]]. rewrite E5. reflexivity.
  - right. eexists. eexists. split; [eapply IfaceCache.S_ttl; first [eassumption|rewrite E4; exact O]|]. split; [same_fields k|split; [reflexivity|exact Logic.I]]. rewrite E1. reflexivity.
  - right. eexists. eexists. split; [eapply IfaceCache.S_set; first [eassumption|rewrite E4; exact O]|]. split; [same_fields k|split; [reflexivity|exact Logic.I]].
  - right. eexists. eexists. split; [eapply IfaceCache.S_swap; first [eassumption|rewrite E4; exact O]|]. split; [same_fields k|split; [reflexivity|exact Logic.I]]. reflexivity.
  - right. eexists. eexists. split; [eapply IfaceCache.S_copy2; first [eassumption|rewrite E4; exact O]|]. split; [same_fields k|split; [reflexivity|exact Logic.I]]. rewrite E3. reflexivity.
  - right. eexists. eexists. split; [eapply IfaceCache.S_reset; first [eassumption|rewrite E4; exact O]|]. split; [same_fields k|split; [reflexivity|exact Logic.I]].
  - right. eexists. eexists. split; [eapply IfaceCache.S_reset_lock; first [eassumption|rewrite E4; exact O]|]. split; [same_fields k|split; [reflexivity|exact Logic.I]].
  - right. eexists. eexists. split; [eapply IfaceCache.S_reset_timeout; first [eassumption|rewrite E4; exact O]|]. split; [same_fields k|split; [reflexivity|exact Logic.I]].
  - right. eexists. eexists. split; [eapply IfaceCache.S_reset_iface; first [eassumption|rewrite E4; exact O]|]. split; [same_fields k|split; [reflexivity|exact Logic.I]]. reflexivity.
  - right. eexists. eexists. split; [eapply IfaceCache.S_reset_unlock; first [eassumption|rewrite E4; exact O]|]. split; [same_fields k|split; [reflexivity|exact Logic.I]].
  - right. eexists. eexists. split; [eapply IfaceCache.S_ttl_call; first [eassumption|rewrite E4; exact O]|]. split; [same_fields k|split; [reflexivity|exact Logic.I]].
  - right. eexists. eexists. split; [eapply IfaceCache.S_ttl_set; first [eassumption|rewrite E4; exact O]|]. split; [same_fields k|split; [reflexivity|exact Logic.I]].
  - exfalso. apply (C x). now exists k, l.
Qed.

(* Paths of the model with values; the clock is never set back if P. *)
Inductive vpath (P : Prop) (a : IfaceCache.state) : list IfaceCache.label -> IfaceCache.state -> Prop :=
| vpath_nil : vpath P a [] a
| vpath_snoc r b l c : vpath P a r b -> IfaceCache.step b l c -> (P -> IfaceCache.clock b <= IfaceCache.clock c) ->
    vpath P a (r ++ [l]) c.

Lemma vpath_mono (P Q : Prop) a r b : (Q -> P) -> vpath P a r b -> vpath Q a r b.
Proof. intros H. induction 1; econstructor; eauto. Qed.

Lemma vpath_fun P a r b : vpath P a r b -> exists s, s 0%nat = a /\ s (length r) = b /\
  (forall i, (i < length r)%nat -> IfaceCache.step (s i) (nth i r (IfaceCache.L_clock 0)) (s (S i))) /\
  (P -> forall i, (i < length r)%nat -> IfaceCache.clock (s i) <= IfaceCache.clock (s (S i))).
Proof.
  induction 1 as [|r b l c V [s [S0 [S1 [S2 S3]]]] ST CK].
  - exists (fun _ => a). cbn. repeat split; auto; lia.
  - exists (fun i => if (i <=? length r)%nat then s i else c). rewrite app_length. cbn [length]. repeat split.
    + exact S0.
    + now replace (length r + 1 <=? length r)%nat with false by lia.
    + intros i L. replace (i <=? length r)%nat with true by lia. destruct (Nat.eq_dec i (length r)) as [->|N].
      * replace (S (length r) <=? length r)%nat with false by lia. rewrite app_nth2, Nat.sub_diag by lia. cbn [nth]. now rewrite S1.
      * replace (S i <=? length r)%nat with true by lia. rewrite app_nth1 by lia. apply S2. lia.
    + intros PP i L. replace (i <=? length r)%nat with true by lia. destruct (Nat.eq_dec i (length r)) as [->|N].
      * replace (S (length r) <=? length r)%nat with false by lia. rewrite S1. auto.
      * replace (S i <=? length r)%nat with true by lia. apply S3; [exact PP|lia].
Qed.

Lemma events_snoc s lab n : events s lab (S n) = events s lab n ++ event_of (s n) (lab n).
Proof. unfold events. rewrite seq_S, map_app, concat_app. cbn. now rewrite app_nil_r. Qed.

Lemma events_list (r : list IfaceCache.label) :
  concat (map event_of_value r) = events_of_values (fun i => nth i r (IfaceCache.L_clock 0)) (length r).
Proof.
  unfold events_of_values. f_equal. induction r as [|l r IH]; [reflexivity|]. cbn [length seq map nth]. f_equal.
  rewrite IH, <- seq_shift, map_map. reflexivity.
Qed.

Lemma execution_values s lab n : execution s lab n -> only_read lab n ->
  exists now r b, 0 < now /\ vpath (never_back s n) (IfaceCache.init now) r b /\ same (s n) b /\
    concat (map event_of_value r) = events s lab n /\
    forall k d, In (IfaceCache.L_kernel k d) r -> exists i, (i < n)%nat /\ lab i = L_kernel k d.
Proof.
  induction n as [|n IH]; intros X RO.
  - destruct X as [[now [P E]] _]. exists now, [], (IfaceCache.init now). split; [exact P|]. split; [constructor|].
    split; [|split; [reflexivity|intros k d []]]. rewrite E. constructor; reflexivity.
  - assert (X' : execution s lab n) by (split; [apply X|intros i L; apply X; lia]).
    assert (RO' : only_read lab n) by (intros i o L; apply RO; lia).
    destruct (IH X' RO') as (now & r & b & P & V & SM & EV & KN).
    pose proof (execution_inv s lab n n X' (Nat.le_refl n)) as I.
    pose proof (proj2 X n (Nat.lt_succ_diag_r n)) as ST.
    assert (NB : never_back s (S n) -> never_back s n) by (intros H i L; apply H; lia).
    rewrite events_snoc. assert (NC : forall o, ~ changes (lab n) o) by (intros o; apply RO; lia).
    destruct (simulation (fun k d => exists i, (i < n)%nat /\ lab i = L_kernel k d) _ _ _ b I ST NC) as [[SM' E]|(l' & b' & ST' & SM' & E & QL)].
    + intros k o t T. destruct (proj1 (execution_known s lab n X' RO') k o t T) as (i & d & L & K & D). eauto.
    + exact SM.
    + exists now, r, b. rewrite E, app_nil_r. split; [exact P|]. split; [now apply (vpath_mono (never_back s n))|].
      split; [exact SM'|]. split; [exact EV|]. intros k d H. destruct (KN k d H) as (i & L & K). exists i. split; [lia|exact K].
    + exists now, (r ++ [l']), b'. split; [exact P|]. split.
      { apply (vpath_snoc _ _ r b); [now apply (vpath_mono (never_back s n))|exact ST'|].
        intros H. rewrite (same_clock _ _ SM), (same_clock _ _ SM'). apply H. lia. }
      split; [exact SM'|]. split.
      { rewrite map_app, concat_app, EV, <- E. cbn. now rewrite app_nil_r. }
      intros k d H. apply in_app_or in H. destruct H as [H|[->|[]]].
      * destruct (KN k d H) as (i & L & K). exists i. split; [lia|exact K].
      * destruct QL as (i & L & K). exists i. split; [lia|exact K].
Qed.

(* Playing an execution. *)
Inductive choice : Type :=
| Go (k : tid) | Call (k : tid) | Kernel (k : tid) (l : list ifaddrs) | Reset (k : tid) | Set_ttl (k : tid) (v : Z)
| Clock (t : Z) | Change (k : tid) (o : obj) (l : list iface).
Definition play (s : state) (c : choice) : option (label * state) :=
  match c with
  | Clock t => Some (L_clock t, with_clock s t)
  | Call k => match thread s k with Idle => Some (L_call k, with_pc s k Get_lock) | _ => None end
  | Reset k => match thread s k with Idle => Some (L_reset k, with_pc s k Reset_lock) | _ => None end
  | Set_ttl k v => match thread s k with
                   | Idle => if (0 <=? v) && (v <? 4294967296) then Some (L_ttl k v, with_pc s k (Ttl_set v)) else None
                   | _ => None
                   end
  | Kernel k l => match thread s k with
                  | Get_kernel => Some (L_kernel k l, alloc (with_pc s k (Get_fill (fresh s) l)))
                  | _ => None
                  end
  | Change k o l => match thread s k with
                    | Idle => if returned s o then Some (L_change k o l, store s o l) else None
                    | _ => None
                    end
  | Go k =>
      match thread s k with
      | Get_lock => match owner s with None => Some (L_tau k, with_owner (with_pc s k Get_time) (Some k)) | _ => None end
      | Get_time => Some (L_tau k, with_pc s k (Get_timeout (clock s)))
      | Get_timeout now =>
          Some (L_tau k, with_pc s k (if g_cache_timeout s >=? now then Get_test else Get_placeholder))
      | Get_test => Some (L_tau k, with_pc s k (match g_cache_iface s with Some _ => Get_copy | None => Get_placeholder end))
      | Get_copy => Some (L_tau k, with_pc s k (Get_return (g_cache_iface s)))
      | Get_return l => Some (L_return k (Answer l), hand_out (with_owner (with_pc s k Idle) None) l)
      | Get_placeholder => Some (L_tau k, with_iface (alloc (with_pc s k Get_unlock)) (Some (fresh s)))
      | Get_unlock => Some (L_tau k, with_owner (with_pc s k Get_kernel) None)
      | Get_kernel => Some (L_return k (Answer None), with_pc s k Idle)
      | Get_fill o (e :: l) =>
          match make_iface e with
          | Ok None => Some (L_tau k, with_pc s k (Get_fill o l))
          | Ok (Some i) => Some (L_tau k, store (with_pc s k (Get_fill o l)) o (contents s o ++ [i]))
          | Throw x => Some (L_return k (Failed x), with_pc s k Idle)
          | _ => None
          end
      | Get_fill o [] => Some (L_tau k, with_pc s k (Get_relock o))
      | Get_relock l => match owner s with None => Some (L_tau k, with_owner (with_pc s k (Get_now l)) (Some k)) | _ => None end
      | Get_now l => Some (L_tau k, with_pc s k (Get_ttl l (clock s)))
      | Get_ttl l now => Some (L_tau k, with_pc s k (Get_set l (now + g_cache_ttl s)))
      | Get_set l t => Some (L_tau k, with_timeout (with_pc s k (Get_swap l)) t)
      | Get_swap l => Some (L_tau k, with_iface (with_pc s k Get_copy2) (Some l))
      | Get_copy2 => Some (L_tau k, with_pc s k (Get_return (g_cache_iface s)))
      | Reset_lock => match owner s with None => Some (L_tau k, with_owner (with_pc s k Reset_timeout) (Some k)) | _ => None end
      | Reset_timeout => Some (L_tau k, with_timeout (with_pc s k Reset_iface) 0)
      | Reset_iface => Some (L_tau k, with_iface (with_pc s k Reset_unlock) None)
      | Reset_unlock => Some (L_reset_done k, with_owner (with_pc s k Idle) None)
      | Ttl_set v => Some (L_tau k, with_ttl (with_pc s k Idle) v)
      | Idle => None
      end
  end.
Lemma play_step s c l s' : play s c = Some (l, s') -> step s l s'.
Proof.
  unfold play. intros H.
  destruct c; try (destruct (thread s k) eqn:E; try discriminate);
    repeat match type of H with context [match owner s with _ => _ end] => destruct (owner s) eqn:?; try discriminate end;
    try (injection H as <- <-; econstructor; eassumption).
  - destruct l0 as [|e l0]; [injection H as <- <-; now constructor|].
    destruct (make_iface e) as [[i|]| | |] eqn:M; try discriminate; injection H as <- <-; econstructor; eassumption.
  - destruct ((0 <=? v) && (v <? 4294967296)) eqn:X; [|discriminate]. injection H as <- <-. apply S_ttl_call; [exact E|].
    change (2 ^ 32) with 4294967296. lia.
  - destruct (returned s o) eqn:R; [|discriminate]. injection H as <- <-. now apply S_change.
Qed.
Fixpoint play_all (s : state) (cs : list choice) : option (list (label * state)) :=
  match cs with
  | [] => Some []
  | c :: cs => match play s c with
               | Some (l, s') => match play_all s' cs with Some r => Some ((l, s') :: r) | None => None end
               | None => None
               end
  end.
Definition states_of (s0 : state) (r : list (label * state)) (i : nat) : state := nth i (s0 :: map snd r) s0.
Definition labels_of (r : list (label * state)) (i : nat) : label := nth i (map fst r) (L_clock 0).
Lemma play_steps cs : forall s0 r, play_all s0 cs = Some r ->
  forall i, (i < length r)%nat -> step (states_of s0 r i) (labels_of r i) (states_of s0 r (S i)).
Proof.
  induction cs as [|c cs IH]; intros s0 r H i L; cbn [play_all] in H.
  - injection H as <-. cbn in L. lia.
  - destruct (play s0 c) as [[l s']|] eqn:P; [|discriminate]. destruct (play_all s' cs) as [r'|] eqn:A; [|discriminate].
    injection H as <-. destruct i as [|i].
    + apply play_step in P. destruct r' as [|[l1 s1] r']; exact P.
    + specialize (IH s' r' A i). cbn [length] in L. specialize (IH ltac:(lia)).
      unfold states_of, labels_of in *. cbn [map fst snd] in *.
      change (nth (S i) (s0 :: s' :: map snd r') s0) with (nth i (s' :: map snd r') s0).
      change (nth (S (S i)) (s0 :: s' :: map snd r') s0) with (nth (S i) (s' :: map snd r') s0).
      change (nth (S i) (l :: map fst r') (L_clock 0)) with (nth i (map fst r') (L_clock 0)).
      rewrite (nth_indep _ s0 s') by (cbn; rewrite map_length; lia).
      rewrite (nth_indep (s' :: map snd r') s0 s') by (cbn; rewrite map_length; lia). exact IH.
Qed.
Lemma play_execution now cs r : 0 < now -> play_all (init now) cs = Some r ->
  execution (states_of (init now) r) (labels_of r) (length r).
Proof. intros P H. split; [now exists now|]. now apply (play_steps cs). Qed.
