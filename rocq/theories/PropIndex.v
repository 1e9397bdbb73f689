(* Property C150: indexes and names of interfaces. *)
From Coq Require Import Lia ZifyBool ZifyNat FinFun.
From Verif Require Import Base Inet Iface IfaceIndex.
From Verif Require PropText PropExact.
Local Open Scope Z_scope.

(* ---------- specification ---------- *)
(* The interfaces of a machine: indexes from 1 on and names, none twice. *)
Record machine (t : list (Z * str)) : Prop := mk_machine {
  mc_index : NoDup (map fst t);
  mc_name : NoDup (map snd t);
  mc_entry : forall i n, In (i, n) t -> 0 < i /\ n <> [] /\ ~ In 0 n
}.
(* if_indextoname() and if_nametoindex() tell about the machine t. *)
Record tells (t : list (Z * str)) (indextoname : Z -> option str) (nametoindex : str -> Z) : Prop := mk_tells {
  tl_name : forall i n, indextoname i = Some n <-> In (i, n) t;
  tl_index : forall i n, In (i, n) t -> nametoindex n = i;
  tl_none : forall n, (forall i, ~ In (i, n) t) -> nametoindex n = 0
}.

(* The index of a name: the one of the interface with that name, 0 if there is
   none. *)
Theorem C150_index_of_name : forall t f g, machine t -> tells t f g -> forall n, ~ In 0 n ->
  (forall i, 0 < i -> (get_interface_index_by_name g n = i <-> In (i, n) t))
  /\ (get_interface_index_by_name g n = 0 <-> forall i, ~ In (i, n) t).
Proof.
  intros t f g M T n N. unfold get_interface_index_by_name. rewrite PropText.c_str_no_nul by exact N.
  assert ((exists i, In (i, n) t) \/ forall i, ~ In (i, n) t) as D.
  { clear. induction t as [|[j m] t IH]; [right; intros i []|]. destruct (list_eq_dec Z.eq_dec m n) as [->|D].
    - left. exists j. now left.
    - destruct IH as [[i I]|IH]; [left; exists i; now right|]. right. intros i [X|X]; [congruence|now apply (IH i)]. }
  destruct D as [[j J]|D].
  - rewrite (tl_index _ _ _ T j n J). split.
    + intros i P. split; [intros <-; exact J|]. intros I. rewrite <- (tl_index _ _ _ T j n J). now apply (tl_index _ _ _ T).
    + pose proof (mc_entry _ M j n J). split; [lia|]. intros X. now elim (X j).
  - rewrite (tl_none _ _ _ T n D). split; [|tauto]. intros i P. split; [lia|]. intros I. now elim (D i).
Qed.
Print Assumptions C150_index_of_name.

(* get_interface_name_index() ends on every machine. *)
Theorem C150_list : forall t f g, machine t -> tells t f g ->
  exists l, get_interface_name_index (S (length t)) f = Ok l
  /\ (forall i n, In (i, n) l <-> In (i, n) t /\ forall j, 0 < j <= i -> In j (map fst t))
  /\ forall i n, In (i, n) l -> get_interface_index_by_name g n = i.
Proof.
  intros t f g M T.
  assert (forall i, f i <> None <-> In i (map fst t)) as FN.
  { intros i. rewrite in_map_iff. split.
    - destruct (f i) as [n|] eqn:E; [|congruence]. intros _. exists (i, n). split; [reflexivity|]. now apply (tl_name _ _ _ T).
    - intros ([j n] & E & I). cbn in E. subst. apply (tl_name _ _ _ T) in I. congruence. }
  assert (exists k, 0 < k <= Z.of_nat (S (length t)) /\ f k = None /\ forall i, 0 < i < k -> f i <> None) as (k & K & N & B).
  { assert (forall m, (forall i, 0 < i <= Z.of_nat m -> f i <> None)
      \/ exists k, 0 < k <= Z.of_nat m /\ f k = None /\ forall i, 0 < i < k -> f i <> None) as G.
    { induction m as [|m [IH|(k & K & X)]]; [left; intros i I; lia| |right; exists k; split; [lia|exact X]].
      destruct (f (Z.of_nat (S m))) as [n|] eqn:E.
      - left. intros i I. destruct (Z.eq_dec i (Z.of_nat (S m))) as [->|D]; [congruence|]. apply IH. lia.
      - right. exists (Z.of_nat (S m)). split; [lia|]. split; [exact E|]. intros i I. apply IH. lia. }
    destruct (G (S (length t))) as [A|X]; [exfalso|exact X].
    assert (incl (map Z.of_nat (seq 1 (S (length t)))) (map fst t)) as INC.
    { intros x I. apply in_map_iff in I. destruct I as (y & <- & I). apply in_seq in I. apply FN. apply A. lia. }
    apply NoDup_incl_length in INC.
    - rewrite !map_length, seq_length in INC. lia.
    - apply Injective_map_NoDup; [intros x y E; lia|apply seq_NoDup]. }
  destruct (PropExact.C89_any_numbers f k ltac:(lia) N B (S (length t)) ltac:(lia)) as (l & L1 & L2 & L3).
  exists l. split; [exact L1|]. rewrite Forall_forall in L3. split.
  - intros i n. split.
    + intros I. split; [apply (tl_name _ _ _ T); apply (L3 _ I)|].
      assert (In i (map fst l)) as X by (apply in_map_iff; now exists (i, n)). rewrite L2 in X. apply in_map_iff in X.
      destruct X as (y & <- & Y). apply in_seq in Y. intros j J. apply FN, B. lia.
    + intros [I C]. assert (0 < i < k) as R.
      { split; [now apply (mc_entry _ M i n)|]. destruct (Z_lt_le_dec i k); [assumption|]. exfalso.
        apply (proj2 (FN k)); [apply C; lia|exact N]. }
      assert (In i (map fst l)) as X.
      { rewrite L2. apply in_map_iff. exists (Z.to_nat i). split; [lia|]. apply in_seq. lia. }
      apply in_map_iff in X. destruct X as ([j m] & E & X). cbn in E. subst j. pose proof (L3 _ X) as Y. cbn in Y.
      apply (tl_name _ _ _ T) in I. rewrite Y in I. injection I as ->. exact X.
  - intros i n I. specialize (L3 _ I). cbn in L3. apply (tl_name _ _ _ T) in L3.
    destruct (mc_entry _ M i n L3) as (P & _ & Z). now apply (C150_index_of_name t f g M T n Z).
Qed.
Print Assumptions C150_list.

(* A name is read up to a NUL: a name which no interface has gets an index. *)
Theorem C150_nul_is_the_end : forall t f g, machine t -> tells t f g -> forall i n u, In (i, n) t ->
  get_interface_index_by_name g (n ++ 0 :: u) = i.
Proof.
  intros t f g M T i n u I. unfold get_interface_index_by_name. destruct (mc_entry _ M i n I) as (_ & _ & Z).
  replace (c_str (n ++ 0 :: u)) with n; [now apply (tl_index _ _ _ T)|].
  clear - Z. induction n as [|c n IH]; [reflexivity|]. cbn. destruct (c =? 0) eqn:E.
  - elim Z. left. lia.
  - f_equal. apply IH. intros X. apply Z. now right.
Qed.
Print Assumptions C150_nul_is_the_end.

Example C150_witness :
  let t := [(1, lit "lo"); (2, lit "eth0"); (5, lit "wlan0")] in
  let f i := if i =? 1 then Some (lit "lo") else if i =? 2 then Some (lit "eth0") else if i =? 5 then Some (lit "wlan0") else None in
  let g n := if list_eq_dec Z.eq_dec n (lit "lo") then 1 else if list_eq_dec Z.eq_dec n (lit "eth0") then 2
             else if list_eq_dec Z.eq_dec n (lit "wlan0") then 5 else 0 in
  machine t /\ tells t f g /\ get_interface_name_index 4 f = Ok [(1, lit "lo"); (2, lit "eth0")]
  /\ get_interface_index_by_name g (lit "wlan0") = 5 /\ get_interface_index_by_name g (lit "eth1") = 0.
Proof.
  cbv zeta. split; [|split; [|repeat split]].
  - constructor.
    + repeat constructor; cbn; intuition discriminate.
    + repeat constructor; cbn; intuition discriminate.
    + intros i n [E|[E|[E|[]]]]; injection E as <- <-; (split; [lia|]; split; [discriminate|]); cbn; intuition discriminate.
  - constructor.
    + intros i n. split.
      * destruct (i =? 1) eqn:E1; [intros E; injection E as <-; left; f_equal; lia|].
        destruct (i =? 2) eqn:E2; [intros E; injection E as <-; right; left; f_equal; lia|].
        destruct (i =? 5) eqn:E3; [intros E; injection E as <-; right; right; left; f_equal; lia|discriminate].
      * intros [E|[E|[E|[]]]]; injection E as <- <-; reflexivity.
    + intros i n [E|[E|[E|[]]]]; injection E as <- <-; reflexivity.
    + intros n N. destruct (list_eq_dec _ n (lit "lo")) as [->|]; [elim (N 1); now left|].
      destruct (list_eq_dec _ n (lit "eth0")) as [->|]; [elim (N 2); right; now left|].
      destruct (list_eq_dec _ n (lit "wlan0")) as [->|]; [elim (N 5); right; right; now left|reflexivity].
Qed.
