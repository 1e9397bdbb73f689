(* Property C149: sets of addresses. *)
From Coq Require Import ZifyBool ZifyNat Sorted Permutation.
From Verif Require Import Base Addr Range Spec SpecRange AddrSet.
From Verif Require AddrProofs AddrProofs3 AddrProofs4 PropAddr PropRange PropExact.
Import AddrProofs AddrProofs3 AddrProofs4 PropAddr.
Local Open Scope Z_scope.

(* ---------- specification ---------- *)
(* x is the first address of l with its IP address. *)
Definition first_of (l : list addr) (x : addr) : Prop :=
  exists l1 l2, l = l1 ++ x :: l2 /\ forall a, In a l1 -> value a <> value x.
Definition ascending (s : list addr) : Prop := StronglySorted (fun a b => value a < value b) s.
Definition has_ip (s : list addr) (v : Z) : Prop := exists a, In a s /\ value a = v.

(* ---------- proofs ---------- *)
Lemma insert_in x : forall s t b, addr_wf x -> Forall addr_wf s -> set_insert x s = (t, b) -> ascending s ->
  ascending t /\ Forall addr_wf t
  /\ (forall a, In a t <-> In a s \/ (a = x /\ b = true))
  /\ (b = true <-> ~ has_ip s (value x)).
Proof.
  induction s as [|z s IH]; intros t b W F E A; cbn [set_insert] in E.
  - injection E as <- <-. split; [repeat constructor|]. split; [now constructor|]. split.
    + intros a. cbn. intuition.
    + split; [|reflexivity]. intros _ (a & [] & _).
  - inversion F as [|? ? Wz Fs]; subst. inversion A as [|? ? As Az]; subst. rewrite Forall_forall in Az.
    rewrite !lt_value in E by assumption. destruct (value z <? value x) eqn:L1.
    + destruct (set_insert x s) as [t' b'] eqn:E'. injection E as <- <-.
      destruct (IH t' b' W Fs eq_refl As) as (B1 & B2 & B3 & B4).
      split. { constructor; [exact B1|]. rewrite Forall_forall. intros a I. apply B3 in I. destruct I as [I|[-> _]]; [now apply Az|lia]. }
      split; [now constructor|]. split.
      * intros a. cbn. rewrite B3. intuition.
      * rewrite B4. split; intros N (a & I & V); apply N.
        -- destruct I as [<-|I]; [lia|]. exists a. now split.
        -- exists a. split; [now right|exact V].
    + destruct (value x <? value z) eqn:L2; injection E as <- <-.
      * split. { constructor; [exact A|]. rewrite Forall_forall. intros a [<-|I]; [lia|]. specialize (Az a I). lia. }
        split; [now constructor|]. split; [intros a; cbn; intuition|].
        split; [|reflexivity]. intros _ (a & [<-|I] & V); [lia|]. specialize (Az a I). lia.
      * split; [exact A|]. split; [exact F|]. split; [intros a; intuition discriminate|].
        split; [discriminate|]. intros N. elim N. exists z. split; [now left|lia].
Qed.
Lemma set_snoc l x : set_of (l ++ [x]) = fst (set_insert x (set_of l)).
Proof. unfold set_of. now rewrite fold_left_app. Qed.
Lemma set_facts l : Forall addr_wf l -> ascending (set_of l) /\ Forall addr_wf (set_of l)
  /\ (forall x, In x (set_of l) <-> first_of l x).
Proof.
  induction l as [|x l IH] using rev_ind; intros F.
  - split; [constructor|]. split; [constructor|]. intros x. split; [intros []|]. intros (l1 & l2 & E & _). destruct l1; discriminate.
  - apply Forall_app in F. destruct F as [F Fx]. inversion Fx as [|? ? Wx _]; subst. destruct (IH F) as (A & W & H).
    rewrite set_snoc. destruct (set_insert x (set_of l)) as [t b] eqn:E. cbn [fst].
    destruct (insert_in x _ t b Wx W E A) as (A2 & W2 & H2 & H3). split; [exact A2|]. split; [exact W2|].
    assert (has_ip (set_of l) (value x) <-> exists a, In a l /\ value a = value x) as HV.
    { split.
      - intros (a & I & V). apply H in I. destruct I as (l1 & l2 & -> & _). exists a. split; [apply in_or_app; right; now left|exact V].
      - assert (forall m, (exists a, In a m /\ value a = value x) -> exists a, first_of m a /\ value a = value x) as FST.
        { induction m as [|z m IHm]; [intros (a & [] & _)|]. intros (a & I & V). destruct (Z.eq_dec (value z) (value x)) as [Z|Z].
          - exists z. split; [|exact Z]. exists [], m. split; [reflexivity|]. intros ? [].
          - destruct I as [<-|I]; [congruence|]. destruct IHm as (c & (l1 & l2 & -> & N) & VC); [eauto|].
            exists c. split; [|exact VC]. exists (z :: l1), l2. split; [reflexivity|]. intros d [<-|D]; [congruence|auto]. }
        intros X. destruct (FST l X) as (c & C & V). exists c. split; [now apply H|exact V]. }
    intros c. rewrite H2, H. split.
    + intros [(l1 & l2 & -> & N)|[-> B]].
      * exists l1, (l2 ++ [x]). split; [now rewrite <- app_assoc|exact N].
      * exists l, []. split; [reflexivity|]. intros a I V. apply H3 in B. apply B. apply HV. eauto.
    + intros (l1 & l2 & E2 & N). destruct l2 as [|d l2 _] using rev_ind.
      * apply app_inj_tail in E2. destruct E2 as [-> ->]. right. split; [reflexivity|]. apply H3. intros X. apply HV in X.
        destruct X as (a & I & V). now apply (N a I).
      * rewrite app_comm_cons, app_assoc in E2. apply app_inj_tail in E2. destruct E2 as [-> ->]. left. exists l1, l2. now split.
Qed.

(* A set holds the addresses in ascending order, one for each IP address given
   to it, and that one is the first which was given. *)
Theorem C149_first_of_each : forall l, Forall addr_wf l ->
  ascending (set_of l) /\ (forall x, In x (set_of l) <-> first_of l x)
  /\ (forall v, has_ip (set_of l) v <-> has_ip l v).
Proof.
  intros l F. destruct (set_facts l F) as (A & W & H). split; [exact A|]. split; [exact H|]. intros v. split.
  - intros (a & I & V). apply H in I. destruct I as (l1 & l2 & -> & _). exists a. split; [apply in_or_app; right; now left|exact V].
  - intros (a & I & V). clear A W H.
    assert (forall m, In a m -> exists c, first_of m c /\ value c = v) as FST.
    { induction m as [|z m IHm]; [intros []|]. intros J. destruct (Z.eq_dec (value z) v) as [Z|Z].
      - exists z. split; [|exact Z]. exists [], m. split; [reflexivity|]. intros ? [].
      - destruct J as [<-|J]; [congruence|]. destruct (IHm J) as (c & (l1 & l2 & -> & N) & VC).
        exists c. split; [|exact VC]. exists (z :: l1), l2. split; [reflexivity|]. intros d [<-|D]; [congruence|auto]. }
    destruct (FST l I) as (c & C & VC). exists c. split; [|exact VC]. now apply (set_facts l F).
Qed.
Print Assumptions C149_first_of_each.

Lemma ascending_unique : forall s t, ascending s -> ascending t -> (forall x, In x s <-> In x t) -> s = t.
Proof.
  induction s as [|x s IH]; intros t A B H.
  - destruct t as [|y t]; [reflexivity|]. destruct (proj2 (H y)). now left.
  - destruct t as [|y t]; [destruct (proj1 (H x)); now left|].
    inversion A as [|? ? As Ax]; subst. inversion B as [|? ? Bs By]; subst. rewrite Forall_forall in *.
    assert (x = y) as <-.
    { destruct (proj1 (H x)) as [->|I1]; [now left|reflexivity|]. destruct (proj2 (H y)) as [->|I2]; [now left|reflexivity|].
      specialize (Ax y I2). specialize (By x I1). lia. }
    f_equal. apply IH; auto. intros z. specialize (H z). cbn in H. split; intros I.
    + destruct (proj1 H) as [<-|J]; [now right| |exact J]. specialize (Ax x I). lia.
    + destruct (proj2 H) as [<-|J]; [now right| |exact J]. specialize (By x I). lia.
Qed.
(* With different IP addresses nothing is lost and the order of insertion does
   not matter. *)
Theorem C149_different_addresses : forall l, Forall addr_wf l -> NoDup (map value l) ->
  Permutation l (set_of l) /\ forall k, Permutation l k -> set_of k = set_of l.
Proof.
  assert (forall l x, NoDup (map value l) -> (first_of l x <-> In x l)) as FO.
  { intros l x N. split.
    - intros (l1 & l2 & -> & _). apply in_or_app. right. now left.
    - intros I. apply in_split in I. destruct I as (l1 & l2 & ->). exists l1, l2. split; [reflexivity|].
      intros a J V. rewrite map_app in N. cbn [map] in N. apply NoDup_remove_2 in N. apply N. apply in_or_app. left.
      rewrite <- V. now apply in_map. }
  intros l F N. destruct (set_facts l F) as (A & W & H). split.
  - apply NoDup_Permutation.
    + now apply NoDup_map_inv in N.
    + clear - A. induction A as [|x s A IH Ax]; [constructor|]. constructor; [|exact IH]. intros I. rewrite Forall_forall in Ax.
      specialize (Ax x I). lia.
    + intros x. rewrite H. symmetry. now apply FO.
  - intros k P. destruct (set_facts k) as (A2 & W2 & H2). { now apply (Permutation_Forall P). }
    apply ascending_unique; auto. intros x. rewrite H, H2, FO, FO; auto.
    + split; intros I; [apply (Permutation_in _ (Permutation_sym P) I)|apply (Permutation_in _ P I)].
    + apply (Permutation_NoDup (Permutation_map value P) N).
Qed.
Print Assumptions C149_different_addresses.

(* find() and erase() look at the IP address alone. *)
Theorem C149_find : forall l x, Forall addr_wf l -> addr_wf x ->
  (forall a, set_find x (set_of l) = Some a <-> first_of l a /\ value a = value x)
  /\ (set_find x (set_of l) = None <-> ~ has_ip l (value x)).
Proof.
  intros l x F Wx. destruct (set_facts l F) as (A & W & H). destruct (C149_first_of_each l F) as (_ & _ & HV).
  assert (forall s, ascending s -> Forall addr_wf s ->
    (forall a, set_find x s = Some a <-> In a s /\ value a = value x)) as G.
  { induction s as [|z s IH]; intros As Ws a; cbn [set_find].
    - split; [discriminate|]. intros [[] _].
    - inversion As as [|? ? A1 A2]; subst. inversion Ws as [|? ? W1 W2]; subst. rewrite Forall_forall in A2. rewrite !lt_value by assumption.
      destruct (value z <? value x) eqn:L1.
      + rewrite (IH A1 W2 a). cbn. split; [tauto|]. intros [[<-|I] V]; [lia|tauto].
      + destruct (value x <? value z) eqn:L2.
        * split; [discriminate|]. intros [[<-|I] V]; [lia|]. specialize (A2 a I). lia.
        * split.
          -- intros E. injection E as <-. split; [now left|lia].
          -- intros [[<-|I] V]; [reflexivity|]. specialize (A2 a I). lia. }
  split.
  - intros a. rewrite (G _ A W), H. reflexivity.
  - rewrite <- HV. destruct (set_find x (set_of l)) as [a|] eqn:E.
    + split; [discriminate|]. intros N. elim N. apply G in E; auto. exists a. exact E.
    + split; [|reflexivity]. intros _ (a & I). apply G in I; auto. congruence.
Qed.
Print Assumptions C149_find.
Theorem C149_erase : forall l x t n, Forall addr_wf l -> addr_wf x -> set_erase x (set_of l) = (t, n) ->
  (forall a, In a t <-> first_of l a /\ value a <> value x) /\ ascending t
  /\ (n = 1 <-> has_ip l (value x)) /\ (n = 0 <-> ~ has_ip l (value x)).
Proof.
  intros l x t n F Wx E. destruct (set_facts l F) as (A & W & H). destruct (C149_first_of_each l F) as (_ & _ & HV).
  assert (forall s t n, ascending s -> Forall addr_wf s -> set_erase x s = (t, n) ->
    (forall a, In a t <-> In a s /\ value a <> value x) /\ ascending t
    /\ (n = 1 /\ has_ip s (value x) \/ n = 0 /\ ~ has_ip s (value x))) as G.
  { clear - Wx. induction s as [|z s IH]; intros t n As Ws E; cbn [set_erase] in E.
    - injection E as <- <-. split; [intros a; cbn; tauto|]. split; [constructor|]. right. split; [reflexivity|]. intros (a & [] & _).
    - inversion As as [|? ? A1 A2]; subst. inversion Ws as [|? ? W1 W2]; subst. rewrite Forall_forall in A2.
      rewrite !lt_value in E by (try assumption; exact Wx).
      destruct (value z <? value x) eqn:L1.
      + destruct (set_erase x s) as [t' n'] eqn:E'. injection E as <- <-. destruct (IH t' n' A1 W2 eq_refl) as (B1 & B2 & B3).
        split. { intros a. cbn. rewrite B1. split; [intros [<-|X]; [split; [now left|lia]|tauto]|tauto]. }
        split. { constructor; [exact B2|]. rewrite Forall_forall. intros a I. apply B1 in I. now apply A2. }
        assert (has_ip (z :: s) (value x) <-> has_ip s (value x)) as ->; [|exact B3].
        split; intros (a & I & V); [destruct I as [<-|I]; [lia|]|]; exists a; (split; [|exact V]); [exact I|now right].
      + destruct (value x <? value z) eqn:L2; injection E as <- <-.
        * split. { intros a. split; [|tauto]. intros I. split; [exact I|]. destruct I as [<-|I]; [lia|]. specialize (A2 a I). lia. }
          split; [exact As|]. right. split; [reflexivity|]. intros (a & [<-|I] & V); [lia|]. specialize (A2 a I). lia.
        * split. { intros a. cbn. split; [intros I; split; [now right|specialize (A2 a I); lia]|]. intros [[<-|I] V]; [lia|exact I]. }
          split; [exact A1|]. left. split; [reflexivity|]. exists z. split; [now left|lia]. }
  destruct (G _ t n A W E) as (B1 & B2 & B3). split; [intros a; rewrite B1, H; reflexivity|]. split; [exact B2|].
  rewrite HV in B3. destruct B3 as [[-> X]|[-> X]]; split; split; intros Y; try discriminate; try reflexivity; tauto.
Qed.
Print Assumptions C149_erase.

(* Two servers on one host: the second is not kept. *)
Theorem C149_ports_are_not_kept : exists a b, addr_wf a /\ addr_wf b /\ get_port a <> get_port b
  /\ set_of [a; b] = [a] /\ set_of [b; a] = [b] /\ set_find b (set_of [a]) = Some a.
Proof.
  exists w4, (fst (set_port w4 80)). split; [apply w4_wf|]. split; [now apply addr_wfb_ok|].
  split; [vm_compute; discriminate|]. repeat split.
Qed.
Print Assumptions C149_ports_are_not_kept.

(* The addresses of ranges put in a set: each address of each range, once. *)
Theorem C149_ranges : forall ranges limit fuel l, 0 <= limit < 2 ^ 64 ->
  Forall (fun r => range_wf r /\ full r /\ value (f_from r) <= value (f_to r)
                   /\ value (f_to r) - value (f_from r) < Z.of_nat fuel) ranges ->
  to_addresses_vector fuel ranges limit = Ok l ->
  ascending (set_of l)
  /\ forall v, has_ip (set_of l) v <-> exists r, In r ranges /\ value (f_from r) <= v <= value (f_to r).
Proof.
  intros ranges limit fuel l B F E.
  assert (Forall addr_wf l /\ forall v, has_ip l v <-> exists r, In r ranges /\ value (f_from r) <= v <= value (f_to r)) as [W G].
  { unfold to_addresses_vector in E. destruct (total_size ranges 0) as [t| | |]; try discriminate. cbn [rbind] in E.
    destruct (t >? limit); [discriminate|]. clear t. revert l E.
    induction F as [|r rs (Wr & Fr & O & N) F IH]; intros l E; cbn [to_addresses_all] in E.
    - injection E as <-. split; [constructor|]. intros v. split; [intros (a & [] & _)|intros (r & [] & _)].
    - destruct (to_addresses fuel r limit) as [l1| | |] eqn:E1; try discriminate. cbn [rbind] in E.
      destruct (to_addresses_all fuel rs limit) as [l2| | |] eqn:E2; try discriminate. cbn [rbind] in E. injection E as <-.
      destruct (IH l2 eq_refl) as [W2 G2].
      destruct (PropExact.C27_any_range r limit Wr Fr B) as (X1 & X2 & X3). 
      set (n := (value (f_to r) - value (f_from r) + 1) mod 2 ^ 128) in *.
      destruct (Z.eq_dec n (2 ^ 127)) as [Q|Q]; [rewrite (X1 Q) in E1; discriminate|].
      destruct (Z_gt_le_dec (Z.min n (2 ^ 64 - 1)) limit) as [L|L]; [rewrite (X2 Q L) in E1; discriminate|].
      destruct (X3 Q L) as (Y1 & Y2 & _). clear X1 X2 X3.
      destruct (Z.eq_dec (value (f_to r)) LAST) as [T|T]; [rewrite (Y1 T) in E1; discriminate|].
      destruct Y2 with (fuel := fuel) as (m & M1 & M2 & M3); [|assumption|assumption|].
      { pose proof (value_range _ (wf_to r Wr)). unfold LAST in *. lia. }
      rewrite M1 in E1. injection E1 as ->. split.
      + apply Forall_app. split; [|exact W2]. revert M3. apply Forall_impl. tauto.
      + intros v. assert (has_ip (l1 ++ l2) v <-> has_ip l1 v \/ has_ip l2 v) as ->.
        { unfold has_ip. split.
          - intros (a & I & V). apply in_app_or in I. destruct I; [left|right]; eauto.
          - intros [(a & I & V)|(a & I & V)]; exists a; (split; [apply in_or_app; auto|exact V]). }
        assert (has_ip l1 v <-> In v (map value l1)) as ->.
        { unfold has_ip. rewrite in_map_iff. split; intros (a & P & P2); exists a; auto. }
        rewrite G2, M2, in_map_iff. split.
        * intros [(i & <- & I)|(q & I & V)].
          -- apply in_seq in I. exists r. split; [now left|lia].
          -- exists q. split; [now right|exact V].
        * intros (q & [<-|I] & V); [left|right; eauto]. exists (Z.to_nat (v - value (f_from r))). split; [lia|]. apply in_seq. lia. }
  destruct (C149_first_of_each l W) as (A & _ & H). split; [exact A|]. intros v. rewrite H. apply G.
Qed.
Print Assumptions C149_ranges.

Example C149_witness : let l := [w6; w4; fst (set_port w4 80)] in
  Forall addr_wf l /\ set_of l = [w4; w6] /\ NoDup (map value [w6; w4]) /\ set_erase w6 (set_of l) = ([w4], 1).
Proof.
  cbv zeta. split. { constructor; [apply w6_wf|]. constructor; [apply w4_wf|]. constructor; [now apply addr_wfb_ok|constructor]. }
  split; [reflexivity|]. split; [|reflexivity]. constructor; [|constructor; [intros []|constructor]].
  intros [X|[]]. vm_compute in X. discriminate.
Qed.
Example C149_ranges_case : let r := PropRange.range_of (PropRange.net 10 128) (PropRange.net 12 128) in
  let q := PropRange.range_of (PropRange.net 11 128) (PropRange.net 14 128) in
  Forall (fun r => range_wf r /\ full r /\ value (f_from r) <= value (f_to r)
                   /\ value (f_to r) - value (f_from r) < Z.of_nat 5) [q; r]
  /\ match to_addresses_vector 5 [q; r] 100 with
     | Ok l => length l = 7%nat /\ map value (set_of l) = [10; 11; 12; 13; 14]
     | _ => False
     end.
Proof.
  cbv zeta. split.
  - repeat (apply Forall_cons; [split; [PropRange.wfr|]; split; [split; reflexivity|]; split; vm_compute; [discriminate|reflexivity]|]). constructor.
  - vm_compute. split; reflexivity.
Qed.
