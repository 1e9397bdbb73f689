(* C167: listing the addresses of a text. *)
From Coq Require Import Lia ZifyBool ZifyNat Permutation.
From Verif Require Import Base Addr Spec Range SpecRange Inet SpecText Parser SpecParser.
From Verif Require AddrProofs AddrProofs2 AddrProofs3 AddrProofs4 RangeProofs RangeProofs2 ParserProofs ParserProofs2
  ParserProofs3 ParserProofs4 ParserProofs5 ParserProofs6 ParserProofs7 PropRange PropParser PropParser2 PropParser3 PropParser13 PropExact PropOrder.
Import AddrProofs AddrProofs2 AddrProofs3 AddrProofs4 RangeProofs RangeProofs2 ParserProofs ParserProofs2
  ParserProofs3 ParserProofs4 ParserProofs5 ParserProofs6 ParserProofs7 PropParser PropParser2 PropParser3 PropParser13.
Local Open Scope Z_scope.

(* No range of the list is empty, none ends with the very last address. *)
Definition listable (l : list addr_range) : Prop := Forall (fun r => nonempty r /\ hi r < LAST) l.
Definition total (l : list addr_range) : Z := fold_right Z.add 0 (map count l).

Lemma one_listed r limit fuel : range_wf r -> nonempty r -> hi r < LAST -> count r <= limit -> limit < 2 ^ 64 - 1 -> count r <= Z.of_nat fuel ->
  size r = Ok (count r) /\ exists l, to_addresses fuel r limit = Ok l
    /\ map value l = map (fun i => lo r + Z.of_nat i) (seq 0 (Z.to_nat (count r))) /\ Forall addr_wf l.
Proof.
  intros W [D NE] HL CL LL CF. destruct (PropRange.C26_size_partial r W) as (_ & S1 & S2).
  assert (full r \/ ~ full r) as [F|F] by (unfold full; destruct (f_has_from r), (f_has_to r); intuition discriminate).
  - destruct F as [F1 F2]. unfold count, lo, hi in *. rewrite F1, F2 in *.
    assert (Z.max 0 (value (f_to r) - value (f_from r) + 1) = value (f_to r) - value (f_from r) + 1) as EM by lia. rewrite EM in *.
    change (2 ^ 64) with 18446744073709551616 in *.
    assert (value (f_to r) - value (f_from r) <> 2 ^ 127 - 1) as N1.
    { change (2 ^ 127 - 1) with 170141183460469231731687303715884105727. lia. }
    assert (value (f_to r) - value (f_from r) <> 2 ^ 128 - 1) as N2.
    { change (2 ^ 128 - 1) with 340282366920938463463374607431768211455. lia. }
    split.
    { rewrite (S2 (conj F1 F2) NE N1 N2). f_equal. change (2 ^ 64) with 18446744073709551616. lia. }
    destruct (PropRange.C27_to_addresses_partial r limit fuel W (conj F1 F2) NE HL N1 LL) as [_ X].
    destruct (X CL CF) as (l & E & M & A). exists l. split; [exact E|]. split; [exact M|]. eapply Forall_impl; [|exact A]. intros a [Wa _]. exact Wa.
  - assert (lo r = hi r /\ exists a, (if f_has_from r then f_from r else f_to r) = a /\ value a = lo r /\ addr_wf a) as [LH (a & EA & VA & Wa)].
    { unfold lo, hi, full, defined in *. destruct W. destruct (f_has_from r), (f_has_to r); try (exfalso; tauto); try (exfalso; destruct D; discriminate); split; eauto. }
    assert (count r = 1) as C1 by (unfold count; lia). rewrite C1 in *. split; [now apply S1|].
    destruct (PropRange.C27_single_and_undefined r limit fuel F) as (X & _). rewrite (X D CL), EA.
    exists [a]. split; [reflexivity|]. split; [|auto]. change (seq 0 (Z.to_nat 1)) with [0%nat]. cbn [map]. rewrite VA, Z.add_0_r. reflexivity.
Qed.
Lemma count_nonneg r : 0 <= count r. Proof. unfold count. lia. Qed.
Lemma total_nonneg l : 0 <= total l.
Proof. unfold total. induction l as [|r l IH]; cbn [map fold_right]; [lia|]. pose proof (count_nonneg r). lia. Qed.
Lemma in_run v a n : In v (map (fun i => a + Z.of_nat i) (seq 0 n)) <-> a <= v < a + Z.of_nat n.
Proof.
  rewrite in_map_iff. split.
  - intros (i & <- & I). apply in_seq in I. lia.
  - intros H. exists (Z.to_nat (v - a)). split; [lia|]. apply in_seq. lia.
Qed.
Lemma nodup_run a n : NoDup (map (fun i => a + Z.of_nat i) (seq 0 n)).
Proof. apply FinFun.Injective_map_NoDup; [intros i j E; lia|apply seq_NoDup]. Qed.
Lemma list_listed l limit fuel : Forall range_wf l -> listable l -> total l <= limit -> limit < 2 ^ 64 - 1 -> total l <= Z.of_nat fuel ->
  exists sizes ls, Forall2 (fun r s => size r = Ok s) l sizes /\ fold_right Z.add 0 sizes = total l
    /\ Forall2 (fun r k => to_addresses fuel r limit = Ok k) l ls
    /\ Forall2 (fun r k => map value k = map (fun i => lo r + Z.of_nat i) (seq 0 (Z.to_nat (count r))) /\ Forall addr_wf k) l ls.
Proof.
  intros W L T LL TF. unfold total in *. induction L as [|r l [NE HL] L IH].
  - exists [], []. repeat split; constructor.
  - inversion W as [|? ? Wr Wl]; subst. cbn [map fold_right] in T, TF. pose proof (total_nonneg l) as TN. unfold total in TN. pose proof (count_nonneg r) as CN.
    destruct (IH Wl ltac:(lia) ltac:(lia)) as (sizes & ls & A & B & C & D).
    destruct (one_listed r limit fuel Wr NE HL ltac:(lia) LL ltac:(lia)) as (S & k & E & M & F).
    exists (count r :: sizes), (k :: ls). split; [now constructor|]. split; [cbn [map fold_right]; lia|]. split; constructor; auto.
Qed.
Lemma in_listed l ls v : Forall2 (fun r k => map value k = map (fun i => lo r + Z.of_nat i) (seq 0 (Z.to_nat (count r))) /\ Forall addr_wf k) l ls ->
  In v (map value (concat ls)) <-> exists r, In r l /\ lo r <= v <= hi r.
Proof.
  induction 1 as [|r k l ls [M _] F IH]; cbn [concat map].
  - split; [intros []|intros (r & [] & _)].
  - rewrite map_app, in_app_iff, IH, M, in_run. unfold count. split.
    + intros [H|(q & I & H)]; [exists r; split; [now left|lia]|exists q; split; [now right|exact H]].
    + intros (q & [<-|I] & H); [left; lia|right; now exists q].
Qed.
Lemma nodup_listed l ls : Forall2 (fun r k => map value k = map (fun i => lo r + Z.of_nat i) (seq 0 (Z.to_nat (count r))) /\ Forall addr_wf k) l ls ->
  Forall nonempty l -> pairwise apart l -> NoDup (map value (concat ls)).
Proof.
  induction 1 as [|r k l ls [M X] F IH]; intros N P; cbn [concat map]; [constructor|].
  inversion N as [|? ? Nr Nl]; subst. destruct P as [P0 P1]. rewrite map_app. specialize (IH Nl P1).
  assert (forall v, In v (map value k) -> ~ In v (map value (concat ls))) as DJ.
  { intros v V I. apply (in_listed l ls v F) in I. destruct I as (q & I & H). rewrite M in V. apply in_run in V. unfold count in V.
    rewrite Forall_forall in P0, Nl. specialize (P0 q I Nr (Nl q I)). destruct Nr. lia. }
  assert (NoDup (map value k)) as NK by (rewrite M; apply nodup_run).
  revert DJ NK. generalize (map value k). clear - IH. intros a DJ NK. induction NK as [|v a NI NK IH2]; [exact IH|].
  cbn [app]. constructor.
  - rewrite in_app_iff. intros [I|I]; [tauto|]. apply (DJ v); [now left|exact I].
  - apply IH2. intros w W. apply DJ. now right.
Qed.
Lemma parse_ones y g s p p' l : resolver_ok g -> get_allow p ALLOW_MASK = Ok false -> parse y g s p = (p', Ok l) -> Forall good l /\ Forall ones l.
Proof.
  intros R AM E. destruct (two_parses y g s p R) as (ms & re & E1 & E2 & G). rewrite E1 in E.
  destruct re as [l0|e| |]; cbn [rbind] in E; try discriminate.
  assert (arrange (f_sort p) l0 = Ok l) as EA by congruence.
  assert (Forall ones l0) as O0 by now apply (unmasked_ones y g s p _ l0 AM E2).
  split; [|exact (arrange_keeps_ones _ _ _ O0 EA)].
  assert (parse y g s p = (p', Ok l)) as EP by (rewrite E1; cbn [rbind]; congruence).
  destruct (wp_run p _ _ p (parse_made y g p s) (same_config_refl p)) as (ms' & r0 & X & _ & K).
  assert (r0 = Ok l) as -> by congruence. destruct (K R) as [_ K']. exact (ends_good _ _ (K' l eq_refl)).
Qed.

(* The addresses listed are the ones which match, each listed once when the
   ranges of the text were merged. *)
Theorem C167_listed_partial : forall y g s p p' l limit fuel, resolver_ok g -> get_allow p ALLOW_MASK = Ok false ->
  parse y g s p = (p', Ok l) -> listable l -> total l <= limit -> limit < 2 ^ 64 - 1 -> total l <= Z.of_nat fuel ->
  exists addresses, to_addresses_vector fuel l limit = Ok addresses
    /\ (forall x, addr_wf x -> (address_match_ranges l x = Ok true <-> exists a, In a addresses /\ value a = value x))
    /\ (Z.land (get_sort_order p) SORT_MERGE <> 0 -> NoDup (map value addresses)).
Proof.
  intros y g s p p' l limit fuel R AM E L T LL TF. destruct (parse_ones y g s p p' l R AM E) as [G O].
  assert (Forall range_wf l) as W by (eapply Forall_impl; [|exact G]; intros r [_ Wr]; exact Wr).
  destruct (list_listed l limit fuel W L T LL TF) as (sizes & ls & A & B & C & D).
  destruct (PropExact.C27_any_vector l sizes limit fuel A) as [_ X]. pose proof (total_nonneg l) as TN.
  rewrite B, Z.mod_small in X by (change (2 ^ 64) with 18446744073709551616 in *; lia).
  exists (concat ls). split; [now apply X|]. split.
  - intros x Wx. destruct (PropRange.C34_address_match_ranges l x) as (b & EB & HB). rewrite EB.
    assert ((exists a, In a (concat ls) /\ value a = value x) <-> In (value x) (map value (concat ls))) as ->.
    { rewrite in_map_iff. split; intros (a & H1 & H2); exists a; tauto. }
    rewrite (in_listed l ls (value x) D). rewrite Forall_forall in G, O.
    assert (b = true <-> exists r, In r l /\ lo r <= value x <= hi r) as K.
    { rewrite HB. split; intros (r & I & H); exists r; (split; [exact I|]).
      - apply (ones_match r x (G r I) (O r I) Wx) in H. apply H.
      - apply (ones_match r x (G r I) (O r I) Wx). split; [apply (G r I)|exact H]. }
    rewrite <- K. split; [congruence|]. now intros ->.
  - intros M. apply (nodup_listed l ls D).
    + eapply Forall_impl; [|exact L]. intros r [Nr _]. exact Nr.
    + destruct (C46_merge y g s p p' l R M E) as (_ & _ & _ & _ & _ & P). exact P.
Qed.
Print Assumptions C167_listed_partial.

(* The sort order does not change which addresses are listed. *)
Theorem C167_any_order_partial : forall y g s p p' l p0 l0 limit fuel, resolver_ok g -> get_allow p ALLOW_MASK = Ok false ->
  parse y g s p = (p', Ok l) -> parse y g s (without_sort p) = (p0, Ok l0) ->
  listable l -> total l <= limit -> listable l0 -> total l0 <= limit -> limit < 2 ^ 64 - 1 -> total l <= Z.of_nat fuel -> total l0 <= Z.of_nat fuel ->
  exists listed listed0, to_addresses_vector fuel l limit = Ok listed /\ to_addresses_vector fuel l0 limit = Ok listed0
    /\ (forall x, addr_wf x -> (exists a, In a listed /\ value a = value x) <-> (exists a, In a listed0 /\ value a = value x)).
Proof.
  intros y g s p p' l p0 l0 limit fuel R AM E E0 L T L0 T0 LL TF TF0.
  destruct (C167_listed_partial y g s p p' l limit fuel R AM E L T LL TF) as (as1 & X1 & M1 & _).
  assert (get_allow (without_sort p) ALLOW_MASK = Ok false) as AM0 by (rewrite without_sort_eq; exact AM).
  destruct (C167_listed_partial y g s _ p0 l0 limit fuel R AM0 E0 L0 T0 LL TF0) as (as0 & X0 & M0 & _).
  exists as1, as0. split; [exact X1|]. split; [exact X0|]. intros x Wx. rewrite <- (M1 x Wx), <- (M0 x Wx).
  now rewrite (C140_no_masks_partial y g s p p' l p0 l0 R AM E E0 x Wx).
Qed.
Print Assumptions C167_any_order_partial.

(* Too many. *)
Theorem C167_too_many : forall y g s p p' l limit fuel, resolver_ok g -> get_allow p ALLOW_MASK = Ok false ->
  parse y g s p = (p', Ok l) -> listable l -> limit < total l < 2 ^ 64 -> to_addresses_vector fuel l limit = Throw E_out_of_range.
Proof.
  intros y g s p p' l limit fuel R AM E L T. destruct (parse_ones y g s p p' l R AM E) as [G _].
  assert (Forall2 (fun r z => size r = Ok z) l (map count l)) as A.
  { assert (total l < 2 ^ 64) as TL by apply T. unfold listable, total in *. clear - G L TL. revert TL. induction L as [|r l [NE HL] L IH]; intros TL; [constructor|].
    inversion G as [|? ? [D W] Gl]; subst. cbn [map fold_right] in TL |- *. pose proof (total_nonneg l) as TN. unfold total in TN. pose proof (count_nonneg r) as CN.
    constructor; [|apply IH; [exact Gl|lia]]. destruct (PropRange.C26_size_partial r W) as (_ & S1 & S2). change (2 ^ 64) with 18446744073709551616 in *.
    assert (full r \/ ~ full r) as [F|F] by (unfold full; destruct (f_has_from r), (f_has_to r); intuition discriminate).
    - destruct F as [F1 F2]. destruct NE as [_ NE]. unfold count, lo, hi in *. rewrite F1, F2 in *.
      rewrite (S2 (conj F1 F2) NE).
      + f_equal. change (2 ^ 64) with 18446744073709551616. lia.
      + change (2 ^ 127 - 1) with 170141183460469231731687303715884105727. lia.
      + change (2 ^ 128 - 1) with 340282366920938463463374607431768211455. lia.
    - rewrite (S1 D F). f_equal. unfold count, lo, hi, full, defined in *. destruct (f_has_from r), (f_has_to r); try (exfalso; tauto); try (exfalso; destruct D; discriminate); lia. }
  destruct (PropExact.C27_any_vector l (map count l) limit fuel A) as [X _]. apply X.
  fold (total l). pose proof (total_nonneg l). rewrite Z.mod_small by lia. lia.
Qed.
Print Assumptions C167_too_many.

(* An empty range is not listed as nothing: its first address is listed
   although no address matches; otherwise the exception is thrown. *)
Definition ranges_parser : parser :=
  with_allow (with_allow (with_allow parser_new ALLOW_ADDRESS_LOOKUP false) ALLOW_ADDRESS_RANGE true) ALLOW_MULTI_ADDRESSES_COMMAS true.
Theorem C167_empty_refuted : exists y g s p p' l a, resolver_ok g /\ get_allow p ALLOW_MASK = Ok false /\ parse y g s p = (p', Ok l)
  /\ (forall fuel, to_addresses_vector (S fuel) l 10 = Ok [a])
  /\ forall x, addr_wf x -> address_match_ranges l x = Ok false.
Proof.
  exists ref_sys, no_answer, (lit "10.0.0.2-10.0.0.1"), ranges_parser. eexists _, _, _.
  split; [exact no_answer_ok|]. split; [reflexivity|]. split; [vm_compute; reflexivity|]. split; [intros fuel; reflexivity|].
  intros x Wx. cbn [address_match_ranges]. rewrite PropRange.C25_empty_matches_nothing_partial; [reflexivity| |exact Wx| |].
  - constructor; now apply addr_wfb_ok.
  - split; reflexivity.
  - vm_compute. reflexivity.
Qed.
Print Assumptions C167_empty_refuted.

Example C167_witness :
  let p := with_sort ranges_parser SORT_MERGE in
  exists p' l p0 l0, parse ref_sys no_answer (lit "10.0.0.4-10.0.0.6,10.0.0.1,10.0.0.5-10.0.0.9") p = (p', Ok l)
  /\ parse ref_sys no_answer (lit "10.0.0.4-10.0.0.6,10.0.0.1,10.0.0.5-10.0.0.9") (without_sort p) = (p0, Ok l0)
  /\ resolver_ok no_answer /\ get_allow p ALLOW_MASK = Ok false /\ listable l /\ total l = 7 /\ listable l0 /\ total l0 = 9
  /\ Z.land (get_sort_order p) SORT_MERGE <> 0
  /\ (exists as1, to_addresses_vector 20 l 10 = Ok as1 /\ length as1 = 7%nat)
  /\ to_addresses_vector 20 l 6 = Throw E_out_of_range.
Proof.
  cbv zeta. do 4 eexists. split; [vm_compute; reflexivity|]. split; [vm_compute; reflexivity|]. split; [exact no_answer_ok|]. split; [reflexivity|].
  split. { repeat constructor; try (left; reflexivity); vm_compute; congruence. }
  split; [vm_compute; reflexivity|].
  split. { repeat constructor; try (left; reflexivity); vm_compute; congruence. }
  split; [vm_compute; reflexivity|]. split; [vm_compute; discriminate|].
  split; [eexists; split; vm_compute; reflexivity|]. vm_compute. reflexivity.
Qed.
