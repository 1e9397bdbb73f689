(* C146: merging and the addresses which match. *)
From Coq Require Import ZifyBool ZifyNat Permutation.
From Verif Require Import Base Addr Spec Range SpecRange Inet SpecText Parser SpecParser.
From Verif Require AddrProofs AddrProofs2 AddrProofs3 AddrProofs4 RangeProofs RangeProofs2 ParserProofs ParserProofs2
  ParserProofs3 ParserProofs4 ParserProofs5 ParserProofs6 ParserProofs7 PropRange PropParser PropParser2 PropParser3 PropParser13.
Import AddrProofs AddrProofs2 AddrProofs3 AddrProofs4 RangeProofs RangeProofs2 ParserProofs ParserProofs2
  ParserProofs3 ParserProofs4 ParserProofs5 ParserProofs6 ParserProofs7 PropParser PropParser2 PropParser3 PropParser13.
Local Open Scope Z_scope.

Lemma match_bits_same a b x : addr_wf a -> addr_wf b -> addr_wf x -> value a = value b -> mask_value a = mask_value b ->
  match_ a x false = match_ b x false.
Proof.
  intros Wa Wb Wx V M. pose proof (match_bits a x Wa Wx) as A. pose proof (match_bits b x Wb Wx) as B. rewrite V, M, <- B in A.
  destruct (match_ a x false), (match_ b x false); auto; [symmetry|]; now apply A.
Qed.
Lemma element_match r x : good r -> addr_wf x -> element r (value x) -> range_match r x = Ok true.
Proof.
  intros [D W] Wx [_ E]. destruct (f_has_from r && f_has_to r) eqn:B.
  - apply andb_prop in B. rewrite range_match_full by (auto; exact B). f_equal. lia.
  - rewrite range_match_single by (intros [X Y]; rewrite X, Y in B; discriminate). f_equal.
    unfold lo, hi in E. destruct W as [WF WT]. apply match_bits; [destruct (f_has_from r); assumption|exact Wx|].
    intros i _ _. f_equal. destruct D as [D|D]; destruct (f_has_from r), (f_has_to r); cbn [andb] in B; try discriminate; lia.
Qed.
Lemma hits_iff l x : address_match_ranges l x = Ok true <-> exists r, In r l /\ range_match r x = Ok true.
Proof.
  destruct (PropRange.C34_address_match_ranges l x) as (b & -> & H). rewrite <- H. split; [now intros [= ->]|now intros ->].
Qed.

(* ---------- the merged ranges ---------- *)
Record fair (l : list addr_range) (r : addr_range) : Prop := mk_fair {
  fa_wf : range_wf r;
  fa_from : f_has_from r = true;
  fa_origin : f_has_to r = true /\ (forall v, element r v -> covered l v)
    \/ f_has_to r = false /\ exists r0, In r0 l /\ f_has_from r0 = true /\ f_has_to r0 = false
       /\ value (f_from r0) = value (f_from r) /\ mask_value (f_from r0) = mask_value (f_from r) }.
Lemma fair_covered l r v : fair l r -> element r v -> covered l v.
Proof.
  intros [W F [[_ C]|(T & r0 & I & F0 & T0 & V & _)]] E; [now apply C|]. exists r0. split; [exact I|].
  unfold element, lo, hi in *. rewrite F, T in E. rewrite F0, T0. split; [now left|]. lia.
Qed.
Lemma fair_self l r : In r l -> good r -> f_has_from r = true -> fair l r.
Proof.
  intros I [D W] F. constructor; auto. destruct (f_has_to r) eqn:T; [left|right].
  - split; [reflexivity|]. intros v E. exists r. auto.
  - split; [reflexivity|]. exists r. auto.
Qed.
Lemma fair_union l a b u : fair l a -> fair l b -> union_if_possible a b = Ok u -> defined u -> fair l u.
Proof.
  intros Fa Fb E D. assert (defined a /\ defined b) as [Da Db] by (split; left; [apply Fa|apply Fb]).
  destruct (PropRange.C29_union_elements a b u (fa_wf _ _ Fa) (fa_wf _ _ Fb) Da Db E D) as [Wu EL].
  pose proof (union_spec a b (fa_wf _ _ Fa) (fa_wf _ _ Fb) Da Db) as S.
  destruct (touching a b); [|rewrite E in S; injection S as ->; destruct D; discriminate].
  destruct (_ && _) eqn:FB in S; [|rewrite E in S; discriminate].
  destruct S as (u' & E' & _ & HF & HT & L & _ & MV & MS & _). rewrite E in E'. injection E' as <-.
  constructor; [exact Wu|exact HF|]. destruct (f_has_to u) eqn:T; [left|right]; (split; [reflexivity|]).
  - intros v X. apply EL in X as [X|X]; [now apply (fair_covered l a)|now apply (fair_covered l b)].
  - assert (f_has_to a = false /\ f_has_to b = false /\ lo a = lo b) as (Ta & Tb & LL).
    { pose proof (fa_from _ _ Fa). pose proof (fa_from _ _ Fb). unfold full in HT.
      destruct (f_has_to a) eqn:X1; [|destruct (f_has_to b) eqn:X2].
      - assert (false = true) by (apply HT; auto). discriminate.
      - assert (false = true) by (apply HT; auto). discriminate.
      - split; [reflexivity|]. split; [reflexivity|]. destruct (Z.eq_dec (lo a) (lo b)) as [Q|Q]; [exact Q|].
        assert (false = true) by (apply HT; auto). discriminate. }
    assert (value (f_from u) = lo a) as V by (unfold lo in L at 1; rewrite HF in L; rewrite L; lia).
    destruct Fa as [[Wa _] HFa [[X _]|(_ & ra & Ia & A1 & A2 & A3 & A4)]]; [congruence|].
    destruct Fb as [[Wb _] HFb [[X _]|(_ & rb & Ib & B1 & B2 & B3 & B4)]]; [congruence|].
    unfold lo in V, LL. rewrite HFa in V, LL. rewrite HFb in LL.
    assert (0 <= get_mask_size (f_from u)) as P.
    { rewrite MS. apply andb_prop in FB as [FB _]. unfold fitsb in FB. destruct (_ && (_ <? _)) in FB; lia. }
    rewrite MS in P. unfold union_from_mask in MV, P.
    assert (forall z, addr_wf z -> 0 <= get_mask_size z -> mask_value z = prefix_mask (get_mask_size z)) as PM.
    { intros z Wz Z0. apply (get_mask_size_iff z (get_mask_size z) Wz Z0). reflexivity. }
    destruct (Z.min_spec (get_mask_size (f_from a)) (get_mask_size (f_from b))) as [[_ Q]|[_ Q]]; rewrite Q in MV, P.
    + exists ra. rewrite MV, A4, (PM _ Wa P). repeat split; auto. congruence.
    + exists rb. rewrite MV, B4, (PM _ Wb P). repeat split; auto. congruence.
Qed.
Lemma fair_merge l : forall rest cur out, fair l cur -> Forall (fair l) rest -> merge_from cur rest = Ok out -> Forall (fair l) out.
Proof.
  induction rest as [|n rest IH]; intros cur out Fc Fr E; cbn [merge_from] in E.
  - assert (out = [cur]) as -> by congruence. auto.
  - inversion Fr as [|? ? Fn Fr2]; subst. destruct (union_if_possible cur n) as [u| | |] eqn:U; cbn [rbind] in E; try discriminate.
    destruct (is_defined u && negb (is_empty u)) eqn:D.
    + apply (IH u); auto. apply (fair_union l cur n); auto. apply andb_prop in D as [D _]. now apply is_defined_spec.
    + destruct (merge_from n rest) as [o| | |] eqn:M; cbn [rbind] in E; try discriminate.
      assert (out = cur :: o) as -> by congruence. constructor; [exact Fc|]. now apply (IH n).
Qed.
Lemma fair_arrange sort l out : Forall good l -> Forall (fun r => f_has_from r = true) l -> arrange sort l = Ok out -> Forall (fair l) out.
Proof.
  intros G HF E. unfold arrange in E.
  set (l1 := if negb (Z.land sort (Z.lor SORT_FULL SORT_MERGE) =? 0) then stable_sort range_lt l else l) in *.
  assert (Permutation l l1) as P by (unfold l1; destruct (negb _); [apply stable_sort_perm|auto]).
  clearbody l1.
  assert (Forall (fair l) l1) as F1.
  { apply (Permutation_Forall P). rewrite Forall_forall in *. intros r I. apply fair_self; auto. }
  destruct (if negb (Z.land sort SORT_MERGE =? 0) then merge_all l1 else Ok l1) as [l2| | |] eqn:E2; cbn [rbind] in E; try discriminate.
  assert (Forall (fair l) l2) as F2.
  { destruct (negb (Z.land sort SORT_MERGE =? 0)); [|assert (l2 = l1) as -> by congruence; exact F1].
    destruct l1 as [|c l1]; [assert (l2 = []) as -> by (cbn in E2; congruence); constructor|].
    inversion F1; subst. now apply (fair_merge l l1 c). }
  assert (forall lt, Forall (fair l) (stable_sort lt l2)) as Q.
  { intros lt. apply (Permutation_Forall (stable_sort_perm lt l2) F2). }
  destruct (negb (Z.land sort SORT_IPV4_FIRST =? 0)).
  { assert (out = stable_sort v4_first l2) as -> by congruence. apply Q. }
  destruct (negb (Z.land sort SORT_IPV6_FIRST =? 0)).
  { assert (out = stable_sort v6_first l2) as -> by congruence. apply Q. }
  assert (out = l2) as -> by congruence. exact F2.
Qed.

(* ---------- theorems ---------- *)
(* Whatever the sort order: when each entry has a first address, no address
   matches which does not match without sorting. *)
Theorem C146_never_more_partial : forall y g s p p' l p0 l0, resolver_ok g ->
  parse y g s p = (p', Ok l) -> parse y g s (without_sort p) = (p0, Ok l0) ->
  Forall (fun r => has_from r = true) l0 ->
  forall x, addr_wf x -> address_match_ranges l x = Ok true -> address_match_ranges l0 x = Ok true.
Proof.
  intros y g s p p' l p0 l0 R E E0 HF x Wx H.
  destruct (two_parses y g s p R) as (ms & re & E1 & E2 & G).
  rewrite E2 in E0. assert (re = Ok l0) as -> by congruence. cbn [rbind] in E1. specialize (G l0 eq_refl).
  rewrite E1 in E. assert (arrange (f_sort p) l0 = Ok l) as EA by congruence.
  pose proof (fair_arrange (f_sort p) l0 l G HF EA) as FA.
  apply hits_iff in H as (r & I & H). apply hits_iff. rewrite Forall_forall in FA, G. pose proof (FA r I) as [W F O].
  destruct O as [[T C]|(T & r0 & I0 & F0 & T0 & V & M)].
  - rewrite range_match_full in H by (auto; split; auto). destruct (C (value x)) as (r0 & I0 & EL).
    { split; [now left|]. injection H as H. lia. }
    exists r0. split; [exact I0|]. apply element_match; auto.
  - exists r0. split; [exact I0|]. rewrite range_match_single in * by (intros [_ X]; congruence).
    rewrite F0. rewrite F in H. rewrite <- H. f_equal.
    apply match_bits_same; auto; [|apply W]. destruct (G r0 I0) as [_ [W0 _]]. exact W0.
Qed.
Print Assumptions C146_never_more_partial.

(* Whatever the sort order: each address which is written in the text (on its
   own, before a mask or within a range) matches. *)
Theorem C146_named_match : forall y g s p p' l p0 l0, resolver_ok g ->
  parse y g s p = (p', Ok l) -> parse y g s (without_sort p) = (p0, Ok l0) ->
  forall r0 x, In r0 l0 -> addr_wf x -> element r0 (value x) -> address_match_ranges l x = Ok true.
Proof.
  intros y g s p p' l p0 l0 R E E0 r0 x I Wx EL.
  destruct (two_parses y g s p R) as (ms & re & E1 & E2 & G).
  rewrite E2 in E0. assert (re = Ok l0) as -> by congruence. cbn [rbind] in E1. specialize (G l0 eq_refl).
  rewrite E1 in E. assert (arrange (f_sort p) l0 = Ok l) as EA by congruence.
  destruct (Z.eq_dec (Z.land (get_sort_order p) SORT_MERGE) 0) as [M|M].
  - rewrite <- E1 in E. rewrite (C140_sorted y g s p p' l _ l0 R M E E2).
    apply hits_iff. exists r0. split; [exact I|]. rewrite Forall_forall in G. now apply element_match; auto.
  - destruct (arrange_merged (f_sort p) l0 l G M EA) as (G1 & C & _).
    destruct (proj2 (C (value x))) as (r & Ir & ER); [exists r0; auto|].
    apply hits_iff. exists r. split; [exact Ir|]. rewrite Forall_forall in G1. apply element_match; auto.
Qed.
Print Assumptions C146_named_match.

(* A range without a first address keeps a mask which it does not use; merging
   uses it: of "-10.0.0.1/104,10.0.0.1" all of 10.0.0.0/8 matches. *)
Theorem C146_never_more_refuted : exists y g s p x l l0, resolver_ok g /\ addr_wf x
  /\ parser_reachable y g p /\ parse y g s p = (p, Ok l) /\ parse y g s (without_sort p) = (without_sort p, Ok l0)
  /\ s = lit "-10.0.0.1/104,10.0.0.1"
  /\ address_match_ranges l x = Ok true /\ address_match_ranges l0 x = Ok false.
Proof.
  exists ref_sys, no_answer, (lit "-10.0.0.1/104,10.0.0.1"), masked_merge, (PropRange.net4 10 200 1 7 32).
  eexists _, _. split; [exact no_answer_ok|]. split; [PropRange.wfa|].
  split. { replace masked_merge with (parser_run ref_sys no_answer [P_set_sort_order SORT_MERGE; P_set_allow ALLOW_ADDRESS_RANGE true;
     P_set_allow ALLOW_MASK true; P_set_allow ALLOW_MULTI_ADDRESSES_SPACES true; P_set_allow ALLOW_MULTI_ADDRESSES_COMMAS true;
     P_set_allow ALLOW_ADDRESS_LOOKUP false]) by (vm_compute; reflexivity).
    apply run_reachable. }
  split; [vm_compute; reflexivity|]. split; [vm_compute; reflexivity|]. split; [reflexivity|]. split; vm_compute; reflexivity.
Qed.
Print Assumptions C146_never_more_refuted.

(* A list with networks and a range which is merged. *)
Definition mixed (p : parser) : res (list addr_range) :=
  snd (parse ref_sys no_answer (lit "10.0.0.1/24,10.0.0.2/24,10.9.0.0/16,10.9.0.0/24,fe80::1-fe80::7") p).
Example C146_witness :
  (exists l0, mixed (without_sort masked_merge) = Ok l0 /\ Forall (fun r => has_from r = true) l0 /\ length l0 = 5%nat)
  /\ (exists l, mixed masked_merge = Ok l /\ length l = 3%nat
     /\ address_match_ranges l (PropRange.net4 10 9 77 1 32) = Ok true
     /\ address_match_ranges l (PropRange.net4 10 0 0 2 32) = Ok true).
Proof.
  split.
  - eexists. split; [vm_compute; reflexivity|]. split; [repeat constructor|reflexivity].
  - eexists. split; [vm_compute; reflexivity|]. split; [reflexivity|]. split; vm_compute; reflexivity.
Qed.
