(* Property C164: the default port is the same as writing it. *)
From Coq Require Import Lia ZifyBool ZifyNat.
From Verif Require Import Base Addr Spec SpecText SpecRange Range Parser SpecParser SpecParser2 SpecParser4 SpecLanguage SpecPort.
From Verif Require AddrProofs4 PropNumeric PropParser9 PropParser10 PortProofs PortProofs2 OrderProofs OrderProofs2 PropOrder PropParser2 PropParser3 PropParser5 PropGrammar.
Import AddrProofs4 PropNumeric PropParser9 PropParser10 PortProofs PortProofs2 OrderProofs OrderProofs2 PropParser3.
Local Open Scope Z_scope.

Lemma aside_same r r2 r3 : port_aside r r2 -> same_range r2 r3 -> port_aside r r3.
Proof.
  intros (H1 & H2 & H3 & H4) (K1 & K2 & K3 & K4). split; [congruence|]. split; [congruence|]. split; intros X.
  - destruct (H3 X) as (A1 & A2 & A3 & A4 & A5). rewrite H1 in X. destruct (K3 X) as (B1 & B2 & B3 & B4 & B5 & B6). unfold end_aside. repeat split; congruence.
  - destruct (H4 X) as (A1 & A2 & A3 & A4 & A5). rewrite H2 in X. destruct (K4 X) as (B1 & B2 & B3 & B4 & B5 & B6). unfold end_aside. repeat split; congruence.
Qed.
Lemma aside_refl r : port_aside r r.
Proof. unfold port_aside, end_aside. repeat split. Qed.
Lemma aside_sym r r2 : port_aside r r2 -> port_aside r2 r.
Proof.
  intros (H1 & H2 & H3 & H4). split; [congruence|]. split; [congruence|]. unfold end_aside in *.
  split; intros X; [rewrite <- H1 in X; destruct (H3 X) as (A1 & A2 & A3 & A4 & A5)|rewrite <- H2 in X; destruct (H4 X) as (A1 & A2 & A3 & A4 & A5)]; repeat split; congruence.
Qed.
Lemma marked_aside b l l2 : Forall2 same_range (map (mark b) l) l2 -> Forall2 port_aside l l2.
Proof.
  revert l2. induction l as [|r l IH]; intros l2 F; inversion F; subst; constructor; [|now apply IH].
  eapply aside_same; [apply (mark_like b)|eassumption].
Qed.
Lemma same_aside l l2 : Forall2 same_range l l2 -> Forall2 port_aside l l2.
Proof. intros F. induction F; constructor; [eapply aside_same; [apply aside_refl|eassumption]|assumption]. Qed.

Section Entries.
Variables (y : sys) (g : resolver) (p : parser) (D : str).
Hypothesis U : unsorted p.
Hypothesis TE : takes_entries p.
Hypothesis HC : converts_decimals y.
Hypothesis HG : resolver_ok g.
Hypothesis HK : lookup_known g p.
Hypothesis DP : default_port_is p D.
Lemma bounds : 0 <= get_default_port p <= 65535.
Proof. destruct DP as (_ & _ & L & _). destruct TE as [_ H _]. lia. Qed.
Lemma entry_to e e2 l v2 : same_but_port p D e e2 -> verdict y g p e (l, true) -> verdict y g p e2 v2 -> snd v2 = true /\ Forall2 port_aside l (fst v2).
Proof.
  intros S V1 V2. inversion V1 as [b1 t b2 l0 F1 PT F2 A E1 E2|]; subst.
  destruct DP as (AP & NR & L & PD). pose proof bounds as BD.
  assert (exists t2 l2, (exists c1 c2, Forall blank c1 /\ Forall blank c2 /\ e2 = c1 ++ t2 ++ c2) /\ plain_text t2 /\ accepted y g p t2 l2 /\ Forall2 port_aside l l2) as (t2 & l2 & (c1 & c2 & G1 & G2 & E2) & PT2 & A2 & AS).
  { destruct S as [<-|(c1 & s & s2 & M & c2 & G1 & G2 & E1 & E2 & P1 & P2 & W & MT)].
    - exists t, l. split; [exists b1, b2; auto|]. split; [exact PT|]. split; [exact A|]. clear. induction l; constructor; [apply aside_refl|assumption].
    - rewrite (plain_unique_text b1 t b2 c1 (s ++ M) c2 F1 PT F2 G1 P1 G2 E1) in A.
      exists (s2 ++ M), (map (mark true) l). split; [exists c1, c2; auto|]. split; [exact P2|].
      split; [exact (port_to y g p D HC AP BD PD s s2 M l W MT A)|]. clear. induction l; constructor; [apply mark_like|assumption]. }
  subst e2. remember (c1 ++ t2 ++ c2) as x eqn:EX. destruct V2 as [d1 u d2 l3 H1 PU H2 A3|d1 u d2 l3 H1 PU H2 N1 N2];
    rewrite (plain_unique_text d1 u d2 c1 t2 c2 H1 PU H2 G1 PT2 G2 EX) in *.
  - split; [reflexivity|]. cbn [fst]. pose proof (C122_one_meaning y g p t2 l2 l3 TE A2 A3) as SM.
    clear - AS SM. revert l3 SM. induction AS; intros l3 SM; inversion SM; subst; constructor; [eapply aside_same; eassumption|auto].
  - elim (N1 l2 A2).
Qed.
Lemma entry_from e e2 l v2 : same_but_port p D e2 e -> verdict y g p e (l, true) -> verdict y g p e2 v2 -> snd v2 = true /\ Forall2 port_aside l (fst v2).
Proof.
  intros S V1 V2. inversion V1 as [b1 t b2 l0 F1 PT F2 A E1 E2|]; subst.
  destruct DP as (AP & NR & L & PD). pose proof bounds as BD.
  assert (exists t2 l2, (exists c1 c2, Forall blank c1 /\ Forall blank c2 /\ e2 = c1 ++ t2 ++ c2) /\ plain_text t2 /\ accepted y g p t2 l2 /\ Forall2 port_aside l l2) as (t2 & l2 & (c1 & c2 & G1 & G2 & E2) & PT2 & A2 & AS).
  { destruct S as [->|(c1 & s & s2 & M & c2 & G1 & G2 & E2 & E1 & P2 & P1 & W & MT)].
    - exists t, l. split; [exists b1, b2; auto|]. split; [exact PT|]. split; [exact A|]. clear. induction l; constructor; [apply aside_refl|assumption].
    - rewrite (plain_unique_text b1 t b2 c1 (s2 ++ M) c2 F1 PT F2 G1 P1 G2 E1) in A.
      exists (s ++ M), (map (mark false) l). split; [exists c1, c2; auto|]. split; [exact P2|].
      split; [exact (port_from y g p D HC AP NR BD PD s s2 M l W MT A)|]. clear. induction l; constructor; [apply mark_like|assumption]. }
  subst e2. remember (c1 ++ t2 ++ c2) as x eqn:EX. destruct V2 as [d1 u d2 l3 H1 PU H2 A3|d1 u d2 l3 H1 PU H2 N1 N2];
    rewrite (plain_unique_text d1 u d2 c1 t2 c2 H1 PU H2 G1 PT2 G2 EX) in *.
  - split; [reflexivity|]. cbn [fst]. pose proof (C122_one_meaning y g p t2 l2 l3 TE A2 A3) as SM.
    clear - AS SM. revert l3 SM. induction AS; intros l3 SM; inversion SM; subst; constructor; [eapply aside_same; eassumption|auto].
  - elim (N1 l2 A2).
Qed.
Lemma carried (R : str -> str -> Prop) : (forall e e2 l v2, R e e2 -> verdict y g p e (l, true) -> verdict y g p e2 v2 -> snd v2 = true /\ Forall2 port_aside l (fst v2)) ->
  forall t t2 ts ts2 l, ~ In 0 t -> ~ In 0 t2 -> entries_of p t ts -> entries_of p t2 ts2 -> Forall2 R ts ts2 ->
  reads y g t p l -> exists l2, reads y g t2 p l2 /\ Forall2 port_aside l l2.
Proof.
  intros STEP t t2 ts ts2 l N1 N2 E1 E2 F (p1 & EP & EC).
  destruct (C123_lists y g p t ts U TE HC HG HK N1 E1) as (p3 & vs & EP3 & V & L & Z). rewrite EP in EP3. injection EP3 as <- EL.
  destruct (C123_lists y g p t2 ts2 U TE HC HG HK N2 E2) as (p4 & vs2 & EP4 & V2 & _ & Z2).
  assert (length (filter (fun v : list addr_range * bool => negb (snd v)) vs) = 0%nat) as L0 by lia. clear L.
  assert (Forall2 (fun v w => snd w = true /\ Forall2 port_aside (fst v) (fst w)) vs vs2) as FV.
  { clear - STEP F V V2 L0. revert ts2 vs2 F V2. induction V as [|e v ts vs VE V IH]; intros ts2 vs2 F V2; inversion F; subst; inversion V2; subst; constructor.
    - destruct v as [l [|]]; [|discriminate L0]. cbn [fst]. eapply STEP; eassumption.
    - eapply IH; [|eassumption|eassumption]. cbn [filter] in L0. destruct (negb (snd v)); [discriminate|exact L0]. }
  exists (concat (map fst vs2)). split.
  - exists p4. split; [exact EP4|]. rewrite Z2; [reflexivity|]. clear - FV. induction FV as [|v w vs ws [H _] FV IH]; intros x I; [destruct I|].
    destruct I as [<-|I]; [exact H|now apply IH].
  - subst l. clear - FV. induction FV as [|v w vs ws [_ H] FV IH]; [constructor|]. cbn [map concat]. now apply Forall2_app.
Qed.
End Entries.

Lemma written_unsorted : forall y g p D t t2 ts ts2, unsorted p -> takes_entries p -> converts_decimals y -> resolver_ok g -> lookup_known g p ->
  default_port_is p D -> ~ In 0 t -> ~ In 0 t2 -> entries_of p t ts -> entries_of p t2 ts2 -> Forall2 (same_but_port p D) ts ts2 ->
  (forall l, reads y g t p l -> exists l2, reads y g t2 p l2 /\ Forall2 port_aside l l2)
  /\ (forall l2, reads y g t2 p l2 -> exists l, reads y g t p l /\ Forall2 port_aside l l2).
Proof.
  intros y g p D t t2 ts ts2 U TE HC HG HK DP N1 N2 E1 E2 F. split.
  - intros l R. exact (carried y g p U TE HC HG HK _ (entry_to y g p D TE HC DP) t t2 ts ts2 l N1 N2 E1 E2 F R).
  - intros l2 R.
    destruct (carried y g p U TE HC HG HK (fun a b => same_but_port p D b a) (entry_from y g p D TE HC DP) t2 t ts2 ts l2 N2 N1 E2 E1) as (l & RL & AS); auto.
    + clear - F. induction F; constructor; auto.
    + exists l. split; [exact RL|]. clear - AS. induction AS; constructor; [now apply aside_sym|assumption].
Qed.

(* Sorting and merging. *)
Lemma sorted_reads y g p s ts l : resolver_ok g -> entries_of p s ts -> reads y g s p l ->
  exists l0, reads y g s (without_sort p) l0 /\ arrange (f_sort p) l0 = Ok l /\ Forall ParserProofs6.good l0 /\ Forall plain_to l0.
Proof.
  intros R E (p1 & EP & EC). destruct (PropOrder.parsed_of y g p s ts p1 l R E EP) as [vs V]. destruct (PropOrder.parse_of y g p s ts vs R E V) as (E1 & E2 & G).
  exists (gave vs). rewrite E1 in EP. assert (arrange (f_sort p) (gave vs) = Ok l) as A by congruence. split; [|split; [exact A|split; [exact G|exact (gave_to _ _ _ _ _ V)]]].
  eexists. split; [exact E2|]. apply (f_equal fst) in EP. cbn [fst] in EP. subst p1. rewrite without_sort_eq. exact EC.
Qed.
Lemma reads_sorted y g p s ts l0 l : resolver_ok g -> entries_of p s ts -> reads y g s (without_sort p) l0 -> arrange (f_sort p) l0 = Ok l -> reads y g s p l.
Proof.
  intros R E (p1 & EP & EC) A. destruct (two_parses y g s p R) as (ms & re & E1 & E2 & G). rewrite E2 in EP. assert (re = Ok l0) as -> by congruence.
  eexists. rewrite E1. cbn [rbind]. rewrite A. split; [reflexivity|]. apply (f_equal fst) in EP. cbn [fst] in EP. subst p1. rewrite without_sort_eq in EC. exact EC.
Qed.
Lemma unsorted_good y g p s ts l0 : resolver_ok g -> entries_of p s ts -> reads y g s (without_sort p) l0 -> Forall ParserProofs6.good l0 /\ Forall plain_to l0.
Proof.
  intros R E (p1 & EP & EC).
  destruct (unsorted_run y g (without_sort p) s ts _ _ (without_sort_unsorted p) (without_sort_entries p s ts E) EP) as (vs & V & _ & ->).
  destruct (PropOrder.parse_of y g p s ts vs R E V) as (_ & _ & G). split; [exact G|exact (gave_to _ _ _ _ _ V)].
Qed.
Lemma all_twins m l l2 : Forall2 port_aside l l2 -> Forall ParserProofs6.good l -> Forall ParserProofs6.good l2 -> Forall plain_to l -> Forall plain_to l2 ->
  (m = true -> Forall (fun r => has_from r = true) l) -> Forall2 (twin m) l l2.
Proof.
  intros F. induction F as [|r r2 l l2 A F IH]; intros G G2 T T2 M; [constructor|]. inversion G as [|? ? [D W] ?]; inversion G2 as [|? ? [D2 W2] ?]; inversion T as [|? ? T3 ?]; inversion T2 as [|? ? T4 ?]; subst.
  constructor; [apply aside_twin; auto|apply IH; auto]; intros X; specialize (M X); inversion M; subst; auto. split; [assumption|]. unfold plain_to in *. congruence.
Qed.
(* With a default port, a text in which entries have no port and one in which
   the default port is written after some of them are both good or both bad,
   and mean the same addresses, ports, masks and protocols. *)
Theorem C164_same_as_written : forall y g p D t t2 ts ts2, takes_entries p -> converts_decimals y -> resolver_ok g -> lookup_known g p ->
  default_port_is p D -> ~ In 0 t -> ~ In 0 t2 -> entries_of p t ts -> entries_of p t2 ts2 -> Forall2 (same_but_port p D) ts ts2 ->
  Z.land (get_sort_order p) SORT_MERGE = 0 \/ (forall l0, reads y g t (without_sort p) l0 -> Forall (fun r => has_from r = true) l0) ->
  (forall l, reads y g t p l -> exists l2, reads y g t2 p l2 /\ Forall2 port_aside l l2)
  /\ (forall l2, reads y g t2 p l2 -> exists l, reads y g t p l /\ Forall2 port_aside l l2).
Proof.
  intros y g p D t t2 ts ts2 TE HC HG HK DP N1 N2 E1 E2 F MG.
  assert ((forall l, reads y g t (without_sort p) l -> exists l2, reads y g t2 (without_sort p) l2 /\ Forall2 port_aside l l2)
    /\ (forall l2, reads y g t2 (without_sort p) l2 -> exists l, reads y g t (without_sort p) l /\ Forall2 port_aside l l2)) as [TO FROM].
  { apply (written_unsorted y g (without_sort p) D t t2 ts ts2); auto using without_sort_unsorted, without_sort_entries.
    - rewrite without_sort_eq. destruct TE. now constructor.
    - rewrite without_sort_eq. exact HK.
    - rewrite without_sort_eq. exact DP.
    - rewrite without_sort_eq. exact F. }
  assert (forall l0 k0, reads y g t (without_sort p) l0 -> reads y g t2 (without_sort p) k0 -> Forall2 port_aside l0 k0 ->
    twinsl (negb (Z.land (f_sort p) SORT_MERGE =? 0)) (arrange (f_sort p) l0) (arrange (f_sort p) k0)) as TW.
  { intros l0 k0 R1 R2 A. destruct (unsorted_good y g p t ts l0 HG E1 R1) as [G T]. destruct (unsorted_good y g p t2 ts2 k0 HG E2 R2) as [G2 T2].
    apply arrange_twin. apply all_twins; auto. intros X. destruct MG as [Z|Z]; [unfold get_sort_order in Z; rewrite Z in X; discriminate|exact (Z l0 R1)]. }
  assert (forall m a b, Forall2 (twin m) a b -> Forall2 port_aside a b) as TA.
  { intros m a b H. induction H; constructor; [eapply twin_aside; eassumption|assumption]. }
  split.
  - intros l R. destruct (sorted_reads y g p t ts l HG E1 R) as (l0 & R0 & A & _). destruct (TO l0 R0) as (k0 & K0 & AS).
    specialize (TW l0 k0 R0 K0 AS). rewrite A in TW. destruct (arrange (f_sort p) k0) as [k|x| |] eqn:AK; cbn [twinsl] in TW; try contradiction.
    exists k. split; [exact (reads_sorted y g p t2 ts2 k0 k HG E2 K0 AK)|exact (TA _ _ _ TW)].
  - intros k R. destruct (sorted_reads y g p t2 ts2 k HG E2 R) as (k0 & R0 & A & _). destruct (FROM k0 R0) as (l0 & L0 & AS).
    specialize (TW l0 k0 L0 R0 AS). rewrite A in TW. destruct (arrange (f_sort p) l0) as [l|x| |] eqn:AL; cbn [twinsl] in TW; try contradiction.
    exists l. split; [exact (reads_sorted y g p t ts l0 l HG E1 L0 AL)|exact (TA _ _ _ TW)].
Qed.
Print Assumptions C164_same_as_written.

(* What tells them apart is is_port_defined(). *)
Lemma told_marks b l l2 : Forall2 same_range (map (mark b) l) l2 -> Forall (port_told b) l2.
Proof.
  revert l2. induction l as [|r l IH]; intros l2 F; inversion F as [|? r2 ? l3 (H1 & H2 & H3 & H4) F2]; subst; constructor; [|now apply IH].
  unfold mark, has_from, has_to, get_from, get_to, same_end in *. cbn [f_has_from f_has_to f_from f_to] in *. unfold port_told, has_from, has_to, get_from, get_to.
  split; intros X.
  - rewrite <- H1 in X. destruct (H3 X) as (_ & _ & _ & E & _). rewrite <- E, X. reflexivity.
  - rewrite <- H2 in X. destruct (H4 X) as (_ & _ & _ & E & _). rewrite <- E, X. reflexivity.
Qed.
Theorem C164_told : forall y g p D s s2 M l l2, takes_one p -> takes_entries p -> converts_decimals y -> resolver_ok g -> lookup_known g p ->
  default_port_is p D -> writes_port D s s2 -> mask_tail p s M -> ~ In 0 (s ++ M) -> plain_text (s ++ M) -> ~ In 0 (s2 ++ M) -> plain_text (s2 ++ M) ->
  reads y g (s ++ M) p l -> reads y g (s2 ++ M) p l2 ->
  Forall2 port_aside l l2 /\ Forall (port_told false) l /\ Forall (port_told true) l2.
Proof.
  intros y g p D s s2 M l l2 TO TE HC HG HK DP W MT N1 P1 N2 P2 (p1 & E1 & C1) (p2 & E2 & C2).
  destruct (C122_only_these y g p _ _ _ TO TE HC HG HK N1 P1 E1 C1) as [_ A1]. destruct (C122_only_these y g p _ _ _ TO TE HC HG HK N2 P2 E2 C2) as [_ A2].
  pose proof (bounds p D TE DP) as BD. destruct DP as (AP & NR & L & PD).
  pose proof (port_to y g p D HC AP BD PD s s2 M l W MT A1) as T1. pose proof (port_from y g p D HC AP NR BD PD s s2 M l2 W MT A2) as T2.
  pose proof (C122_one_meaning y g p _ _ _ TE T1 A2) as S1. pose proof (C122_one_meaning y g p _ _ _ TE T2 A1) as S2.
  split; [exact (marked_aside true l l2 S1)|]. split; [exact (told_marks false l2 l S2)|exact (told_marks true l l2 S1)].
Qed.
Print Assumptions C164_told.

(* Masks, ranges and commas allowed, port 8080 by default,
   and merging. *)
Import PropParser2 PropParser5.
Definition on_8080 : parser :=
  parser_run ref_sys numbers [P_set_sort_order SORT_MERGE; P_set_default_port 8080; P_set_allow ALLOW_ADDRESS_LOOKUP false; P_set_allow ALLOW_MASK true;
    P_set_allow ALLOW_ADDRESS_RANGE true; P_set_allow ALLOW_MULTI_ADDRESSES_COMMAS true].
Example C164_witness :
  let t := lit "10.0.0.1-10.0.0.9/24, fe80::1/64" in let t2 := lit "10.0.0.1-10.0.0.9:8080/24, [fe80::1]:8080/64" in
  let ts := [lit "10.0.0.1-10.0.0.9/24"; lit " fe80::1/64"] in let ts2 := [lit "10.0.0.1-10.0.0.9:8080/24"; lit " [fe80::1]:8080/64"] in
  (forall l0, reads ref_sys numbers t (without_sort on_8080) l0 -> Forall (fun r => has_from r = true) l0)
  /\ Z.land (get_sort_order on_8080) SORT_MERGE <> 0 /\ takes_entries on_8080 /\ lookup_known numbers on_8080 /\ default_port_is on_8080 (lit "8080")
  /\ ~ In 0 t /\ ~ In 0 t2 /\ entries_of on_8080 t ts /\ entries_of on_8080 t2 ts2 /\ Forall2 (same_but_port on_8080 (lit "8080")) ts ts2
  /\ exists r1 r2, reads ref_sys numbers t on_8080 [r1; r2] /\ get_port (get_to r1) = 8080 /\ get_port (get_from r2) = 8080.
Proof.
  cbv zeta. split.
  { intros l0 (p1 & E & _). apply Forall_forall.
    assert (forallb has_from (match snd (parse ref_sys numbers (lit "10.0.0.1-10.0.0.9/24, fe80::1/64") (without_sort on_8080)) with Ok l => l | _ => [] end) = true) as H by (vm_compute; reflexivity).
    rewrite E in H. cbn [snd] in H. rewrite forallb_forall in H. exact H. }
  split; [vm_compute; discriminate|]. split.
  { split; [intros _; left; vm_compute; reflexivity|vm_compute; split; discriminate|vm_compute; tauto]. }
  split; [intros X; vm_compute in X; discriminate|]. split.
  { split; [vm_compute; reflexivity|]. split; [vm_compute; reflexivity|]. split; [vm_compute; discriminate|].
    split; [split; [discriminate|split; vm_compute; reflexivity]|]. split; [discriminate|vm_compute; discriminate]. }
  split; [now apply not_in|]. split; [now apply not_in|].
  split. { change (lit "10.0.0.1-10.0.0.9/24, fe80::1/64") with (lit "10.0.0.1-10.0.0.9/24" ++ [44] ++ lit " fe80::1/64").
    apply PropGrammar.two_entries; try reflexivity; try discriminate; now apply not_in. }
  split. { change (lit "10.0.0.1-10.0.0.9:8080/24, [fe80::1]:8080/64") with (lit "10.0.0.1-10.0.0.9:8080/24" ++ [44] ++ lit " [fe80::1]:8080/64").
    apply PropGrammar.two_entries; try reflexivity; try discriminate; now apply not_in. }
  split.
  - constructor; [|constructor; [|constructor]]; right.
    + exists [], (lit "10.0.0.1-10.0.0.9"), (lit "10.0.0.1-10.0.0.9:8080"), (lit "/24"), []. split; [constructor|]. split; [constructor|].
      split; [reflexivity|]. split; [reflexivity|]. split; [right; now apply trimmed_lit|]. split; [right; now apply trimmed_lit|].
      split; [apply (port_after (lit "8080") (lit "10.0.0.1-10.0.0.9")); [now apply not_in|discriminate]|].
      right. split; [vm_compute; reflexivity|]. split; [now apply not_in|]. exists (lit "24"). reflexivity.
    + exists [32], (lit "fe80::1"), (lit "[fe80::1]:8080"), (lit "/64"), []. split; [constructor; [left; reflexivity|constructor]|]. split; [constructor|].
      split; [reflexivity|]. split; [reflexivity|]. split; [right; now apply trimmed_lit|]. split; [right; now apply trimmed_lit|].
      split; [apply (port_needs_brackets (lit "8080") (lit "fe80::1")); [|now apply not_in|discriminate]|].
      * exists (lit "fe80"), [], (lit "1"). reflexivity.
      * right. split; [vm_compute; reflexivity|]. split; [now apply not_in|]. exists (lit "64"). reflexivity.
  - do 2 eexists. split; [exists on_8080; split; vm_compute; reflexivity|]. split; vm_compute; reflexivity.
Qed.
Definition one_8080 : parser :=
  parser_run ref_sys numbers [P_set_default_port 8080; P_set_allow ALLOW_ADDRESS_LOOKUP false; P_set_allow ALLOW_MASK true;
    P_set_allow ALLOW_ADDRESS_RANGE true].
Example C164_told_witness :
  converts_decimals ref_sys /\ resolver_ok numbers /\ takes_one one_8080 /\ takes_entries one_8080 /\ lookup_known numbers one_8080
  /\ default_port_is one_8080 (lit "8080") /\ writes_port (lit "8080") (lit "fe80::1") (lit "[fe80::1]:8080")
  /\ mask_tail one_8080 (lit "fe80::1") (lit "/64") /\ plain_text (lit "fe80::1/64") /\ plain_text (lit "[fe80::1]:8080/64")
  /\ (exists r, reads ref_sys numbers (lit "fe80::1/64") one_8080 [r] /\ is_port_defined (get_from r) = false /\ get_port (get_from r) = 8080)
  /\ exists r, reads ref_sys numbers (lit "[fe80::1]:8080/64") one_8080 [r] /\ is_port_defined (get_from r) = true /\ get_port (get_from r) = 8080.
Proof.
  split; [apply ref_sys_converts|]. split; [exact numbers_ok|].
  split; [split; [apply PropParser4.no_seps; vm_compute; reflexivity|apply no_comments; vm_compute; reflexivity|vm_compute; reflexivity]|].
  split. { split; [intros _; left; vm_compute; reflexivity|vm_compute; split; discriminate|vm_compute; tauto]. }
  split; [intros X; vm_compute in X; discriminate|]. split.
  { split; [vm_compute; reflexivity|]. split; [vm_compute; reflexivity|]. split; [vm_compute; discriminate|].
    split; [split; [discriminate|split; vm_compute; reflexivity]|]. split; [discriminate|vm_compute; discriminate]. }
  split. { apply (port_needs_brackets (lit "8080") (lit "fe80::1")); [exists (lit "fe80"), [], (lit "1"); reflexivity|now apply not_in|discriminate]. }
  split. { right. split; [vm_compute; reflexivity|]. split; [now apply not_in|]. exists (lit "64"). reflexivity. }
  split; [right; now apply trimmed_lit|]. split; [right; now apply trimmed_lit|].
  split; eexists; (split; [exists one_8080; split; vm_compute; reflexivity|]; split; vm_compute; reflexivity).
Qed.
