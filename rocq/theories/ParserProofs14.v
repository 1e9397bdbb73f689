(* The language of a parser: one meaning per entry. *)
From Coq Require Import ZifyBool ZifyNat.
From Verif Require Import Base Addr Spec Range SpecRange Inet SpecText Parser SpecParser SpecParser2 SpecParser4 SpecLanguage.
From Verif Require Import AddrProofs AddrProofs2 AddrProofs3 RangeProofs InetProofs InetProofs2 TextProofs
  ParserProofs ParserProofs2 ParserProofs3 ParserProofs7 ParserProofs8 ParserProofs9 ParserProofs10 ParserProofs11 ParserProofs12 ParserProofs13.
Local Open Scope Z_scope.

(* The first ends also agree where there is none, and on the family. *)
Definition twin_end (a b : addr) : Prop := same_end a b /\ is_ipv4 a = is_ipv4 b.
Definition twin (r r2 : addr_range) : Prop :=
  has_from r = has_from r2 /\ has_to r = has_to r2 /\ twin_end (get_from r) (get_from r2)
  /\ (has_to r = true -> same_end (get_to r) (get_to r2)).
Lemma twin_same r r2 : twin r r2 -> same_range r r2.
Proof. intros (A & B & [C _] & D). repeat split; auto; apply C || (apply D; assumption). Qed.
Lemma same_end_refl a : same_end a a.
Proof. repeat split. Qed.

Lemma answer_twin H d ai r r2 : usable ai = true -> answer H d ai r -> answer H d ai r2 -> twin r r2.
Proof.
  intros U A B. destruct (answer_same _ _ _ _ _ U A B) as [(S1 & S2 & S3) S4].
  destruct A as [F1 T1 W1 _ _ _ M1 H1 G1], B as [F2 T2 W2 _ _ _ M2 H2 G2].
  split; [congruence|]. split; [congruence|]. split; [|congruence]. split; [|exact S1].
  repeat split; congruence.
Qed.
Lemma range_of_twin r r2 from to from2 to2 : range_of r from to -> range_of r2 from2 to2 ->
  (from = None <-> from2 = None) -> (to = None <-> to2 = None) ->
  (forall a b, from = Some a -> from2 = Some b -> twin_end a b) -> (forall a b, to = Some a -> to2 = Some b -> same_end a b) -> twin r r2.
Proof.
  intros (A1 & A2 & A3 & A4) (B1 & B2 & B3 & B4) EF ET F T. unfold twin. rewrite A1, A2, A3, B1, B2, B3.
  assert (forall (A : Type) (o o2 : option A), (o = None <-> o2 = None) -> (match o with Some _ => true | None => false end) = (match o2 with Some _ => true | None => false end)) as K.
  { intros A [u|] [w|] [K1 K2]; try reflexivity; [discriminate (K2 eq_refl)|discriminate (K1 eq_refl)]. }
  split; [now apply K|]. split; [now apply K|]. split.
  - destruct from as [a|], from2 as [b|]; [auto|destruct EF as [_ X]; discriminate (X eq_refl)|destruct EF as [X _]; discriminate (X eq_refl)|].
    split; [apply same_end_refl|reflexivity].
  - destruct to as [c|]; [intros _|discriminate]. destruct to2 as [d|]; [|destruct ET as [_ X]; discriminate (X eq_refl)].
    rewrite (A4 _ eq_refl), (B4 _ eq_refl). auto.
Qed.

Section Meaning.
Variables (y : sys) (g : resolver) (p0 : parser).
Hypothesis TE : takes_entries p0.

Lemma stands_twin v n d H a b : stands_for p0 v n d H a -> stands_for p0 v n d H b -> twin_end a b.
Proof.
  intros [W1 V1 P1 G1 R1 M1 H1] [W2 V2 P2 G2 R2 M2 H2]. split; [repeat split; congruence|]. apply same_of; auto. congruence.
Qed.
Lemma address_host_fun six X H H2 v v2 : address_text p0 six X H v -> address_text p0 six X H2 v2 -> H = H2.
Proof.
  assert (forall H v, address_text p0 six X H v -> H = match X with [] => default_address p0 six | _ => X end) as K.
  { intros K w [A u D|D u _ DF _].
    - destruct (denotes_chars _ _ D) as [NE _]. destruct A; [congruence|reflexivity].
    - now apply default_for_eq. }
  intros A B. rewrite (K _ _ A), (K _ _ B). reflexivity.
Qed.
Lemma found_twin six X D l l2 : found y g p0 six X D l -> found y g p0 six X D l2 -> Forall2 twin l l2.
Proof.
  intros A B. destruct A as [H v n d r a L AT PT S R|H d ais rs L HT AK US F2]; destruct B as [H2 v2 n2 d2 r2 a2 L2 AT2 PT2 S2 R2|H2 d2 ais2 rs2 L2 HT2 AK2 US2 F22]; try congruence.
  - constructor; [|constructor]. destruct (port_text_fun y p0 TE _ _ _ _ _ PT PT2) as [<- <-].
    pose proof (address_text_fun p0 _ _ _ _ _ _ AT AT2). pose proof (address_host_fun _ _ _ _ _ _ AT AT2). subst v2 H2.
    eapply range_of_twin; [exact R|exact R2|split; discriminate|split; reflexivity| |discriminate].
    intros x z E1 E2. injection E1 as <-. injection E2 as <-. eapply stands_twin; eassumption.
  - apply host_is in HT, HT2. subst H2 H. destruct (asked_fun g p0 _ _ _ _ _ _ AK AK2) as [<- E]. injection E as <-.
    clear - US F2 F22. revert rs2 F22. induction F2 as [|ai r ais rs A F IH]; intros rs2 F22; inversion F22; subst; constructor.
    + inversion US; subst. eapply answer_twin; eassumption.
    + apply IH; [now inversion US|assumption].
Qed.
Lemma found_one_twin six X D a b : found_one y g p0 six X D a -> found_one y g p0 six X D b -> twin_end a b.
Proof.
  intros (_ & r & rest & F & <- & _) (_ & r2 & rest2 & F2 & <- & _). pose proof (found_twin _ _ _ _ _ F F2) as S.
  inversion S as [|x z l0 l1 T _]; subst. apply T.
Qed.
Lemma made_twin l l2 from to from2 to2 : made l from to -> made l2 from2 to2 ->
  (from = None <-> from2 = None) -> (to = None <-> to2 = None) ->
  (forall a b, from = Some a -> from2 = Some b -> twin_end a b) -> (forall a b, to = Some a -> to2 = Some b -> same_end a b) -> Forall2 twin l l2.
Proof. intros (r & -> & R) (r2 & -> & R2) A B C D. constructor; [|constructor]. eapply range_of_twin; eassumption. Qed.
Lemma addresses_twin six X D l l1 : addresses y g p0 six X D l -> addresses y g p0 six X D l1 -> Forall2 twin l l1.
Proof.
  assert (~ In 45 X \/ get_allow p0 ALLOW_ADDRESS_RANGE = Ok false -> addresses y g p0 six X D l -> addresses y g p0 six X D l1 -> Forall2 twin l l1) as ONE.
  { intros N A B. apply addresses_one in A, B; [|exact N|exact N]. eapply found_twin; eassumption. }
  destruct (allow p0 ALLOW_ADDRESS_RANGE) eqn:AR; (apply allowed_is in AR; [|unfold ALLOW_ADDRESS_RANGE; lia]); [|apply ONE; now right].
  destruct (first_char 45 X) as [N45|(A & B & -> & NA)]; [apply ONE; now left|]. clear ONE.
  intros G G2. apply addresses_dash in G, G2; [|assumption..].
  assert (forall X a, found_one y g p0 six X D a -> X = [] -> False) as NN by (intros X0 a (NE & _); exact NE).
  destruct G as [(a & b & FA & FB & G)|[(EB & a & FA & M)|(EA & a & FB & M)]];
    destruct G2 as [(a2 & b2 & FA2 & FB2 & G2)|[(EB2 & a2 & FA2 & M2)|(EA2 & a2 & FB2 & M2)]];
    try (match goal with H : ?X = [], K : found_one _ _ _ _ ?X _ _ |- _ => elim (NN X _ K H) end).
  - pose proof (found_one_twin _ _ _ _ _ FA FA2) as TA. pose proof (found_one_twin _ _ _ _ _ FB FB2) as TB.
    assert (value a = value a2) as V1 by apply TA. assert (value b = value b2) as V2 by apply TB.
    destruct G as [(C & M)|(C1 & C2 & ->)], G2 as [(C' & M2)|(C1' & C2' & ->)].
    + eapply made_twin; [exact M|exact M2|split; discriminate|split; discriminate| |];
        intros x z E1 E2; injection E1 as <-; injection E2 as <-; [exact TA|apply TB].
    + exfalso. lia.
    + exfalso. lia.
    + constructor.
  - eapply made_twin; [exact M|exact M2|split; discriminate|split; reflexivity| |discriminate].
    intros x z E1 E2. injection E1 as <-. injection E2 as <-. eapply found_one_twin; eassumption.
  - eapply made_twin; [exact M|exact M2|split; reflexivity|split; discriminate|discriminate|].
    intros x z E1 E2. injection E1 as <-. injection E2 as <-. eapply found_one_twin; eassumption.
Qed.

(* ---------- masks ---------- *)
Lemma masked_twin m r r2 q q2 : twin r q -> masked_with m r r2 -> masked_with m q q2 -> twin r2 q2.
Proof.
  intros (F & T & [(V & M & P & G & R & H) I] & E) (F1 & T1 & G1 & b & B1 & N1 & _) (F2 & T2 & G2 & c & B2 & N2 & _).
  unfold twin. rewrite F1, T1, G1, F2, T2, G2, B1, B2. split; [exact F|]. split; [exact T|]. split; [|exact E].
  split; [|exact I]. split; [exact V|]. split; [unfold mask_value; cbn; congruence|]. split; [exact P|]. split; [exact G|]. split; [exact R|exact H].
Qed.
Lemma mask_answer_fun a b t ai ai2 : get_port a = get_port b -> get_protocol a = get_protocol b ->
  mask_answer g a t ai -> mask_answer g b t ai2 -> ai = ai2.
Proof.
  intros P R (S & st & pr & l & D & H & E) (S2 & st2 & pr2 & l2 & D2 & H2 & E2). rewrite P in D. rewrite R in H.
  rewrite (plain_unique _ _ _ D D2) in E. apply hints_are in H, H2. destruct H as [-> ->], H2 as [-> ->]. congruence.
Qed.
Lemma decimal_not m n : decimal m n -> m <> [] /\ hd 0 m <> 91.
Proof. intros (NE & F & _). split; [exact NE|]. destruct m as [|c m]; [congruence|]. cbn [forallb hd] in *. unfold is_digit in F. lia. Qed.
Definition kind (T : str) : Z :=
  match T with [] => 0 | c :: T' => if c =? 91 then (match T' with [93] => 1 | _ => 4 end) else if forallb is_digit T then 2 else 3 end.
Lemma gets_kind six T r r2 : gets_mask g p0 six T r r2 ->
  (kind T = 0 /\ r2 = r) \/ (kind T = 1 /\ r2 = r)
  \/ (kind T = 2 /\ exists n, decimal T n /\ masked_with (prefix_mask (128 - limit (negb six) r + n)) r r2)
  \/ (kind T = 3 /\ exists ai, mask_answer g (get_from r) T ai /\ masked_with (prefix_mask 96 + bswap32 (s_addr (ai_in ai))) r r2)
  \/ (kind T = 4 /\ exists t ai, T = [91] ++ t ++ [93] /\ mask_answer g (get_from r) t ai /\ masked_with (num (sin6_addr (ai_in6 ai))) r r2).
Proof.
  intros A. destruct A as [r|r L A|m n r r2 D L M|m ai r r2 L A NE NN H Q F S M|t ai r r2 L A NE Q F S M].
  - left. now split.
  - right. left. now split.
  - right. right. left. split; [|eauto]. destruct (decimal_not _ _ D) as [N1 N2]. destruct D as (_ & F & _). destruct m as [|c m]; [congruence|]. cbn [hd] in N2.
    unfold kind. replace (c =? 91) with false by lia. now rewrite F.
  - right. right. right. left. split; [|eauto]. destruct m as [|c m]; [congruence|]. cbn [hd] in H. unfold kind. replace (c =? 91) with false by lia.
    destruct (forallb is_digit (c :: m)) eqn:FD; [|reflexivity]. destruct NN as [NN _]. elim (NN (decimal_value (c :: m))). split; [discriminate|]. now split.
  - right. right. right. right. split; [|eauto]. destruct t as [|c [|d t]]; [congruence| |]; unfold kind; cbn; repeat (match goal with |- context [match ?x with _ => _ end] => destruct x end; try reflexivity).
Qed.
Lemma gets_mask_twin six T r r2 q q2 : twin r q -> gets_mask g p0 six T r r2 -> gets_mask g p0 six T q q2 -> twin r2 q2.
Proof.
  intros TW A B.
  assert (limit (negb six) r = limit (negb six) q) as EL by (unfold limit; destruct TW as (_ & _ & [_ ->] & _); reflexivity).
  assert (get_port (get_from r) = get_port (get_from q) /\ get_protocol (get_from r) = get_protocol (get_from q)) as [EP ER]
    by (destruct TW as (_ & _ & [(_ & _ & P & _ & R & _) _] & _); now split).
  apply gets_kind in A, B.
  destruct A as [[KA A]|[[KA A]|[[KA A]|[[KA A]|[KA A]]]]]; destruct B as [[KB B]|[[KB B]|[[KB B]|[[KB B]|[KB B]]]]]; rewrite KA in KB; try discriminate KB; clear KA KB.
  - now subst.
  - now subst.
  - destruct A as (n & (_ & _ & <-) & M), B as (n2 & (_ & _ & <-) & M2). rewrite EL in M. eapply masked_twin; eassumption.
  - destruct A as (ai & Q & M), B as (ai2 & Q2 & M2). pose proof (mask_answer_fun _ _ _ _ _ EP ER Q Q2). subst ai2. eapply masked_twin; eassumption.
  - destruct A as (t & ai & -> & Q & M), B as (t2 & ai2 & E & Q2 & M2). injection E as E. apply app_inj_tail in E as [<- _].
    pose proof (mask_answer_fun _ _ _ _ _ EP ER Q Q2). subst ai2. eapply masked_twin; eassumption.
Qed.
Lemma masks_twin six T l l2 m m2 : Forall2 twin l m -> Forall2 (gets_mask g p0 six T) l l2 -> Forall2 (gets_mask g p0 six T) m m2 -> Forall2 twin l2 m2.
Proof.
  intros F. revert l2 m2. induction F as [|r q l m TW F IH]; intros l2 m2 A B; inversion A; inversion B; subst; constructor; [eapply gets_mask_twin; eassumption|auto].
Qed.
Lemma twin_meaning s l l2 : accepted y g p0 s l -> accepted y g p0 s l2 -> Forall2 twin l l2.
Proof.
  intros A B. destruct A as [s b m six A D T l1 l C W L AD M]. destruct B as [s b2 m2 six2 A2 D2 T2 l3 l2 C2 W2 L2 AD2 M2].
    destruct (cut_fun p0 _ _ _ _ _ C C2) as [<- <-]. assert (six = six2) as <- by (eapply way_fun; eassumption).
    assert (A = A2 /\ D = D2) as [<- <-] by (eapply layout_fun; eassumption). pose proof (addresses_twin _ _ _ _ _ AD AD2) as F.
    destruct M as [[M1 ->]|(M1 & U & M)], M2 as [[M3 ->]|(M3 & U2 & M2)]; try congruence.
    apply used_effective in U, U2. rewrite U in U2. subst T2. eapply masks_twin; eassumption.
Qed.
Lemma one_meaning s l l2 : accepted y g p0 s l -> accepted y g p0 s l2 -> Forall2 same_range l l2.
Proof.
  intros A B. pose proof (twin_meaning s l l2 A B) as F. clear - F. induction F; constructor; auto using twin_same.
Qed.
End Meaning.
