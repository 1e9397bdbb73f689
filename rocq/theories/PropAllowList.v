(* C141: lists of numeric addresses match what they say. *)
From Coq Require Import ZifyBool ZifyNat Permutation.
From Verif Require Import Base Addr Spec Range SpecRange Inet SpecText SpecIpv6 Parser SpecParser SpecParser2 SpecParser4 SpecLanguage SpecAllowList.
From Verif Require PropText DottedProofs TextProofs AddrProofs AddrProofs2 AddrProofs3 AddrProofs4 RangeProofs RangeProofs2 ParserProofs ParserProofs2
  ParserProofs3 ParserProofs4 ParserProofs5 ParserProofs6 ParserProofs7 ParserProofs9 ParserProofs13 Ipv6Proofs
  PropRange PropParser PropParser2 PropParser3 PropParser9 PropParser10 PropParser13.
Import DottedProofs TextProofs ParserProofs13 AddrProofs AddrProofs2 AddrProofs3 AddrProofs4 RangeProofs RangeProofs2 ParserProofs ParserProofs2
  ParserProofs3 ParserProofs4 ParserProofs5 ParserProofs6 ParserProofs9 PropParser PropParser2 PropParser3.
Local Open Scope Z_scope.

(* ---------- the texts ---------- *)
Lemma end_groups_two s ws : end_groups s ws -> (4 <= length ws)%nat -> two_colons s.
Proof.
  intros E L. inversion E as [| |s1 w1 t1 ws1 G1 E1]; subst; cbn [length] in L; try lia.
  inversion E1 as [| |s2 w2 t2 ws2 G2 E2]; subst; cbn [length] in L; try lia.
  exists s1, s2, t2. reflexivity.
Qed.
Lemma six_two s ws : ipv6_text s ws -> two_colons s.
Proof.
  intros [t tw E L|l lw r rw n _ _ _ _]; [apply (end_groups_two t tw E); lia|]. exists l, [], r. reflexivity.
Qed.
Lemma six_denotes s ws : ipv6_text s ws -> denotes s (words_value ws).
Proof. intros H. right. eauto. Qed.
Lemma four_denotes s w : dotted s w -> denotes s (v4_base + w).
Proof. intros H. left. eauto. Qed.
Lemma dotted_no_colon s w : dotted s w -> ~ In 58 s.
Proof.
  intros D I. apply dotted_pton in D. destruct D as (q & Q & _). apply pton4_chars in Q.
  rewrite forallb_forall in Q. specialize (Q _ I). discriminate.
Qed.
Lemma denotes_not s v c : denotes s v -> ip_text_char c = false -> ~ In c s.
Proof. intros D. apply ip_char_not. now apply (denotes_chars s v). Qed.
Lemma denotes_head s v : denotes s v -> hd 0 s <> 91.
Proof.
  intros D E. destruct (denotes_chars _ _ D) as [NE _]. apply (denotes_not s v 91 D eq_refl).
  destruct s; [congruence|]. left. exact E.
Qed.
Lemma two_colons_l a b : two_colons a -> two_colons (a ++ b).
Proof. intros (x & y & z & ->). exists x, y, (z ++ b). now rewrite <- !app_assoc; cbn [app]; rewrite <- !app_assoc. Qed.
Lemma two_colons_r a b : two_colons b -> two_colons (a ++ b).
Proof. intros (x & y & z & ->). exists (a ++ x), y, z. now rewrite <- app_assoc. Qed.
Lemma no_two s : ~ In 58 s -> ~ two_colons s.
Proof. intros N (a & b & c & ->). apply N. apply in_app_iff. right. now left. Qed.

Lemma decimal_pos N n : decimal N n -> 0 <= n.
Proof. intros (_ & D & <-). apply (number_grows N 0 D). lia. Qed.
Lemma decimal_not N n c : decimal N n -> ip_text_char c = false -> ~ In c N.
Proof. intros (_ & D & _). apply ip_char_not. now apply digits_body. Qed.
Lemma decimal_no_colon N n : decimal N n -> ~ In 58 N.
Proof. intros (_ & D & _) I. rewrite forallb_forall in D. specialize (D _ I). discriminate. Qed.
Lemma denotes_colon A v : denotes A v -> (In 58 A -> two_colons A) /\ (~ In 58 A -> exists w, dotted A w /\ v = v4_base + w).
Proof.
  intros [(w & D & ->)|(ws & D & _)].
  - split; [intros I; elim (dotted_no_colon A w D I)|eauto].
  - pose proof (six_two A ws D) as T. split; [auto|]. intros N. elim (no_two A N T).
Qed.
Lemma dotted_four A w a : dotted A w -> addr_wf a -> value a = v4_base + w -> is_ipv4 a = true.
Proof.
  intros D W V. apply (is_ipv4_value a W). rewrite V.
  apply dotted_pton in D. destruct D as (q & _ & <- & LQ & BQ). pose proof (num_range q BQ) as NR. rewrite LQ in NR. red. lia.
Qed.

(* ---------- the text of an entry ---------- *)
Lemma what_text p A W : what p A W -> A <> [] /\ ~ In 47 A /\ ~ In 91 A /\ ~ In 93 A /\ (In 58 A -> two_colons A).
Proof.
  intros [A0 v D|A0 B a b AR DA DB].
  - split; [now apply (denotes_chars A0 v)|]. do 3 (split; [now apply (denotes_not A0 v)|]). now apply (denotes_colon A0 v).
  - assert (forall c, ip_text_char c = false -> c <> 45 -> ~ In c (A0 ++ [45] ++ B)) as NO.
    { intros c F N I. rewrite !in_app_iff in I. destruct I as [I|[[I|[]]|I]].
      - exact (denotes_not A0 a c DA F I). - congruence. - exact (denotes_not B b c DB F I). }
    split; [destruct A0; discriminate|]. do 3 (split; [now apply NO|]). rewrite !in_app_iff. intros [I|[[I|[]]|I]].
    + apply two_colons_l. now apply (denotes_colon A0 a). + discriminate.
    + apply two_colons_r, two_colons_r. now apply (denotes_colon B b).
Qed.
Lemma no_head c s : ~ In c s -> hd 0 s = c -> s = [].
Proof. intros N E. destruct s; [reflexivity|]. elim N. now left. Qed.

Section Entry.
Variables (y : sys) (g : resolver) (p : parser).
Hypothesis TL : takes_lists p.
Hypothesis HC : converts_decimals y.

Lemma no_port : exists n, 0 <= n <= 65535 /\ port_text y p [] n false.
Proof.
  pose proof (te_port p (tl_entries p TL)) as R. pose proof (tl_port p TL) as RP.
  destruct (Z.eq_dec (get_default_port p) (-1)) as [E|E]; [exists 0; split; [lia|now apply port_missing]|].
  destruct (tl_default p TL) as [X|X]; [contradiction|]. exists (get_default_port p). split; [lia|]. apply port_from_default; auto. lia.
Qed.
Lemma given_port D n : decimal D n -> n <= 65535 -> ports_allowed p -> port_text y p D n true.
Proof.
  intros DN L PA. pose proof (decimal_pos D n DN). apply port_written; [apply DN| |lia|exact PA].
  apply HC; [exact DN|]. change (2 ^ 63) with 9223372036854775808. lia.
Qed.
Lemma wrapped_text A W b six m : what p A W -> wrapped p A b six ->
  ~ In 47 b /\ SpecLanguage.way p m b six /\ exists D n given, layout p six b A D /\ 0 <= n <= 65535 /\ port_text y p D n given.
Proof.
  intros WH WR. destruct (what_text p A W WH) as (NE & N47 & N91 & N93 & TC).
  assert (hd 0 A <> 91) as H91 by (intros X; now apply (no_head 91) in X).
  destruct WR as [N58|I58|D n PA N58 DN LE| |D n PA DN LE].
  - split; [exact N47|]. split.
    + apply way_brackets; auto; [now apply no_two|intros X; now apply (no_head 58) in X|]. split; [discriminate|].
      intros [X|[X|[_ (a & c & -> & _)]]]; [contradiction|contradiction|]. exfalso. apply N58. apply in_app_iff. right. now left.
    + destruct no_port as (n & R & P). exists [], n, false. split; [now apply layout_plain|auto].
  - split; [exact N47|]. split; [apply way_colons; auto|].
    destruct no_port as (n & R & P). exists [], n, false. split; [now apply layout_bare; auto|auto].
  - pose proof (decimal_no_colon D n DN) as D58. pose proof (decimal_pos D n DN).
    assert (hd 0 (A ++ [58] ++ D) = hd 0 A) as HE by (destruct A; [congruence|reflexivity]). split; [|split].
    + rewrite !in_app_iff. intros [I|[[I|[]]|I]]; [contradiction|discriminate|]. now apply (decimal_not D n 47 DN).
    + apply way_brackets.
      * intros (a & b & c & E). assert (count_occ Z.eq_dec (A ++ [58] ++ D) 58 = 1%nat) as C1.
        { rewrite !count_occ_app. rewrite (proj1 (count_occ_not_In Z.eq_dec A 58) N58), (proj1 (count_occ_not_In Z.eq_dec D 58) D58). reflexivity. }
        rewrite E in C1. rewrite count_occ_app in C1. cbn [count_occ] in C1. destruct (Z.eq_dec 58 58); [|congruence].
        rewrite count_occ_app in C1. cbn [count_occ] in C1. destruct (Z.eq_dec 58 58); [lia|congruence].
      * destruct A; discriminate.
      * rewrite HE. intros X. now apply (no_head 58) in X.
      * rewrite HE. split; [discriminate|]. intros [X|[X|[X _]]]; [contradiction| |contradiction]. exfalso. rewrite !in_app_iff in X.
        destruct X as [X|[[X|[]]|X]]; [contradiction|discriminate|]. now apply (decimal_not D n 93 DN).
    + exists D, n, true. split; [apply layout_port; auto|]. split; [lia|now apply given_port].
  - split; [|split].
    + rewrite !in_app_iff. intros [[I|[]]|[I|[I|[]]]]; [discriminate|contradiction|discriminate].
    + destruct (in_dec Z.eq_dec 58 A) as [I|I].
      * apply way_colons. apply two_colons_r, two_colons_l. auto.
      * apply way_brackets; [|discriminate|discriminate|split; [intros _; now left|reflexivity]].
        apply no_two. rewrite !in_app_iff. intros [[X|[]]|[X|[X|[]]]]; [discriminate|contradiction|discriminate].
    + destruct no_port as (n & R & P). exists [], n, false. split; [now apply layout_brackets|auto].
  - pose proof (decimal_pos D n DN). split; [|split].
    + rewrite !in_app_iff. intros [[I|[]]|[I|[[I|[I|[]]]|I]]]; [discriminate|contradiction|discriminate|discriminate|]. now apply (decimal_not D n 47 DN).
    + destruct (in_dec Z.eq_dec 58 A) as [I|I].
      * apply way_colons. apply two_colons_r, two_colons_l. auto.
      * pose proof (decimal_no_colon D n DN) as D58. apply way_brackets; [|discriminate|discriminate|split; [intros _; now left|reflexivity]].
        intros (a & b & c & E). assert (count_occ Z.eq_dec ([91] ++ A ++ [93; 58] ++ D) 58 = 1%nat) as C1.
        { rewrite !count_occ_app. rewrite (proj1 (count_occ_not_In Z.eq_dec A 58) I), (proj1 (count_occ_not_In Z.eq_dec D 58) D58). reflexivity. }
        rewrite E in C1. rewrite count_occ_app in C1. cbn [count_occ] in C1. destruct (Z.eq_dec 58 58); [|congruence].
        rewrite count_occ_app in C1. cbn [count_occ] in C1. destruct (Z.eq_dec 58 58); [lia|congruence].
    + exists D, n, true. split; [now apply layout_brackets_port|]. split; [lia|now apply given_port].
Qed.

Lemma stands_exists A v n given : denotes A v -> 0 <= n <= 65535 -> exists a, stands_for p v n given A a.
Proof.
  intros D R. destruct (wp_run p _ _ p (numeric_value p (te_protocol p (tl_entries p TL) (tl_lookup p TL)) A v n given D R) (same_config_refl p))
    as (ms & r & _ & _ & a & _ & S). eauto.
Qed.
Lemma finds A v a six D n given : denotes A v -> port_text y p D n given -> stands_for p v n given A a ->
  found y g p six A D [mk_range true false a addr_new].
Proof.
  intros DA P S. eapply found_number; [apply TL|apply address_written; exact DA|exact P|exact S|].
  repeat split. discriminate.
Qed.
Lemma finds_one A v a six D n given : denotes A v -> port_text y p D n given -> stands_for p v n given A a -> found_one y g p six A D a.
Proof.
  intros DA P S. split; [now apply (denotes_chars A v)|]. exists (mk_range true false a addr_new), [].
  split; [now apply (finds A v a six D n given)|]. split; [reflexivity|constructor].
Qed.
Lemma prefix_bytes n : 0 <= n <= 128 -> exists b, num b = prefix_mask n /\ length b = 16%nat /\ Forall is_byte b.
Proof.
  intros H. assert (0 <= prefix_mask n < 2 ^ 128) as R.
  { unfold prefix_mask. assert (2 ^ (128 - n) <= 2 ^ 128) by (apply Z.pow_le_mono_r; lia).
    assert (0 < 2 ^ (128 - n)) by (apply Z.pow_pos_nonneg; lia). lia. }
  destruct (at_value _ R) as (x & W & V). exists (s6 x). split; [exact V|]. split; apply (wf_ip _ W).
Qed.
Lemma unmasked l six : Forall2 (gets_mask g p six []) l l.
Proof. induction l; constructor; auto. constructor. Qed.
End Entry.

(* ---------- what the ranges match ---------- *)
Definition hits (l : list addr_range) (x : addr) : Prop := exists r, In r l /\ range_match r x = Ok true.
Lemma block_same n v x : n <= 128 -> (block_first n v <= x <= block_last n v <-> same_bits n v x).
Proof.
  intros H. unfold same_bits, block_last, block_first. fold (block_size n). pose proof (block_pos n H) as P. set (s := block_size n) in *. clearbody s. clear H.
  pose proof (Z.div_mod v s ltac:(lia)). pose proof (Z.mod_pos_bound v s P).
  pose proof (Z.div_mod x s ltac:(lia)). pose proof (Z.mod_pos_bound x s P). split; intros E; [|rewrite <- E; nia].
  symmetry. apply Z.div_unique with (x - v / s * s); [left; lia|lia].
Qed.
Lemma one_hits v n r l2 x : n <= 128 -> 0 <= n -> has_from r = true -> has_to r = false -> value (get_from r) = v -> mask_value (get_from r) = prefix_mask n ->
  Forall2 same_range [r] l2 -> Forall ParserProofs6.good l2 -> addr_wf x -> (hits l2 x <-> same_bits n v (value x)).
Proof.
  intros N N0 HF HT V M F G Wx. inversion F as [|? r2 ? l3 (F1 & F2 & F3 & _) F4]; subst. inversion F4; subst. clear F F4.
  inversion G as [|? ? [_ [W _]] _]; subst. specialize (F3 HF). destruct F3 as (V2 & M2 & _).
  assert (range_match r2 x = Ok (match_ (f_from r2) x false)) as E.
  { rewrite range_match_single; [|intros [_ X]; unfold has_to in F2, HT; congruence].
    unfold has_from in F1, HF. now rewrite <- F1, HF. }
  rewrite <- block_same by exact N. rewrite V2. fold (get_from r2) in W. rewrite <- (match_block (get_from r2) x n W Wx) by (lia || congruence). unfold hits. split.
  - intros (r3 & [<-|[]] & H). rewrite E in H. now injection H.
  - intros H. exists r2. split; [now left|]. rewrite E. now f_equal.
Qed.
Lemma same_last v x : 0 <= v -> (same_bits 128 v x <-> x = v).
Proof. intros _. unfold same_bits. change (2 ^ (128 - 128)) with 1. rewrite !Z.div_1_r. tauto. Qed.
Lemma ends_hits a b r l2 x : has_from r = true -> has_to r = true -> value (get_from r) = a -> value (get_to r) = b ->
  Forall2 same_range [r] l2 -> Forall ParserProofs6.good l2 -> addr_wf x -> (hits l2 x <-> a <= value x <= b).
Proof.
  intros HF HT VA VB F G Wx. inversion F as [|? r2 ? l3 (F1 & F2 & F3 & F5) F4]; subst. inversion F4; subst. clear F F4.
  inversion G as [|? ? [D W] _]; subst. specialize (F3 HF). destruct F3 as (V2 & _). specialize (F5 HT). destruct F5 as (V3 & _).
  assert (full r2) as FU by (split; unfold has_from, has_to in *; congruence).
  destruct (PropRange.C24_match r2 x W Wx D) as (q & E & H & _). specialize (H FU). rewrite V2, V3. unfold get_from, get_to. rewrite <- H. unfold hits. split.
  - intros (r3 & [<-|[]] & K). rewrite E in K. now injection K.
  - intros ->. exists r2. split; [now left|exact E].
Qed.

(* One address or range with a mask of k ones. *)
Definition means (r : addr_range) (k : Z) (W : Z -> Z -> Prop) : Prop :=
  forall r2 l2 x, has_from r2 = has_from r -> has_to r2 = has_to r -> get_to r2 = get_to r -> value (get_from r2) = value (get_from r) ->
  mask_value (get_from r2) = prefix_mask k -> Forall2 same_range [r2] l2 -> Forall ParserProofs6.good l2 -> addr_wf x -> (hits l2 x <-> W k (value x)).
Lemma what_found y g p A W D n given six : takes_lists p -> what p A W -> port_text y p D n given -> 0 <= n <= 65535 ->
  exists l, addresses y g p six A D l
    /\ (l = [] /\ (forall k x, ~ W k x)
        \/ exists r, l = [r] /\ mask_value (get_from r) = prefix_mask 128 /\ (~ In 58 A -> is_ipv4 (get_from r) = true)
            /\ forall k, 0 <= k <= 128 -> means r k W).
Proof.
  intros TL WH P R. destruct WH as [A v DA|A B a b AR DA DB].
  - destruct (stands_exists p TL A v n given DA R) as (a & ST). exists [mk_range true false a addr_new]. split.
    + apply no_range; [left; now apply (denotes_not A v)|]. now apply (finds y g p TL A v a six D n given).
    + right. exists (mk_range true false a addr_new). split; [reflexivity|]. change (get_from (mk_range true false a addr_new)) with a.
      split; [apply ST|]. split.
      * intros N. destruct (proj2 (denotes_colon A v DA) N) as (w & DW & ->). apply (dotted_four A w); [exact DW|apply ST|apply ST].
      * intros k K r2 l2 x F1 F2 F3 F4 F5 F G Wx. change (get_from (mk_range true false a addr_new)) with a in F4. rewrite (st_value _ _ _ _ _ _ ST) in F4.
        now apply (one_hits v k r2 l2 x).
  - destruct (stands_exists p TL A a n given DA R) as (x & SX). destruct (stands_exists p TL B b n given DB R) as (z & SZ).
    pose proof (st_value _ _ _ _ _ _ SX) as VX. pose proof (st_value _ _ _ _ _ _ SZ) as VZ.
    destruct (Z_le_gt_dec a b) as [LE|GT]; [|destruct (Z.eq_dec (Z.land (get_sort_order p) SORT_NO_EMPTY) 0) as [NE|NE]].
    3: { exists []. split; [|left; split; [reflexivity|intros; lia]].
      apply inverted with x z; auto; [now apply (denotes_not A a)|now apply (finds_one y g p TL A a x six D n given)|now apply (finds_one y g p TL B b z six D n given)|lia]. }
    1,2: exists [mk_range true true x z]; (split; [apply both_ends with x z;
      [exact AR|now apply (denotes_not A a)|now apply (finds_one y g p TL A a x six D n given)|now apply (finds_one y g p TL B b z six D n given)| |
       repeat split; intros c EC; injection EC as <-; reflexivity]|right; exists (mk_range true true x z); split; [reflexivity|];
      change (get_from (mk_range true true x z)) with x; split; [apply SX|]; split;
      [intros N; destruct (proj2 (denotes_colon A a DA)) as (w & DW & EW); [intros I; apply N; apply in_app_iff; now left|];
       apply (dotted_four A w); [exact DW|apply SX|congruence]
      |intros k K r2 l2 u F1 F2 F3 F4 F5 F G Wx; change (get_from (mk_range true true x z)) with x in F4; change (get_to (mk_range true true x z)) with z in F3;
       apply (ends_hits a b r2 l2 u); auto; congruence]]).
    + left. lia.
    + now right.
Qed.

(* The mask of ones for what was found. *)
Lemma masks_found g p A D six l W N m k : takes_lists p -> wrapped p A D six ->
  (l = [] /\ (forall k x, ~ W k x)
    \/ exists r, l = [r] /\ mask_value (get_from r) = prefix_mask 128 /\ (~ In 58 A -> is_ipv4 (get_from r) = true)
      /\ forall k, 0 <= k <= 128 -> means r k W) ->
  decimal N m -> m <= (if six then 128 else 32) -> k = (if six then m else 96 + m) ->
  exists l2, Forall2 (gets_mask g p six N) l l2
    /\ forall l3 x, Forall2 same_range l2 l3 -> Forall ParserProofs6.good l3 -> addr_wf x -> (hits l3 x <-> W k (value x)).
Proof.
  intros TL WR K DN LE EK. pose proof (decimal_pos N m DN) as NN. assert (0 <= k <= 128) as RK by (subst k; destruct six; lia).
  destruct K as [[-> NW]|(r & -> & _ & I4 & K)].
  { exists []. split; [constructor|]. intros l3 x F G Wx. inversion F; subst. split; [intros (r & [] & _)|intros X; elim (NW _ _ X)]. }
  destruct (prefix_bytes k RK) as (c & E & LB & FB).
  exists [mk_range (has_from r) (has_to r) (set_mask (get_from r) c) (get_to r)].
  assert (limit (negb six) r = if six then 128 else 32) as LIM.
  { unfold limit. destruct six; [reflexivity|]. rewrite I4; [reflexivity|]. inversion WR; subst; assumption. }
  split.
  - constructor; [|constructor]. apply gets_number with m; [exact DN|rewrite LIM; exact LE|].
    repeat split. exists c. split; [reflexivity|]. split; [|auto]. rewrite E, LIM. subst k. f_equal. destruct six; lia.
  - intros l3 x F G Wx. apply (K k RK (mk_range (has_from r) (has_to r) (set_mask (get_from r) c) (get_to r)) l3 x); auto.
Qed.

Lemma entry_means y g p t S : takes_lists p -> converts_decimals y -> listed p t S -> exists l, accepted y g p t l
  /\ forall l2 x, Forall2 same_range l l2 -> Forall ParserProofs6.good l2 -> addr_wf x -> (hits l2 x <-> S (value x)).
Proof.
  intros TL HC L. destruct L as [A W b six k WH WR UN|A W b six N m M WH WR DN LE].
  - destruct (wrapped_text y p TL HC A W b six [] WH WR) as (N47 & WY & D & n & given & LA & R & P).
    destruct (what_found y g p A W D n given six TL WH P R) as (l & AD & K).
    assert (get_allow p ALLOW_MASK = Ok true \/ get_allow p ALLOW_MASK = Ok false) as M.
    { destruct (allow p ALLOW_MASK) eqn:E; [left|right]; apply allowed_is; auto; unfold ALLOW_MASK; lia. }
    assert (accepted y g p b l -> k = 128 -> exists l, accepted y g p b l
      /\ forall l2 x, Forall2 same_range l l2 -> Forall ParserProofs6.good l2 -> addr_wf x -> (hits l2 x <-> W k (value x))) as DONE.
    { intros AC ->. exists l. split; [exact AC|]. intros l2 x F G Wx. destruct K as [[-> NW]|(r & -> & MR & _ & K)].
      - inversion F; subst. split; [intros (r & [] & _)|intros X; elim (NW _ _ X)].
      - now apply (K 128 ltac:(lia) r). }
    assert (get_allow p ALLOW_MASK = Ok false -> accepted y g p b l) as OFF.
    { intros M0. apply (accepted_entry y g p b b [] six A D [] l l); auto. now constructor. }
    assert (get_allow p ALLOW_MASK = Ok true -> mask_used p six [] [] -> accepted y g p b l) as NONE.
    { intros M1 MU. apply (accepted_entry y g p b b [] six A D [] l l); auto; [now constructor|]. right. split; [exact M1|]. split; [exact MU|apply unmasked]. }
    pose proof (tl_mask p TL) as M6.
    destruct UN as [six M0|six M4| |n4 M1 D4 LE4].
    + auto.
    + apply DONE; [|reflexivity]. destruct M as [M|M]; [apply NONE; [exact M|]|auto].
      destruct six; [now apply used_none|]. rewrite <- M4 at 2. now constructor.
    + apply DONE; [|reflexivity]. destruct M as [M|M]; [apply NONE; [exact M|now apply used_none]|auto].
    + destruct (masks_found g p A b false l W (get_default_mask4 p) n4 (96 + n4) TL WR K D4 LE4 eq_refl) as (l2 & GM & ME).
      exists l2. split; [|exact ME].
      apply (accepted_entry y g p b b [] false A D (get_default_mask4 p) l l2); auto; [now constructor|]. right. split; [exact M1|]. split; [now constructor|exact GM].
  - destruct (wrapped_text y p TL HC A W b six N WH WR) as (N47 & WY & D & n & given & LA & R & P).
    destruct (what_found y g p A W D n given six TL WH P R) as (l & AD & K).
    destruct (masks_found g p A b six l W N m _ TL WR K DN LE eq_refl) as (l2 & GM & ME).
    exists l2. split; [|exact ME].
    apply (accepted_entry y g p _ b N six A D N l l2); auto; [now constructor|]. right. split; [exact M|]. split; [constructor; apply DN|exact GM].
Qed.

(* ---------- the list ---------- *)
Lemma lists_unsorted p : takes_lists p -> takes_lists (without_sort p).
Proof. rewrite without_sort_eq. intros [T1 T2 T3 T4 T5]. constructor; [|assumption..]. destruct T1. now constructor. Qed.
Lemma listed_unsorted p e S : listed_entry p e S -> listed_entry (without_sort p) e S.
Proof.
  rewrite without_sort_eq. intros (b1 & t & b2 & -> & F1 & F2 & L). exists b1, t, b2. split; [reflexivity|]. do 2 (split; [assumption|]).
  assert (forall A W, what p A W -> what (with_sort p (Z.land (f_sort p) SORT_NO_EMPTY)) A W) as WH by (intros A W [A0 v D|A0 B a b AR DA DB]; now constructor).
  assert (forall A b six, wrapped p A b six -> wrapped (with_sort p (Z.land (f_sort p) SORT_NO_EMPTY)) A b six) as WR
    by (intros A b six [H1|H1|D n H1 H2 H3 H4| |D n H1 H2 H3]; econstructor; eassumption).
  destruct L as [A W b six k H1 H2 H3|A W b six N n H1 H2 H3 H4 H5]; [|apply (listed_masked _ A W b six N n); auto].
  apply (listed_bare _ A W b six k); auto. destruct H3; [now apply no_masks|now apply no_default_mask|now apply default_mask_six|now apply default_mask_four].
Qed.
Lemma entries_unsorted p s ts : entries_of p s ts -> entries_of (without_sort p) s ts.
Proof.
  rewrite without_sort_eq. set (q := with_sort p _).
  assert (separator q = separator p) as ES by reflexivity. assert (starts_comment q = starts_comment p) as EC by reflexivity. clearbody q.
  intros [s0 t0 H1 H2 H3|b c r H1 H2 H3 H4|s0 ps t0 H1 H2 H3 H4|s0 ls t0 H1 H2 H3 H4]; rewrite <- ES, <- EC in *.
  - now apply one_entry.
  - now apply comment_kept.
  - now apply each_piece with ps.
  - now apply first_of_lines with ls.
Qed.
Lemma no_blank_plain t : Forall (fun c => ~ blank c) t -> plain_text t.
Proof.
  intros F. destruct t as [|c t]; [now left|right]. split; [discriminate|]. rewrite Forall_forall in F. split; intros d r E; apply F; rewrite E; [now left|].
  apply in_app_iff. right. now left.
Qed.
Lemma ip_no_blank s : forallb ip_text_char s = true -> Forall (fun c => ~ blank c) s.
Proof.
  intros F. apply Forall_forall. intros c I B. rewrite forallb_forall in F. specialize (F c I). apply PropText.ip_text_char_spec in F. unfold ip_text in F. unfold blank in B. lia.
Qed.
Lemma denotes_no_blank A v : denotes A v -> Forall (fun c => ~ blank c) A.
Proof. intros D. apply ip_no_blank. now apply (denotes_chars A v). Qed.
Lemma decimal_no_blank N n : decimal N n -> Forall (fun c => ~ blank c) N.
Proof. intros (_ & D & _). now apply ip_no_blank, digits_body. Qed.
Lemma what_no_blank p A W : what p A W -> Forall (fun c => ~ blank c) A.
Proof.
  intros [A0 v D|A0 B a b AR DA DB]; [now apply (denotes_no_blank A0 v)|].
  apply Forall_app. split; [now apply (denotes_no_blank A0 a)|]. constructor; [unfold blank; lia|now apply (denotes_no_blank B b)].
Qed.
Lemma wrapped_no_blank p A W b six : what p A W -> wrapped p A b six -> Forall (fun c => ~ blank c) b.
Proof.
  intros WH WR. pose proof (what_no_blank p A W WH) as NB.
  destruct WR as [N58|I58|D n PA N58 DN LE| |D n PA DN LE]; auto.
  - apply Forall_app. split; [exact NB|]. constructor; [unfold blank; lia|now apply (decimal_no_blank D n)].
  - constructor; [unfold blank; lia|]. apply Forall_app. split; [exact NB|]. constructor; [unfold blank; lia|constructor].
  - constructor; [unfold blank; lia|]. apply Forall_app. split; [exact NB|]. constructor; [unfold blank; lia|]. constructor; [unfold blank; lia|now apply (decimal_no_blank D n)].
Qed.
Lemma listed_plain p t S : listed p t S -> plain_text t.
Proof.
  intros L. apply no_blank_plain. destruct L as [A W b six k WH WR UN|A W b six N n M WH WR DN R]; [now apply (wrapped_no_blank p A W b six)|].
  apply Forall_app. split; [now apply (wrapped_no_blank p A W b six)|]. constructor; [unfold blank; lia|now apply (decimal_no_blank N n)].
Qed.

Lemma hits_app l1 l2 x : hits (l1 ++ l2) x <-> hits l1 x \/ hits l2 x.
Proof.
  unfold hits. split.
  - intros (r & I & H). apply in_app_iff in I as [I|I]; [left|right]; eauto.
  - intros [(r & I & H)|(r & I & H)]; exists r; (split; [apply in_app_iff; tauto|exact H]).
Qed.
Lemma answers l x : address_match_ranges l x = Ok true <-> hits l x.
Proof. destruct (PropRange.C34_address_match_ranges l x) as (b & E & H). rewrite E. unfold hits. rewrite <- H. split; [intros X; now injection X|now intros ->]. Qed.

(* in the order of the text *)
Lemma unsorted_list y g p s ts Ss : takes_lists p -> converts_decimals y -> resolver_ok g -> ~ In 0 s -> entries_of p s ts ->
  Forall2 (listed_entry p) ts Ss ->
  exists l, parse y g s (without_sort p) = (without_sort p, Ok l)
    /\ forall x, addr_wf x -> (hits l x <-> Exists (fun S => S (value x)) Ss).
Proof.
  intros TL HC HG N0 E L. apply lists_unsorted in TL. apply entries_unsorted in E.
  assert (unsorted (without_sort p)) as U.
  { rewrite without_sort_eq. unfold unsorted. cbn [f_sort with_sort]. rewrite <- Z.land_assoc. apply Z.land_0_r. }
  assert (Forall2 (listed_entry (without_sort p)) ts Ss) as L2. { clear - L. induction L; constructor; auto. now apply listed_unsorted. }
  destruct (two_parses y g s p HG) as (ms & re & _ & E2 & G). set (q := without_sort p) in *. clearbody q.
  destruct (PropParser10.C123_lists y g q s ts U (tl_entries q TL) HC HG) as (q2 & vs & EP & V & _ & Z); [|exact N0|exact E|].
  { intros X. rewrite (tl_lookup q TL) in X. discriminate. }
  rewrite E2 in EP. assert (re = Ok (concat (map fst vs))) as -> by congruence. specialize (G _ eq_refl).
  assert (forall v, In v vs -> snd v = true) as T.
  { clear - V L2 TL HC. revert Ss L2. induction V as [|t v ts vs VT V IH]; intros Ss L2 x I; [destruct I|].
    inversion L2 as [|? S1 ? S2 (c1 & u & c2 & E & B1 & B2 & LI) L3]; subst. destruct I as [<-|I]; [|now apply (IH S2 L3)].
    destruct (entry_means y g q u S1 TL HC LI) as (l & AC & _). pose proof (listed_plain q u S1 LI) as PU. remember (c1 ++ u ++ c2) as w eqn:EW.
    destruct VT as [b1 t b2 l2 F1 PT F2 A|b1 t b2 l2 F1 PT F2 N1 N2]; [reflexivity|].
    assert (t = u) as -> by now apply (PropParser10.plain_unique_text b1 t b2 c1 u c2). elim (N1 l AC). }
  exists (concat (map fst vs)). split.
  { rewrite E2. specialize (Z T). congruence. }
  intros x Wx. clear E2 EP Z E L. revert Ss L2. induction V as [|t v ts vs VT V IH]; intros Ss L2; inversion L2 as [|? S1 ? S2 LE L3]; subst.
  { cbn. split; [intros (r & [] & _)|intros X; inversion X]. }
  cbn [map concat] in G |- *. apply Forall_app in G as [G1 G2]. rewrite hits_app, Exists_cons, (IH G2 (fun v I => T v (or_intror I)) S2 L3).
  apply or_iff_compat_r. destruct LE as (c1 & u & c2 & E & B1 & B2 & LI). destruct (entry_means y g q u S1 TL HC LI) as (l & AC & K).
  pose proof (listed_plain q u S1 LI) as PU. destruct VT as [b1 t b2 l2 F1 PT F2 A|b1 t b2 l2 F1 PT F2 N1 N2]; [|specialize (T _ (or_introl eq_refl)); discriminate].
  assert (t = u) as -> by now apply (PropParser10.plain_unique_text b1 t b2 c1 u c2). cbn [fst] in G1 |- *.
  apply K; [|exact G1|exact Wx]. now apply (PropParser9.C122_one_meaning y g q u l l2 (tl_entries q TL)).
Qed.

(* ---------- theorems ---------- *)
(* Whatever the sort order, merging aside: the list is parsed without an error
   and matches exactly the addresses which one of its entries names. *)
Theorem C141_list : forall y g p s ts Ss, takes_lists p -> Z.land (get_sort_order p) SORT_MERGE = 0 ->
  converts_decimals y -> resolver_ok g -> ~ In 0 s -> entries_of p s ts -> Forall2 (listed_entry p) ts Ss ->
  exists l, parse y g s p = (p, Ok l)
    /\ forall x, addr_wf x -> (address_match_ranges l x = Ok true <-> Exists (fun S => S (value x)) Ss).
Proof.
  intros y g p s ts Ss TL NM HC HG N0 E L. destruct (unsorted_list y g p s ts Ss TL HC HG N0 E L) as (l0 & E0 & K).
  destruct (two_parses y g s p HG) as (ms & re & E1 & E2 & G). assert (re = Ok l0) as -> by congruence. cbn [rbind] in E1.
  rewrite (arrange_sorted (f_sort p) l0 (G l0 eq_refl) NM) in E1.
  assert (ms = []) as ->.
  { rewrite E0 in E2. apply (f_equal fst) in E2. cbn [fst] in E2. apply (f_equal f_error_count) in E2. rewrite without_sort_eq in E2. cbn in E2.
    destruct ms; [reflexivity|]. cbn [length] in E2. lia. }
  cbn [length Z.of_nat flat flat_map app] in E1. rewrite Z.add_0_r, app_nil_r, with_errors_id in E1.
  eexists. split; [exact E1|]. intros x Wx. rewrite (PropParser13.C140_sorted y g s p _ _ _ l0 HG NM E1 E0 x), answers. now apply K.
Qed.
Print Assumptions C141_list.

(* Without masks, merged or not. *)
Theorem C141_merged : forall y g p s ts Ss, takes_lists p -> get_allow p ALLOW_MASK = Ok false ->
  converts_decimals y -> resolver_ok g -> ~ In 0 s -> entries_of p s ts -> Forall2 (listed_entry p) ts Ss ->
  exists l, parse y g s p = (p, Ok l)
    /\ forall x, addr_wf x -> (address_match_ranges l x = Ok true <-> Exists (fun S => S (value x)) Ss).
Proof.
  intros y g p s ts Ss TL NM HC HG N0 E L. destruct (unsorted_list y g p s ts Ss TL HC HG N0 E L) as (l0 & E0 & K).
  destruct (two_parses y g s p HG) as (ms & re & E1 & E2 & G). assert (re = Ok l0) as -> by congruence. cbn [rbind] in E1.
  assert (ms = []) as ->.
  { rewrite E0 in E2. apply (f_equal fst) in E2. cbn [fst] in E2. apply (f_equal f_error_count) in E2. rewrite without_sort_eq in E2. cbn in E2.
    destruct ms; [reflexivity|]. cbn [length] in E2. lia. }
  cbn [length Z.of_nat flat flat_map app] in E1. rewrite Z.add_0_r, app_nil_r, with_errors_id in E1.
  assert (exists l, arrange (f_sort p) l0 = Ok l) as (l & EA).
  { apply arrange_ones. now apply (PropParser13.unmasked_ones y g s p _ l0 NM E0). }
  rewrite EA in E1. exists l. split; [exact E1|]. intros x Wx.
  rewrite (PropParser13.C140_no_masks_partial y g s p _ _ _ l0 HG NM E1 E0 x Wx), answers. now apply K.
Qed.
Print Assumptions C141_merged.

(* A list of a range with a mask, a network with a port and an address in
   brackets, with a default mask of 24 which is for the last entry; 10.1.2.3
   and 172.16.5.9 are in it,
   192.168.1.10 is not. *)
Definition lister : parser :=
  parser_run ref_sys no_answer [P_set_sort_order SORT_FULL; P_set_allow ALLOW_ADDRESS_LOOKUP false; P_set_allow ALLOW_MASK true; P_set_allow ALLOW_PORT true; P_set_default_mask (lit "24");
    P_set_allow ALLOW_ADDRESS_RANGE true; P_set_allow ALLOW_MULTI_ADDRESSES_COMMAS true].
Example C141_witness : parser_reachable ref_sys no_answer lister /\ takes_lists lister /\ Z.land (get_sort_order lister) SORT_MERGE = 0
  /\ exists ts Ss, entries_of lister (lit "192.168.1.3-192.168.1.9/24,10.0.0.0:80/8, [2001:db8::1],172.16.5.1") ts /\ Forall2 (listed_entry lister) ts Ss
  /\ length Ss = 4%nat
  /\ Exists (fun S => S (value (PropRange.net4 10 1 2 3 32))) Ss /\ Exists (fun S => S (value (PropRange.net4 172 16 5 9 32))) Ss
  /\ ~ Exists (fun S => S (value (PropRange.net4 192 168 1 10 32))) Ss.
Proof.
  split; [apply run_reachable|]. split.
  { constructor; [constructor|..]; try (vm_compute; reflexivity).
    - intros _. left. vm_compute. reflexivity.
    - vm_compute. split; discriminate.
    - repeat split; now apply not_in.
    - left. reflexivity.
    - now apply not_in. }
  split; [vm_compute; reflexivity|].
  exists [lit "192.168.1.3-192.168.1.9/24"; lit "10.0.0.0:80/8"; lit " [2001:db8::1]"; lit "172.16.5.1"]. eexists. split; [|split; [|split; [|split; [|split]]]].
  - assert (forall c, separator lister c <-> c = 44) as SE.
    { intros c. split.
      - intros [[_ ->]|[[X _]|[X _]]]; [reflexivity|vm_compute in X; discriminate..].
      - intros ->. left. split; reflexivity. }
    assert (nobody (starts_comment lister)) as NC. { intros c [[X _]|[X _]]; vm_compute in X; discriminate. }
    apply (each_piece lister _ [lit "192.168.1.3-192.168.1.9/24"; lit "10.0.0.0:80/8"; lit " [2001:db8::1]"; lit "172.16.5.1"] [lit "192.168.1.3-192.168.1.9/24"; lit "10.0.0.0:80/8"; lit " [2001:db8::1]"; lit "172.16.5.1"]).
    + exists 44. now apply SE.
    + now left.
    + assert (forall s, forallb (fun c => negb (c =? 44)) s = true -> Forall (fun c => ~ separator lister c) s) as NS.
      { intros s F. apply Forall_forall. intros c I X. apply SE in X. rewrite forallb_forall in F. specialize (F c I). lia. }
      apply (pieces_one _ [] (lit "192.168.1.3-192.168.1.9/24") (lit ",10.0.0.0:80/8, [2001:db8::1],172.16.5.1")); [constructor|discriminate|now apply NS| |].
      { right. eexists _, _. split; [reflexivity|now apply SE]. }
      apply (pieces_one _ [44] (lit "10.0.0.0:80/8") (lit ", [2001:db8::1],172.16.5.1")); [constructor; [now apply SE|constructor]|discriminate|now apply NS| |].
      { right. eexists _, _. split; [reflexivity|now apply SE]. }
      apply (pieces_one _ [44] (lit " [2001:db8::1]") (lit ",172.16.5.1")); [constructor; [now apply SE|constructor]|discriminate|now apply NS| |].
      { right. eexists _, _. split; [reflexivity|now apply SE]. }
      apply (pieces_one _ [44] (lit "172.16.5.1") []); [constructor; [now apply SE|constructor]|discriminate|now apply NS|now left|].
      constructor. constructor.
    + assert (forall s, up_to (starts_comment lister) s s) as UP. { intros s. split; [apply Forall_forall; intros c _; apply NC|now left]. }
      repeat (constructor; [apply UP|]). constructor.
  - constructor; [|constructor; [|constructor; [|constructor; [|constructor]]]].
    + exists [], ((lit "192.168.1.3" ++ [45] ++ lit "192.168.1.9") ++ [47] ++ lit "24"), []. split; [reflexivity|]. split; [constructor|]. split; [constructor|].
      eapply (listed_masked _ _ _ _ _ (lit "24") 24); [reflexivity| |apply bare_four; now apply not_in|split; [discriminate|split; reflexivity]|lia].
      apply one_range; [reflexivity|apply PropParser5.denotes_dotted with (q := [192;168;1;3]); reflexivity|apply PropParser5.denotes_dotted with (q := [192;168;1;9]); reflexivity].
    + exists [], ((lit "10.0.0.0" ++ [58] ++ lit "80") ++ [47] ++ lit "8"), []. split; [reflexivity|]. split; [constructor|]. split; [constructor|].
      eapply (listed_masked _ _ _ _ _ (lit "8") 8); [reflexivity| |apply (port_four _ _ (lit "80") 80); [left; reflexivity|now apply not_in|split; [discriminate|split; reflexivity]|lia]|split; [discriminate|split; reflexivity]|lia].
      apply one_address. apply PropParser5.denotes_dotted with (q := [10;0;0;0]); reflexivity.
    + exists [32], ([91] ++ lit "2001:db8::1" ++ [93]), []. split; [reflexivity|]. split; [constructor; [now left|constructor]|]. split; [constructor|].
      eapply listed_bare; [|apply SpecAllowList.in_brackets|apply default_mask_six]. apply one_address. apply denotes_iff. right. eexists. split; [vm_compute; reflexivity|reflexivity].
    + exists [], (lit "172.16.5.1"), []. split; [reflexivity|]. split; [constructor|]. split; [constructor|].
      eapply listed_bare; [|apply bare_four; now apply not_in|apply (default_mask_four _ 24); [reflexivity|split; [discriminate|split; vm_compute; reflexivity]|lia]].
      apply one_address. apply PropParser5.denotes_dotted with (q := [172;16;5;1]); reflexivity.
  - reflexivity.
  - right. left. vm_compute. reflexivity.
  - right. right. right. left. vm_compute. reflexivity.
  - intros X. inversion X as [? ? Y|? ? Y]; subst; [vm_compute in Y; destruct Y as [_ Y]; apply Y; reflexivity|].
    inversion Y as [? ? Z|? ? Z]; subst; [vm_compute in Z; discriminate|].
    inversion Z as [? ? U|? ? U]; subst; [vm_compute in U; discriminate|].
    inversion U as [? ? V|? ? V]; subst; [vm_compute in V; discriminate|inversion V].
Qed.
