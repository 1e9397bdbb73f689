(* Proofs about the lines of validate-ip --canonicalize which are given back to
   it. *)
From Coq Require Import Lia ZifyBool ZifyNat.
From Verif Require Import Base Addr Spec SpecText SpecRange Inet AddrText Range Parser SpecParser SpecParser2 SpecParser4 SpecLanguage SpecNumeric
  TableTools ValidateTool SpecTools SpecValidate SpecLists.
From Verif Require AddrProofs AddrProofs2 AddrProofs3 DottedProofs TextProofs ParserProofs ParserProofs2 ParserProofs3 ParserProofs6 ParserProofs8
  ParserProofs9 ParserProofs10 ParserProofs12 ParserProofs13 NumericProofs ValidateProofs PropParser5 PropParser10 PropLists PropAllowList PropGrammar PropValidate.
Import AddrProofs2 ParserProofs2 ParserProofs3 ParserProofs6 ParserProofs9 ParserProofs10 PropLists.
Local Open Scope Z_scope.

(* ---------- the masks which are numbers ---------- *)
Definition prefixed (r : addr_range) : Prop := contiguous (get_from r).
Lemma ones_prefixed r : ones r -> prefixed r.
Proof. intros [H _]. exists 128. split; [lia|]. unfold mask_value, get_from. rewrite H. vm_compute. reflexivity. Qed.
Lemma mask_number_pos : forall s n m, 0 <= n -> mask_number s n = Some m -> m <> -1 -> 0 <= m.
Proof.
  induction s as [|c s IH]; intros n m N E NE; cbn [mask_number] in E; [injection E as <-; exact N|].
  destruct ((48 <=? c) && (c <=? 57)) eqn:D; [|injection E as <-; congruence]. cbv zeta in E.
  destruct (_ >? _); [discriminate|]. eapply IH; [|exact E|exact NE]. lia.
Qed.
Lemma mask_prefixed g m a v4 p p' b : allow p ALLOW_ADDRESS_MASK = false -> contiguous a ->
  parse_mask g m a v4 p = (p', Ok b) -> contiguous b.
Proof.
  intros AA C E. unfold parse_mask in E. destruct m as [|c0 m]; [unfold ret in E; congruence|].
  destruct (mask_number (c_str (c0 :: m)) 0) as [n|] eqn:MN; [|unfold bind, emit, ret in E; congruence].
  destruct (negb (n =? -1)) eqn:NN.
  - apply mask_number_pos in MN; [|lia|lia].
    destruct (v4 && (n >? 32)) eqn:X1; [unfold bind, emit, ret in E; congruence|].
    destruct (negb v4 && (n >? 128)) eqn:X2; [unfold bind, emit, ret in E; congruence|].
    set (k := (if v4 then 32 else 128) - n) in *.
    assert (0 <= k <= 128) as K by (unfold k; destruct v4; cbn [andb negb] in X1, X2; lia).
    destruct (ParserProofs8.mask_bits k K) as (bits & EB & NB). rewrite EB in E. unfold ret in E. injection E as _ <-.
    exists (128 - k). split; [lia|exact NB].
  - unfold bind at 1, allowed, ask in E. rewrite AA in E. cbn [negb] in E. unfold bind, emit, ret in E. congruence.
Qed.
Lemma masks_prefixed g m v4 : forall l p p' l2, allow p ALLOW_ADDRESS_MASK = false -> Forall prefixed l ->
  apply_masks g m v4 l p = (p', Ok l2) -> Forall prefixed l2.
Proof.
  induction l as [|r l IH]; intros p p' l2 AA F E; cbn [apply_masks] in E.
  - unfold ret in E. assert (l2 = []) as -> by congruence. constructor.
  - inversion F as [|? ? F1 F2]; subst. unfold bind at 1, ask in E. unfold bind at 1 in E.
    destruct (parse_mask g (effective_mask p m v4) (get_from r) (v4 && is_ipv4 (get_from r)) p) as [p1 [a|x| |]] eqn:E1; try discriminate.
    unfold bind at 1 in E. destruct (apply_masks g m v4 l p1) as [p2 [l3|x| |]] eqn:E2; try discriminate.
    unfold ret in E. assert (l2 = mk_range (f_has_from r) (f_has_to r) a (f_to r) :: l3) as -> by congruence.
    constructor.
    + exact (mask_prefixed _ _ _ _ _ _ _ AA F1 E1).
    + eapply IH; [|exact F2|exact E2].
      destruct (NumericProofs.grows_mask g (effective_mask p m v4) (get_from r) (v4 && is_ipv4 (get_from r)) p) as (ms & EM).
      rewrite E1 in EM. cbn [fst] in EM. rewrite EM. exact AA.
Qed.
Lemma cidr_prefixed y g s p p' l : allow p ALLOW_ADDRESS_MASK = false -> parse_cidr y g s p = (p', Ok l) -> Forall prefixed l.
Proof.
  intros AA E. unfold parse_cidr, bind at 1, allowed, ask in E. destruct (allow p ALLOW_MASK) eqn:AM.
  - destruct (match find_char 47 (trim_string s) with Some n => _ | None => _ end) as [ad m].
    unfold bind at 1 in E. unfold bind at 1 in E.
    destruct (parse_address y g ad m p) as [p1 [[l1 v4]|x| |]] eqn:E1; try discriminate.
    pose proof (address_ones y g ad m p p1 _ E1) as O. cbn [fst] in O.
    unfold bind at 1 in E. destruct (apply_masks g m v4 l1 p1) as [p2 [l2|x| |]] eqn:E2; try discriminate.
    unfold bind in E. destruct (f_error_count p =? f_error_count p2); unfold ret in E; [|assert (l = []) as -> by congruence; constructor].
    assert (l = l2) as -> by congruence. eapply masks_prefixed; [| |exact E2].
    + destruct (NumericProofs.grows_address y g ad m p) as (ms & EM). rewrite E1 in EM. cbn [fst] in EM. rewrite EM. exact AA.
    + unfold onesl in O. eapply Forall_impl; [exact ones_prefixed|exact O].
  - eapply Forall_impl; [exact ones_prefixed|]. eapply cidr_ones; [exact AM|].
    unfold parse_cidr, bind at 1, allowed, ask. rewrite AM. exact E.
Qed.
Lemma parse_prefixed y g s p p' l : allow p ALLOW_ADDRESS_MASK = false -> Z.land (f_sort p) SORT_MERGE = 0 ->
  parse y g s p = (p', Ok l) -> Forall prefixed l.
Proof.
  intros A M. apply ValidateProofs.parse_each; [|now left]. intros s2 q q' l2 S E. eapply cidr_prefixed; [|exact E].
  rewrite <- A. now apply allow_config.
Qed.

(* ---------- a text and what the resolver says about it ---------- *)
Lemma dec_clean n : 0 <= n -> clean (dec_string n).
Proof.
  intros N. destruct (decimal_dec n N) as (_ & D & _). rewrite forallb_forall in D.
  repeat split; intros I; apply D in I; discriminate.
Qed.
Lemma one_answer host ai : addrinfo_ok ai -> protocol_ok (ai_protocol ai) -> usable ai = true -> exists r, answer host true ai r.
Proof.
  intros OK PR U. destruct (ParserProofs12.usable_cases ai U) as [[F L]|[F L]].
  - destruct (proj1 OK F) as [S1 S2].
    destruct (range4_spec (ai_in ai) host (ai_protocol ai) true S1 S2) as [(x & _ & X)|(_ & a & E & B)]; [tauto|].
    exists (set_from range_new a). apply ParserProofs12.built_answer; [exact OK|exact PR|]. left. now split.
  - destruct (proj2 OK F) as [S1 S2].
    destruct (range6_spec (ai_in6 ai) host (ai_protocol ai) true S1 S2) as [(x & _ & X)|(_ & a & E & B)]; [tauto|].
    exists (set_from range_new a). apply ParserProofs12.built_answer; [exact OK|exact PR|]. right. split; [exact F|].
    split; [exact B|]. now apply ParserProofs12.range6_address in E.
Qed.
Lemma all_same {A B} (R : A -> B -> Prop) (P : B -> Prop) l l2 : Forall2 R l l2 -> (forall a b, R a b -> P b) ->
  length l2 = length l /\ Forall P l2.
Proof.
  intros F H. induction F as [|a b l l2 E F [IH1 IH2]]; [split; [reflexivity|constructor]|].
  split; [cbn [length]; now rewrite IH1|]. constructor; [now apply (H a)|exact IH2].
Qed.
Definition as_asked (A : str) (v n : Z) (ai : addrinfo) : Prop :=
  usable ai = true /\ forall r, answer A true ai r -> value (get_from r) = v /\ get_port (get_from r) = n.
Lemma numeric_answers y g A v n st pr ks : posix y g -> converts_decimals y -> denotes A v -> 0 <= n <= 65535 -> kinds st pr ks ->
  exists l, g A (dec_string n) false st pr = GAI_list l /\ length l = length ks /\ Forall (as_asked A v n) l.
Proof.
  intros PX HC D N K.
  assert (reads_port y (dec_string n) n) as RP.
  { right. split; [apply HC; [apply decimal_dec; lia|lia]|]. split; [lia|]. apply dec_clean. lia. }
  apply denotes_iff in D. destruct D as [(w & D & ->)|(q & Q & ->)].
  - destruct (DottedProofs.dotted_pton _ _ D) as (q & Q & <- & L & F).
    destruct (posix_four _ _ PX A _ n st pr ks q RP K Q) as (l & E & F2). exists l. split; [exact E|].
    apply (all_same _ _ _ _ F2). intros k ai (E1 & E2 & E3 & E4).
    split; [unfold usable; rewrite E1, E2; reflexivity|]. intros r AN. destruct (an_four _ _ _ _ AN E1) as [V P]. rewrite E4 in V, P.
    cbn [s_addr sin_port] in V, P. destruct (load32_num q L F) as [LN _]. rewrite V, P, LN. split; [reflexivity|]. apply bswap16_invol. lia.
  - assert (inet_pton4 A = None) as Q4.
    { destruct (inet_pton4 A) as [q4|] eqn:Q4; [|reflexivity]. exfalso. apply TextProofs.pton4_chars in Q4.
      apply DottedProofs.pton6_colon in Q. rewrite forallb_forall in Q4. apply Q4 in Q. discriminate. }
    destruct (posix_six _ _ PX A _ n st pr ks q RP K Q4 Q) as (l & E & F2). exists l. split; [exact E|].
    apply (all_same _ _ _ _ F2). intros k ai (E1 & E2 & E3 & E4).
    split; [unfold usable; rewrite E1, E2; reflexivity|]. intros r AN. pose proof (an_six _ _ _ _ AN E1) as V. rewrite E4 in V.
    unfold get_ipv6 in V. unfold value, s6, get_port. rewrite V. cbn [sin6_addr sin6_port]. split; [reflexivity|]. apply bswap16_invol. lia.
Qed.

(* ---------- one line, read again ---------- *)
Definition text_of (y : sys) (t : str) (a : addr) : Prop :=
  addr_wf a /\ contiguous a /\ to_ipv4or6_string y a STRING_IP_ALL = Ok t.
Lemma same_text y a b : addr_wf a -> addr_wf b -> value a = value b -> get_port a = get_port b -> mask_value a = mask_value b ->
  to_ipv4or6_string y a STRING_IP_ALL = to_ipv4or6_string y b STRING_IP_ALL.
Proof.
  intros WA WB V P M. pose proof (AddrProofs.value_inj a b WA WB V) as ES.
  assert (f_mask a = f_mask b) as EM.
  { destruct (wf_mask _ WA) as [L1 F1]. destruct (wf_mask _ WB) as [L2 F2]. apply AddrProofs.num_inj; auto. congruence. }
  assert (is_ipv4 a = is_ipv4 b) as E4 by (rewrite !is_ipv4_bool by assumption; now rewrite V).
  assert (is_default a = is_default b) as ED by (unfold is_default; now rewrite ?ES).
  assert (get_mask_size a = get_mask_size b) as EZ by (unfold get_mask_size; now rewrite EM).
  assert (AddrText.port_text y a STRING_IP_ALL = AddrText.port_text y b STRING_IP_ALL) as EP.
  { unfold AddrText.port_text. change (shows_port STRING_IP_ALL) with true. change (has STRING_IP_ALL STRING_IP_PORT_NAME) with false. now rewrite P. }
  unfold to_ipv4or6_string, to_ipv4_string, to_ipv6_string. rewrite E4, EP.
  assert (mask_text4 a STRING_IP_ALL = mask_text4 b STRING_IP_ALL) as ->.
  { unfold mask_text4, shows_mask, is_mask_ipv4_compatible, AddrText.mask_bits. now rewrite ?EZ, ?EM. }
  assert (forall z, mask_text6 a STRING_IP_ALL z = mask_text6 b STRING_IP_ALL z) as E6.
  { intros z. unfold mask_text6, shows_mask, AddrText.mask_bits. now rewrite ?EZ, ?EM. }
  assert (ip_text6 a STRING_IP_ALL = ip_text6 b STRING_IP_ALL) as -> by (unfold ip_text6; now rewrite ?ED, ?ES).
  destruct (is_ipv4 b).
  - now rewrite ?ES, ?ED.
  - destruct (ip_text6 b STRING_IP_ALL) as [u v]. now rewrite ?E6.
Qed.

(* one entry which is good, whatever separates entries *)
Lemma alone_entry p t : nobody (starts_comment p) -> (nobody (separator p) \/ exists c, separator p c) -> one_of_list p t -> entries_of p t [t].
Proof.
  intros NC S ((NE & T) & N0 & C).
  assert (up_to (starts_comment p) t t) as U by (split; [apply Forall_forall; intros c I; now apply C|now left]).
  destruct S as [S|S]; [apply one_entry; auto|].
  replace [t] with (filter nonempty_str [t]) by (destruct t; [congruence|reflexivity]). apply each_piece with [t]; auto.
  replace t with ([] ++ t ++ []) at 1 by (cbn [app]; now rewrite app_nil_r). apply pieces_one; auto.
  - apply Forall_forall. intros c I. now apply C.
  - constructor. constructor.
Qed.
Lemma entry_parsed y g p t l : unsorted p -> takes_entries p -> converts_decimals y -> resolver_ok g -> known_protocols g ->
  nobody (starts_comment p) -> (nobody (separator p) \/ exists c, separator p c) -> one_of_list p t -> SpecLanguage.accepted y g p t l ->
  exists l2, parse y g t p = (p, Ok l2) /\ Forall2 same_range l l2.
Proof.
  intros U TE HC HG HK NC S OL A. pose proof (alone_entry p t NC S OL) as EN. destruct OL as (T & N0 & C).
  destruct (PropParser10.C123_lists y g p t [t] U TE HC HG (fun _ => HK) N0 EN) as (p2 & vs & EP & V & _ & Z).
  inversion V as [|? v ? vs' VT V2 EX EY]. inversion V2. subst. cbn [map concat] in EP. rewrite app_nil_r in EP.
  assert (snd v = true /\ Forall2 same_range l (fst v)) as [SV FV].
  { remember t as u eqn:EU in VT. destruct VT as [b1 x b2 l2 F1 PT F2 AX|b1 x b2 l2 F1 PT F2 N1 N2];
      assert (x = t) as -> by (apply (PropParser10.plain_unique_text b1 x b2 [] t []); auto; [now right|cbn [app]; now rewrite app_nil_r]).
    - split; [reflexivity|]. now apply (PropParser9.C122_one_meaning y g p t l l2 TE).
    - elim (N1 l A). }
  rewrite Z in EP by (intros x [<-|[]]; exact SV). exists (fst v). now split.
Qed.
Lemma entry_refused y g p t p2 r : unsorted p -> takes_entries p -> converts_decimals y -> resolver_ok g -> known_protocols g ->
  nobody (starts_comment p) -> (nobody (separator p) \/ exists c, separator p c) -> one_of_list p t -> (forall l, ~ SpecLanguage.accepted y g p t l) ->
  parse y g t p = (p2, r) -> error_count p2 <> error_count p.
Proof.
  intros U TE HC HG HK NC S OL A EP E. pose proof (alone_entry p t NC S OL) as EN. destruct OL as (T & N0 & C).
  apply (PropParser10.C123_no_error y g p t [t] p2 r U TE HC HG (fun _ => HK) N0 EN EP) in E.
  apply Forall_inv in E. destruct E as (b1 & x & b2 & l & EB & F1 & PT & F2 & AX).
  assert (x = t) as ->
    by (apply (PropParser10.plain_unique_text b1 x b2 [] t []); auto; [now right|cbn [app]; now rewrite app_nil_r, <- EB]).
  elim (A l AX).
Qed.

Section Again.
Variables (y : sys) (g : resolver) (o : validate_options) (ps : list str) (p : parser).
Hypothesis V : validates y g o ps p.
Hypothesis N0 : ~ In 0 (vo_default_address o).
Hypothesis HC : converts_decimals y.

Lemma v_allow f : 0 <= f < ALLOW_max -> get_allow p f = Ok (existsb (Z.eqb f) (wanted_flags o)).
Proof. exact (su_allow _ _ _ _ (va_set_up _ _ _ _ _ V) f). Qed.
Lemma v_nothing : nobody (starts_comment p) /\ (nobody (separator p) \/ exists c, separator p c).
Proof.
  destruct (PropValidate.validates_base _ _ _ _ _ V) as (_ & _ & _ & _ & _ & _ & _ & _ & _ & NC & SP). split.
  - intros c S. apply mem_comments in S. rewrite NC in S. discriminate.
  - destruct (vo_list o); [right; exists 44; apply mem_separators; rewrite SP; reflexivity|left].
    intros c S. apply mem_separators in S. rewrite SP in S. discriminate.
Qed.
Lemma text_parts t a : text_of y t a -> exists A T k, 0 <= k <= 128 /\ mask_value a = prefix_mask k /\ (is_ipv4 a = true -> 96 <= k)
  /\ t = T ++ 47 :: dec_string (if is_ipv4 a then k - 96 else k)
  /\ denotes A (value a) /\ written A (58 :: dec_string (get_port a)) T
  /\ (if is_ipv4 a then T = A ++ 58 :: dec_string (get_port a) /\ ~ In 58 A else T = [91] ++ A ++ [93] ++ 58 :: dec_string (get_port a)).
Proof.
  intros (W & (k & K & MK) & E).
  assert (is_ipv4 a = true -> 96 <= k) as K4.
  { intros I. destruct (PropText.C65_when_printing_fails y a STRING_IP_ALL W) as (_ & _ & _ & X).
    { unfold asks. vm_compute. intros X. apply X. reflexivity. }
    destruct (Z_lt_le_dec (mask_value a) (prefix_mask 96)) as [L|L].
    - exfalso. unfold to_ipv4or6_string in E. rewrite I in E. rewrite X in E; [discriminate| | |exact L].
      + intros _. rewrite is_ipv4_bool in I by exact W. unfold is_v4_value, v4_base in *. lia.
      + unfold PropText.mask_wanted, asks. split; [vm_compute; discriminate|]. intros [Y _]. apply Y. vm_compute. reflexivity.
    - apply prefix_96; [lia|]. now rewrite <- MK. }
  assert (get_mask_size a = k) as MS by (apply get_mask_size_iff; [exact W|lia|]; split; [lia|exact MK]).
  destruct (printed_all y a k W K MK K4) as (A & T & ES & DN & HW & WY & X). rewrite E in ES. injection ES as ->.
  exists A, T, k. split; [exact K|]. split; [exact MK|]. split; [exact K4|]. split; [reflexivity|]. split; [exact DN|]. split; [exact HW|].
  destruct (is_ipv4 a) eqn:I.
  - destruct (X eq_refl) as [EA ET]. split; [exact ET|]. rewrite EA. now apply (ntop_denotes4 y a W I).
  - inversion HW as [body P N EB EP ET|body P EB EP ET|body N EB EP ET]; subst; [|reflexivity].
    exfalso. apply denotes_iff in DN. destruct DN as [(w & D & EV)|(q & Q & _)]; [|now apply DottedProofs.pton6_colon in Q].
    apply DottedProofs.dotted_pton in D. destruct D as (q & _ & <- & L & F). pose proof (AddrProofs.num_range q F) as R. rewrite L in R.
    rewrite is_ipv4_bool in I by exact W. rewrite EV in I. change (256 ^ Z.of_nat 4) with (2 ^ 32) in R. unfold v4_base in I. lia.
Qed.

(* how often an address which is written with a port is found *)
Definition times (n : Z) : nat := if (n =? IPPROTO_TCP) || (n =? IPPROTO_UDP) then 1 else 3.
Lemma hints_kinds n : exists st pr ks, hints n st pr /\ kinds st pr ks /\ length ks = times n.
Proof.
  unfold times. destruct (Z.eqb_spec n IPPROTO_TCP) as [->|N1]; [do 3 eexists; split; [constructor|split; [constructor|reflexivity]]|].
  destruct (Z.eqb_spec n IPPROTO_UDP) as [->|N2]; [do 3 eexists; split; [constructor|split; [constructor|reflexivity]]|].
  do 3 eexists. split; [now constructor|]. split; [constructor|reflexivity].
Qed.
Lemma prefix_bits k : 0 <= k <= 128 -> exists b, num b = prefix_mask k /\ length b = 16%nat /\ Forall is_byte b.
Proof. apply PropAllowList.prefix_bytes. Qed.
Definition same_as (a : addr) (r : addr_range) : Prop :=
  (has_from r = true /\ has_to r = false) /\ addr_wf (get_from r) /\ value (get_from r) = value a /\ get_port (get_from r) = get_port a /\ mask_value (get_from r) = mask_value a.
Lemma not_two A n : ~ In 58 A -> 0 <= n -> ~ two_colons (A ++ 58 :: dec_string n).
Proof.
  intros NA N T. apply ParserProofs8.two_colons_count in T.
  rewrite ParserProofs7.count_char_app, ParserProofs7.count_char_cons, !ParserProofs7.count_char_none in T; [lia| |exact NA].
  intros I. destruct (decimal_dec n N) as (_ & D & _). rewrite forallb_forall in D. apply D in I. discriminate.
Qed.
Lemma line_again t a : posix y g -> vo_mask o = true -> text_of y t a ->
  exists l, parse y g t p = (p, Ok l) /\ length l = times (parser_get_protocol p) /\ Forall (same_as a) l.
Proof.
  intros PX M TX. destruct (text_parts t a TX) as (A & T & k & K & MK & K4 & ET & DN & HW & SH).
  pose proof (AddrProofs3.get_port_range a) as PR. destruct TX as (W & C & EX).
  assert (0 <= get_port a <= 65535) as PR2 by lia.
  destruct (hints_kinds (parser_get_protocol p)) as (st & pr & ks & HI & KS & LK).
  destruct (numeric_answers y g A (value a) (get_port a) st pr ks PX HC DN PR2 KS) as (ais & GA & LA & FA).
  destruct (va_resolver _ _ _ _ _ V _ _ _ _ _ _ GA) as [_ OKS]. pose proof (va_known _ _ _ _ _ V _ _ _ _ _ _ GA) as KN.
  assert (exists rs, Forall2 (answer A true) ais rs) as (rs & FR).
  { clear - OKS KN FA. induction FA as [|ai l [U _] FA IH]; [exists []; constructor|].
    inversion OKS; subst. inversion KN; subst. destruct IH as (rs & F); [assumption|assumption|].
    destruct (one_answer A ai) as (r & R); [assumption|assumption|assumption|]. exists (r :: rs). now constructor. }
  destruct (denotes_chars _ _ DN) as [NE CH].
  assert (ports_allowed p) as PA by (left; apply v_allow; unfold ALLOW_PORT, ALLOW_max; lia).
  assert (get_allow p ALLOW_MASK = Ok true) as AM.
  { rewrite v_allow by (unfold ALLOW_MASK, ALLOW_max; lia). unfold wanted_flags. rewrite M. destruct (vo_address o), (vo_port o), (vo_list o); reflexivity. }
  assert (get_allow p ALLOW_ADDRESS_RANGE = Ok false) as AR.
  { rewrite v_allow by (unfold ALLOW_ADDRESS_RANGE, ALLOW_max; lia). unfold wanted_flags. destruct (vo_address o), (vo_port o), (vo_list o), (vo_mask o); reflexivity. }
  assert (get_allow p ALLOW_ADDRESS_LOOKUP = Ok true) as AL.
  { rewrite v_allow by (unfold ALLOW_ADDRESS_LOOKUP, ALLOW_max; lia). reflexivity. }
  set (P := dec_string (get_port a)) in *.
  assert (P <> [] /\ ~ In 0 P /\ ~ In 58 P /\ ~ In 47 P) as (NP & P0 & P58 & P47).
  { destruct (decimal_dec (get_port a)) as (X & D & _); [lia|]. split; [exact X|]. rewrite forallb_forall in D.
    repeat split; intros I; apply D in I; discriminate. }
  assert (~ In 47 A /\ ~ In 93 A /\ ~ In 91 A) as (A47 & A93 & A91) by (repeat split; now apply (ip_char_not A _ CH)).
  set (six := negb (is_ipv4 a)).
  set (n := if is_ipv4 a then k - 96 else k) in *.
  assert (0 <= n) as HN by (unfold n; destruct (is_ipv4 a); [specialize (K4 eq_refl)|]; lia).
  assert (SpecLanguage.way p (dec_string n) T six /\ layout p six T A P /\ ~ In 47 T) as (WY & LY & T47).
  { unfold six. destruct (is_ipv4 a); cbn [negb].
    - destruct SH as [-> N58]. split; [|split].
      + apply way_brackets.
        * apply not_two; [exact N58|lia].
        * destruct A; discriminate.
        * destruct A as [|c A]; [congruence|]. cbn [hd app]. intros ->. apply N58. now left.
        * split; [discriminate|]. intros [X|[X|[X _]]]; [| |now elim X].
          -- destruct A as [|c A]; [congruence|]. cbn [hd app] in X. subst c. exfalso. apply A91. now left.
          -- exfalso. apply in_app_iff in X. destruct X as [X|[X|X]]; [auto|discriminate|].
             unfold P in X. destruct (decimal_dec (get_port a)) as (_ & D & _); [lia|]. rewrite forallb_forall in D. apply D in X. discriminate.
      + change (A ++ 58 :: P) with (A ++ [58] ++ P). apply layout_port; auto. destruct A as [|c A]; [congruence|]. cbn [hd]. intros ->. apply A91. now left.
      + rewrite in_app_iff. cbn [In]. intuition lia.
    - subst T. split; [|split].
      + destruct (Z_le_dec 2 (count_char 58 ([91] ++ A ++ [93] ++ 58 :: P))) as [X|X];
          [apply way_colons; now apply ParserProofs8.two_colons_count|].
        apply way_brackets; try discriminate; [now rewrite ParserProofs8.two_colons_count|]. split; [now left|reflexivity].
      + change ([91] ++ A ++ [93] ++ 58 :: P) with ([91] ++ A ++ [93; 58] ++ P). now apply layout_brackets_port.
      + cbn [app In]. rewrite in_app_iff. cbn [In]. intuition lia. }
  assert (length rs = length ais /\ Forall (fun r => (has_from r = true /\ has_to r = false) /\ addr_wf (get_from r)
    /\ value (get_from r) = value a /\ get_port (get_from r) = get_port a) rs) as [LR FS].
  { clear - FR FA. induction FR as [|ai r l rs R FR IH]; [split; [reflexivity|constructor]|]. inversion FA as [|? ? [_ H] FA2]; subst.
    destruct (IH FA2) as [I1 I2]. split; [cbn [length]; now rewrite I1|]. constructor; [|exact I2]. destruct (H r R) as [H1 H2]. destruct R. auto. }
  destruct (prefix_bits k K) as (b & B1 & B2 & B3).
  set (l2 := map (fun r => mk_range (f_has_from r) (f_has_to r) (set_mask (get_from r) b) (f_to r)) rs).
  assert (Forall2 (gets_mask g p six (dec_string n)) rs l2 /\ Forall (same_as a) l2) as [FG FL].
  { unfold l2. clear - FS B1 B2 B3 K K4 MK W HN. induction FS as [|r rs (O & WR & VR & PR) FS [IH1 IH2]]; [split; constructor|]. split.
    - constructor; [|exact IH1]. apply (gets_number _ _ _ _ n); [now apply decimal_dec| |].
      + unfold limit, six, n. assert (is_ipv4 (get_from r) = is_ipv4 a) as -> by (rewrite !is_ipv4_bool by assumption; now rewrite VR).
        destruct (is_ipv4 a); cbn [negb andb]; lia.
      + assert (128 - limit (negb six) r + n = k) as ->.
        { unfold limit, six, n. assert (is_ipv4 (get_from r) = is_ipv4 a) as -> by (rewrite !is_ipv4_bool by assumption; now rewrite VR).
          destruct (is_ipv4 a); cbn [negb andb]; lia. }
        apply ParserProofs13.remade_mask; assumption.
    - constructor; [|exact IH2]. split; [exact O|]. split; [|split; [exact VR|split; [exact PR|rewrite MK; exact B1]]].
      cbn [get_from f_from]. destruct WR. constructor; try assumption. split; assumption. }
  assert (SpecLanguage.accepted y g p t l2) as AC.
  { rewrite ET. apply (accepted_entry y g p _ T (dec_string n) six A P (dec_string n) rs l2).
    - now apply cut_mask.
    - exact WY.
    - exact LY.
    - apply no_range; [now right|]. apply (found_names _ _ _ _ _ _ A true ais rs); [exact AL|left; now split| | |exact FR].
      + exists P, st, pr. split; [now apply service_given|]. split; [exact HI|exact GA].
      + eapply Forall_impl; [|exact FA]. intros ai [U _]. exact U.
    - right. split; [exact AM|]. split; [|exact FG]. apply used_written. destruct (decimal_dec n HN) as (X & _). exact X. }
  destruct (PropGrammar.validates_takes y g o ps p V N0) as [U TE]. destruct v_nothing as [NC SP].
  assert (one_of_list p t) as OL.
  { destruct (printed_chars y a t W) as [X1 X2]; [|exact EX|now apply entry_one]. intros I. rewrite MK. specialize (K4 I).
    unfold prefix_mask. assert (2 ^ (128 - k) <= 2 ^ (128 - 96)) by (apply Z.pow_le_mono_r; lia). lia. }
  destruct (entry_parsed y g p t l2 U TE HC (va_resolver _ _ _ _ _ V) (va_known _ _ _ _ _ V) NC SP OL AC) as (l & EP & F2).
  exists l. split; [exact EP|].
  assert (length l = length l2) as -> by (clear - F2; induction F2; cbn [length]; congruence).
  split; [unfold l2; rewrite map_length; congruence|].
  pose proof (PropParser2.C43_defined_ranges y g t p p l (va_resolver _ _ _ _ _ V) EP) as FW.
  clear - F2 FL FW. induction F2 as [|r r2 l2 l (S1 & S2 & S3 & _) F2 IH]; constructor; inversion FL as [|? ? ((O1 & O2) & _ & V1 & P1 & M1) FL2]; subst;
    inversion FW as [|? ? (_ & W1 & _) FW2]; subst; [|now apply IH].
  destruct (S3 O1) as (E1 & E2 & E3 & _). split; [split; congruence|]. split; [apply W1; congruence|]. repeat split; congruence.
Qed.

(* without --mask *)
Lemma line_refused t a : (forall A S b st pr l, In 47 A \/ In 47 S -> g A S b st pr <> GAI_list l) -> vo_mask o = false -> text_of y t a ->
  ~ SpecValidate.accepted y g p t.
Proof.
  intros NS M TX AC. destruct (text_parts t a TX) as (A & T & k & K & MK & K4 & ET & DN & HW & SH). destruct TX as (W & C & EX).
  assert (get_allow p ALLOW_MASK = Ok false) as AM.
  { rewrite v_allow by (unfold ALLOW_MASK, ALLOW_max; lia). unfold wanted_flags. rewrite M. destruct (vo_address o), (vo_port o), (vo_list o); reflexivity. }
  assert (get_allow p ALLOW_ADDRESS_RANGE = Ok false) as AR.
  { rewrite v_allow by (unfold ALLOW_ADDRESS_RANGE, ALLOW_max; lia). unfold wanted_flags. destruct (vo_address o), (vo_port o), (vo_list o), (vo_mask o); reflexivity. }
  assert (get_allow p ALLOW_ADDRESS_LOOKUP = Ok true) as AL.
  { rewrite v_allow by (unfold ALLOW_ADDRESS_LOOKUP, ALLOW_max; lia). reflexivity. }
  destruct (PropGrammar.validates_takes y g o ps p V N0) as [U TE]. destruct v_nothing as [NC SP].
  assert (one_of_list p t) as OL.
  { destruct (printed_chars y a t W) as [X1 X2]; [|exact EX|now apply entry_one]. intros I. rewrite MK. specialize (K4 I).
    unfold prefix_mask. assert (2 ^ (128 - k) <= 2 ^ (128 - 96)) by (apply Z.pow_le_mono_r; lia). lia. }
  unfold SpecValidate.accepted in AC. rewrite <- (su_count _ _ _ _ (va_set_up _ _ _ _ _ V)) in AC.
  destruct (parse y g t p) as [p2 r] eqn:EP. cbn [fst] in AC. revert AC.
  apply (entry_refused y g p t p2 r U TE HC (va_resolver _ _ _ _ _ V) (va_known _ _ _ _ _ V) NC SP OL); [|exact EP]. clear p2 r EP.
  - intros l A2. inversion A2 as [s b m six A1 D Tm l1 l2 SL WY LY AD MM]; subst s l2.
    assert (b = t) as -> by (inversion SL; congruence).
    assert (In 47 A1 \/ In 47 D) as IN.
    { assert (In 47 t) as I by (rewrite ET; apply in_app_iff; right; now left).
      clear - I LY. inversion LY; subst; rewrite ?in_app_iff in *; cbn [In app] in I; rewrite ?in_app_iff in I; cbn [In] in I; rewrite ?in_app_iff in I; cbn [In] in I;
        intuition discriminate. }
    inversion AD as [A3 D3 l3 _ FO|? ? ? ? ? ? X|? ? ? ? ? X|? ? ? ? X|? ? ? ? X]; try congruence. subst.
    inversion FO as [? ? ? ? ? ? X|H given ais rs _ HT AK]; [congruence|]. subst. destruct AK as (S & st & pr & SO & _ & G).
    apply (NS H S false st pr ais); [|exact G]. destruct IN as [IN|IN].
    + left. destruct HT as [[_ ->]|[-> _]]; [exact IN|destruct IN].
    + right. inversion SO as [S2 X1 X2|D2 P2 X|P2 X]; subst; [exact IN| |]; destruct X as [X|X]; try discriminate; injection X as ->; destruct IN.
Qed.

(* ---------- the runs ---------- *)
Hypothesis CA : vo_canonicalize o = true.
Lemma v_base : validate_setup y o parser_new = (p, Ok tt) /\ f_error p = [] /\ Z.land (f_sort p) SORT_MERGE = 0
  /\ allow p ALLOW_ADDRESS_MASK = false.
Proof.
  destruct (PropValidate.validates_base _ _ _ _ _ V) as (SET & (EC & _) & SO & _ & AA & _). rewrite SO. auto.
Qed.
Lemma lines_app a b : lines (a ++ b) = lines a ++ lines b.
Proof. unfold lines. now rewrite map_app, concat_app. Qed.
Lemma range_text r t : (has_from r = true /\ has_to r = false) -> canonical_line y r = Ok t ->
  exists u, t = u ++ [10] /\ to_ipv4or6_string y (get_from r) STRING_IP_ALL = Ok u.
Proof.
  intros [H1 H2] E. unfold canonical_line, is_range, has_from, has_to in *. rewrite H1, H2 in E. cbn [andb] in E.
  destruct (to_ipv4or6_string y (get_from r) STRING_IP_ALL) as [u|x| |]; cbn [rbind] in E; try discriminate. exists u. injection E as <-. split; reflexivity.
Qed.
Definition texts (ls : list str) : Prop := Forall (fun t => exists a, text_of y t a) ls.
Lemma some_lines : forall l o0 o1 r, Forall (fun r => (has_from r = true /\ has_to r = false) /\ addr_wf (get_from r)) l -> Forall prefixed l ->
  canonical_lines y l o0 = (o1, r) -> exists ls, o1 = o0 ++ lines ls /\ texts ls.
Proof.
  induction l as [|x l IH]; intros o0 o1 r F1 F2 E; cbn [canonical_lines] in E.
  - exists []. split; [unfold lines; cbn; rewrite app_nil_r; congruence|constructor].
  - inversion F1 as [|? ? [O W] F3]; subst. inversion F2 as [|? ? C F4]; subst.
    destruct (canonical_line y x) as [t|e| |] eqn:EL.
    + destruct (range_text x t O EL) as (u & -> & EU). destruct (IH _ _ _ F3 F4 E) as (ls & -> & TL). exists (u :: ls). split.
      * unfold lines. cbn [map concat]. now rewrite <- !app_assoc.
      * constructor; [|exact TL]. exists (get_from x). split; [exact W|]. split; [exact C|exact EU].
    + exists []. split; [unfold lines; cbn; rewrite app_nil_r; congruence|constructor].
    + exists []. split; [unfold lines; cbn; rewrite app_nil_r; congruence|constructor].
    + exists []. split; [unfold lines; cbn; rewrite app_nil_r; congruence|constructor].
Qed.
Lemma run_lines : forall inputs o0 e0 c0, exists ls, fst (fst (fst (validate_run y g o inputs o0 e0 c0))) = o0 ++ lines ls /\ texts ls.
Proof.
  destruct v_base as (SET & EC & SO & AA).
  assert (forall o0, exists ls, o0 = o0 ++ lines ls /\ texts ls) as NONE
    by (intros o0; exists []; split; [unfold lines; cbn; now rewrite app_nil_r|constructor]).
  induction inputs as [|s inputs IH]; intros o0 e0 c0; cbn [validate_run]; [apply NONE|]. rewrite SET.
  destruct (parse y g s p) as [p' [l|x| |]] eqn:EP; cbn [fst]; [|apply NONE|apply NONE|apply NONE].
  destruct (has_errors p'); [apply IH|]. rewrite CA.
  pose proof (PropValidate.validates_found y g o ps p s l V) as F1. rewrite EP in F1. specialize (F1 eq_refl).
  pose proof (parse_prefixed y g s p p' l AA SO EP) as F2.
  destruct (canonical_lines y l o0) as [o1 r] eqn:EL. destruct (some_lines l o0 o1 r F1 F2 EL) as (ls & -> & TL).
  destruct r as [u|x| |]; cbn [fst]; [|now exists ls|now exists ls|now exists ls].
  destruct (IH (o0 ++ lines ls) e0 c0) as (ls2 & -> & TL2). exists (ls ++ ls2). rewrite lines_app, <- app_assoc. split; [reflexivity|].
  now apply Forall_app.
Qed.
Lemma out_lines what inputs : exists ls, out (validate_ip y g what o inputs) = lines ls /\ texts ls.
Proof.
  destruct (run_lines inputs [] [] 0) as (ls & E & T). exists ls. split; [|exact T]. unfold validate_ip.
  destruct (validate_run y g o inputs [] [] 0) as [[[o1 e1] c1] [u|x| |]]; exact E.
Qed.
Lemma copies a t : text_of y t a -> forall l o0, Forall (same_as a) l -> canonical_lines y l o0 = (o0 ++ lines (repeat t (length l)), Ok tt).
Proof.
  intros (W & _ & ET). induction l as [|r l IH]; intros o0 F; cbn [canonical_lines repeat length].
  - unfold lines. cbn. now rewrite app_nil_r.
  - inversion F as [|? ? ([H1 H2] & WR & VR & PR & MR) F2]; subst. unfold canonical_line, is_range, has_from, has_to in *. rewrite H1, H2. cbn [andb].
    rewrite (same_text y (get_from r) a WR W VR PR MR), ET. cbn [rbind]. rewrite IH by exact F2. unfold lines. cbn [map concat]. now rewrite <- !app_assoc.
Qed.
Lemma run_again : posix y g -> vo_mask o = true -> forall ls o0, texts ls ->
  validate_run y g o ls o0 [] 0 = (o0 ++ lines (flat_map (fun t => repeat t (times (parser_get_protocol p))) ls), [], 0, Ok tt).
Proof.
  intros PX M. destruct v_base as (SET & EC & _). induction ls as [|t ls IH]; intros o0 T; cbn [validate_run flat_map].
  - unfold lines. cbn. now rewrite app_nil_r.
  - inversion T as [|? ? (a & TA) T2]; subst. rewrite SET. destruct (line_again t a PX M TA) as (l & EP & LL & FL). rewrite EP.
    assert (has_errors p = false) as -> by (unfold has_errors; rewrite EC; reflexivity). rewrite CA, (copies a t TA l o0 FL), LL, IH by exact T2.
    now rewrite lines_app, <- app_assoc.
Qed.
Lemma text_line t a : text_of y t a -> ~ In 10 t.
Proof.
  intros TX I. destruct (text_parts t a TX) as (A & T & k & K & MK & K4 & _). destruct TX as (W & C & EX).
  destruct (printed_chars y a t W) as [_ X2]; [|exact EX|].
  - intros I4. rewrite MK. specialize (K4 I4). unfold prefix_mask. assert (2 ^ (128 - k) <= 2 ^ (128 - 96)) by (apply Z.pow_le_mono_r; lia). lia.
  - rewrite forallb_forall in X2. apply X2 in I. discriminate.
Qed.
End Again.
