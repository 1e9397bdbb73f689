(* Entries with numeric addresses. *)
From Coq Require Import ZifyBool ZifyNat.
From Verif Require Import Base Addr Spec Range SpecRange Inet SpecText Parser SpecParser SpecParser2.
From Verif Require Import AddrProofs AddrProofs2 RangeProofs InetProofs InetProofs2 TextProofs
  ParserProofs ParserProofs2 ParserProofs3 ParserProofs4 ParserProofs5 ParserProofs6 ParserProofs7 ParserProofs8.
From Verif Require PropText.
From Verif Require Export DottedProofs Ipv6Proofs.
Local Open Scope Z_scope.

Lemma denotes_iff s v : denotes s v <->
  (exists w, dotted s w /\ v = v4_base + w) \/ exists q, inet_pton6 s = Some q /\ v = num q.
Proof. unfold denotes. now rewrite six_iff. Qed.

(* the characters of the text of an address *)
Lemma denotes_chars s v : denotes s v -> s <> [] /\ forallb ip_text_char s = true.
Proof.
  rewrite denotes_iff. intros [(w & D & _)|(q & Q & _)].
  - apply dotted_pton in D. destruct D as (q & Q & _). split; [intros ->; discriminate|].
    apply pton4_chars in Q. exact (forallb_imp _ _ _ dotted_text Q).
  - split; [intros ->; discriminate|]. eapply pton6_chars; exact Q.
Qed.
Lemma ip_char_not s c : forallb ip_text_char s = true -> ip_text_char c = false -> ~ In c s.
Proof. intros F N I. rewrite forallb_forall in F. rewrite (F c I) in N. discriminate. Qed.
Lemma c_str_id s : ~ In 0 s -> c_str s = s.
Proof. apply PropText.c_str_no_nul. Qed.

(* ---------- numeric addresses ---------- *)
Lemma load32_num q : length q = 4%nat -> Forall is_byte q -> bswap32 (load32 q 0) = num q /\ 0 <= load32 q 0 < 2 ^ 32.
Proof.
  intros L F. destruct (bytes4_explicit q L F) as (a & b & c & d & -> & Ha & Hb & Hc & Hd).
  unfold load32, at_. cbn [nth Nat.mul Nat.add num length]. unfold is_byte in *.
  change (256 ^ Z.of_nat 3) with (2 ^ 24). change (256 ^ Z.of_nat 2) with (2 ^ 16).
  change (256 ^ Z.of_nat 1) with (2 ^ 8). change (256 ^ Z.of_nat 0) with 1. unfold bswap32, u8. split; lia.
Qed.
Section Numeric.
Variables (y : sys) (g : resolver) (p0 : parser).
Hypothesis Hlookup : allow p0 ALLOW_ADDRESS_LOOKUP = false.
Hypothesis Hproto : p_protocol p0 = -1 \/ protocol_ok (p_protocol p0).
Hypothesis Hconv : converts_decimals y.

Lemma built_stands a v port host dp : built a v port host (p_protocol p0) dp -> stands_for p0 v port dp host a.
Proof.
  intros []. constructor; auto.
  unfold mask_value. rewrite bd_mask. reflexivity.
Qed.
Definition one (v port : Z) (dp : bool) (host : str) (r : res (list addr_range)) (ms : list str) : Prop :=
  ms = [] /\ exists a, r = Ok [set_from range_new a] /\ stands_for p0 v port dp host a.
Lemma numeric_value address v port dp : denotes address v -> 0 <= port <= 65535 ->
  wp p0 (numeric_address address port dp) (one v port dp address).
Proof.
  intros D P. destruct (denotes_chars _ _ D) as [NE F].
  pose proof (ip_char_not _ 0 F eq_refl) as N0. unfold numeric_address. wask. rewrite c_str_id by exact N0.
  assert (bswap16 (bswap16 port) = port) as BB by (apply bswap16_invol; lia).
  pose proof (bswap16_range port) as BR.
  apply denotes_iff in D. destruct D as [(w & D & ->)|(q & Q & ->)].
  - destruct (dotted_pton _ _ D) as (q & Q & <- & L & B). rewrite Q. destruct (load32_num q L B) as [E R].
    destruct (range4_spec (mk_in AF_INET (bswap16 port) (load32 q 0)) address (p_protocol p0) dp) as [(x & _ & X)|(_ & a & EA & BA)].
    + split; [cbn; unfold AF_INET; lia|]. split; [exact BR|exact R].
    + reflexivity.
    + tauto.
    + rewrite EA. wbind. apply wp_lift. apply wp_ret. split; [reflexivity|]. exists a. split; [reflexivity|].
      cbn [sin_port s_addr] in BA. rewrite BB, E in BA. now apply built_stands.
  - assert (inet_pton4 address = None) as ->.
    { destruct (inet_pton4 address) as [q4|] eqn:E; [|reflexivity]. apply pton4_chars in E. apply pton6_colon in Q.
      rewrite forallb_forall in E. specialize (E _ Q). discriminate. }
    rewrite Q. apply pton6_bytes in Q.
    destruct (range6_spec (mk_in6 AF_INET6 (bswap16 port) 0 q 0) address (p_protocol p0) dp) as [(x & _ & X)|(_ & a & EA & BA)].
    + split; [cbn; unfold AF_INET6; lia|]. split; [exact BR|]. split; [cbn; lia|]. split; [exact Q|]. cbn; lia.
    + reflexivity.
    + tauto.
    + rewrite EA. wbind. apply wp_lift. apply wp_ret. split; [reflexivity|]. exists a. split; [reflexivity|].
      cbn [sin6_port sin6_addr] in BA. rewrite BB in BA. now apply built_stands.
Qed.
(* the port text without its colon *)
Definition port_ok (P : str) (port : Z) (dp : bool) : Prop :=
  (decimal P port /\ port <= 65535 /\ dp = true
   /\ (allow p0 ALLOW_PORT = true \/ allow p0 ALLOW_REQUIRED_PORT = true))
  \/ (P = [] /\ dp = false /\ allow p0 ALLOW_REQUIRED_PORT = false
      /\ (f_default_port p0 = -1 /\ port = 0
          \/ allow p0 ALLOW_PORT = true /\ f_default_port p0 = port /\ 0 <= port <= 65535)).
Lemma port_ok_range P port dp : port_ok P port dp -> 0 <= port <= 65535.
Proof.
  intros [((N & F & <-) & L & _)|(_ & _ & _ & [[_ ->]|(_ & _ & H)])]; try lia.
  pose proof (fold_digits_ge P 0 ltac:(lia) F). unfold decimal_value in *. lia.
Qed.
Lemma address_port_value address v P port dp ipv6 : denotes address v -> port_ok P port dp ->
  wp p0 (parse_address_port y g address P ipv6) (one v port dp address).
Proof.
  intros D H. pose proof (port_ok_range _ _ _ H) as R. destruct (denotes_chars _ _ D) as [NE _].
  unfold parse_address_port. cbv zeta. destruct address as [|c address']; [congruence|]. set (address := c :: address') in *.
  destruct H as [(Dec & L & -> & A)|(-> & -> & AR & A)].
  - assert (P <> []) as NP by (destruct Dec; assumption). destruct P as [|d P']; [congruence|]. set (P := d :: P') in *.
    wallow. cbn [negb andb]. wask. wallow. wask. wallow. rewrite Hlookup. wallow. rewrite orb_true_r.
    rewrite (Hconv P port Dec) by lia. replace ((port <? 0) || (port >? 65535)) with false by lia.
    replace (negb (allow p0 ALLOW_PORT) && negb (allow p0 ALLOW_REQUIRED_PORT)) with false
      by (destruct A as [-> | ->]; [reflexivity|now rewrite andb_false_r]).
    now apply numeric_value.
  - wallow. rewrite AR. cbn [negb andb]. wask. wallow. wask. wallow. rewrite Hlookup. wallow. cbn [orb].
    destruct A as [[DP ->]|(AP & DP & _)].
    + rewrite DP. cbn [Z.eqb Pos.eqb negb]. now apply numeric_value.
    + rewrite DP. replace (port =? -1) with false by lia. cbn [negb].
      assert (to_string_int port = dec_string port) as -> by (unfold to_string_int; now replace (port <? 0) with false by lia).
      destruct (PropText.plain_dec_string port ltac:(lia)) as [Dec _].
      assert (dec_string port <> []) as NE' by (destruct Dec; assumption).
      replace (match dec_string port with [] => false | _ => true end) with true by (destruct (dec_string port); congruence).
      rewrite (Hconv _ port Dec) by lia. replace ((port <? 0) || (port >? 65535)) with false by lia.
      rewrite AP. cbn [negb andb]. now apply numeric_value.
Qed.
Lemma range_end_value text v P port dp msg ipv6 : denotes text v -> port_ok P port dp ->
  wp p0 (range_end y g text P msg ipv6) (fun r ms => ms = []
    /\ exists a, r = Ok (Some (Some (set_from range_new a))) /\ stands_for p0 v port dp text a).
Proof.
  intros D H. destruct (denotes_chars _ _ D) as [NE _]. unfold range_end. destruct text as [|c text']; [congruence|].
  set (text := c :: text') in *. wbind. unfold parse_address_port_ignore_duplicates. wbind.
  eapply wp_conseq; [apply (address_port_value text v P port dp ipv6 D H)|]. intros r ms (-> & a & -> & S). cbv beta iota.
  wbind. cbn [drop_duplicates]. apply wp_lift. apply wp_ret. cbv beta iota. apply wp_ret. split; [reflexivity|]. eauto.
Qed.
(* the body of an entry *)
Lemma range_port_one A v P port dp ipv6 : denotes A v -> port_ok P port dp ->
  wp p0 (parse_address_range_port y g A P ipv6) (one v port dp A).
Proof.
  intros D H. destruct (denotes_chars _ _ D) as [_ F]. unfold parse_address_range_port. wallow.
  rewrite find_char_none by (apply (ip_char_not _ 45 F); reflexivity).
  destruct (allow p0 ALLOW_ADDRESS_RANGE); now apply address_port_value.
Qed.
Lemma split_dash A B : ~ In 45 A -> find_char 45 (A ++ 45 :: B) = Some (length A)
  /\ firstn (length A) (A ++ 45 :: B) = A /\ skipn (length A + 1) (A ++ 45 :: B) = B.
Proof. intros N. split; [now apply find_char_first|]. split; [apply firstn_length_app|apply skipn_length_app]. Qed.
Lemma range_port_from A v P port dp ipv6 : allow p0 ALLOW_ADDRESS_RANGE = true -> denotes A v -> port_ok P port dp ->
  wp p0 (parse_address_range_port y g (A ++ [45]) P ipv6) (one v port dp A).
Proof.
  intros AR D H. destruct (denotes_chars _ _ D) as [NE F]. unfold parse_address_range_port. wallow. rewrite AR.
  destruct (split_dash A [] (ip_char_not _ 45 F eq_refl)) as (-> & -> & ->). cbv zeta.
  replace (match A with [] => true | _ => false end) with false by (destruct A; congruence).
  wbind. eapply wp_conseq; [apply (range_end_value A v P port dp _ ipv6 D H)|]. intros r ms (-> & a & -> & S). cbv beta iota.
  wbind. cbn [range_end]. apply wp_ret. cbv beta iota. cbn [option_map]. apply wp_ret. split; [reflexivity|]. eauto.
Qed.
Definition to_only (v port : Z) (dp : bool) (host : str) (r : res (list addr_range)) (ms : list str) : Prop :=
  ms = [] /\ exists a, r = Ok [swap_from_to (set_from range_new a)] /\ stands_for p0 v port dp host a.
Lemma range_port_to A v P port dp ipv6 : allow p0 ALLOW_ADDRESS_RANGE = true -> denotes A v -> port_ok P port dp ->
  wp p0 (parse_address_range_port y g (45 :: A) P ipv6) (to_only v port dp A).
Proof.
  intros AR D H. destruct (denotes_chars _ _ D) as [NE F]. unfold parse_address_range_port. wallow. rewrite AR.
  destruct (split_dash [] A ltac:(auto)) as (E1 & E2 & E3). cbn [app length] in *. rewrite E1, E2, E3. cbv zeta.
  replace (match A with [] => true | _ => false end) with false by (destruct A; congruence).
  wbind. cbn [range_end]. apply wp_ret. cbv beta iota. wbind.
  eapply wp_conseq; [apply (range_end_value A v P port dp _ ipv6 D H)|]. intros r ms (-> & a & -> & S). cbv beta iota.
  cbn [option_map]. apply wp_ret. split; [reflexivity|]. eauto.
Qed.
Lemma range_port_both A v B w P port dp ipv6 : allow p0 ALLOW_ADDRESS_RANGE = true ->
  denotes A v -> denotes B w -> port_ok P port dp ->
  wp p0 (parse_address_range_port y g (A ++ 45 :: B) P ipv6) (fun r ms => ms = []
    /\ exists a b, stands_for p0 v port dp A a /\ stands_for p0 w port dp B b
      /\ r = Ok (if (v >? w) && negb (Z.land (f_sort p0) SORT_NO_EMPTY =? 0) then []
                 else [set_to (set_from range_new a) b])).
Proof.
  intros AR DA DB H. destruct (denotes_chars _ _ DA) as [NEA FA]. destruct (denotes_chars _ _ DB) as [NEB FB].
  unfold parse_address_range_port. wallow. rewrite AR.
  destruct (split_dash A B (ip_char_not _ 45 FA eq_refl)) as (-> & -> & ->). cbv zeta.
  replace (match A with [] => match B with [] => true | _ => false end | _ => false end) with false by (destruct A; congruence).
  wbind. eapply wp_conseq; [apply (range_end_value A v P port dp _ ipv6 DA H)|]. intros r ms (-> & a & -> & SA). cbv beta iota.
  wbind. eapply wp_conseq; [apply (range_end_value B w P port dp _ ipv6 DB H)|]. intros r ms (-> & b & -> & SB). cbv beta iota.
  cbn [option_map]. change (get_to (swap_from_to (set_from range_new b))) with b.
  wask. assert (is_empty (set_to (set_from range_new a) b) = (v >? w)) as ->.
  { rewrite is_empty_spec.
    - unfold lo, hi. cbn. now rewrite (st_value _ _ _ _ _ _ SA), (st_value _ _ _ _ _ _ SB).
    - split; [apply (st_wf _ _ _ _ _ _ SA)|apply (st_wf _ _ _ _ _ _ SB)].
    - left. reflexivity. }
  destruct (Z.land (f_sort p0) SORT_NO_EMPTY =? 0) eqn:E1, (v >? w) eqn:E2; cbn [negb andb orb]; apply wp_ret;
    (split; [reflexivity|]; exists a, b; auto).
Qed.
End Numeric.

(* ---------- whole entries ---------- *)
Definition body_char (c : Z) : bool := ip_text_char c || (c =? 45).
Lemma body_not s c : forallb body_char s = true -> body_char c = false -> ~ In c s.
Proof. intros F N I. rewrite forallb_forall in F. rewrite (F c I) in N. discriminate. Qed.
Lemma ip_body s : forallb ip_text_char s = true -> forallb body_char s = true.
Proof. apply forallb_imp. intros c H. unfold body_char. now rewrite H. Qed.
Lemma digits_body s : forallb is_digit s = true -> forallb ip_text_char s = true.
Proof.
  apply forallb_imp. intros c H. unfold is_digit in H. unfold ip_text_char, ip_char, dotted_char. lia.
Qed.

Lemma port_part_ok p P n d : port_part p P n d ->
  port_ok p (skipn 1 P) n d /\ (P = [] \/ (exists D, P = 58 :: D /\ decimal D n)
    /\ (allow p ALLOW_PORT = true \/ allow p ALLOW_REQUIRED_PORT = true)).
Proof.
  assert (forall f b, get_allow p f = Ok b -> allow p f = b) as GA.
  { intros f b. unfold get_allow. destruct (_ || _); [discriminate|congruence]. }
  intros [D k Dec L A|R DP|R AP DP].
  - assert (allow p ALLOW_PORT = true \/ allow p ALLOW_REQUIRED_PORT = true) as A'.
    { destruct A as [A|A]; apply GA in A; auto. }
    split; [left; split; [exact Dec|]; split; [exact L|]; split; [reflexivity|exact A']|]. right. split; [now exists D|exact A'].
  - split; [|now left]. right. split; [reflexivity|]. split; [reflexivity|]. split; [now apply GA|left; now split].
  - split; [|now left]. right. split; [reflexivity|]. split; [reflexivity|]. split; [now apply GA|]. right. split; [now apply GA|].
    split; [reflexivity|assumption].
Qed.

Section Written.
Variables (y : sys) (g : resolver) (p : parser) (body P s : str) (n : Z) (d : bool).
Hypothesis NE : body <> [].
Hypothesis HB : forallb body_char body = true.
Hypothesis HP : port_part p P n d.
Hypothesis HW : written body P s.

Definition way : bool :=
  match s with c :: _ => negb (c =? 91) && negb (count_char 58 s >=? 2) | [] => true end.

Lemma port_digits : forall c, In c P -> c = 58 \/ is_digit c = true.
Proof.
  destruct (port_part_ok _ _ _ _ HP) as [_ [->|[(D & -> & (_ & F & _)) _]]]; [intros c []|].
  intros c [<-|I]; [now left|right]. rewrite forallb_forall in F. now apply F.
Qed.
Lemma port_no c : c <> 58 -> is_digit c = false -> ~ In c P.
Proof. intros N D I. destruct (port_digits c I); congruence. Qed.
Lemma port_colons : P = [] \/ exists D, P = 58 :: D /\ ~ In 58 D.
Proof.
  destruct (port_part_ok _ _ _ _ HP) as [_ [->|[(D & -> & (_ & F & _)) _]]]; [now left|right].
  exists D. split; [reflexivity|]. intros I. rewrite forallb_forall in F. specialize (F _ I). discriminate.
Qed.
Lemma written_chars c : In c s -> body_char c = true \/ c = 91 \/ c = 93.
Proof.
  assert (forall c, In c body -> body_char c = true) as B by (apply forallb_forall, HB).
  assert (forall c, In c P -> body_char c = true) as Q.
  { intros e I. destruct (port_digits e I) as [->|E]; [reflexivity|]. unfold is_digit in E.
    unfold body_char, ip_text_char, ip_char, dotted_char. lia. }
  destruct HW as [b q N|b q|b T]; cbn [app In]; rewrite ?in_app_iff; cbn [In]; rewrite ?in_app_iff; intuition (subst; auto).
Qed.
Lemma written_trimmed : trimmed s /\ ~ In 47 s.
Proof.
  assert (forall c, In c s -> ~ blank c /\ c <> 47) as K.
  { intros c I. apply written_chars in I. unfold blank, body_char, ip_text_char, ip_char, dotted_char in *. lia. }
  split; [|intros I; destruct (K _ I); congruence]. split; [|split].
  - destruct HW as [b q N|b q|b T]; [|discriminate|exact NE]. intros E. apply app_eq_nil in E. now destruct E.
  - intros c r E. apply K. rewrite E. now left.
  - intros c r E. apply K. rewrite E. apply in_app_iff. right. now left.
Qed.
Lemma written_has_address : has_address s /\ syntax way p s.
Proof.
  pose proof port_colons as PC. pose proof port_no as PN. pose proof (port_part_ok _ _ _ _ HP) as PK. unfold has_address, way. destruct HW as [b q N|b q|b T].
  - destruct b as [|c b]; [congruence|]. cbn [app hd]. assert (c <> 58) as N58 by (intros ->; apply N; now left).
    assert (c <> 91) as N91 by (pose proof (body_not _ 91 HB eq_refl) as X; intros ->; apply X; now left).
    split; [split; [discriminate|now left]|].
    assert (count_char 58 (c :: b ++ q) <= 1) as CC.
    { change (c :: b ++ q) with ((c :: b) ++ q). rewrite count_char_app, (count_char_none 58 (c :: b)) by exact N.
      destruct PC as [->|(D & -> & ND)]; [unfold count_char; cbn; lia|]. rewrite count_char_cons, count_char_none by exact ND. lia. }
    replace (c =? 91) with false by lia. replace (count_char 58 (c :: b ++ q) >=? 2) with false by lia. cbn [negb andb syntax].
    split; [exact N91|]. split; [|split].
    + change (c :: b ++ q) with ((c :: b) ++ q). rewrite in_app_iff. intros [X|X]; [now apply (body_not _ 93 HB eq_refl)|].
      now apply (PN 93).
    + rewrite two_colons_count. lia.
    + destruct PK as [_ [->|[_ A]]]; [left; now rewrite app_nil_r|right].
      unfold get_allow. destruct A as [A|A]; [left|right]; cbn; now f_equal.
  - cbn [app hd]. split; [split; [discriminate|left; lia]|]. now left.
  - destruct b as [|c b]; [congruence|]. assert (c <> 91) as N91 by (pose proof (body_not _ 91 HB eq_refl) as X; intros ->; apply X; now left).
    split; [split; [discriminate|now right]|]. replace (count_char 58 (c :: b) >=? 2) with true
      by (symmetry; apply two_colons_count in T; lia). rewrite andb_false_r. now right.
Qed.
Lemma written_address mask Q :
  wp p (parse_address_range_port y g body (skipn 1 P) (negb way)) (fun r ms =>
    Q (match r with Ok l => Ok (l, way) | Throw x => Throw x | UB => UB | OutOfFuel => OutOfFuel end) ms) ->
  wp p (parse_address y g s mask) Q.
Proof.
  intros H.
  assert (forall m : M (list addr_range), wp p m (fun r ms =>
    Q (match r with Ok l => Ok (l, way) | Throw x => Throw x | UB => UB | OutOfFuel => OutOfFuel end) ms) ->
    wp p (do! l <- m in ret (l, way)) Q) as K.
  { intros m X. wbind. eapply wp_conseq; [exact X|]. intros r ms HQ. destruct r; auto. apply wp_ret. now rewrite app_nil_r. }
  rename H into G. pose proof port_colons as PC. pose proof port_no as PN. pose proof (port_part_ok _ _ _ _ HP) as PK. unfold way in *. destruct HW as [b q N|b q|b T].
  - destruct b as [|c b]; [congruence|]. cbn [app]. assert (c <> 58) as N58 by (intros ->; apply N; now left).
    assert (c <> 91) as N91 by (pose proof (body_not _ 91 HB eq_refl) as X; intros ->; apply X; now left).
    assert (count_char 58 (c :: b ++ q) <= 1) as CC.
    { change (c :: b ++ q) with ((c :: b) ++ q). rewrite count_char_app, (count_char_none 58 (c :: b)) by exact N.
      destruct PC as [->|(D & -> & ND)]; [unfold count_char; cbn; lia|]. rewrite count_char_cons, count_char_none by exact ND. lia. }
    unfold parse_address. cbn [app] in G, K. replace (c =? 91) with false in * by lia.
    replace (count_char 58 (c :: b ++ q) >=? 2) with false in * by lia. cbn [negb andb] in G, K.
    replace (c =? 58) with false by lia. cbn [orb].
    change (c :: b ++ q) with ((c :: b) ++ q) in *.
    assert (find_char 93 ((c :: b) ++ q) = None) as ->.
    { apply find_char_none. rewrite in_app_iff. intros [X|X]; [now apply (body_not _ 93 HB eq_refl)|]. now apply (PN 93). }
    assert (wp p (do! l <- parse_address4 y g ((c :: b) ++ q) in ret (l, true)) Q) as S4.
    { apply K. unfold parse_address4. wallow. wallow. destruct PC as [->|(D & -> & ND)].
      - rewrite app_nil_r, find_char_none by exact N. cbn [skipn] in G. exact G.
      - rewrite find_char_first by exact N. rewrite firstn_length_app, skipn_length_app.
        destruct PK as [_ [X|[_ A]]]; [discriminate|].
        replace (allow p ALLOW_PORT || allow p ALLOW_REQUIRED_PORT) with true
          by (destruct A as [-> | ->]; [reflexivity|now rewrite orb_true_r]).
        cbn [skipn] in G. exact G. }
    wallow. wallow. destruct (negb (allow p ALLOW_PORT) && negb (allow p ALLOW_REQUIRED_PORT)) eqn:AL; [|exact S4].
    destruct PC as [->|(D & -> & ND)]; [now rewrite app_nil_r, find_char_none in *|].
    destruct PK as [_ [X|[_ A]]]; [discriminate|]. exfalso. destruct A as [A|A]; rewrite A in AL; cbn in AL; try rewrite andb_false_r in AL; discriminate.
  - cbn [app] in *. unfold parse_address. cbn [Z.eqb Pos.eqb negb andb orb] in *.
    assert (forall k, wp p (do! l <- parse_address6 y g (91 :: b ++ 93 :: q) k in ret (l, false)) Q) as S6.
    { intros k. apply K. unfold parse_address6. wallow. wallow. cbn [Z.eqb Pos.eqb].
      assert (find_char 93 (91 :: b ++ 93 :: q) = Some (length (91 :: b))) as ->.
      { apply (find_char_first 93 (91 :: b)). intros [X|X]; [discriminate|]. now apply (body_not _ 93 HB eq_refl). }
      replace (skipn (length (91 :: b) + 1) (91 :: b ++ 93 :: q)) with q by (symmetry; apply (skipn_length_app (91 :: b))).
      replace (firstn (length (91 :: b) - 1) (skipn 1 (91 :: b ++ 93 :: q))) with b
        by (cbn [length skipn]; rewrite Nat.sub_succ, Nat.sub_0_r; symmetry; apply firstn_length_app).
      destruct PC as [->|(D & -> & ND)]; [exact G|].
      cbn [Z.eqb Pos.eqb negb]. destruct PK as [_ [X|[_ A]]]; [discriminate|].
      replace (negb (allow p ALLOW_PORT) && negb (allow p ALLOW_REQUIRED_PORT)) with false
        by (destruct A as [-> | ->]; [reflexivity|now rewrite andb_false_r]).
      cbn [skipn] in G. exact G. }
    destruct (_ >=? 2); apply S6.
  - unfold parse_address. replace (count_char 58 b >=? 2) with true in *
      by (symmetry; apply two_colons_count in T; lia).
    destruct b as [|c b]; [congruence|]. assert (c <> 91) as N91 by (pose proof (body_not _ 91 HB eq_refl) as X; intros ->; apply X; now left).
    rewrite andb_false_r in *. cbn [negb] in G. apply K. unfold parse_address6. wallow. wallow. replace (c =? 91) with false by lia.
    apply two_colons_count in T. replace (count_char 58 (c :: b) =? 1) with false by lia. cbn [skipn] in G. exact G.
Qed.
End Written.
