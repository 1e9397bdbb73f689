(* Proofs about validate-ip. *)
From Coq Require Import Lia ZifyBool ZifyNat Permutation.
From Verif Require Import InetProofs InetProofs2 TextProofs.
From Verif Require Import Base Addr Spec SpecText SpecIpv6 SpecRange Inet AddrText Range Parser SpecParser SpecParser2 ValidateTool SpecTools SpecValidate.
From Verif Require Import ParserProofs ParserProofs2 ParserProofs3 ParserProofs6 ParserProofs7 ParserProofs8.
From Verif Require Import ParserProofs9 ParserProofs10 ParserProofs11.
From Verif Require AddrProofs2 AddrProofs3 PropText ToolsProofs PropParser PropParser2 PropParser4 PropParser5.
Local Open Scope Z_scope.

(* ---------- lists from parse_cidr ---------- *)
Section Each.
Variables (y : sys) (g : resolver) (p0 : parser) (P : addr_range -> Prop).
Hypothesis HC : forall s q q' l, same_config q p0 -> parse_cidr y g s q = (q', Ok l) -> Forall P l.
Lemma loop_each seps comments newlines : forall fuel rest p p' l, same_config p p0 ->
  parse_loop y g fuel seps comments newlines rest p = (p', Ok l) -> Forall P l.
Proof.
  induction fuel as [|k IH]; intros rest p p' l AM E; cbn [parse_loop] in E;
    (destruct rest as [|c rest]; [unfold ret in E; assert (l = []) as -> by congruence; constructor|]); [discriminate|].
  destruct (split_at seps (c :: rest)) as [piece tail]. destruct piece as [|c1 piece]; [eapply IH; [exact AM|exact E]|].
  match type of E with (let (_, _) := ?x in _) _ = _ => destruct x as [text tail'] end.
  rewrite loop_turn in E.
  destruct ((match text with [] => ret [] | _ => parse_cidr y g text end) p) as [p1 [a|x| |]] eqn:E1; try discriminate.
  destruct (parse_loop y g k seps comments newlines (skipn 1 tail') p1) as [p2 [b|x| |]] eqn:E2; try discriminate.
  assert (l = a ++ b) as -> by congruence. apply Forall_app. split.
  - destruct text as [|t text]; [unfold ret in E1; assert (a = []) as -> by congruence; constructor|].
    eapply HC; eassumption.
  - eapply IH; [|exact E2]. destruct text as [|t text].
    + unfold ret in E1. assert (p1 = p) as -> by congruence. exact AM.
    + pose proof (cidr_config y g (t :: text) p) as C. rewrite E1 in C. cbn [fst] in C.
      clear - C AM. destruct C, AM. constructor; congruence.
Qed.
Lemma entries_each s p' l : parse_entries y g s p0 = (p', Ok l) -> Forall P l.
Proof.
  intros E. destruct (separators p0) as [|c seps] eqn:S.
  - rewrite entries_single in E by exact S. eapply HC; [apply same_config_refl|exact E].
  - rewrite entries_seps in E by (rewrite S; discriminate). eapply loop_each; [apply same_config_refl|exact E].
Qed.
Definition mergeable (sort : Z) : Prop :=
  Z.land sort SORT_MERGE = 0 \/ (forall a b u, P a -> P b -> union_if_possible a b = Ok u -> P u).
Lemma merge_each : (forall a b u, P a -> P b -> union_if_possible a b = Ok u -> P u) ->
  forall rest cur l, P cur -> Forall P rest -> merge_from cur rest = Ok l -> Forall P l.
Proof.
  intros HU. induction rest as [|n rest IH]; intros cur l C F E; cbn [merge_from] in E.
  - injection E as <-. now repeat constructor.
  - inversion F as [|? ? F1 F2]; subst. destruct (union_if_possible cur n) as [u|x| |] eqn:U; try discriminate. cbn [rbind] in E.
    destruct (is_defined u && negb (is_empty u)); [eapply IH; [|exact F2|exact E]; eapply HU; [exact C|exact F1|exact U]|].
    destruct (merge_from n rest) as [l2|x| |] eqn:R; try discriminate. cbn [rbind] in E. injection E as <-.
    constructor; [exact C|]. eapply IH; [exact F1|exact F2|exact R].
Qed.
Lemma arrange_each sort l l' : mergeable sort -> arrange sort l = Ok l' -> Forall P l -> Forall P l'.
Proof.
  intros M E F. unfold arrange in E.
  set (l1 := if negb (Z.land sort (Z.lor SORT_FULL SORT_MERGE) =? 0) then stable_sort range_lt l else l) in *.
  assert (F1 : Forall P l1).
  { unfold l1. destruct (negb (Z.land sort (Z.lor SORT_FULL SORT_MERGE) =? 0)); [now apply stable_sort_forall|exact F]. }
  clearbody l1.
  destruct (if negb (Z.land sort SORT_MERGE =? 0) then merge_all l1 else Ok l1) as [l2|x| |] eqn:E2; try discriminate.
  assert (F2 : Forall P l2).
  { destruct M as [M|M]; [rewrite M in E2; injection E2 as <-; exact F1|].
    destruct (negb (Z.land sort SORT_MERGE =? 0)); [|injection E2 as <-; exact F1].
    destruct l1 as [|c l1]; [injection E2 as <-; exact F1|]. inversion F1; subst. eapply merge_each; [exact M| | |exact E2]; assumption. }
  cbn [rbind] in E.
  destruct (negb (Z.land sort SORT_IPV4_FIRST =? 0)); [injection E as <-; now apply stable_sort_forall|].
  destruct (negb (Z.land sort SORT_IPV6_FIRST =? 0)); injection E as <-; [now apply stable_sort_forall|exact F2].
Qed.
Lemma parse_each s p' l : mergeable (f_sort p0) -> parse y g s p0 = (p', Ok l) -> Forall P l.
Proof.
  intros M E. unfold parse, bind, ask, lift in E.
  destruct (parse_entries y g s p0) as [p1 [l1|x| |]] eqn:E1; try discriminate.
  assert (S : f_sort p1 = f_sort p0).
  { pose proof (PropParser2.C51_configuration_unchanged y g s p0) as C. unfold parse, bind, ask, lift in C. rewrite E1 in C.
    apply (sc_sort _ _ C). }
  rewrite S in E. injection E as _ E. eapply arrange_each; [exact M|exact E|]. eapply entries_each; exact E1.
Qed.
End Each.
Lemma parse_only y g s p p' l : allow p ALLOW_ADDRESS_RANGE = false -> Z.land (f_sort p) SORT_MERGE = 0 ->
  parse y g s p = (p', Ok l) -> Forall (fun r => has_from r = true /\ has_to r = false) l.
Proof.
  intros A M. apply parse_each; [|now left]. intros s2 q q' l2 S E.
  assert (A2 : allow q ALLOW_ADDRESS_RANGE = false) by (rewrite <- A; now apply allow_config).
  destruct (cidr_gives y g q A2 s2) as (ms & r & E2 & K). specialize (E2 (f_error q) (f_error_count q)).
  rewrite with_errors_self in E2. rewrite E in E2. exact (K l2 ltac:(congruence)).
Qed.
Lemma parse_ones y g s p p' l : allow p ALLOW_MASK = false ->
  parse y g s p = (p', Ok l) -> Forall ones l.
Proof.
  intros A. apply parse_each.
  - intros s2 q q' l2 S E. eapply cidr_ones; [|exact E]. rewrite <- A. now apply allow_config.
  - right. intros a b u Ha Hb E. destruct (union_ones a b Ha Hb) as (u2 & E2 & K). congruence.
Qed.

(* ---------- the configuration ---------- *)
Definition base_parser (y : sys) (o : validate_options) (ps : list str) (n : Z) : parser :=
  mk_parser [true; vo_address o; vo_list o; vo_list o; false; true; false; true; vo_port o; vo_mask o; false; false; false; false; false; false]
    SORT_NO (default4 ps) (default6 ps) (lit "255.255.255.255") (lit "FF:FF:FF:FF:FF:FF:FF:FF") n (vo_default_port o) [] 0.
Lemma find_char_in c s : In c s -> find_char c s <> None.
Proof.
  induction s as [|x s IH]; intros H; [destruct H|]. cbn [find_char]. destruct (x =? c) eqn:E; [discriminate|].
  destruct H as [->|H]; [lia|]. specialize (IH H). destruct (find_char c s); [discriminate|congruence].
Qed.
Lemma back_last s : back s = last s 0.
Proof. reflexivity. Qed.
(* the effect of one part *)
Lemma part_set p s : good_part s ->
  set_default_address p s = (if six_part s then with_default_address6 p (bare_part s) else with_default_address4 p s, Ok tt).
Proof.
  intros [N B]. unfold set_default_address, six_part, bare_part. destruct s as [|c s]; [congruence|]. cbn [hd] in *.
  destruct (c =? 91) eqn:E.
  - cbn [orb]. assert (c = 91) by lia. subst c. rewrite back_last, (B eq_refl). cbn [Z.eqb Pos.eqb negb tl].
    rewrite removelast_firstn_len. unfold inner. cbn [length skipn]. do 3 f_equal. lia.
  - cbn [orb]. destruct (existsb (Z.eqb 58) (c :: s)) eqn:X.
    + apply existsb_exists in X as (d & I & D). assert (d = 58) by lia. subst d.
      pose proof (find_char_in 58 (c :: s) I). destruct (find_char 58 (c :: s)); [reflexivity|congruence].
    + rewrite find_char_none; [reflexivity|]. intros I. assert (existsb (Z.eqb 58) (c :: s) = true) by (apply existsb_exists; exists 58; auto).
      congruence.
Qed.

Lemma skipn_part (a : str) b : skipn (length a + 1) (a ++ 44 :: b) = b.
Proof. induction a as [|x a IH]; [reflexivity|exact IH]. Qed.
Lemma setup_ok y o ps : good_options y o ps -> refuses_periods y ->
  exists n, protocol_ok n /\ getprotobyname y (vo_protocol o) = Found n
    /\ validate_setup y o parser_new = (base_parser y o ps n, Ok tt).
Proof.
  intros [GP GG GO (n & GN & GK)] RP. exists n. split; [exact GK|]. split; [exact GN|].
  assert (N4 : forall q, set_default_address q (lit "127.0.0.1") = (with_default_address4 q (lit "127.0.0.1"), Ok tt)) by reflexivity.
  assert (N6 : forall q, set_default_address q (lit "::") = (with_default_address6 q (lit "::"), Ok tt)) by reflexivity.
  assert (A : validate_addresses (vo_default_address o) parser_new =
    (with_default_address6 (with_default_address4 parser_new (default4 ps)) (default6 ps), Ok tt)).
  { unfold validate_addresses, default4, default6.
    destruct GP as [[N ->]|(a & b & -> & N & ->)].
    - rewrite find_char_none by exact N. inversion GG as [|? ? G1 _]; subst. unfold bind.
      rewrite N4, N6, (part_set _ _ G1). cbn [filter].
      destruct (six_part (vo_default_address o)); reflexivity.
    - rewrite find_char_first by exact N. rewrite firstn_app, firstn_all, Nat.sub_diag. cbn [firstn]. rewrite app_nil_r.
      rewrite skipn_part.
      inversion GG as [|? ? G1 GG2]; subst. inversion GG2 as [|? ? G2 _]; subst. unfold bind.
      rewrite N4, N6, (part_set _ _ G1), (part_set _ _ G2). cbn [filter].
      destruct (six_part a), (six_part b); reflexivity. }
  assert (S : s32 (vo_default_port o) = vo_default_port o).
  { unfold s32. change (2 ^ 31) with 2147483648. change (2 ^ 32) with 4294967296. rewrite Z.mod_small by lia. lia. }
  assert (D : forall q, set_default_port q (s32 (vo_default_port o)) = (with_default_port q (vo_default_port o), Ok tt)).
  { intros q. rewrite S. unfold set_default_port. replace ((vo_default_port o <? -1) || (vo_default_port o >? 65535)) with false by lia. reflexivity. }
  assert (M4 : forall q, set_default_mask y q (lit "255.255.255.255") = (with_default_mask4 q (lit "255.255.255.255"), Ok tt)).
  { intros q. unfold set_default_mask. rewrite RP by (cbn; tauto). reflexivity. }
  assert (M6 : forall q, set_default_mask y q (lit "FF:FF:FF:FF:FF:FF:FF:FF") = (with_default_mask6 q (lit "FF:FF:FF:FF:FF:FF:FF:FF"), Ok tt)) by reflexivity.
  unfold validate_setup, bind. rewrite A, D, M4, M6. unfold parser_set_protocol_str. rewrite GN.
  destruct o as [ca ad da dp li ma po pr qu]. cbn [vo_address vo_port vo_mask vo_list vo_default_port].
  unfold base_parser. cbn [vo_address vo_port vo_mask vo_list vo_default_port].
  destruct ad, po, ma, li; reflexivity.
Qed.
Lemma set_up_unique y o ps p n : getprotobyname y (vo_protocol o) = Found n -> length (f_flags p) = 16%nat ->
  set_up y o ps p -> p = base_parser y o ps n.
Proof.
  intros G L [A S A4 A6 M4 M6 P PR C M].
  assert (F : f_flags p = f_flags (base_parser y o ps n)).
  { assert (G2 : forall i, (i < 16)%nat -> nth i (f_flags p) false = existsb (Z.eqb (Z.of_nat i)) (wanted_flags o)).
    { intros i I. specialize (A (Z.of_nat i) ltac:(unfold ALLOW_max; lia)). unfold get_allow, allow in A.
      replace ((Z.of_nat i <? 0) || (Z.of_nat i >=? ALLOW_max)) with false in A by (unfold ALLOW_max; lia).
      rewrite Nat2Z.id in A. congruence. }
    apply (nth_ext _ _ false false); [exact L|]. intros i I. rewrite L in I. rewrite G2 by exact I.
    unfold wanted_flags, base_parser. cbn [f_flags]. clear - I.
    do 16 (destruct i as [|i]; [destruct (vo_address o), (vo_port o), (vo_mask o), (vo_list o); reflexivity|]). lia. }
  destruct p as [v0 v1 v2 v3 v4 v5 v6 v7 v8 v9]. unfold get_sort_order, get_default_address4, get_default_address6, get_default_mask4, get_default_mask6,
    get_default_port, parser_get_protocol, error_count, error_messages in *. cbn [f_flags f_sort f_default_address4 f_default_address6
    f_default_mask4 f_default_mask6 p_protocol f_default_port f_error f_error_count] in *. subst.
  unfold base_parser. rewrite PR in G. injection G as ->. reflexivity.
Qed.
Lemma base_set_up y o ps n : getprotobyname y (vo_protocol o) = Found n -> set_up y o ps (base_parser y o ps n).
Proof.
  intros G. constructor; try reflexivity; [|exact G]. intros flag H. unfold get_allow, ALLOW_max in *.
  replace ((flag <? 0) || (flag >=? 16)) with false by lia. f_equal.
  assert (C : flag = 0 \/ flag = 1 \/ flag = 2 \/ flag = 3 \/ flag = 4 \/ flag = 5 \/ flag = 6 \/ flag = 7 \/ flag = 8 \/ flag = 9
    \/ flag = 10 \/ flag = 11 \/ flag = 12 \/ flag = 13 \/ flag = 14 \/ flag = 15) by lia.
  clear - C. destruct o as [ca ad da dp li ma po pr qu].
  decompose [or] C; subst flag; destruct ad, po, ma, li; reflexivity.
Qed.

(* ---------- one argument ---------- *)
Section Run.
Variables (y : sys) (g : resolver) (o : validate_options) (p : parser).
Hypothesis SET : validate_setup y o parser_new = (p, Ok tt).
Hypothesis CLEAN : f_error p = [] /\ f_error_count p = 0.
Hypothesis CALM : forall s, exists l, snd (parse y g s p) = Ok l.
Lemma log_of s : (has_errors (fst (parse y g s p)) = true <-> ~ accepted y g p s)
  /\ 0 <= error_count (fst (parse y g s p)).
Proof.
  destruct CLEAN as [C1 C2]. unfold accepted. destruct (parse y g s p) as [p' r] eqn:E.
  destruct (PropParser2.C42_log_grows y g s p p' r E) as (n & added & N & EC & EM & Z0). cbn [fst].
  unfold error_count, error_messages in *. rewrite C2 in EC. rewrite C1 in EM. cbn [app] in EM.
  unfold has_errors. rewrite EM. destruct added; split; try lia; split; intros X; try discriminate; try reflexivity.
  - exfalso. apply X. pose proof (proj2 Z0 eq_refl). lia.
  - intros Y. assert (n = 0) by lia. apply Z0 in H. discriminate.
Qed.
Definition message_of (s : str) : str :=
  if has_errors (fst (parse y g s p)) && negb (vo_quiet o) then validate_message s (fst (parse y g s p)) else [].
(* the printed lines of an argument *)
Definition prints (s : str) (ls : list str) : Prop :=
  if vo_canonicalize o && negb (has_errors (fst (parse y g s p)))
  then exists l, snd (parse y g s p) = Ok l /\ Forall2 (fun r t => canonical_line y r = Ok (t ++ [10])) l ls
  else ls = [].
Lemma canonical_lines_ok : forall l ls o0, Forall2 (fun r t => canonical_line y r = Ok (t ++ [10])) l ls ->
  canonical_lines y l o0 = (o0 ++ lines ls, Ok tt).
Proof.
  intros l ls o0 F. revert o0. induction F as [|r t l ls H F IH]; intros o0; cbn [canonical_lines].
  - unfold lines. cbn [map concat]. now rewrite app_nil_r.
  - rewrite H, IH. unfold lines. cbn [map concat]. now rewrite <- !app_assoc.
Qed.
Lemma run_ok : forall inputs lss o0 e0 c0, Forall2 prints inputs lss -> 0 <= c0 ->
  exists c, validate_run y g o inputs o0 e0 c0 = (o0 ++ lines (concat lss), e0 ++ concat (map message_of inputs), c, Ok tt)
    /\ 0 <= c /\ (c = 0 <-> c0 = 0 /\ Forall (accepted y g p) inputs).
Proof.
  intros inputs lss o0 e0 c0 F. revert o0 e0 c0. induction F as [|s ls inputs lss H F IH]; intros o0 e0 c0 C0; cbn [validate_run].
  - exists c0. unfold lines. cbn [map concat]. rewrite !app_nil_r. split; [reflexivity|]. split; [exact C0|].
    split; [intros ->; split; [reflexivity|constructor]|tauto].
  - rewrite SET. destruct (log_of s) as [L1 L2]. unfold prints in H. destruct (CALM s) as (l & EL).
    cbn [map concat]. unfold message_of at 1. unfold lines in *. rewrite map_app, concat_app.
    destruct (parse y g s p) as [p' r] eqn:EP. cbn [fst snd] in *. subst r.
    destruct (has_errors p') eqn:HE.
    + assert (NA : ~ accepted y g p s) by now apply L1. unfold accepted in NA. rewrite EP in NA. cbn [fst] in NA.
      rewrite andb_false_r in H. subst ls. cbn [map concat app].
      destruct (IH o0 (if vo_quiet o then e0 else e0 ++ validate_message s p') (c0 + error_count p') ltac:(lia)) as (c & E & C1 & C2).
      exists c. rewrite E. split; [|split; [exact C1|]].
      * do 3 f_equal. destruct (vo_quiet o); cbn [andb negb app]; [reflexivity|]. now rewrite <- app_assoc.
      * rewrite C2. split; [intros [X _]; lia|]. intros [_ X]. inversion X as [|? ? X1 _]; subst. unfold accepted in X1. rewrite EP in X1. cbn [fst] in X1. lia.
    + assert (AC : accepted y g p s). { unfold accepted in *. rewrite EP in *. cbn [fst] in *. destruct (Z.eq_dec (error_count p') 0); [assumption|].
        exfalso. assert (false = true) by (apply L1; assumption). discriminate. }
      cbn [andb app]. rewrite andb_true_r in H. destruct (vo_canonicalize o).
      * destruct H as (l' & E' & H). injection E' as <-. rewrite (canonical_lines_ok l ls o0 H). unfold lines.
        destruct (IH (o0 ++ concat (map (fun l0 => l0 ++ [10]) ls)) e0 c0 C0) as (c & E & C1 & C2).
        exists c. rewrite E. split; [now rewrite <- app_assoc|]. split; [exact C1|].
        rewrite C2. split; intros [X1 X2]; (split; [exact X1|]); [now constructor|now inversion X2].
      * subst ls. cbn [map concat app]. destruct (IH o0 e0 c0 C0) as (c & E & C1 & C2). exists c. rewrite E. split; [reflexivity|]. split; [exact C1|].
        rewrite C2. split; intros [X1 X2]; (split; [exact X1|]); [now constructor|now inversion X2].
Qed.
End Run.

(* ---------- the printed lines ---------- *)
Lemma dec_no_newline n : 0 <= n -> ~ In 10 (dec_string n).
Proof.
  intros N I. destruct (decimal_dec n N) as (_ & D & _). rewrite forallb_forall in D. apply D in I. unfold is_digit in I. lia.
Qed.
Lemma text_no_newline s v : denotes s v -> ~ In 10 s.
Proof.
  intros D I. apply denotes_chars in D as [_ D]. rewrite forallb_forall in D. apply D in I.
  unfold ip_text_char, ip_char, dotted_char in I. lia.
Qed.
Lemma written_no_newline A n T : ~ In 10 A -> 0 <= n -> written A (58 :: dec_string n) T -> ~ In 10 T.
Proof.
  intros NA N W. pose proof (dec_no_newline n N) as ND.
  inversion W as [b q N1|b q|b T1]; subst; cbn [app In]; rewrite ?in_app_iff; cbn [In]; rewrite ?in_app_iff; intuition lia.
Qed.
Lemma printed_line y a : addr_wf a -> (is_v4_value (value a) -> prefix_mask 96 <= mask_value a) ->
  exists s, to_ipv4or6_string y a STRING_IP_ALL = Ok s /\ ~ In 10 s.
Proof.
  intros W K4. pose proof (AddrProofs3.get_port_range a) as PR.
  assert (V4 : is_ipv4 a = true -> is_v4_value (value a)).
  { intros I. rewrite AddrProofs2.is_ipv4_bool in I by exact W. unfold is_v4_value, v4_base in *. lia. }
  destruct (AddrProofs2.get_mask_size_spec a W) as [(k & K & MK & _)|[_ MS]].
  - assert (K5 : is_ipv4 a = true -> 96 <= k).
    { intros I. specialize (K4 (V4 I)). rewrite MK in K4. unfold prefix_mask in K4. destruct (Z_lt_ge_dec k 96) as [L|L]; [|lia]. exfalso.
      assert (2 ^ (128 - 96) < 2 ^ (128 - k)) by (apply Z.pow_lt_mono_r; lia). lia. }
    destruct (printed_all y a k W K MK K5) as (A & T & ES & DN & HW & WY & _).
    eexists. split; [exact ES|]. rewrite in_app_iff. cbn [In]. intros [I|[I|I]]; [|lia|].
    + revert I. eapply written_no_newline; [eapply text_no_newline; exact DN| |exact HW]. lia.
    + revert I. apply dec_no_newline. destruct (is_ipv4 a); lia.
  - destruct (printed_odd y a W MS (fun I => K4 (V4 I))) as (A & T & M & ES & DN & HW & WY & HM & _).
    eexists. split; [exact ES|]. rewrite in_app_iff. cbn [In]. intros [I|[I|I]]; [|lia|].
    + revert I. eapply written_no_newline; [eapply text_no_newline; exact DN| |exact HW]. lia.
    + destruct HM as [(_ & w & D & _)|(_ & t & ws & -> & Q & _)].
      * revert I. apply (text_no_newline M (v4_base + w)). left. exists w. split; [exact D|reflexivity].
      * cbn [app In] in I. rewrite in_app_iff in I. cbn [In] in I. destruct I as [I|[I|[I|[]]]]; [lia| |lia].
        revert I. apply (text_no_newline t (words_value ws)). right. exists ws. split; [exact Q|reflexivity].
Qed.
Lemma range_line y r : only r -> addr_wf (get_from r) -> printable r ->
  exists s, canonical_line y r = Ok (s ++ [10]) /\ line_of r s.
Proof.
  intros [H1 H2] W PR. destruct (printed_line y (get_from r) W PR) as (s & E & N). exists s. split.
  - unfold canonical_line, is_range. unfold has_from, has_to in *. rewrite H1, H2. cbn [andb]. rewrite E. reflexivity.
  - split; [exact N|]. intros y2 g p C R T AM AA AP.
    destruct (PropParser5.C22_every_mask_is_read_back y y2 g p (get_from r) C R T AM AA AP W PR) as (s2 & r2 & E2 & K).
    assert (s2 = s) as -> by congruence. exists r2. exact K.
Qed.
Lemma range_fails y r : only r -> addr_wf (get_from r) -> ~ printable r -> canonical_line y r = Throw E_unexpected_mask.
Proof.
  intros [H1 H2] W NP. unfold canonical_line, is_range. unfold has_from, has_to in *. rewrite H1, H2. cbn [andb].
  assert (V : is_v4_value (value (get_from r))).
  { destruct (Z_le_dec (prefix_mask 96) (mask_value (get_from r))); unfold printable in NP; [tauto|].
    unfold is_v4_value in *. destruct (Z_le_dec v4_base (value (get_from r))), (Z_lt_dec (value (get_from r)) (v4_base + 2 ^ 32)); tauto. }
  unfold to_ipv4or6_string. replace (is_ipv4 (get_from r)) with true.
  - destruct (PropText.C65_when_printing_fails y (get_from r) STRING_IP_ALL W) as (_ & _ & _ & K).
    { unfold asks. vm_compute. intros X. apply X. reflexivity. }
    rewrite K; [reflexivity|intros _; exact V| |].
    + unfold PropText.mask_wanted, asks. split; [vm_compute; discriminate|]. intros [X _]. apply X. vm_compute. reflexivity.
    + unfold printable in NP. destruct (Z_lt_le_dec (mask_value (get_from r)) (prefix_mask 96)); [assumption|tauto].
  - rewrite AddrProofs2.is_ipv4_bool by exact W. unfold is_v4_value, v4_base in *. lia.
Qed.

(* ---------- --mask ---------- *)
Section Unmasked.
Variables (y : sys) (g : resolver) (p0 : parser).
Hypothesis HG : resolver_ok g.
Hypothesis AM : allow p0 ALLOW_MASK = true.
Hypothesis AA : allow p0 ALLOW_ADDRESS_MASK = false.
Hypothesis SN : Z.land (f_sort p0) SORT_NO_EMPTY = 0.
Hypothesis D4 : f_default_mask4 p0 = lit "255.255.255.255".
Hypothesis D6 : f_default_mask6 p0 = lit "FF:FF:FF:FF:FF:FF:FF:FF".
Lemma default_refused a b four :
  wp p0 (parse_mask g (effective_mask p0 [] four) a b) (fun r ms => r = Ok a /\ ms <> []).
Proof.
  unfold effective_mask. rewrite D4, D6.
  assert (K : forall m, m <> [] -> mask_number (c_str m) 0 = Some (-1) -> wp p0 (parse_mask g m a b) (fun r ms => r = Ok a /\ ms <> [])).
  { intros m N E. unfold parse_mask. destruct m as [|c m]; [congruence|]. rewrite E. cbn [Z.eqb Pos.eqb negb].
    wallow. rewrite AA. cbn [negb]. wbind. apply wp_emit, wp_ret. split; [reflexivity|discriminate]. }
  destruct four; (apply K; [discriminate|vm_compute; reflexivity]).
Qed.
Lemma masks_refused four : forall l, wp p0 (apply_masks g [] four l) (fun r ms => exists l2, r = Ok l2 /\ (l <> [] -> ms <> [])).
Proof.
  induction l as [|am l IH]; cbn [apply_masks].
  - apply wp_ret. exists []. split; [reflexivity|congruence].
  - wask. wbind. eapply wp_conseq; [apply default_refused|]. cbv beta. intros r ms [-> N]. cbv iota.
    wbind. eapply wp_conseq; [exact IH|]. cbv beta. intros r ms2 (l2 & -> & _). cbv iota. apply wp_ret.
    eexists. split; [reflexivity|]. intros _ X. cbn [app] in X. apply app_eq_nil in X as [X _]. now apply N.
Qed.
Lemma trim_left_incl s c : In c (trim_left s) -> In c s.
Proof.
  induction s as [|x s IH]; [tauto|]. cbn [trim_left]. destruct (isspace x); [|tauto]. intros I. right. now apply IH.
Qed.
Lemma trim_incl s c : In c (trim_string s) -> In c s.
Proof.
  unfold trim_string. intros I. apply in_rev, trim_left_incl in I. rewrite <- in_rev in I. now apply trim_left_incl.
Qed.
Lemma cidr_refused s : ~ In 47 s -> wp p0 (parse_cidr y g s) (fun r ms => forall l, r = Ok l -> ms <> []).
Proof.
  intros N. destruct (cidr_made y g p0 s) as (ms & r & E & (K1 & _)). exists ms, r. split; [exact E|].
  intros l -> ->. specialize (E [] 0). cbn [flat app] in E.
  unfold parse_cidr in E. unfold bind at 1 in E. unfold allowed, ask at 1 in E.
  change (allow (with_errors p0 [] 0) ALLOW_MASK) with (allow p0 ALLOW_MASK) in E. rewrite AM in E. cbv iota in E.
  rewrite find_char_none in E by (intros X; now apply trim_incl in X).
  unfold bind at 1 in E. unfold ask at 1 in E. cbv iota in E.
  destruct (wp_run p0 _ _ (with_errors p0 [] 0) (address_ok y g p0 (made y p0) (resolver_ok g) (address_port_ok y g p0) (made_mask y p0) (fun H => H) (trim_string s) [])
    ltac:(constructor; reflexivity)) as (ms1 & r1 & E1 & _ & K).
  destruct (K HG) as [_ K2]. unfold bind at 1 in E. rewrite E1 in E. destruct r1 as [[l1 four]|x| |]; try discriminate.
  destruct (K2 _ _ eq_refl) as [_ C]. specialize (C SN).
  match type of E1 with _ = (?q, _) => set (p1 := q) in * end.
  destruct (wp_run p0 _ _ p1 (masks_refused four l1) ltac:(constructor; reflexivity)) as (ms2 & r2 & E2 & (l2 & -> & K3)).
  cbv iota in E. unfold bind at 1 in E. rewrite E2 in E. cbv iota in E. unfold bind, ask, ret in E.
  cbn [f_error_count with_errors] in E. subst p1. cbn [f_error_count with_errors] in E.
  assert (Z : 0 <> 0 + Z.of_nat (length ms1) + Z.of_nat (length ms2)).
  { destruct l1 as [|r0 l1]; [cbn [length] in C; lia|]. specialize (K3 ltac:(discriminate)). destruct ms2; [congruence|]. cbn [length]. lia. }
  apply (f_equal (fun x => f_error_count (fst x))) in E.
  destruct (0 =? 0 + Z.of_nat (length ms1) + Z.of_nat (length ms2)) in E; cbn [fst f_error_count with_errors length] in E; lia.
Qed.
Lemma loop_refused seps newlines : forall fuel rest, (length rest <= fuel)%nat -> ~ In 47 rest ->
  (exists c, In c rest /\ mem c seps = false) ->
  wp p0 (parse_loop y g fuel seps [] newlines rest) (fun r ms => forall l, r = Ok l -> ms <> []).
Proof.
  induction fuel as [|k IH]; intros rest L N (c & I & C); (destruct rest as [|x rest]; [destruct I|]); [cbn in L; lia|].
  cbn [parse_loop]. pose proof (split_at_app seps (x :: rest)) as SA.
  destruct (split_at seps (x :: rest)) as [piece tail] eqn:SE. cbn [fst snd] in SA.
  assert (LL : (length piece + length tail = S (length rest))%nat) by (rewrite <- app_length, SA; reflexivity).
  assert (NT : ~ In 47 (skipn 1 tail)).
  { intros X. apply N. rewrite <- SA. apply in_app_iff. right. destruct tail; [destruct X|now right]. }
  cbn [length] in L. destruct piece as [|c1 piece].
  - cbn [app] in SA. subst tail. cbn [skipn]. apply IH; [lia|exact NT|]. exists c. split; [|exact C].
    cbn [split_at] in SE. destruct (mem x seps) eqn:X; [|destruct (split_at seps rest); discriminate].
    destruct I as [->|I]; [congruence|exact I].
  - wbind. eapply wp_conseq; [apply cidr_refused|].
    { intros X. apply N. rewrite <- SA. apply in_app_iff. now left. }
    cbv beta. intros r ms K. destruct r as [l|e| |]; try discriminate.
    wbind. eapply wp_conseq; [apply (loop_ok y g p0 (made y p0) (resolver_ok g) (address_port_ok y g p0) (made_mask y p0) (fun H => H)
      seps [] newlines k (skipn 1 tail))|].
    { rewrite skipn_length. cbn [length] in LL. lia. }
    cbv beta. intros r ms2 _. destruct r as [l2|e| |]; try discriminate.
    apply wp_ret. intros l3 E X. apply app_eq_nil in X as [X _]. now apply (K l).
Qed.
Lemma firstn_in (n : nat) (l : str) c : In c (firstn n l) -> In c l.
Proof. intros I. rewrite <- (firstn_skipn n l). apply in_app_iff. now left. Qed.
Lemma skipn_in (n : nat) (l : str) c : In c (skipn n l) -> In c l.
Proof. intros I. rewrite <- (firstn_skipn n l). apply in_app_iff. now right. Qed.
Lemma parse_refused s : comment_chars p0 = [] -> separators p0 = [] \/ (exists c, In c s /\ mem c (separators p0) = false) ->
  ~ In 47 s -> (exists l, snd (parse y g s p0) = Ok l) -> f_error_count p0 < f_error_count (fst (parse y g s p0)).
Proof.
  intros NC S N (l & E). unfold parse in *. unfold bind at 1. unfold bind at 1 in E.
  assert (W : wp p0 (parse_entries y g s) (fun r ms => forall l, r = Ok l -> ms <> [])).
  { unfold parse_entries. wask. wask. rewrite NC. destruct (separators p0) as [|c seps] eqn:SP.
    - apply cidr_refused. intros X. apply N. unfold single_entry in X. cbv zeta in X.
      match type of X with In _ (if ?b then _ else _) => destruct b end; [|apply firstn_in in X]; eapply skipn_in; exact X.
    - wallow. destruct S as [S|S]; [discriminate|]. now apply loop_refused. }
  destruct (wp_run p0 _ _ p0 W (same_config_refl p0)) as (ms & r & E1 & K). rewrite E1 in *.
  destruct r as [l1|e| |]; try discriminate. specialize (K _ eq_refl).
  unfold bind, ask, lift. cbn [fst f_error_count with_errors]. destruct ms; [congruence|]. cbn [length]. lia.
Qed.
End Unmasked.
