(* Numeric entries: what is accepted, what is rejected, and the printed form
   of an address. *)
From Coq Require Import ZifyBool ZifyNat.
From Verif Require Import Base Addr Spec Range SpecRange Inet SpecText AddrText Parser SpecParser SpecParser2.
From Verif Require Import AddrProofs AddrProofs2 AddrProofs3 AddrProofs4 InetProofs InetProofs2 TextProofs
  ParserProofs ParserProofs2 ParserProofs3 ParserProofs7 ParserProofs8 ParserProofs9.
From Verif Require PropText.
Local Open Scope Z_scope.

(* ---------- one entry without a mask ---------- *)

Lemma plain_parse y g p s (L : list addr_range -> Prop) :
  nobody (separator p) -> nobody (starts_comment p) -> unsorted p ->
  (allow p ALLOW_MASK = false \/ (f_default_mask4 p = [] /\ f_default_mask6 p = [])) ->
  trimmed s -> ~ In 47 s ->
  wp p (parse_address y g s []) (fun r ms => ms = [] /\ exists l b, r = Ok (l, b) /\ L l) ->
  exists l, parse y g s p = (p, Ok l) /\ L l.
Proof.
  intros NS NC U M T N H.
  assert (wp p (parse_cidr y g s) (fun r ms => ms = [] /\ exists l, r = Ok l /\ L l)) as W.
  { assert (trim_string s = s) as TS by (now apply trimmed_trim).
    destruct (allow p ALLOW_MASK) eqn:AM.
    - destruct M as [M|[E4 E6]]; [discriminate|].
      apply (cidr_with_mask y g p s s []); [exact AM|rewrite TS; now apply split_mask_none|].
      unfold masked. wbind. eapply wp_conseq; [exact H|]. cbv beta. intros r ms (-> & l & b & -> & HL).
      eapply wp_conseq; [apply (no_masks g p b E4 E6)|]. cbv beta. intros r ms (-> & ->). cbn [app after]. eauto.
    - apply cidr_without_mask; [exact AM|]. rewrite TS. wbind. eapply wp_conseq; [exact H|]. cbv beta.
      intros r ms (-> & l & b & -> & HL). apply wp_ret. cbn [app fst]. eauto. }
  destruct (parse_wp y g s p _ NS NC U T W) as (ms & r & E & -> & l & -> & HL).
  exists l. split; [|exact HL]. rewrite E. cbn [flat map concat length]. rewrite app_nil_r, Z.add_0_r, with_errors_self. reflexivity.
Qed.

Lemma plain_fails y g p s :
  nobody (separator p) -> nobody (starts_comment p) -> unsorted p -> trimmed s -> ~ In 47 s ->
  addr_fails y g p s [] ->
  exists p2, parse y g s p = (p2, Ok []) /\ f_error_count p < f_error_count p2.
Proof.
  intros NS NC U T N H.
  assert (trim_string s = s) as TS by (now apply trimmed_trim).
  assert (fails p (parse_cidr y g s)) as W.
  { destruct (allow p ALLOW_MASK) eqn:AM; [|now apply (cidr_fails y g p s s []); auto].
    apply (cidr_fails y g p s s []); [|exact H]. left. split; [exact AM|]. rewrite TS. now apply split_mask_none. }
  destruct (parse_wp y g s p _ NS NC U T W) as (ms & r & E & -> & NE).
  destruct ms as [|m ms]; [congruence|]. eexists. split; [exact E|]. cbn [f_error_count with_errors length]. lia.
Qed.

(* ---------- text which is not an address ---------- *)

Section Unknown.
Variables (y : sys) (g : resolver) (p0 : parser) (A : str).
Hypothesis Hlookup : allow p0 ALLOW_ADDRESS_LOOKUP = false.
Hypothesis NE : A <> [].
Hypothesis N0 : ~ In 0 A.
Hypothesis ND : forall v, ~ denotes A v.
Hypothesis N45 : ~ In 45 A \/ allow p0 ALLOW_ADDRESS_RANGE = false.

Lemma not_pton : inet_pton4 A = None /\ inet_pton6 A = None.
Proof.
  split.
  - destruct (inet_pton4 A) as [q|] eqn:E; [|reflexivity]. exfalso.
    destruct (PropText.C20_only_dotted_accepted A q E) as (_ & _ & D). eapply ND. left. eauto.
  - destruct (inet_pton6 A) as [q|] eqn:E; [|reflexivity]. exfalso. eapply ND. apply denotes_iff. right. eauto.
Qed.
Lemma numeric_unknown port dp : fails p0 (numeric_address A port dp).
Proof.
  clear N45.
  unfold numeric_address. wbind. apply wp_ask; [reflexivity|]. rewrite c_str_id by exact N0.
  destruct not_pton as [-> ->]. apply fails_fail.
Qed.
Lemma address_port_unknown P ipv6 : fails p0 (parse_address_port y g A P ipv6).
Proof.
  clear N45.
  unfold parse_address_port. cbv zeta. wallow.
  match goal with |- wp _ (if ?b then _ else _) _ => destruct b end; [apply fails_fail|].
  wbind. apply wp_ask; [reflexivity|]. wallow.
  replace (match A with [] => true | _ => false end) with false by (destruct A; congruence). cbn [andb].
  wbind. apply wp_ask; [reflexivity|]. wallow. rewrite Hlookup. wallow.
  match goal with |- wp _ (if ?b then _ else _) _ => destruct b end; [|apply numeric_unknown].
  destruct (convert_string _ _); [|apply fails_fail].
  destruct (_ || _); [apply fails_fail|]. destruct (_ && _); [apply fails_fail|]. apply numeric_unknown.
Qed.
Lemma range_port_unknown P ipv6 : fails p0 (parse_address_range_port y g A P ipv6).
Proof.
  unfold parse_address_range_port. wallow.
  replace (if allow p0 ALLOW_ADDRESS_RANGE then find_char 45 A else None) with (@None nat); [apply address_port_unknown|].
  destruct (allow p0 ALLOW_ADDRESS_RANGE) eqn:AR; [|reflexivity]. destruct N45 as [N|N]; [|discriminate].
  symmetry. now apply find_char_none.
Qed.
Lemma fails4 s : fails p0 (parse_address4 y g s) -> wp p0 (do! l <- parse_address4 y g s in ret (l, true))
  (fun r ms => exists b, r = Ok ([], b) /\ ms <> []).
Proof. intros H. eapply wp_conseq; [apply pair_fails, H|]. intros r ms X. exists true. exact X. Qed.
Lemma fails6 s k : fails p0 (parse_address6 y g s k) -> wp p0 (do! l <- parse_address6 y g s k in ret (l, false))
  (fun r ms => exists b, r = Ok ([], b) /\ ms <> []).
Proof. intros H. eapply wp_conseq; [apply pair_fails, H|]. intros r ms X. exists false. exact X. Qed.

(* without brackets, with or without a port *)
Lemma unknown_plain P mask : ~ In 58 A -> hd 0 A <> 91 -> (P = [] \/ exists D, P = 58 :: D /\ ~ In 58 D) ->
  addr_fails y g p0 (A ++ P) mask.
Proof.
  intros N58 N91 HP. unfold addr_fails, parse_address. cbv zeta.
  assert (count_char 58 (A ++ P) <= 1) as CC.
  { rewrite count_char_app, (count_char_none 58 A) by exact N58.
    destruct HP as [->|(D & -> & D58)]; [unfold count_char; cbn; lia|]. rewrite count_char_cons, count_char_none by exact D58. lia. }
  replace (count_char 58 (A ++ P) >=? 2) with false by lia.
  assert (fails p0 (parse_address4 y g (A ++ P))) as F4.
  { unfold parse_address4. wallow. wallow. destruct HP as [->|(D & -> & D58)].
    - rewrite app_nil_r, find_char_none by exact N58. apply range_port_unknown.
    - rewrite find_char_first by exact N58. rewrite firstn_length_app.
      destruct (_ || _); [apply range_port_unknown|apply fails_fail]. }
  assert (fails p0 (parse_address6 y g (A ++ P) (count_char 58 (A ++ P)))) as F6.
  { unfold parse_address6. wallow. wallow. destruct A as [|c b] eqn:EA; [congruence|]. cbn [app hd] in *.
    replace (c =? 91) with false by lia. change (c :: b ++ P) with ((c :: b) ++ P) in *. rewrite <- EA in *.
    destruct HP as [->|(D & -> & D58)].
    - rewrite app_nil_r in *. rewrite count_char_none by exact N58. cbn [Z.eqb]. apply range_port_unknown.
    - rewrite count_char_app, (count_char_none 58 A), count_char_cons, (count_char_none 58 D) by assumption.
      cbn [Z.add Z.eqb Pos.eqb]. rewrite find_char_first by exact N58. rewrite firstn_length_app. apply range_port_unknown. }
  destruct A as [|c b] eqn:EA; [congruence|]. cbn [app].
  replace (c =? 58) with false by (symmetry; apply Z.eqb_neq; intros ->; apply N58; now left).
  change (c :: b ++ P) with ((c :: b) ++ P). rewrite <- EA in *.
  destruct (_ || _); [now apply fails6|]. wallow. wallow.
  destruct (_ && _); [|now apply fails4]. destruct (find_char 58 (A ++ P)); [|now apply fails4].
  match goal with |- wp _ (if ?b then _ else _) _ => destruct b end; [now apply fails6|now apply fails4].
Qed.
(* in brackets, with whatever follows *)
Lemma unknown_brackets R mask : ~ In 93 A -> addr_fails y g p0 (91 :: A ++ 93 :: R) mask.
Proof.
  intros N93. unfold addr_fails, parse_address. cbv zeta.
  assert (forall k, fails p0 (parse_address6 y g (91 :: A ++ 93 :: R) k)) as F6.
  { intros k. unfold parse_address6. wallow. wallow. cbn [Z.eqb Pos.eqb].
    assert (find_char 93 (91 :: A ++ 93 :: R) = Some (length (91 :: A))) as ->.
    { apply (find_char_first 93 (91 :: A)). intros [X|X]; [discriminate|]. contradiction. }
    replace (skipn (length (91 :: A) + 1) (91 :: A ++ 93 :: R)) with R by (symmetry; apply (skipn_length_app (91 :: A))).
    replace (firstn (length (91 :: A) - 1) (skipn 1 (91 :: A ++ 93 :: R))) with A
      by (cbn [length skipn]; rewrite Nat.sub_succ, Nat.sub_0_r; symmetry; apply firstn_length_app).
    destruct R as [|c R]; [apply range_port_unknown|]. destruct (negb (c =? 58)); [apply fails_fail|].
    destruct (_ && _); [apply fails_fail|apply range_port_unknown]. }
  cbn [Z.eqb Pos.eqb orb]. destruct (_ >=? 2); now apply fails6.
Qed.
(* with two colons or more and no brackets *)
Lemma unknown_bare mask : two_colons A -> hd 0 A <> 91 -> addr_fails y g p0 A mask.
Proof.
  intros T N91. apply two_colons_count in T. unfold addr_fails, parse_address. cbv zeta.
  replace (count_char 58 A >=? 2) with true by lia. apply fails6.
  unfold parse_address6. wallow. wallow.
  replace (match A with c :: _ => c =? 91 | [] => false end) with false by (destruct A; cbn [hd] in N91; [reflexivity|lia]).
  replace (count_char 58 A =? 1) with false by lia. apply range_port_unknown.
Qed.
End Unknown.

(* ---------- the printed form ---------- *)

Lemma decimal_dec n : 0 <= n -> decimal (dec_string n) n.
Proof. intros H. now destruct (PropText.plain_dec_string n H). Qed.
Lemma to_string_dec n : 0 <= n -> to_string_int n = dec_string n.
Proof. intros H. unfold to_string_int. now replace (n <? 0) with false by lia. Qed.
Lemma ntop_denotes4 (y : sys) a : addr_wf a -> is_ipv4 a = true -> denotes (inet_ntop4 (skipn 12 (s6 a))) (value a)
  /\ ~ In 58 (inet_ntop4 (skipn 12 (s6 a))).
Proof.
  intros W I. assert (is_v4_value (value a)) as V by (rewrite is_ipv4_bool in I by auto; unfold is_v4_value, v4_base in *; lia).
  destruct (PropText.C20_dotted_round_trip y a W V) as (s & E & _ & D & _).
  rewrite PropText.text4_address_only, I in E.
  assert (s = inet_ntop4 (skipn 12 (s6 a))) as ES by congruence. rewrite <- ES. clear E ES. split.
  - left. exists (value a - v4_base). split; [exact D|lia].
  - destruct D as (b0 & b1 & b2 & b3 & sa & sb & sc & sd & D). decompose [and] D.
    assert (forall t v, plain_decimal t v -> ~ In 58 t) as N.
    { intros t v ((_ & F & _) & _) X. rewrite forallb_forall in F. specialize (F _ X). discriminate. }
    subst s. rewrite !in_app_iff.
    intros X. repeat match type of X with _ \/ _ => destruct X as [X|X] end;
      try (eapply N; [|exact X]; eassumption); try (destruct X as [X|[]]; discriminate X).
Qed.
Lemma ntop_denotes6 a : addr_wf a -> denotes (inet_ntop6 (s6 a)) (value a).
Proof. intros W. apply denotes_iff. right. exists (s6 a). split; [apply ntop6_pton6, (wf_ip _ W)|reflexivity]. Qed.

Lemma printed_all y a k : addr_wf a -> 0 <= k <= 128 -> mask_value a = prefix_mask k ->
  (is_ipv4 a = true -> 96 <= k) ->
  exists A T, to_ipv4or6_string y a STRING_IP_ALL
      = Ok (T ++ 47 :: dec_string (if is_ipv4 a then k - 96 else k))
    /\ denotes A (value a) /\ written A (58 :: dec_string (get_port a)) T
    /\ way T = is_ipv4 a
    /\ (is_ipv4 a = true -> A = inet_ntop4 (skipn 12 (s6 a)) /\ T = A ++ 58 :: dec_string (get_port a)).
Proof.
  intros W K MK K4.
  assert (get_mask_size a = k) as MS by (apply get_mask_size_iff; [exact W|lia|]; split; [lia|exact MK]).
  unfold to_ipv4or6_string. destruct (is_ipv4 a) eqn:I.
  - destruct (ntop_denotes4 y a W I) as [DN N58].
    exists (inet_ntop4 (skipn 12 (s6 a))), (inet_ntop4 (skipn 12 (s6 a)) ++ 58 :: dec_string (get_port a)).
    split; [|split; [exact DN|split; [now apply written_plain|split; [|now split]]]].
    + unfold to_ipv4_string. change (shows_address STRING_IP_ALL) with true. rewrite I. cbn [negb].
      change (has STRING_IP_ALL STRING_IP_DEFAULT_AS_ASTERISK) with false. cbn [andb rbind].
      unfold port_text. change (shows_port STRING_IP_ALL) with true.
      change (has STRING_IP_ALL STRING_IP_PORT_NAME) with false. change (shows_address STRING_IP_ALL) with true. cbn [rbind].
      unfold mask_text4. replace (shows_mask STRING_IP_ALL a) with true
        by (unfold shows_mask; change (has STRING_IP_ALL STRING_IP_MASK_IF_NEEDED) with false; cbn [negb]; now rewrite orb_true_r).
      replace (is_mask_ipv4_compatible a) with true
        by (symmetry; apply mask_ipv4_compatible_value; [exact W|]; rewrite MK; specialize (K4 eq_refl);
            unfold prefix_mask; apply Z.sub_le_mono_l, Z.pow_le_mono_r; lia).
      cbn [negb]. unfold AddrText.mask_bits. change (has STRING_IP_ALL STRING_IP_MASK_AS_ADDRESS) with false. rewrite MS. cbv zeta.
      replace (k =? -1) with false by lia. change (slash STRING_IP_ALL) with [47]. cbn [rbind].
      specialize (K4 eq_refl). rewrite to_string_dec by lia. now rewrite <- !app_assoc.
    + unfold way. destruct (denotes_chars _ _ DN) as [NE F]. destruct (inet_ntop4 _) as [|c r] eqn:E; [congruence|].
      cbn [app forallb] in *. apply andb_prop in F as [F _].
      replace (c =? 91) with false by (destruct (c =? 91) eqn:X; [apply Z.eqb_eq in X; subst c; discriminate|reflexivity]).
      change (c :: r ++ 58 :: dec_string (get_port a)) with ((c :: r) ++ 58 :: dec_string (get_port a)).
      rewrite count_char_app, (count_char_none 58 (c :: r)) by exact N58. rewrite count_char_cons, count_char_none; [reflexivity|].
      destruct (decimal_dec (get_port a)) as (_ & DD & _); [apply get_port_range|]. intros X. rewrite forallb_forall in DD.
      specialize (DD _ X). discriminate.
  - exists (inet_ntop6 (s6 a)), ([91] ++ inet_ntop6 (s6 a) ++ [93] ++ 58 :: dec_string (get_port a)).
    split; [|split; [now apply ntop_denotes6|split; [apply written_brackets|split; [reflexivity|discriminate]]]].
    unfold to_ipv6_string.
    assert (ip_text6 a STRING_IP_ALL = ([91] ++ inet_ntop6 (s6 a) ++ [93], true)) as ->.
    { unfold ip_text6. change (shows_address STRING_IP_ALL) with true.
      change (has STRING_IP_ALL STRING_IP_DEFAULT_AS_ASTERISK) with false.
      change (has STRING_IP_ALL STRING_IP_DEFAULT_AS_IPV4) with false. change (brackets STRING_IP_ALL) with true.
      destruct (is_default a) eqn:F; [|reflexivity]. rewrite default6 by auto. reflexivity. }
    unfold port_text. change (shows_port STRING_IP_ALL) with true.
    change (has STRING_IP_ALL STRING_IP_PORT_NAME) with false. change (shows_address STRING_IP_ALL) with true. cbn [rbind].
    unfold mask_text6. replace (shows_mask STRING_IP_ALL a) with true
      by (unfold shows_mask; change (has STRING_IP_ALL STRING_IP_MASK_IF_NEEDED) with false; cbn [negb]; now rewrite orb_true_r).
    unfold AddrText.mask_bits. change (has STRING_IP_ALL STRING_IP_MASK_AS_ADDRESS) with false. rewrite MS. cbv zeta.
    replace (k =? -1) with false by lia. change (slash STRING_IP_ALL) with [47]. rewrite to_string_dec by lia.
    now rewrite <- !app_assoc.
Qed.

(* ---------- entries ---------- *)

Section Entries.
Variables (y : sys) (g : resolver) (p : parser) (body P s : str) (n : Z) (d : bool).
Hypothesis NS : nobody (separator p).
Hypothesis NC : nobody (starts_comment p).
Hypothesis U : unsorted p.
Hypothesis HM : allow p ALLOW_MASK = false \/ (f_default_mask4 p = [] /\ f_default_mask6 p = []).
Hypothesis NE : body <> [].
Hypothesis HB : forallb body_char body = true.
Hypothesis HP : port_part p P n d.
Hypothesis HW : written body P s.

Lemma written_parse (L : list addr_range -> Prop) :
  (forall ipv6, wp p (parse_address_range_port y g body (skipn 1 P) ipv6)
     (fun r ms => ms = [] /\ exists l, r = Ok l /\ L l)) ->
  exists l, parse y g s p = (p, Ok l) /\ L l.
Proof.
  intros H. destruct (written_trimmed p body P s n d NE HB HP HW) as [T N].
  apply plain_parse; auto. apply (written_address y g p body P s n d NE HB HP HW).
  eapply wp_conseq; [apply H|]. cbv beta. intros r ms (-> & l & -> & HL). split; [reflexivity|]. eauto.
Qed.
End Entries.
