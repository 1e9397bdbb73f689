(* Property C79: reading back the printed form of a range. *)
From Coq Require Import ZifyBool ZifyNat.
From Verif Require Import Base Addr Spec Range SpecRange Inet SpecText SpecIpv6 AddrText Parser SpecParser SpecParser2.
From Verif Require AddrProofs AddrProofs2 AddrProofs3 AddrProofs4 ParserProofs ParserProofs2 ParserProofs3 ParserProofs7 ParserProofs8
  ParserProofs9 ParserProofs10 ParserProofs11 PropAddr PropText PropParser PropParser2 PropParser4 PropParser5.
Import AddrProofs AddrProofs2 AddrProofs4 ParserProofs ParserProofs2 ParserProofs3 ParserProofs7 ParserProofs8 ParserProofs9
  ParserProofs10 ParserProofs11 PropAddr PropParser PropParser2 PropParser4 PropParser5.
Local Open Scope Z_scope.

(* The text of an IPv4 address printed in full. *)
Lemma printed4 y a k : addr_wf a -> 96 <= k <= 128 -> mask_value a = prefix_mask k -> is_ipv4 a = true ->
  let A := inet_ntop4 (skipn 12 (s6 a)) in
  to_ipv4or6_string y a STRING_IP_ALL = Ok (A ++ (58 :: dec_string (get_port a)) ++ 47 :: dec_string (k - 96)).
Proof.
  intros W K MK I. cbv zeta.
  destruct (printed_all y a k W ltac:(lia) MK ltac:(lia)) as (A & T & ES & _ & _ & _ & H).
    destruct (H I) as [-> ->]. rewrite I in ES. rewrite ES. now rewrite <- app_assoc.
Qed.
Lemma printed4_address y a : is_ipv4 a = true ->
  to_ipv4or6_string y a STRING_IP_BRACKET_ADDRESS = Ok (inet_ntop4 (skipn 12 (s6 a))).
Proof.
  intros I. unfold to_ipv4or6_string. rewrite I. unfold to_ipv4_string.
    change (shows_address STRING_IP_BRACKET_ADDRESS) with true. rewrite I. cbn [negb].
    change (has STRING_IP_BRACKET_ADDRESS STRING_IP_DEFAULT_AS_ASTERISK) with false. cbn [andb rbind].
    unfold port_text, mask_text4, shows_mask. change (shows_port STRING_IP_BRACKET_ADDRESS) with false. cbn [rbind].
    match goal with |- context[has ?m ?f && ?x] => change (has m f) with false end. cbn [andb rbind]. now rewrite !app_nil_r.
Qed.

Lemma range4_read y y2 g p r M m :
  converts_decimals y2 -> takes_numbers p ->
  get_allow p ALLOW_ADDRESS_RANGE = Ok true ->
  get_allow p ALLOW_PORT = Ok true \/ get_allow p ALLOW_REQUIRED_PORT = Ok true ->
  range_wf r -> full r -> nonempty r ->
  is_v4_value (lo r) -> is_v4_value (hi r) ->
  to_ipv4or6_string y (f_to r) STRING_IP_ALL
    = Ok (inet_ntop4 (skipn 12 (s6 (f_to r))) ++ (58 :: dec_string (get_port (f_to r))) ++ 47 :: M) ->
  (forall T r1, trimmed T -> ~ In 47 T -> has_address T -> syntax (way T) p T -> parse y2 g T p = (p, Ok [r1]) ->
    limit (way T) r1 = 32 -> exists r2, parse y2 g (T ++ 47 :: M) p = (p, Ok [r2])
      /\ has_from r2 = has_from r1 /\ has_to r2 = has_to r1 /\ get_to r2 = get_to r1
      /\ exists b, get_from r2 = set_mask (get_from r1) b /\ num b = m) ->
  exists s r2, range_to_string y r STRING_IP_ALL = Ok s
    /\ parse y2 g s p = (p, Ok [r2])
    /\ full r2 /\ (forall v, element r2 v <-> element r v)
    /\ get_port (get_from r2) = get_port (get_to r) /\ get_port (get_to r2) = get_port (get_to r)
    /\ mask_value (get_from r2) = m.
Proof.
  intros C TN AR AP [WF WT] [HF HT] [_ LH] V1 V2 ES KM.
  unfold lo, hi in *. rewrite HF, HT in *. unfold get_to in *. unfold range_to_string, has_from, has_to.
  assert (is_ipv4 (f_from r) = true) as I1 by (now apply is_ipv4_value).
  assert (is_ipv4 (f_to r) = true) as I2 by (now apply is_ipv4_value).
  assert (is_empty r || negb (is_defined r) = false) as ->.
  { unfold is_empty, is_defined, is_range. rewrite HF, HT. rewrite gt_value by assumption. replace (value (f_from r) >? value (f_to r)) with false by lia. reflexivity. }
  rewrite HF, HT. cbn [andb].
  change (Z.land STRING_IP_ALL (Z.lor STRING_IP_ADDRESS STRING_IP_BRACKET_ADDRESS)) with STRING_IP_BRACKET_ADDRESS.
  rewrite printed4_address by exact I1. rewrite ES. cbn [rbind].
  destruct (ntop_denotes4 y _ WF I1) as [DA NA]. destruct (ntop_denotes4 y _ WT I2) as [DB NB].
  set (A := inet_ntop4 (skipn 12 (s6 (f_from r)))) in *. set (B := inet_ntop4 (skipn 12 (s6 (f_to r)))) in *.
  set (P := 58 :: dec_string (get_port (f_to r))) in *.
  assert (port_part p P (get_port (f_to r)) true) as HP.
  { pose proof (AddrProofs3.get_port_range (f_to r)). apply port_given; [apply decimal_dec; lia|lia|exact AP]. }
  set (T := (A ++ [45] ++ B) ++ P) in *.
  assert (written (A ++ [45] ++ B) P T) as HW.
  { apply written_plain. rewrite !in_app_iff. intros [X|[X|X]]; try contradiction. destruct X as [X|[]]. discriminate. }
  destruct (C77_both_ends y2 g p A _ B _ P _ true T C TN AR DA DB HP HW) as [H _].
  destruct (H ltac:(left; exact LH)) as (r1 & E1 & F1 & T1 & SA & SB). clear H.
  destruct (denotes_chars _ _ DA) as [NEA FA]. destruct (denotes_chars _ _ DB) as [NEB FB].
  assert (A ++ [45] ++ B <> []) as NE by (destruct A; discriminate).
  assert (forallb body_char (A ++ [45] ++ B) = true) as FAB by (rewrite !forallb_app, (ip_body A), (ip_body B) by assumption; reflexivity).
  destruct (written_trimmed p _ _ T _ _ NE FAB HP HW) as [TT N47].
  destruct (written_has_address p _ _ T _ _ NE FAB HP HW) as [HA SY].
  assert (way T = true) as WY.
  { unfold way, T. destruct A as [|c A'] eqn:EA; [congruence|]. cbn [app].
    cbn [forallb] in FA. apply andb_prop in FA as [FC _].
    replace (c =? 91) with false by (destruct (c =? 91) eqn:X; [apply Z.eqb_eq in X; subst c; discriminate|reflexivity]).
    change (c :: (A' ++ 45 :: B) ++ P) with (((c :: A') ++ [45] ++ B) ++ P). rewrite <- EA in *.
    rewrite count_char_app, (count_char_none 58 (A ++ [45] ++ B)).
    2:{ rewrite !in_app_iff. intros [X|[X|X]]; try contradiction. destruct X as [X|[]]. discriminate. }
    unfold P. rewrite count_char_cons, count_char_none; [reflexivity|].
    destruct (decimal_dec (get_port (f_to r))) as (_ & DD & _); [apply AddrProofs3.get_port_range|].
    intros X. rewrite forallb_forall in DD. specialize (DD _ X). discriminate. }
  assert (is_ipv4 (get_from r1) = true) as I.
  { apply is_ipv4_value; [apply SA|]. now rewrite (st_value _ _ _ _ _ _ SA). }
  assert (limit (way T) r1 = 32) as LL by (unfold limit; now rewrite WY, I).
  destruct (KM T r1 TT N47 HA SY E1 LL) as (r2 & E2 & B1 & B2 & B3 & b & B4 & B5).
  change (get_to r2 = get_to r1) in B3.
  exists (T ++ 47 :: M), r2.
  split; [unfold T; now rewrite <- !app_assoc|]. split; [exact E2|].
  unfold full, element, lo, hi. change (f_has_from r2) with (has_from r2). change (f_has_to r2) with (has_to r2).
  change (f_from r2) with (get_from r2). change (f_to r2) with (get_to r2).
  rewrite B1, B2, B3, B4, F1, T1, HF, HT.
  change (value (set_mask (get_from r1) b)) with (value (get_from r1)).
  rewrite (st_value _ _ _ _ _ _ SA), (st_value _ _ _ _ _ _ SB).
  split; [now split|]. split; [intros v; tauto|].
  split; [exact (st_port _ _ _ _ _ _ SA)|]. split; [exact (st_port _ _ _ _ _ _ SB)|].
  exact B5.
Qed.

(* ---------- C79 ---------- *)
(* An IPv4 range with at least one address in it, printed in full: the same
   addresses are read back. Both ends get the port, and the first the mask,
   which are printed after the second. *)
Theorem C79_ipv4_range_partial : forall y y2 g p r k,
  converts_decimals y2 -> takes_numbers p ->
  get_allow p ALLOW_ADDRESS_RANGE = Ok true -> get_allow p ALLOW_MASK = Ok true ->
  get_allow p ALLOW_PORT = Ok true \/ get_allow p ALLOW_REQUIRED_PORT = Ok true ->
  range_wf r -> full r -> nonempty r ->
  is_v4_value (lo r) -> is_v4_value (hi r) ->
  96 <= k <= 128 -> mask_value (get_to r) = prefix_mask k ->
  exists s r2, range_to_string y r STRING_IP_ALL = Ok s
    /\ parse y2 g s p = (p, Ok [r2])
    /\ full r2 /\ (forall v, element r2 v <-> element r v)
    /\ get_port (get_from r2) = get_port (get_to r) /\ get_port (get_to r2) = get_port (get_to r)
    /\ mask_value (get_from r2) = mask_value (get_to r).
Proof.
  intros y y2 g p r k C TN AR AM AP W F NE V1 V2 K MK.
  rewrite MK. apply (range4_read y y2 g p r (dec_string (k - 96)) (prefix_mask k)); auto.
  - apply printed4; [apply W|exact K|exact MK|]. apply is_ipv4_value; [apply W|]. unfold hi in V2. destruct F as [_ HT]. now rewrite HT in V2.
  - intros T r1 TT N47 HA SY E1 LL.
    destruct (C47_numeric_mask y2 g T (dec_string (k - 96)) (k - 96) p (way T) [r1] (tn_separator p TN) (tn_comment p TN)
      (tn_unsorted p TN) AM TT N47 HA SY (decimal_dec (k - 96) ltac:(lia)) E1) as [H _].
    destruct H as (l2 & E2 & F2); [constructor; [rewrite LL; lia|constructor]|].
    inversion F2 as [|x r2 l l' MB F3 EX EY]. subst x l l2. inversion F3. subst l'.
    rewrite LL in MB. destruct MB as (B1 & B2 & B3 & m & B4 & B5). exists r2. split; [exact E2|].
    split; [exact B1|]. split; [exact B2|]. split; [exact B3|]. exists m. split; [exact B4|]. rewrite B5. f_equal. lia.
Qed.
Print Assumptions C79_ipv4_range_partial.

(* Every mask of the last address, as printed: also one which is not a prefix
   (see C22: below 96 ones, the mask of an IPv4 address cannot be printed). *)
Theorem C79_ipv4_every_mask_partial : forall y y2 g p r,
  converts_decimals y2 -> resolves_numbers g -> takes_numbers p ->
  get_allow p ALLOW_ADDRESS_RANGE = Ok true -> get_allow p ALLOW_MASK = Ok true -> get_allow p ALLOW_ADDRESS_MASK = Ok true ->
  get_allow p ALLOW_PORT = Ok true \/ get_allow p ALLOW_REQUIRED_PORT = Ok true ->
  range_wf r -> full r -> nonempty r ->
  is_v4_value (lo r) -> is_v4_value (hi r) ->
  prefix_mask 96 <= mask_value (get_to r) ->
  exists s r2, range_to_string y r STRING_IP_ALL = Ok s
    /\ parse y2 g s p = (p, Ok [r2])
    /\ full r2 /\ (forall v, element r2 v <-> element r v)
    /\ get_port (get_from r2) = get_port (get_to r) /\ get_port (get_to r2) = get_port (get_to r)
    /\ mask_value (get_from r2) = mask_value (get_to r).
Proof.
  intros y y2 g p r C HG TN AR AM AA AP W F NE V1 V2 K.
  assert (addr_wf (get_to r)) as WT by apply W.
  destruct (AddrProofs2.get_mask_size_spec (get_to r) WT) as [(k & K0 & MK & _)|[_ MS]].
  { apply (C79_ipv4_range_partial y y2 g p r k); auto. rewrite MK in K. unfold prefix_mask in K.
    destruct (Z_lt_ge_dec k 96) as [L|L]; [|lia]. exfalso.
    assert (2 ^ (128 - 96) < 2 ^ (128 - k)) by (apply Z.pow_lt_mono_r; lia). lia. }
  assert (is_ipv4 (get_to r) = true) as I.
  { apply is_ipv4_value; [apply W|]. unfold hi in V2. destruct F as [_ HT]. now rewrite HT in V2. }
  destruct (printed_odd y (get_to r) WT MS (fun _ => K)) as (A & T0 & M & ES & _ & _ & _ & HM & HAT).
  destruct (HAT I) as [-> ->]. rewrite I in HM.
  apply (range4_read y y2 g p r M (mask_value (get_to r))); auto.
  - unfold get_to in ES. rewrite ES. now rewrite <- app_assoc.
  - intros T r1 TT N47 HA SY E1 LL.
    destruct (C78_address_mask y2 g T M _ _ p (way T) [r1] (tn_separator p TN) (tn_comment p TN) (tn_unsorted p TN)
      AM TT N47 HA SY HG HM E1) as [H _].
    destruct H as (l2 & E2 & F2); [constructor; [exact LL|constructor]|exact AA|].
    inversion F2 as [|x r2 l l' MB F3 EX EY]. subst x l l2. inversion F3. subst l'.
    destruct MB as (B1 & B2 & B3 & m & B4 & B5 & _). exists r2. split; [exact E2|].
    split; [exact B1|]. split; [exact B2|]. split; [exact B3|]. exists m. now split.
Qed.
Print Assumptions C79_ipv4_every_mask_partial.

(* A range whose first address is not an IPv4 address is printed as "[A]-...",
   which every parser rejects. *)
Lemma six_then_dash y g p A rest m : ~ In 93 A ->
  wp p (parse_address y g ([91] ++ A ++ [93] ++ 45 :: rest) m) (fun r ms => ms <> [] /\ exists b, r = Ok ([], b)).
Proof.
  intros N. set (s := [91] ++ A ++ [93] ++ 45 :: rest). 
  assert (wp p (do! l <- parse_address6 y g s (count_char 58 s) in ret (l, false)) (fun r ms => ms <> [] /\ exists b, r = Ok ([], b))) as K.
  { unfold parse_address6. wbind. wallow. wallow. unfold s. cbn [app]. cbn [Z.eqb Pos.eqb].
    replace (find_char 93 (91 :: A ++ 93 :: 45 :: rest)) with (Some (S (length A))).
    2:{ cbn [find_char Z.eqb Pos.eqb]. clear - N. induction A as [|x A IH]; [reflexivity|]. cbn [app find_char length].
        replace (x =? 93) with false by (symmetry; apply Z.eqb_neq; intros ->; apply N; now left).
        destruct (find_char 93 (A ++ 93 :: 45 :: rest)); [|exfalso].
        - assert (Some (S (length A)) = Some (S n)) as E by (apply IH; intros X; apply N; now right). congruence.
        - assert (Some (S (length A)) = None) as E by (apply IH; intros X; apply N; now right). congruence. }
    replace (skipn (S (length A) + 1) (91 :: A ++ 93 :: 45 :: rest)) with (45 :: rest).
    2:{ change (91 :: A ++ 93 :: 45 :: rest) with ((91 :: A) ++ [93] ++ 45 :: rest). rewrite app_assoc.
        rewrite skipn_app. rewrite skipn_all2 by (rewrite app_length; cbn [length]; lia).
        rewrite app_length. cbn [length]. replace (S (length A) + 1 - (S (length A) + 1))%nat with 0%nat by lia. reflexivity. }
    cbn [Z.eqb Pos.eqb negb]. unfold fail. wbind. apply wp_emit. apply wp_ret. apply wp_ret. split; [discriminate|now exists false]. }
  unfold parse_address. fold s. destruct (count_char 58 s >=? 2); [exact K|]. unfold s at 1. cbn [app Z.eqb Pos.eqb orb]. exact K.
Qed.
Lemma printed6_address y a : addr_wf a -> is_ipv4 a = false ->
  to_ipv4or6_string y a STRING_IP_BRACKET_ADDRESS = Ok ([91] ++ inet_ntop6 (s6 a) ++ [93]).
Proof.
  intros W I. unfold to_ipv4or6_string. rewrite I. unfold to_ipv6_string.
  assert (ip_text6 a STRING_IP_BRACKET_ADDRESS = ([91] ++ inet_ntop6 (s6 a) ++ [93], true)) as ->.
  { unfold ip_text6. change (shows_address STRING_IP_BRACKET_ADDRESS) with true.
    change (has STRING_IP_BRACKET_ADDRESS STRING_IP_DEFAULT_AS_ASTERISK) with false.
    change (has STRING_IP_BRACKET_ADDRESS STRING_IP_DEFAULT_AS_IPV4) with false. change (brackets STRING_IP_BRACKET_ADDRESS) with true.
    destruct (is_default a) eqn:F; [|reflexivity]. rewrite TextProofs.default6 by auto. reflexivity. }
  unfold port_text, mask_text6, shows_mask. change (shows_port STRING_IP_BRACKET_ADDRESS) with false. cbn [rbind].
  match goal with |- context[has ?m ?f && ?x] => change (has m f) with false end. cbn [andb rbind]. now rewrite !app_nil_r.
Qed.
(* the text ends in the mask *)
Lemma printed_last y a : addr_wf a -> (is_v4_value (value a) -> prefix_mask 96 <= mask_value a) ->
  exists T c, to_ipv4or6_string y a STRING_IP_ALL = Ok (T ++ [c]) /\ ~ blank c.
Proof.
  intros W K4.
  assert (is_ipv4 a = true -> is_v4_value (value a)) as V4.
  { intros I. rewrite AddrProofs2.is_ipv4_bool in I by exact W. unfold is_v4_value, v4_base in *. lia. }
  destruct (AddrProofs2.get_mask_size_spec a W) as [(k & K & MK & _)|[_ MS]].
  - destruct (printed_all y a k W K MK) as (A & T & ES & _).
    { intros I. specialize (K4 (V4 I)). rewrite MK in K4. unfold prefix_mask in K4.
      destruct (Z_lt_ge_dec k 96) as [L|L]; [|lia]. exfalso.
      assert (2 ^ (128 - 96) < 2 ^ (128 - k)) by (apply Z.pow_lt_mono_r; lia). lia. }
    set (n := if is_ipv4 a then k - 96 else k) in *.
    assert (0 <= n) as Hn.
    { unfold n. destruct (is_ipv4 a) eqn:I; [|lia]. specialize (K4 (V4 eq_refl)). rewrite MK in K4. unfold prefix_mask in K4.
      destruct (Z_lt_ge_dec k 96) as [L|L]; [|lia]. exfalso.
      assert (2 ^ (128 - 96) < 2 ^ (128 - k)) by (apply Z.pow_lt_mono_r; lia). lia. }
    destruct (decimal_dec n Hn) as (N & DD & _). destruct (exists_last N) as (D & c & E). rewrite E in DD, ES.
    exists (T ++ 47 :: D), c. split; [rewrite ES; now rewrite <- app_assoc|].
    rewrite forallb_app in DD. cbn in DD. unfold is_digit in DD. unfold blank. lia.
  - destruct (printed_odd y a W MS (fun I => K4 (V4 I))) as (A & T & M & ES & _ & _ & _ & HM & _).
    destruct (address_mask_text M (mask_value a) _ HM) as (N & _ & LM). destruct (exists_last N) as (D & c & E).
    exists (T ++ 47 :: D), c. split; [rewrite ES, E; now rewrite <- app_assoc|]. now apply (LM c D).
Qed.
Lemma rejected_text y2 g p A B c :
  nobody (separator p) -> nobody (starts_comment p) -> unsorted p -> forallb TextProofs.ip_text_char A = true -> ~ blank c ->
  exists p2, parse y2 g (([91] ++ A ++ [93]) ++ [45] ++ B ++ [c]) p = (p2, Ok []) /\ f_error_count p < f_error_count p2.
Proof.
  intros NS NC U FA LB. assert (~ In 93 A) as N93 by (now apply (ip_char_not _ 93 FA)).
  set (s := ([91] ++ A ++ [93]) ++ [45] ++ B ++ [c]).
  assert (trimmed s) as TS.
  { split; [discriminate|]. split.
    - intros d z E. injection E as <- _. unfold blank. lia.
    - intros d z E. unfold s in E. rewrite !app_assoc in E. apply app_inj_tail in E as [_ <-]. exact LB. }
  destruct (parse_wp y2 g s p (fun r ms => r = Ok [] /\ ms <> []) NS NC U TS) as (ms & r0 & E & -> & N).
  { destruct (allow p ALLOW_MASK) eqn:AM.
    - destruct (split_mask (trim_string s)) as [T M] eqn:SM.
      apply (cidr_with_mask y2 g p s T M _ AM SM). unfold masked. wbind. rewrite trimmed_trim in SM by exact TS.
      assert (exists rest, T = [91] ++ A ++ [93] ++ 45 :: rest) as (rest & ->).
      { unfold split_mask in SM. unfold s in SM.
        assert (~ In 47 ([91] ++ A ++ [93] ++ [45])) as N47.
        { rewrite !in_app_iff. intros [X|[X|[X|X]]]; try (destruct X as [X|[]]; discriminate). now apply (ip_char_not _ 47 FA) in X. }
        assert (([91] ++ A ++ [93]) ++ [45] ++ B ++ [c] = ([91] ++ A ++ [93] ++ [45]) ++ B ++ [c]) as X by (now rewrite <- !app_assoc).
        rewrite X in SM. clear - SM N47. set (H := [91] ++ A ++ [93] ++ [45]) in *.
        assert (exists rest, T = H ++ rest) as (rest & ->).
        { clearbody H. destruct (in_dec Z.eq_dec 47 (B ++ [c])) as [J|J].
          - destruct (find_char 47 (H ++ B ++ [c])) as [q|] eqn:Q; [|exists (B ++ [c]); congruence].
            assert (length H <= q)%nat as L.
            { clear - Q N47. revert q Q. induction H as [|x H IH]; intros q Q; [cbn; lia|]. cbn [app find_char] in Q.
              destruct (x =? 47) eqn:E; [elim N47; left; lia|]. destruct (find_char 47 (H ++ B ++ [c])) eqn:F; [|discriminate].
              injection Q as <-. cbn [length]. specialize (IH ltac:(intros X; apply N47; now right) n eq_refl). lia. }
            exists (firstn (q - length H) (B ++ [c])). injection SM as <- _. rewrite firstn_app, firstn_all2 by lia. reflexivity.
          - rewrite find_char_none in SM; [exists (B ++ [c]); congruence|]. rewrite in_app_iff. tauto. }
        exists rest. unfold H. now rewrite <- !app_assoc. }
      eapply wp_conseq; [apply six_then_dash; exact N93|]. cbv beta. intros r0 ms (N & b & ->). cbn [apply_masks].
      apply wp_ret. rewrite app_nil_r. split; [|exact N]. destruct ms; [congruence|reflexivity].
    - apply (cidr_without_mask y2 g p s _ AM). rewrite trimmed_trim by exact TS. wbind.
      replace s with ([91] ++ A ++ [93] ++ 45 :: B ++ [c]) by (unfold s; now rewrite <- !app_assoc).
      eapply wp_conseq; [apply six_then_dash; exact N93|]. cbv beta. intros r0 ms (N & b & ->).
      apply wp_ret. rewrite app_nil_r. now split. }
  eexists. split; [exact E|]. destruct ms as [|m0 ms]; [congruence|].  cbn [f_error_count with_errors length]. lia.
Qed.
Theorem C79_other_ranges_rejected : forall y y2 g p r,
  nobody (separator p) -> nobody (starts_comment p) -> unsorted p ->
  range_wf r -> full r -> nonempty r -> ~ is_v4_value (lo r) ->
  (is_v4_value (hi r) -> prefix_mask 96 <= mask_value (get_to r)) ->
  exists s p2, range_to_string y r STRING_IP_ALL = Ok s
    /\ parse y2 g s p = (p2, Ok []) /\ error_count p < error_count p2.
Proof.
  intros y y2 g p r NS NC U [WF WT] [HF HT] [_ LH] V1 K.
  unfold lo, hi in *. rewrite HF, HT in *. unfold get_to in *. unfold range_to_string, has_from, has_to.
  assert (is_ipv4 (f_from r) = false) as I1.
  { destruct (is_ipv4 (f_from r)) eqn:I; [|reflexivity]. elim V1. rewrite AddrProofs2.is_ipv4_bool in I by exact WF.
    unfold is_v4_value, v4_base in *. lia. }
  assert (is_empty r || negb (is_defined r) = false) as ->.
  { unfold is_empty, is_defined, is_range. rewrite HF, HT. rewrite gt_value by assumption. replace (value (f_from r) >? value (f_to r)) with false by lia. reflexivity. }
  rewrite HF, HT. cbn [andb].
  change (Z.land STRING_IP_ALL (Z.lor STRING_IP_ADDRESS STRING_IP_BRACKET_ADDRESS)) with STRING_IP_BRACKET_ADDRESS.
  rewrite printed6_address by assumption. destruct (printed_last y (f_to r) WT K) as (B & c & -> & LB). cbn [rbind].
  set (A := inet_ntop6 (s6 (f_from r))).
  assert (denotes A (value (f_from r))) as DA by (now apply ntop_denotes6).
  destruct (denotes_chars _ _ DA) as [NEA FA].
  destruct (rejected_text y2 g p A B c NS NC U FA LB) as (p2 & E & L).
  eexists. exists p2. split; [reflexivity|]. now split.
Qed.
Print Assumptions C79_other_ranges_rejected.

(* From an IPv4 address to another one: "A-[B]:port/mask", which has two colons
   and no bracket in front. *)
Section Mixed.
Variables (y : sys) (g : resolver) (p : parser).
Hypothesis TN : takes_numbers p.
Lemma tn_no_lookup : allow p ALLOW_ADDRESS_LOOKUP = false.
Proof. destruct TN as [_ _ _ L _ _]. now allowed L. Qed.
Lemma numeric_or_error A v dp P ipv6 : denotes A v -> dp = (match P with [] => false | _ => true end) ->
  wp p (parse_address_port y g A P ipv6) (fun r ms => (r = Ok [] /\ ms <> []) \/ exists a, r = Ok [set_from range_new a]).
Proof.
  intros D E. destruct (denotes_chars _ _ D) as [NE _].
  assert (forall msg, wp p (fail msg) (fun r ms => (r = Ok [] /\ ms <> []) \/ exists a, r = Ok [set_from range_new a])) as KF.
  { intros msg. eapply wp_conseq; [apply fails_fail|]. cbv beta. tauto. }
  assert (forall port, 0 <= port <= 65535 ->
    wp p (numeric_address A port dp) (fun r ms => (r = Ok [] /\ ms <> []) \/ exists a, r = Ok [set_from range_new a])) as KN.
  { intros port R. eapply wp_conseq; [apply (numeric_value p (tn_protocol p TN) A v port dp D R)|].
    intros r ms (_ & a & X & _). right. now exists a. }
  unfold parse_address_port. cbv zeta. rewrite <- E. wallow.
  match goal with |- wp _ (if ?b then _ else _) _ => destruct b end; [apply KF|].
  wask. wallow. replace (match A with [] => true | _ => false end) with false by (destruct A; congruence). cbn [andb].
  wask. wallow. rewrite tn_no_lookup. wallow.
  match goal with |- wp _ (if ?b then _ else _) _ => destruct b end; [|apply KN; lia].
  destruct (convert_string _ _) as [port|]; [|apply KF].
  destruct ((port <? 0) || (port >? 65535)) eqn:R; [apply KF|]. destruct (_ && _); [apply KF|]. apply KN. lia.
Qed.
Lemma mixed_fails A v C mask : denotes A v -> ~ In 58 A -> hd 0 C = 91 -> ~ In 0 C -> two_colons C ->
  addr_fails y g p (A ++ 45 :: C) mask.
Proof.
  intros D N58 H91 N0 TC. destruct (denotes_chars _ _ D) as [NE F].
  assert (~ In 45 A) as N45 by (now apply (ip_char_not _ 45 F)).
  assert (hd 0 A <> 91) as N91.
  { destruct A as [|c b]; [congruence|]. cbn [hd]. intros ->. apply (ip_char_not _ 91 F eq_refl). now left. }
  assert (In 91 C) as I91 by (destruct C; cbn [hd] in H91; [lia|left; exact H91]).
  assert (forall T, In 91 T -> forall w, ~ denotes T w) as ND.
  { intros T I w X. destruct (denotes_chars _ _ X) as [_ FX]. now apply (ip_char_not _ 91 FX eq_refl). }
  assert (two_colons (A ++ 45 :: C)) as TT.
  { rewrite two_colons_count in *. rewrite count_char_app. change (45 :: C) with ([45] ++ C). rewrite count_char_app.
    pose proof (count_char_none 58 A N58). change (count_char 58 [45]) with 0. lia. }
  destruct (allow p ALLOW_ADDRESS_RANGE) eqn:AR.
  - apply two_colons_count in TT. unfold addr_fails, parse_address. cbv zeta.
    replace (count_char 58 (A ++ 45 :: C) >=? 2) with true by lia. apply fails6.
    unfold parse_address6. wallow. wallow.
    replace (match A ++ 45 :: C with c :: _ => c =? 91 | [] => false end) with false
      by (destruct A as [|c b]; [congruence|]; cbn [app hd] in *; lia).
    replace (count_char 58 (A ++ 45 :: C) =? 1) with false by lia.
    unfold parse_address_range_port. wallow. rewrite AR.
    destruct (split_dash A C N45) as (-> & -> & ->). cbv zeta.
    replace (match A with [] => match C with [] => true | _ => false end | _ => false end) with false by (destruct A; congruence).
    wbind. unfold range_end at 1. destruct A as [|c b] eqn:EA; [congruence|]. rewrite <- EA in *. clear EA c b. wbind.
    unfold parse_address_port_ignore_duplicates. wbind.
    eapply wp_conseq; [apply (numeric_or_error A v false [] true D eq_refl)|]. cbv beta. intros r ms [[-> NM]|[a ->]].
    + apply wp_ret. cbv beta iota. rewrite !app_nil_r. apply wp_ret. rewrite !app_nil_r. apply wp_ret. rewrite app_nil_r. now split.
    + wbind. cbn [drop_duplicates]. apply wp_lift. apply wp_ret. cbv beta iota. apply wp_ret. cbv beta iota.
      wbind. eapply wp_conseq.
      * unfold range_end. destruct C as [|d C'] eqn:EC; [destruct I91|]. rewrite <- EC in *. wbind.
        unfold parse_address_port_ignore_duplicates. wbind.
        eapply wp_conseq; [apply (address_port_unknown y g p C tn_no_lookup); [subst; discriminate|exact N0|now apply ND]|].
        cbv beta. intros r ms2 (-> & NM). apply wp_ret. cbv beta iota. apply wp_ret.
        rewrite !app_nil_r. instantiate (1 := fun r ms => r = Ok None /\ ms <> []). now split.
      * cbv beta. intros r ms2 (-> & NM). apply wp_ret. split; [reflexivity|]. rewrite !app_nil_r.
        repeat (rewrite app_nil_r || rewrite app_nil_l). intros X. repeat (apply app_eq_nil in X; destruct X as [_ X]). congruence.
  - apply (unknown_bare y g p (A ++ 45 :: C) tn_no_lookup).
    + destruct A; discriminate.
    + rewrite in_app_iff. intros [X|[X|X]]; [now apply (ip_char_not _ 0 F eq_refl)|discriminate|auto].
    + apply ND. apply in_or_app. right. now right.
    + now right.
    + exact TT.
    + destruct A; [congruence|exact N91].
Qed.
Lemma mixed_rejected A v T M : denotes A v -> ~ In 58 A -> hd 0 T = 91 -> ~ In 0 T -> ~ In 47 T -> two_colons T ->
  M <> [] -> ~ In 0 M -> (forall c r, M = r ++ [c] -> ~ blank c) ->
  exists p2, parse y g (A ++ [45] ++ T ++ 47 :: M) p = (p2, Ok []) /\ error_count p < error_count p2.
Proof.
  intros D N58 H91 N0 N47 TC NM NM0 LM. destruct (denotes_chars _ _ D) as [NE F].
  set (s := A ++ [45] ++ T ++ 47 :: M).
  assert (trimmed s) as TS.
  { split; [unfold s; destruct A; discriminate|]. split.
    - intros c r E. unfold s in E. destruct A as [|d A']; [congruence|]. injection E as <- _.
      intros B. apply (ip_char_not _ d F); [|now left]. unfold blank in B. unfold TextProofs.ip_text_char, InetProofs2.ip_char, InetProofs.dotted_char. lia.
    - intros c r E. unfold s in E. destruct (exists_last NM) as (M' & d & EM). apply (LM c M'). rewrite EM in E |- *.
      replace (A ++ [45] ++ T ++ 47 :: M' ++ [d]) with ((A ++ [45] ++ T ++ 47 :: M') ++ [d]) in E by (rewrite <- !app_assoc; reflexivity).
      apply app_inj_tail in E as [_ <-]. reflexivity. }
  assert (~ In 47 (A ++ 45 :: T)) as N47'.
  { rewrite in_app_iff. intros [X|[X|X]]; [now apply (ip_char_not _ 47 F eq_refl)|discriminate|auto]. }
  apply single_fails; [apply TN|apply TN|exact TS|].
  destruct (allow p ALLOW_MASK) eqn:AM.
  - apply (cidr_fails y g p s (A ++ 45 :: T) M).
    + left. split; [exact AM|]. rewrite trimmed_trim by exact TS. unfold s.
      replace (A ++ [45] ++ T ++ 47 :: M) with ((A ++ 45 :: T) ++ 47 :: M) by (rewrite <- app_assoc; reflexivity).
      now apply split_mask_some.
    + now apply (mixed_fails A v T).
  - apply (cidr_fails y g p s s []).
    + right. split; [exact AM|]. now rewrite trimmed_trim.
    + unfold s. cbn [app]. apply (mixed_fails A v (T ++ 47 :: M)); auto.
      * destruct T; [cbn [hd] in H91; lia|exact H91].
      * rewrite in_app_iff. intros [X|[X|X]]; [auto|discriminate|auto].
      * rewrite two_colons_count in *. rewrite count_char_app. unfold count_char at 2. lia.
Qed.
End Mixed.
Lemma count_char_in c s : In c s -> 1 <= count_char c s.
Proof. intros H. apply in_split in H. destruct H as (a & b & ->). rewrite count_char_app, count_char_cons. unfold count_char. lia. Qed.
Lemma printed6_all y a : addr_wf a -> is_ipv4 a = false ->
  exists B M, to_ipv4or6_string y a STRING_IP_ALL = Ok (([91] ++ B ++ [93] ++ 58 :: dec_string (get_port a)) ++ 47 :: M)
    /\ denotes B (value a) /\ In 58 B /\ M <> [] /\ ~ In 0 M /\ (forall c z, M = z ++ [c] -> ~ blank c).
Proof.
  intros W I.
  assert (forall A P T, denotes A (value a) -> written A (58 :: P) T -> way T = false -> T = [91] ++ A ++ [93] ++ 58 :: P /\ In 58 A) as K.
  { intros A P T D HW WY.
    assert (In 58 A) as IA.
    { apply denotes_iff in D. destruct D as [(w & D & E)|(q & Q & _)]; [|now apply pton6_colon in Q].
      exfalso. rewrite AddrProofs2.is_ipv4_bool in I by exact W. destruct (dotted_pton _ _ D) as (q & _ & <- & L & B).
      pose proof (num_range q B) as R. rewrite L in R. change (256 ^ Z.of_nat 4) with 4294967296 in R. rewrite E in I. unfold v4_base in I. lia. }
    split; [|exact IA]. inversion HW as [b P0 N|b P0|b TC]; subst; [contradiction|reflexivity]. }
  destruct (AddrProofs2.get_mask_size_spec a W) as [(k & KR & MK & _)|[_ MS]].
  - destruct (printed_all y a k W KR MK ltac:(congruence)) as (A & T & ES & D & HW & WY & _). rewrite I in ES, WY.
    destruct (K _ _ _ D HW WY) as [-> IA]. exists A, (dec_string k). split; [exact ES|]. split; [exact D|]. split; [exact IA|].
    destruct (decimal_dec k ltac:(lia)) as (N & DD & _). split; [exact N|].
    rewrite forallb_forall in DD. unfold is_digit in DD. split; [intros X; specialize (DD _ X); lia|].
    intros c z E X. specialize (DD c). rewrite E in DD. specialize (DD ltac:(apply in_or_app; right; now left)). unfold blank in X. lia.
  - destruct (printed_odd y a W MS ltac:(congruence)) as (A & T & M & ES & D & HW & WY & HM & _). rewrite I in WY, HM.
    destruct (K _ _ _ D HW WY) as [-> IA]. exists A, M. split; [exact ES|]. split; [exact D|]. split; [exact IA|].
    destruct (address_mask_text M (mask_value a) _ HM) as (N & _ & LM). split; [exact N|]. split; [|exact LM].
    destruct HM as [[X _]|(_ & t & ws & -> & Q & _)]; [discriminate|]. apply text_read in Q. apply TextProofs.pton6_chars in Q. cbn [app].
    intros [X|X]; [discriminate|]. apply in_app_or in X. destruct X as [X|[X|[]]]; [|discriminate]. now apply (ip_char_not _ 0 Q eq_refl).
Qed.
Theorem C79_mixed_range_rejected : forall y y2 g p r,
  takes_numbers p -> range_wf r -> full r -> nonempty r -> is_v4_value (lo r) -> ~ is_v4_value (hi r) ->
  exists s p2, range_to_string y r STRING_IP_ALL = Ok s
    /\ parse y2 g s p = (p2, Ok []) /\ error_count p < error_count p2.
Proof.
  intros y y2 g p r TN [WF WT] [HF HT] [_ LH] V1 V2.
  unfold lo, hi in *. rewrite HF, HT in *. unfold range_to_string, has_from, has_to.
  assert (is_ipv4 (f_from r) = true) as I1 by (now apply is_ipv4_value).
  assert (is_ipv4 (f_to r) = false) as I2.
  { destruct (is_ipv4 (f_to r)) eqn:I; [|reflexivity]. elim V2. rewrite AddrProofs2.is_ipv4_bool in I by exact WT.
    unfold is_v4_value, v4_base in *. lia. }
  assert (is_empty r || negb (is_defined r) = false) as ->.
  { unfold is_empty, is_defined, is_range. rewrite HF, HT. rewrite gt_value by assumption. replace (value (f_from r) >? value (f_to r)) with false by lia. reflexivity. }
  rewrite HF, HT. cbn [andb].
  change (Z.land STRING_IP_ALL (Z.lor STRING_IP_ADDRESS STRING_IP_BRACKET_ADDRESS)) with STRING_IP_BRACKET_ADDRESS.
  rewrite printed4_address by exact I1.
  destruct (ntop_denotes4 y (f_from r) WF I1) as [DA N58].
  assert (exists B M, to_ipv4or6_string y (f_to r) STRING_IP_ALL = Ok (([91] ++ B ++ [93] ++ 58 :: dec_string (get_port (f_to r))) ++ 47 :: M)
    /\ denotes B (value (f_to r)) /\ In 58 B /\ M <> [] /\ ~ In 0 M /\ (forall c z, M = z ++ [c] -> ~ blank c)) as (B & M & ES & DB & IB & NM & NM0 & LM) by (now apply printed6_all).
  rewrite ES. cbn [rbind]. destruct (denotes_chars _ _ DB) as [_ FB].
  set (T := [91] ++ B ++ [93] ++ 58 :: dec_string (get_port (f_to r))) in *.
  assert (forall c, In c T -> TextProofs.ip_text_char c = true \/ c = 91 \/ c = 93) as CT.
  { intros c X. rewrite forallb_forall in FB. unfold T in X. cbn [app] in X. destruct X as [X|X]; [auto|].
    apply in_app_or in X. destruct X as [X|[X|[X|X]]]; [auto|auto|subst; now left|].
    left. destruct (decimal_dec (get_port (f_to r)) ltac:(apply bswap16_range)) as (_ & FD & _).
    rewrite forallb_forall in FD. specialize (FD _ X). unfold is_digit in FD.
    unfold TextProofs.ip_text_char, InetProofs2.ip_char, InetProofs.dotted_char. lia. }
  destruct (mixed_rejected y2 g p TN (inet_ntop4 (skipn 12 (s6 (f_from r)))) (value (f_from r)) T M DA N58) as (p2 & E & L); auto.
  - intros X. apply CT in X. cbv in X. intuition discriminate.
  - intros X. apply CT in X. cbv in X. intuition discriminate.
  - apply two_colons_count. unfold T. rewrite !count_char_app, count_char_cons. apply count_char_in in IB. unfold count_char at 1 3 4. lia.
  - eexists. exists p2. split; [reflexivity|]. now split.
Qed.
Print Assumptions C79_mixed_range_rejected.

(* Two IPv6 addresses are printed as "[A]-[B]", which is rejected. *)
Definition everything_allowed : parser := with_allow address_masks ALLOW_ADDRESS_RANGE true.
Definition printed_range (r : addr_range) : str :=
  match range_to_string ref_sys r STRING_IP_ALL with Ok s => s | _ => [] end.
Theorem C79_ipv6_range_refuted : exists y g p r s,
  converts_decimals y /\ resolves_numbers g /\ takes_numbers p
  /\ get_allow p ALLOW_ADDRESS_RANGE = Ok true /\ get_allow p ALLOW_MASK = Ok true /\ get_allow p ALLOW_PORT = Ok true
  /\ range_wf r /\ full r /\ nonempty r
  /\ range_to_string y r STRING_IP_ALL = Ok s
  /\ s = lit "[2001:db8::5]-[2001:db8::9]:80/128"
  /\ exists p2, parse y g s p = (p2, Ok []) /\ error_count p < error_count p2.
Proof.
  exists ref_sys, numbers, everything_allowed.
  exists (set_to (set_from range_new (fst (set_port (ip_from_uint128 addr_new 0x20010db8000000000000000000000005) 80)))
                 (fst (set_port (ip_from_uint128 addr_new 0x20010db8000000000000000000000009) 80))).
  eexists.
  split; [apply ref_sys_converts|]. split; [apply numbers_resolves|].
  split. { constructor; [now apply no_seps|now apply no_comments|reflexivity|reflexivity|now left|right; now split]. }
  split; [reflexivity|]. split; [reflexivity|]. split; [reflexivity|].
  split; [split; now apply addr_wfb_ok|]. split; [now split|].
  split; [split; [now left|vm_compute; congruence]|].
  split; [reflexivity|]. split; [vm_compute; reflexivity|]. eexists. split; [vm_compute; reflexivity|]. vm_compute. reflexivity.
Qed.
Print Assumptions C79_ipv6_range_refuted.

Definition four_range : addr_range :=
  set_to (set_from range_new w4) (fst (set_mask_count (ip_from_uint128 w4 (value w4 + 40)) 120)).
Example C79_witness : takes_numbers everything_allowed /\ get_allow everything_allowed ALLOW_ADDRESS_RANGE = Ok true
  /\ get_allow everything_allowed ALLOW_MASK = Ok true /\ get_allow everything_allowed ALLOW_PORT = Ok true
  /\ range_wf four_range /\ full four_range /\ nonempty four_range
  /\ is_v4_value (lo four_range) /\ is_v4_value (hi four_range) /\ mask_value (get_to four_range) = prefix_mask 120
  /\ range_to_string ref_sys four_range STRING_IP_ALL = Ok (lit "192.168.3.17-192.168.3.57:443/24").
Proof.
  split. { constructor; [now apply no_seps|now apply no_comments|reflexivity|reflexivity|now left|right; now split]. }
  split; [reflexivity|]. split; [reflexivity|]. split; [reflexivity|].
  split; [split; now apply addr_wfb_ok|]. split; [now split|].
  split; [split; [now left|vm_compute; congruence]|]. split; [vm_compute; split; congruence|].
  split; [vm_compute; split; congruence|]. split; vm_compute; reflexivity.
Qed.

Definition odd_mask_range : addr_range :=
  set_to (set_from range_new w4) (set_mask (ip_from_uint128 w4 (value w4 + 40)) (repeat 255 12 ++ [255; 255; 0; 255])).
Example C79_odd_witness : takes_numbers everything_allowed /\ resolves_numbers numbers
  /\ get_allow everything_allowed ALLOW_ADDRESS_MASK = Ok true
  /\ range_wf odd_mask_range /\ full odd_mask_range /\ nonempty odd_mask_range
  /\ is_v4_value (lo odd_mask_range) /\ is_v4_value (hi odd_mask_range)
  /\ prefix_mask 96 <= mask_value (get_to odd_mask_range)
  /\ range_to_string ref_sys odd_mask_range STRING_IP_ALL = Ok (lit "192.168.3.17-192.168.3.57:443/255.255.0.255")
  /\ mask_of (parse ref_sys numbers (lit "192.168.3.17-192.168.3.57:443/255.255.0.255") everything_allowed)
     = [2 ^ 128 - 1 - 255 * 256].
Proof.
  split. { constructor; [now apply no_seps|now apply no_comments|reflexivity|reflexivity|now left|right; now split]. }
  split; [apply numbers_resolves|]. split; [reflexivity|].
  split; [split; now apply addr_wfb_ok|]. split; [now split|].
  split; [split; [now left|vm_compute; congruence]|]. split; [vm_compute; split; congruence|].
  split; [vm_compute; split; congruence|]. split; [vm_compute; congruence|]. split; vm_compute; reflexivity.
Qed.
(* the range of C79_ipv6_range_refuted *)
Definition six_range : addr_range :=
  set_to (set_from range_new (ip_from_uint128 addr_new 0x20010db8000000000000000000000005))
         (ip_from_uint128 addr_new 0x20010db8000000000000000000000009).
Example C79_six_witness : range_wf six_range /\ full six_range /\ nonempty six_range
  /\ ~ is_v4_value (lo six_range) /\ ~ is_v4_value (hi six_range).
Proof.
  split; [split; now apply addr_wfb_ok|]. split; [now split|].
  split; [split; [now left|vm_compute; congruence]|]. split; vm_compute; intros [? ?]; congruence.
Qed.
Definition mixed_range : addr_range :=
  set_to (set_from range_new (ip_from_uint128 addr_new (v4_base + 0x0a000001)))
         (ip_from_uint128 addr_new 0x20010db8000000000000000000000009).
Example C79_mixed_witness : takes_numbers everything_allowed /\ range_wf mixed_range /\ full mixed_range /\ nonempty mixed_range
  /\ is_v4_value (lo mixed_range) /\ ~ is_v4_value (hi mixed_range)
  /\ printed_range mixed_range = lit "10.0.0.1-[2001:db8::9]:0/128".
Proof.
  split. { constructor; [now apply no_seps|now apply no_comments|reflexivity|reflexivity|now left|right; now split]. }
  split; [split; now apply addr_wfb_ok|]. split; [now split|].
  split; [split; [now left|vm_compute; congruence]|].
  split; [vm_compute; split; congruence|]. split; [vm_compute; intros [? ?]; congruence|vm_compute; reflexivity].
Qed.
