(* Masks written as addresses. *)
From Coq Require Import ZifyBool ZifyNat.
From Verif Require Import Base Addr Spec Range SpecRange Inet SpecText SpecIpv6 AddrText Parser SpecParser SpecParser2.
From Verif Require Import AddrProofs AddrProofs2 AddrProofs3 AddrProofs4 InetProofs InetProofs2 TextProofs
  ParserProofs ParserProofs2 ParserProofs3 ParserProofs7 ParserProofs8 ParserProofs9 ParserProofs10.
From Verif Require PropText.
Local Open Scope Z_scope.

(* ---------- any mask ---------- *)

Section Masked.
Variables (g : resolver) (p0 : parser) (M : str) (four : bool).
Variables (G B : addr_range -> Prop) (R : addr_range -> addr_range -> Prop).
Hypothesis NM : M <> [].
Definition remade (am : addr_range) (a : addr) : addr_range := mk_range (f_has_from am) (f_has_to am) a (f_to am).
Definition mask_does (am : addr_range) : Prop :=
  wp p0 (parse_mask g M (get_from am) (four && is_ipv4 (get_from am))) (fun r ms => exists a, r = Ok a
    /\ (G am -> ms = [] /\ R am (remade am a)) /\ (B am -> ms <> [])).

Lemma effective_some p : effective_mask p M four = M.
Proof. destruct M; [congruence|reflexivity]. Qed.
Lemma masks_do : forall l, Forall mask_does l ->
  wp p0 (apply_masks g M four l) (fun r ms => exists l2, r = Ok l2
    /\ (Forall G l -> ms = [] /\ Forall2 R l l2) /\ (Exists B l -> ms <> [])).
Proof.
  induction l as [|am l IH]; intros F; cbn [apply_masks].
  { apply wp_ret. exists []. split; [reflexivity|]. split; [intros _; split; [reflexivity|constructor]|]. intros H. inversion H. }
  inversion F as [|x l0 FA FL]; subst.
  wbind. apply wp_ask; [intros e c; rewrite !effective_some; reflexivity|]. rewrite effective_some. cbv beta iota.
  wbind. eapply wp_conseq; [exact FA|]. cbv beta. intros r ms (a & -> & H1 & H2). cbv beta iota.
  wbind. eapply wp_conseq; [exact (IH FL)|]. cbv beta. intros r ms2 (l2 & -> & K1 & K2). apply wp_ret.
  eexists. split; [reflexivity|]. cbn [app]. rewrite app_nil_r. split.
  - intros X. inversion X as [|x l0 XA XL]; subst. destruct (H1 XA) as [-> RA]. destruct (K1 XL) as [-> F2].
    split; [reflexivity|]. now constructor.
  - intros X E. apply app_eq_nil in E as [E1 E2]. inversion X as [x l0 XA|x l0 XL]; subst; [now apply H2|now apply K2].
Qed.
End Masked.

Section Entry.
Variables (y : sys) (g : resolver) (p : parser) (A : str) (four : bool).
Hypothesis NS : nobody (separator p).
Hypothesis NC : nobody (starts_comment p).
Hypothesis U : unsorted p.
Hypothesis AM : allow p ALLOW_MASK = true.
Hypothesis TA : trimmed A.
Hypothesis N47 : ~ In 47 A.
Hypothesis HA : has_address A.
Hypothesis Y : syntax four p A.

Lemma entry_masked M G B R l1 : M <> [] -> (forall c r, M = r ++ [c] -> ~ blank c) ->
  (forall r, mask_does g p M four G B R r) ->
  (forall r0 r1, but_mask r0 r1 -> (G r1 -> G r0) /\ (B r1 -> B r0) /\ forall r2, R r0 r2 -> R r1 r2) ->
  parse y g A p = (p, Ok l1) ->
  (Forall G l1 -> exists l2, parse y g (A ++ 47 :: M) p = (p, Ok l2) /\ Forall2 R l1 l2)
  /\ (Exists B l1 -> exists p2, parse y g (A ++ 47 :: M) p = (p2, Ok []) /\ f_error_count p < f_error_count p2).
Proof.
  intros NM LM FM CM EA. destruct (entry_before y g p A four NS NC U AM TA N47 HA Y l1 EA) as (l0 & BM & C).
  assert (trimmed (A ++ 47 :: M)) as TD by (apply (trimmed_mask p A four); auto).
  destruct (C M (A ++ 47 :: M) (fun r ms => exists l2, r = after (Ok l2) ms
    /\ (Forall G l0 -> ms = [] /\ Forall2 R l0 l2) /\ (Exists B l0 -> ms <> []))) as (ms & r & E & l2 & -> & H1 & H2); [now right| |].
  { eapply wp_conseq; [apply (masks_do g p M four G B R NM l0)|].
    - apply Forall_forall. intros r _. apply FM.
    - cbv beta. intros r ms (l2 & -> & H1 & H2). exists l2. now split. }
  rewrite E. clear C E FM. split.
  - intros F. destruct H1 as [-> F2].
    { clear - F BM CM. induction BM as [|r1 r2 l l' X BM IH]; [constructor|]. inversion F; subst.
      constructor; [now apply (CM r1 r2 X)|now apply IH]. }
    exists l2. split; [cbn [flat map concat length after]; rewrite app_nil_r, Z.add_0_r, with_errors_self; reflexivity|].
    clear - F2 BM CM. revert l2 F2. induction BM as [|r1 r2 l l' X BM IH]; intros l2 F2; inversion F2; subst; constructor; [|now apply IH].
    now apply (CM r1 r2 X).
  - intros X. destruct ms as [|m0 ms].
    + exfalso. apply H2; [|reflexivity]. clear - X BM CM. induction BM as [|r1 r2 l l' Y BM IH]; inversion X; subst.
      * constructor. now apply (CM r1 r2 Y).
      * apply Exists_cons_tl. now apply IH.
    + eexists. split; [reflexivity|]. cbn [f_error_count with_errors length]. lia.
Qed.
End Entry.

(* ---------- an address as the mask ---------- *)

Lemma digits_then n s : forallb is_digit s = true -> 0 <= n -> forall c r, is_digit c = false ->
  fold_left (fun v c => v * 10 + (c - 48)) s n <= 10000 -> mask_number (s ++ c :: r) n = Some (-1).
Proof.
  revert n. induction s as [|d s IH]; intros n D N c r NC L.
  - cbn [app mask_number]. unfold is_digit in NC. now rewrite NC.
  - cbn [forallb] in D. apply andb_prop in D as [D1 D2]. cbn [app mask_number fold_left] in *.
    unfold is_digit in D1. rewrite D1.
    assert (0 <= n * 10 + (d - 48)) as N2 by lia. pose proof (fold_digits_ge s _ N2 D2) as GE.
    replace (n * 10 + d - 48) with (n * 10 + (d - 48)) by lia.
    replace (n * 10 + (d - 48) >? 10000) with false by lia. now apply IH.
Qed.
Lemma dotted_not_number M w : dotted M w -> mask_number (c_str M) 0 = Some (-1).
Proof.
  intros D. rewrite c_str_id.
  2:{ destruct (denotes_chars M (v4_base + w)) as [_ F]; [left; eauto|]. now apply (ip_char_not _ 0 F). }
  destruct D as (a & b & c & d & sa & sb & sc & sd & D). decompose [and] D. subst M. match goal with H : plain_decimal sa a |- _ => rename H into Pa end.
  destruct Pa as ((_ & F & V) & _). apply digits_then; [exact F|lia|reflexivity|]. unfold decimal_value in V. rewrite V. unfold is_byte in *. lia.
Qed.

Ltac Zify.zify_post_hook ::= Z.div_mod_to_equations.
Lemma ones_num x : 0 <= x < 2 ^ 32 ->
  num (store32 (repeat 255 16) 3 x) = prefix_mask 96 + bswap32 x /\ bytes16 (store32 (repeat 255 16) 3 x).
Proof.
  intros H. unfold store32. cbn [repeat upd Nat.mul Nat.add]. split.
  - rewrite num_explicit. unfold num16, bswap32, u8.
    change (prefix_mask 96) with 340282366920938463463374607427473244160. change (2 ^ 8) with 256. lia.
  - split; [reflexivity|]. repeat (apply Forall_cons; [unfold is_byte, u8; lia|]). apply Forall_nil.
Qed.
Ltac Zify.zify_post_hook ::= idtac.

Section AddressMask.
Variables (g : resolver) (p0 : parser) (M : str) (m lim : Z).
Hypothesis HG : resolves_numbers g.
Hypothesis HM : address_mask lim M m.

Lemma address_mask_text : M <> [] /\ mask_number (c_str M) 0 = Some (-1)
  /\ (forall c r, M = r ++ [c] -> ~ blank c).
Proof.
  destruct HM as [(_ & w & D & _)|(_ & t & ws & -> & Q & _)].
  - destruct (denotes_chars M (v4_base + w)) as [NE F]; [left; eauto|]. split; [exact NE|].
    split; [now apply (dotted_not_number M w)|]. intros c r ->. rewrite forallb_app in F. apply andb_prop in F as [_ F].
    cbn [forallb] in F. unfold blank. unfold ip_text_char, ip_char, dotted_char, is_digit in F. clear - F. lia.
  - split; [discriminate|]. split; [reflexivity|]. intros c r E. rewrite app_assoc in E. apply app_inj_tail in E as [_ <-].
    unfold blank. lia.
Qed.
Lemma inner_brackets t : inner ([91] ++ t ++ [93]) = t.
Proof.
  unfold inner. cbn [app skipn]. cbn [length]. rewrite app_length. cbn [length].
  replace (S (length t + 1) - 2)%nat with (length t) by lia. apply firstn_length_app.
Qed.
Lemma back_brackets t : back ([91] ++ t ++ [93]) = 93.
Proof. unfold back. rewrite app_assoc. apply last_last. Qed.

Lemma address_mask_does four am : 
  mask_does g p0 M four
    (fun r => limit four r = lim /\ allow p0 ALLOW_ADDRESS_MASK = true)
    (fun r => limit four r <> lim \/ allow p0 ALLOW_ADDRESS_MASK = false)
    (masked_with m) am.
Proof.
  destruct address_mask_text as (NM & MN & _). unfold mask_does. set (cidr := get_from am).
  assert (limit four am = if four && is_ipv4 cidr then 32 else 128) as EL by reflexivity.
  unfold parse_mask. destruct M as [|c0 M0] eqn:EM; [congruence|]. rewrite <- EM in *. rewrite MN. cbn [Z.eqb negb].
  wallow. destruct (allow p0 ALLOW_ADDRESS_MASK) eqn:AA; cbn [negb].
  2:{ wbind. apply wp_emit. apply wp_ret. eexists. split; [reflexivity|]. split; [intros [_ X]; discriminate|]. intros _. discriminate. }
  destruct HM as [(-> & w & D & ->)|(-> & t & ws & E & Q & ->)].
  - destruct (denotes_chars M (v4_base + w)) as [_ F]; [left; eauto|].
    assert (c0 <> 91) as N91. { rewrite EM in F. cbn [forallb] in F. apply andb_prop in F as [F _]. intros ->. discriminate. }
    assert (c_str M = M) as CS by (apply c_str_id; now apply (ip_char_not _ 0 F)).
    replace (c0 =? 91) with false by lia. rewrite andb_false_r. cbn [negb]. rewrite andb_true_r.
    destruct (four && is_ipv4 cidr) eqn:F4; cbn [negb andb].
    2:{ wbind. apply wp_emit. apply wp_ret. eexists. split; [reflexivity|]. split; [intros [X _]; congruence|]. intros _. discriminate. }
    rewrite CS. destruct (HG M (dec_string (get_port cidr)) (hint_socktype (get_protocol cidr)) (hint_protocol (get_protocol cidr))) as [H _].
    destruct (H w D) as (ai & l & -> & -> & -> & R & <-). cbn [Z.eqb Pos.eqb negb]. rewrite Z.eqb_refl. cbn [negb]. apply wp_ret.
    eexists. split; [reflexivity|]. split; [|intros [X|X]; [congruence|discriminate]]. intros _. split; [reflexivity|].
    destruct (ones_num _ R) as [ON [OL OB]]. split; [reflexivity|]. split; [reflexivity|]. split; [reflexivity|]. eexists.
    split; [reflexivity|]. split; [exact ON|]. split; [exact OL|exact OB].
  - assert (c0 = 91) as -> by (rewrite EM in E; now injection E).
    cbn [Z.eqb Pos.eqb]. rewrite andb_true_r.
    destruct (four && is_ipv4 cidr) eqn:F4; cbn [negb andb].
    { wbind. apply wp_emit. apply wp_ret. eexists. split; [reflexivity|]. split; [intros [X _]; congruence|]. intros _. discriminate. }
    rewrite E, back_brackets, inner_brackets. cbn [Z.eqb Pos.eqb negb].
    assert (denotes t (words_value ws)) as DT by (right; eauto).
    destruct (denotes_chars t _ DT) as [NT F]. replace (match t with [] => true | _ => false end) with false by (destruct t; congruence).
    rewrite c_str_id by (now apply (ip_char_not _ 0 F)).
    destruct (HG t (dec_string (get_port cidr)) (hint_socktype (get_protocol cidr)) (hint_protocol (get_protocol cidr))) as [_ H].
    destruct (H ws Q) as (ai & l & -> & -> & -> & [QL QB] & <-). cbn [Z.eqb Pos.eqb negb]. rewrite Z.eqb_refl. cbn [negb]. apply wp_ret.
    eexists. split; [reflexivity|]. split; [|intros [X|X]; [congruence|discriminate]]. intros _. split; [reflexivity|].
    split; [reflexivity|]. split; [reflexivity|]. split; [reflexivity|]. eexists. split; [reflexivity|]. now split.
Qed.
End AddressMask.

(* ---------- the printed form with a mask which is not a prefix ---------- *)

Lemma ntop_mask4 b : bytes16 b -> prefix_mask 96 <= num b ->
  exists w, dotted (inet_ntop4 (skipn 12 b)) w /\ num b = prefix_mask 96 + w.
Proof.
  intros B H. destruct (bytes16_explicit _ B) as
    (b0 & b1 & b2 & b3 & b4 & b5 & b6 & b7 & b8 & b9 & b10 & b11 & b12 & b13 & b14 & b15
     & -> & H0 & H1 & H2 & H3 & H4 & H5 & H6 & H7 & H8 & H9 & H10 & H11 & H12 & H13 & H14 & H15).
  exists (quad b12 b13 b14 b15). split; [now apply dotted_ntop4|]. clear B. revert H. rewrite num_explicit.
  change (prefix_mask 96) with 340282366920938463463374607427473244160. unfold num16, is_byte, quad in *. lia.
Qed.

Lemma printed_odd y a : addr_wf a -> get_mask_size a = -1 ->
  (is_ipv4 a = true -> prefix_mask 96 <= mask_value a) ->
  exists A T M, to_ipv4or6_string y a STRING_IP_ALL = Ok (T ++ 47 :: M)
    /\ denotes A (value a) /\ written A (58 :: dec_string (get_port a)) T
    /\ way T = is_ipv4 a /\ address_mask (if is_ipv4 a then 32 else 128) M (mask_value a)
    /\ (is_ipv4 a = true -> A = inet_ntop4 (skipn 12 (s6 a)) /\ T = A ++ 58 :: dec_string (get_port a)).
Proof.
  intros W MS K4. unfold to_ipv4or6_string. destruct (is_ipv4 a) eqn:I.
  - specialize (K4 eq_refl). destruct (ntop_denotes4 y a W I) as [DN N58].
    destruct (ntop_mask4 (f_mask a) (wf_mask _ W) K4) as (w & DM & EM).
    exists (inet_ntop4 (skipn 12 (s6 a))), (inet_ntop4 (skipn 12 (s6 a)) ++ 58 :: dec_string (get_port a)),
      (inet_ntop4 (skipn 12 (f_mask a))).
    split; [|split; [exact DN|split; [now apply written_plain|split; [|split; [|now split]]]]].
    + unfold to_ipv4_string. change (shows_address STRING_IP_ALL) with true. rewrite I. cbn [negb].
      change (has STRING_IP_ALL STRING_IP_DEFAULT_AS_ASTERISK) with false. cbn [andb rbind].
      unfold port_text. change (shows_port STRING_IP_ALL) with true.
      change (has STRING_IP_ALL STRING_IP_PORT_NAME) with false. change (shows_address STRING_IP_ALL) with true. cbn [rbind].
      unfold mask_text4. replace (shows_mask STRING_IP_ALL a) with true
        by (unfold shows_mask; change (has STRING_IP_ALL STRING_IP_MASK_IF_NEEDED) with false; cbn [negb]; now rewrite orb_true_r).
      replace (is_mask_ipv4_compatible a) with true
        by (symmetry; apply mask_ipv4_compatible_value; [exact W|exact K4]).
      cbn [negb]. unfold AddrText.mask_bits. change (has STRING_IP_ALL STRING_IP_MASK_AS_ADDRESS) with false. rewrite MS. cbv zeta.
      cbn [Z.eqb Pos.eqb]. change (slash STRING_IP_ALL) with [47]. cbn [rbind]. now rewrite <- !app_assoc.
    + unfold way. destruct (denotes_chars _ _ DN) as [NE F]. destruct (inet_ntop4 (skipn 12 (s6 a))) as [|c r] eqn:E; [congruence|].
      cbn [app forallb] in *. apply andb_prop in F as [F _].
      replace (c =? 91) with false by (destruct (c =? 91) eqn:X; [apply Z.eqb_eq in X; subst c; discriminate|reflexivity]).
      change (c :: r ++ 58 :: dec_string (get_port a)) with ((c :: r) ++ 58 :: dec_string (get_port a)).
      rewrite count_char_app, (count_char_none 58 (c :: r)) by exact N58. rewrite count_char_cons, count_char_none; [reflexivity|].
      destruct (decimal_dec (get_port a)) as (_ & DD & _); [apply get_port_range|]. intros X. rewrite forallb_forall in DD.
      specialize (DD _ X). discriminate.
    + left. split; [reflexivity|]. exists w. split; [exact DM|exact EM].
  - exists (inet_ntop6 (s6 a)), ([91] ++ inet_ntop6 (s6 a) ++ [93] ++ 58 :: dec_string (get_port a)),
      ([91] ++ inet_ntop6 (f_mask a) ++ [93]).
    split; [|split; [now apply ntop_denotes6|split; [apply written_brackets|split; [reflexivity|split; [|discriminate]]]]].
    2:{ right. split; [reflexivity|]. exists (inet_ntop6 (f_mask a)).
        destruct (proj2 (six_iff (inet_ntop6 (f_mask a)) (mask_value a))) as (ws & TX & EX);
          [exists (f_mask a); split; [apply ntop6_pton6, (wf_mask _ W)|reflexivity]|]. now exists ws. }
    unfold to_ipv6_string.
    assert (ip_text6 a STRING_IP_ALL = ([91] ++ inet_ntop6 (s6 a) ++ [93], true)) as ->.
    { unfold ip_text6. change (shows_address STRING_IP_ALL) with true.
      change (has STRING_IP_ALL STRING_IP_DEFAULT_AS_ASTERISK) with false.
      change (has STRING_IP_ALL STRING_IP_DEFAULT_AS_IPV4) with false. change (brackets STRING_IP_ALL) with true.
      destruct (is_default a) eqn:F; [|reflexivity]. rewrite default6 by auto. reflexivity. }
    unfold port_text. change (shows_port STRING_IP_ALL) with true.
    change (has STRING_IP_ALL STRING_IP_PORT_NAME) with false. change (shows_address STRING_IP_ALL) with true. cbn [rbind].
    unfold mask_text6. replace (shows_mask STRING_IP_ALL a) with true
      by (unfold shows_mask; change (has STRING_IP_ALL STRING_IP_MASK_IF_NEEDED) with false; cbn [negb]; now rewrite orb_true_r).
    unfold AddrText.mask_bits. change (has STRING_IP_ALL STRING_IP_MASK_AS_ADDRESS) with false. rewrite MS. cbv zeta.
    cbn [Z.eqb Pos.eqb]. change (slash STRING_IP_ALL) with [47]. unfold bracketed.
    now rewrite <- !app_assoc.
Qed.
