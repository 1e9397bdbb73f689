(* Proofs about the text output of addr. *)
From Verif Require Import Base Addr Spec Range Inet AddrText.
From Verif Require Import AddrProofs AddrProofs2 AddrProofs3 InetProofs InetProofs2.
From Coq Require Import ZifyBool ZifyNat.
Local Open Scope Z_scope.
Ltac Zify.zify_post_hook ::= Z.div_mod_to_equations.

(* ---------- inet_pton(AF_INET) accepts the canonical form only ---------- *)
Fixpoint dots (l : list Z) : str :=
  match l with
  | [] => []
  | [x] => dec_string x
  | x :: r => dec_string x ++ 46 :: dots r
  end.

Lemma dec_extend cur c : 0 < cur -> 48 <= c <= 57 -> cur * 10 + (c - 48) <= 255 ->
  dec_string (cur * 10 + (c - 48)) = dec_string cur ++ [c].
Proof.
  intros H C L. rewrite !dec_byte by lia.
  destruct (cur <? 10) eqn:E.
  - replace (cur * 10 + (c - 48) <? 10) with false by lia.
    replace (cur * 10 + (c - 48) <? 100) with true by lia.
    cbn [app].
    replace (48 + (cur * 10 + (c - 48)) / 10) with (48 + cur) by lia.
    replace (48 + (cur * 10 + (c - 48)) mod 10) with c by lia. reflexivity.
  - replace (cur * 10 + (c - 48) <? 10) with false by lia.
    replace (cur * 10 + (c - 48) <? 100) with false by lia.
    replace (cur <? 100) with true by lia. cbn [app].
    replace (48 + (cur * 10 + (c - 48)) / 100) with (48 + cur / 10) by lia.
    replace (48 + (cur * 10 + (c - 48)) / 10 mod 10) with (48 + cur mod 10) by lia.
    replace (48 + (cur * 10 + (c - 48)) mod 10) with c by lia. reflexivity.
Qed.

Lemma dec_digit c : 48 <= c <= 57 -> dec_string (c - 48) = [c].
Proof.
  intros H. rewrite dec_byte by lia. replace (c - 48 <? 10) with true by lia. f_equal. lia.
Qed.

Lemma pton4_canonical s : forall out cur k saw q,
  pton4_loop s out cur k saw = Some q ->
  Forall is_byte out -> 0 <= cur < 256 -> (saw = false -> cur = 0) ->
  k = Z.of_nat (length out) + (if saw then 1 else 0) -> k <= 4 ->
  (saw = false -> k <= 3) ->
  exists x tl, q = out ++ x :: tl /\ Forall is_byte q /\ length q = 4%nat
    /\ (if saw then dec_string cur ++ s else s) = dots (x :: tl).
Proof.
  induction s as [|ch s IH]; intros out cur k saw q; cbn [pton4_loop].
  - destruct (k <? 4) eqn:K; [discriminate|]. intros E F C Z0 L M N. injection E as <-.
    destruct saw; [|lia]. exists cur, []. rewrite app_nil_r. repeat split.
    + apply Forall_app. split; auto.
    + rewrite app_length. cbn [length]. lia.
  - destruct ((48 <=? ch) && (ch <=? 57)) eqn:D.
    + cbv zeta. destruct saw.
      * cbn [andb]. destruct (cur =? 0) eqn:Z1; [discriminate|].
        destruct (255 <? _) eqn:B; [discriminate|].
        intros E F C Z0 L M N. apply IH in E; auto; try lia; try discriminate.
        destruct E as (x & tl & Q & FQ & LQ & T). exists x, tl. repeat split; auto.
        rewrite <- T, dec_extend by lia. rewrite <- app_assoc. reflexivity.
      * cbn [andb]. destruct (255 <? _) eqn:B; [discriminate|].
        destruct (4 <? k + 1) eqn:B2; [discriminate|].
        intros E F C Z0 L M N. apply IH in E; auto; try lia; try discriminate.
        destruct E as (x & tl & Q & FQ & LQ & T). exists x, tl. repeat split; auto.
        rewrite <- T. rewrite (Z0 eq_refl). change (0 * 10 + (ch - 48)) with (ch - 48).
        rewrite dec_digit by lia. reflexivity.
    + destruct ((ch =? 46) && saw) eqn:P; [|discriminate].
      apply andb_prop in P. destruct P as [P ->]. destruct (k =? 4) eqn:K4; [discriminate|].
      intros E F C Z0 L M N. apply IH in E; auto; try lia.
      * destruct E as (x & tl & Q & FQ & LQ & T). exists cur, (x :: tl).
        rewrite <- app_assoc in Q. cbn [app] in Q. repeat split; auto.
        rewrite T. replace ch with 46 by lia. reflexivity.
      * apply Forall_app. split; auto.
      * rewrite app_length. cbn [length]. lia.
Qed.

Lemma pton4_only_canonical s q : inet_pton4 s = Some q ->
  length q = 4%nat /\ Forall is_byte q /\ s = inet_ntop4 q.
Proof.
  intros H. apply pton4_canonical in H; auto; try lia.
  destruct H as (x & tl & Q & FQ & LQ & T). repeat split; auto.
  cbn [app] in Q. subst q. rewrite T.
  destruct tl as [|y [|z [|w [|? ?]]]]; try discriminate. reflexivity.
Qed.

Lemma bytes4_explicit q : length q = 4%nat -> Forall is_byte q ->
  exists a b c d, q = [a; b; c; d] /\ is_byte a /\ is_byte b /\ is_byte c /\ is_byte d.
Proof.
  intros L F. destruct q as [|a [|b [|c [|d [|? ?]]]]]; try discriminate.
  inversion F as [|? ? F1 F2]; subst. inversion F2 as [|? ? F3 F4]; subst.
  inversion F4 as [|? ? F5 F6]; subst. inversion F6 as [|? ? F7 F8]; subst.
  exists a, b, c, d. auto.
Qed.

Lemma pton4_iff s q : inet_pton4 s = Some q <->
  length q = 4%nat /\ Forall is_byte q /\ s = inet_ntop4 q.
Proof.
  split; [apply pton4_only_canonical|].
  intros (L & F & ->). destruct (bytes4_explicit q L F) as (a & b & c & d & -> & ?).
  now apply ntop4_pton4.
Qed.

(* ---------- characters accepted by inet_pton(AF_INET6) ---------- *)
Definition ip_text_char (c : Z) : bool :=
  ip_char c || ((65 <=? c) && (c <=? 70)).

Lemma pton4_chars s q : inet_pton4 s = Some q -> forallb dotted_char s = true.
Proof.
  intros H. apply pton4_only_canonical in H. destruct H as (L & F & ->).
  destruct (bytes4_explicit q L F) as (a & b & c & d & -> & ?). now apply ntop4_chars.
Qed.

Lemma forallb_imp (p q : Z -> bool) s : (forall c, p c = true -> q c = true) ->
  forallb p s = true -> forallb q s = true.
Proof.
  intros H F. apply forallb_forall. intros x I. apply H. now apply (proj1 (forallb_forall p s) F).
Qed.

Lemma dotted_text c : dotted_char c = true -> ip_text_char c = true.
Proof. unfold ip_text_char, ip_char. now intros ->. Qed.

Lemma pton6_loop_chars s : forall cur tp cp n v q,
  pton6_loop s cur tp cp n v = Some q -> (exists p, cur = p ++ s) ->
  forallb ip_text_char s = true.
Proof.
  induction s as [|ch s IH]; intros cur tp cp n v q; [reflexivity|].
  cbn [pton6_loop]. intros E [p P].
  assert (N : exists p', cur = p' ++ s) by (exists (p ++ [ch]); rewrite <- app_assoc; exact P).
  destruct (hex_digit ch) eqn:D.
  - assert (C : ip_text_char ch = true).
    { unfold hex_digit in D. unfold ip_text_char, ip_char, dotted_char.
      repeat match type of D with (if ?b then _ else _) = _ => destruct b eqn:? end;
        try discriminate; lia. }
    cbn [forallb]. rewrite C. cbn [andb].
    destruct (n =? 4)%nat; [discriminate|]. cbv zeta in E.
    destruct (65535 <? _); [discriminate|]. now apply IH in E.
  - destruct (ch =? 58) eqn:C.
    + assert (C' : ip_text_char ch = true)
        by (unfold ip_text_char, ip_char, dotted_char; lia).
      cbn [forallb]. rewrite C'. cbn [andb].
      destruct (n =? 0)%nat.
      * destruct cp; [discriminate|]. apply IH in E; auto. now exists [].
      * destruct s as [|c' s']; [discriminate|]. destruct (16 <? _)%nat; [discriminate|].
        apply IH in E; auto. now exists [].
    + destruct ((ch =? 46) && _); [|discriminate].
      destruct (inet_pton4 cur) eqn:Q; [|discriminate].
      apply pton4_chars in Q. rewrite P, forallb_app in Q.
      apply andb_prop in Q. destruct Q as [_ Q].
      exact (forallb_imp _ _ _ dotted_text Q).
Qed.

Lemma pton6_chars s q : inet_pton6 s = Some q -> forallb ip_text_char s = true.
Proof.
  unfold inet_pton6. destruct s as [|c r]; [discriminate|].
  destruct (c =? 58) eqn:C.
  - destruct r as [|d r]; [discriminate|]. destruct (d =? 58); [|discriminate].
    intros E. apply pton6_loop_chars in E; [|now exists []].
    cbn [forallb] in *. rewrite E. unfold ip_text_char, ip_char, dotted_char. lia.
  - intros E. apply pton6_loop_chars in E; auto. now exists [].
Qed.

(* ---------- the address part ---------- *)
Lemma skip12_bytes l : bytes16 l ->
  exists a b c d, skipn 12 l = [a; b; c; d] /\ is_byte a /\ is_byte b /\ is_byte c /\ is_byte d.
Proof.
  intros B. destruct (bytes16_explicit l B) as
    (b0 & b1 & b2 & b3 & b4 & b5 & b6 & b7 & b8 & b9 & b10 & b11 & b12 & b13 & b14 & b15
     & -> & H0 & H1 & H2 & H3 & H4 & H5 & H6 & H7 & H8 & H9 & H10 & H11 & H12 & H13 & H14 & H15).
  exists b12, b13, b14, b15. cbn [skipn]. auto.
Qed.

Lemma skip12_num l : bytes16 l -> num (skipn 12 l) = num l mod 2 ^ 32.
Proof.
  intros B. destruct (bytes16_explicit l B) as
    (b0 & b1 & b2 & b3 & b4 & b5 & b6 & b7 & b8 & b9 & b10 & b11 & b12 & b13 & b14 & b15
     & -> & H0 & H1 & H2 & H3 & H4 & H5 & H6 & H7 & H8 & H9 & H10 & H11 & H12 & H13 & H14 & H15).
  rewrite num_explicit. unfold num16. cbn [skipn]. unfold is_byte in *.
  cbn [num length]. 
  change (256 ^ Z.of_nat 3) with (2^24). change (256 ^ Z.of_nat 2) with (2^16).
  change (256 ^ Z.of_nat 1) with (2^8). change (256 ^ Z.of_nat 0) with 1. lia.
Qed.

Lemma v4_same_low a b : addr_wf a -> addr_wf b -> is_ipv4 a = true -> is_ipv4 b = true ->
  skipn 12 (s6 a) = skipn 12 (s6 b) -> value a = value b.
Proof.
  intros Wa Wb Ia Ib E.
  apply is_ipv4_value in Ia; auto. apply is_ipv4_value in Ib; auto.
  pose proof (skip12_num _ (wf_ip _ Wa)) as Na. pose proof (skip12_num _ (wf_ip _ Wb)) as Nb.
  rewrite E in Na. fold (value a) in Na. fold (value b) in Nb.
  unfold is_v4_value, v4_base in *. generalize dependent (value a). generalize dependent (value b).
  intros va Ib Nb vb Ia Na. clear - Ia Ib Na Nb. lia.
Qed.

Lemma default6 a : addr_wf a -> is_ipv4 a = false -> is_default a = true ->
  inet_ntop6 (s6 a) = lit "::".
Proof.
  intros W N D. apply is_default_value in D; auto. destruct D as [D|D].
  - assert (E : s6 a = s6 addr_new).
    { apply value_inj; auto using new_wf. }
    rewrite E. reflexivity.
  - exfalso. rewrite is_ipv4_bool in N by auto. rewrite D in N. unfold v4_base in N. lia.
Qed.

Lemma mask_ipv4_compatible_value a : addr_wf a ->
  (is_mask_ipv4_compatible a = true <-> prefix_mask 96 <= mask_value a).
Proof.
  intros W. unfold is_mask_ipv4_compatible, mask_value.
  destruct (bytes16_explicit _ (wf_mask _ W)) as
    (b0 & b1 & b2 & b3 & b4 & b5 & b6 & b7 & b8 & b9 & b10 & b11 & b12 & b13 & b14 & b15
     & -> & H0 & H1 & H2 & H3 & H4 & H5 & H6 & H7 & H8 & H9 & H10 & H11 & H12 & H13 & H14 & H15).
  rewrite num_explicit. unfold num16, prefix_mask, is_byte in *. cbn [firstn forallb].
  clear W. lia.
Qed.

(* the run of characters up to the first one outside a class *)
Fixpoint span (p : Z -> bool) (s : str) : str :=
  match s with
  | [] => []
  | c :: r => if p c then c :: span p r else []
  end.
Definition starts_outside (p : Z -> bool) (s : str) : Prop :=
  match s with [] => True | c :: _ => p c = false end.
Lemma span_app p s r : forallb p s = true -> starts_outside p r -> span p (s ++ r) = s.
Proof.
  induction s as [|c s IH]; cbn [app forallb span].
  - destruct r; cbn; auto. now intros _ ->.
  - intros H S. apply andb_prop in H. destruct H as [-> H]. f_equal. auto.
Qed.

Definition rest_ok (mode : Z) (r : str) : Prop :=
  match r with
  | [] => True
  | c :: _ => (c = 58 /\ shows_port mode = true) \/ c = 47
  end.

Lemma slash_shown mode : shows_address mode = true -> slash mode = [47].
Proof.
  unfold shows_address, slash, has. intros H.
  replace (Z.land mode (Z.lor (Z.lor (Z.lor STRING_IP_ADDRESS STRING_IP_BRACKET_ADDRESS)
     STRING_IP_PORT) STRING_IP_PORT_NAME) =? 0) with false; [reflexivity|].
  symmetry. apply Z.eqb_neq. intros E.
  apply negb_true_iff, Z.eqb_neq in H. apply H.
  apply Z.bits_inj'. intros n Hn. rewrite Z.bits_0, Z.land_spec.
  assert (X := f_equal (fun z => Z.testbit z n) E). cbv beta in X.
  rewrite Z.bits_0, Z.land_spec, !Z.lor_spec in X. rewrite Z.lor_spec.
  destruct (Z.testbit mode n); auto. cbn [andb] in *.
  destruct (Z.testbit STRING_IP_ADDRESS n); [discriminate|].
  destruct (Z.testbit STRING_IP_BRACKET_ADDRESS n); [discriminate|]. reflexivity.
Qed.

Lemma rest_text mode p m : shows_address mode = true ->
  (p = [] \/ (exists t, p = 58 :: t) /\ shows_port mode = true) ->
  (m = [] \/ exists t, m = slash mode ++ t) -> rest_ok mode (p ++ m).
Proof.
  intros A [->|[[t ->] Sp]] M; cbn [app].
  - destruct M as [->|[t ->]]; [exact I|]. rewrite slash_shown by auto. cbn. now right.
  - cbn. now left.
Qed.

Lemma port_text_form y a mode p : shows_address mode = true -> port_text y a mode = Ok p ->
  p = [] \/ (exists t, p = 58 :: t) /\ shows_port mode = true.
Proof.
  unfold port_text. intros A. rewrite A. destruct (shows_port mode) eqn:S.
  - destruct (if has mode STRING_IP_PORT_NAME then _ else _) as [n| | |]; try discriminate.
    cbn [rbind]. destruct n; intros E; injection E as <-; right; eauto.
  - intros E. injection E as <-. now left.
Qed.

Lemma mask_text4_form a mode m : mask_text4 a mode = Ok m ->
  m = [] \/ exists t, m = slash mode ++ t.
Proof.
  unfold mask_text4. destruct (shows_mask mode a); [|intros E; injection E as <-; now left].
  destruct (negb _); [discriminate|]. cbv zeta. intros E. injection E as <-. right. eauto.
Qed.
Lemma mask_text6_form a mode b : 
  mask_text6 a mode b = [] \/ exists t, mask_text6 a mode b = slash mode ++ t.
Proof. unfold mask_text6. destruct (shows_mask mode a); eauto. Qed.

(* The text of to_ipv4or6_string() when the address is asked for, no
   default-as flag. *)
Lemma text4_form y a mode s : addr_wf a -> shows_address mode = true ->
  Z.land mode (Z.lor STRING_IP_DEFAULT_AS_ASTERISK STRING_IP_DEFAULT_AS_IPV4) = 0 ->
  to_ipv4_string y a mode = Ok s ->
  is_ipv4 a = true /\ exists r, s = inet_ntop4 (skipn 12 (s6 a)) ++ r /\ rest_ok mode r.
Proof.
  intros W A D. unfold to_ipv4_string. rewrite A.
  destruct (is_ipv4 a); [|discriminate]. cbn [negb].
  assert (AS : has mode STRING_IP_DEFAULT_AS_ASTERISK = false).
  { unfold has. apply negb_false_iff, Z.eqb_eq.
    apply Z.bits_inj'. intros n Hn. assert (X := f_equal (fun z => Z.testbit z n) D).
    cbv beta in X. rewrite Z.bits_0, Z.land_spec, Z.lor_spec in X. rewrite Z.bits_0, Z.land_spec.
    destruct (Z.testbit mode n); auto. cbn [andb] in *.
    destruct (Z.testbit STRING_IP_DEFAULT_AS_ASTERISK n); auto. }
  rewrite AS. cbn [andb rbind].
  destruct (port_text y a mode) as [p| | |] eqn:P; try discriminate. cbn [rbind].
  destruct (mask_text4 a mode) as [m| | |] eqn:M; try discriminate. cbn [rbind].
  intros E. injection E as <-. split; auto. exists (p ++ m). split; auto.
  apply rest_text; eauto using port_text_form, mask_text4_form.
Qed.

Lemma no_default_flags mode :
  Z.land mode (Z.lor STRING_IP_DEFAULT_AS_ASTERISK STRING_IP_DEFAULT_AS_IPV4) = 0 ->
  has mode STRING_IP_DEFAULT_AS_ASTERISK = false /\ has mode STRING_IP_DEFAULT_AS_IPV4 = false.
Proof.
  intros D. unfold has. split; apply negb_false_iff, Z.eqb_eq;
    apply Z.bits_inj'; intros n Hn; assert (X := f_equal (fun z => Z.testbit z n) D);
    cbv beta in X; rewrite Z.bits_0, Z.land_spec, Z.lor_spec in X; rewrite Z.bits_0, Z.land_spec;
    destruct (Z.testbit mode n); auto; cbn [andb] in *;
    destruct (Z.testbit STRING_IP_DEFAULT_AS_ASTERISK n), (Z.testbit STRING_IP_DEFAULT_AS_IPV4 n);
    auto.
Qed.

Lemma text6_form y a mode s : addr_wf a -> shows_address mode = true -> is_ipv4 a = false ->
  Z.land mode (Z.lor STRING_IP_DEFAULT_AS_ASTERISK STRING_IP_DEFAULT_AS_IPV4) = 0 ->
  to_ipv6_string y a mode = Ok s ->
  exists r, s = bracketed (brackets mode) (inet_ntop6 (s6 a)) ++ r /\ rest_ok mode r.
Proof.
  intros W A N D. destruct (no_default_flags mode D) as [D1 D2].
  unfold to_ipv6_string, ip_text6. rewrite A, D1, D2.
  assert (E : (if is_default a then (bracketed (brackets mode) (lit "::"), brackets mode)
     else (bracketed (brackets mode) (inet_ntop6 (s6 a)), brackets mode))
     = (bracketed (brackets mode) (inet_ntop6 (s6 a)), brackets mode)).
  { destruct (is_default a) eqn:F; auto. now rewrite default6. }
  rewrite E. clear E.
  destruct (port_text y a mode) as [p| | |] eqn:P; try discriminate. cbn [rbind].
  intros E. injection E as <-. exists (p ++ mask_text6 a mode (brackets mode)). split; auto.
  apply rest_text; eauto using port_text_form, mask_text6_form.
Qed.

Lemma no_brackets_no_port mode : brackets mode = false -> shows_port mode = false.
Proof.
  unfold brackets, shows_port, has. intros D. apply negb_false_iff, Z.eqb_eq in D.
  apply negb_false_iff, Z.eqb_eq.
  apply Z.bits_inj'; intros n Hn; assert (X := f_equal (fun z => Z.testbit z n) D);
    cbv beta in X; rewrite Z.bits_0, Z.land_spec, !Z.lor_spec in X;
    rewrite Z.bits_0, Z.land_spec, Z.lor_spec.
  destruct (Z.testbit mode n); auto; cbn [andb] in *.
  destruct (Z.testbit STRING_IP_PORT n); [rewrite !orb_true_r in X; discriminate|].
  destruct (Z.testbit STRING_IP_PORT_NAME n); [rewrite !orb_true_r in X; discriminate|].
  reflexivity.
Qed.

Lemma rest_ok_dotted mode r : rest_ok mode r -> starts_outside dotted_char r.
Proof. destruct r as [|c r]; cbn; auto. intros [[-> _]| ->]; reflexivity. Qed.
Lemma rest_ok_ip mode r : shows_port mode = false -> rest_ok mode r -> starts_outside ip_char r.
Proof. destruct r as [|c r]; cbn; auto. intros S [[_ E]| ->]; [congruence|reflexivity]. Qed.

Lemma ntop4_not_bracket l : bytes16 l -> exists c r, inet_ntop4 (skipn 12 l) = c :: r /\ c <> 91.
Proof.
  intros B. destruct (skip12_bytes l B) as (a & b & c & d & -> & Ha & _).
  unfold inet_ntop4, at_. cbn [nth]. unfold is_byte in Ha.
  destruct (dec_string_spec a) as (N & F & _); [lia|].
  destruct (dec_string a) as [|x t]; [congruence|]. cbn [app]. eexists _, _. split; [reflexivity|].
  cbn [forallb] in F. unfold digit_char in F. lia.
Qed.

Lemma mixed_texts_gen t4 t6 mode r1 r2 :
  forallb dotted_char t4 = true -> (exists c r, t4 = c :: r /\ c <> 91) ->
  forallb ip_char t6 = true -> In 58 t6 ->
  rest_ok mode r1 -> rest_ok mode r2 ->
  t4 ++ r1 = bracketed (brackets mode) t6 ++ r2 -> False.
Proof.
  intros C4 (c & r & F & N) C6 I R1 R2 E. destruct (brackets mode) eqn:B; cbn [bracketed] in E.
  - rewrite F in E. cbn [app] in E. injection E as E _. congruence.
  - assert (S : shows_port mode = false) by now apply no_brackets_no_port.
    apply (f_equal (span ip_char)) in E.
    rewrite span_app in E; [|now apply dotted_ip|now apply (rest_ok_ip mode)].
    rewrite span_app in E; [|assumption|now apply (rest_ok_ip mode)].
    rewrite <- E in I.
    rewrite forallb_forall in C4. specialize (C4 58 I). discriminate.
Qed.

Lemma mixed_texts a b mode r1 r2 : addr_wf a -> addr_wf b ->
  rest_ok mode r1 -> rest_ok mode r2 ->
  inet_ntop4 (skipn 12 (s6 a)) ++ r1
  = bracketed (brackets mode) (inet_ntop6 (s6 b)) ++ r2 -> False.
Proof.
  intros Wa Wb. apply mixed_texts_gen.
  - destruct (skip12_bytes _ (wf_ip _ Wa)) as (x & y & z & t & F & Hx & Hy & Hz & Ht).
    rewrite F. now apply ntop4_chars.
  - apply ntop4_not_bracket, (wf_ip _ Wa).
  - apply ntop6_chars, (wf_ip _ Wb).
  - apply ntop6_colon.
Qed.

Lemma same_texts6 t1 t2 mode r1 r2 :
  forallb ip_char t1 = true -> forallb ip_char t2 = true ->
  rest_ok mode r1 -> rest_ok mode r2 ->
  bracketed (brackets mode) t1 ++ r1 = bracketed (brackets mode) t2 ++ r2 -> t1 = t2.
Proof.
  intros C1 C2 R1 R2 E. destruct (brackets mode) eqn:B; cbn [bracketed] in E.
  - cbn [app] in E. injection E as E. rewrite <- !app_assoc in E.
    apply (f_equal (span ip_char)) in E.
    rewrite !span_app in E; auto; reflexivity.
  - assert (S : shows_port mode = false) by now apply no_brackets_no_port.
    apply (f_equal (span ip_char)) in E.
    rewrite !span_app in E by eauto using rest_ok_ip. exact E.
Qed.

Lemma text_injective y1 y2 mode a b s : addr_wf a -> addr_wf b -> shows_address mode = true ->
  Z.land mode (Z.lor STRING_IP_DEFAULT_AS_ASTERISK STRING_IP_DEFAULT_AS_IPV4) = 0 ->
  to_ipv4or6_string y1 a mode = Ok s -> to_ipv4or6_string y2 b mode = Ok s ->
  value a = value b.
Proof.
  intros Wa Wb A D Ea Eb. unfold to_ipv4or6_string in *.
  destruct (is_ipv4 a) eqn:Ia; destruct (is_ipv4 b) eqn:Ib.
  - apply text4_form in Ea; auto. apply text4_form in Eb; auto.
    destruct Ea as (_ & r1 & E1 & R1). destruct Eb as (_ & r2 & E2 & R2).
    apply v4_same_low; auto. rewrite E1 in E2.
    destruct (skip12_bytes _ (wf_ip _ Wa)) as (x & y & z & t & F & Hx & Hy & Hz & Ht).
    destruct (skip12_bytes _ (wf_ip _ Wb)) as (x' & y' & z' & t' & F' & Hx' & Hy' & Hz' & Ht').
    rewrite F, F' in *.
    apply (f_equal (span dotted_char)) in E2.
    rewrite !span_app in E2 by eauto using ntop4_chars, rest_ok_dotted.
    apply (f_equal inet_pton4) in E2. rewrite !ntop4_pton4 in E2 by auto. congruence.
  - exfalso. apply text4_form in Ea; auto. apply text6_form in Eb; auto.
    destruct Ea as (_ & r1 & E1 & R1). destruct Eb as (r2 & E2 & R2).
    rewrite E1 in E2. exact (mixed_texts a b mode r1 r2 Wa Wb R1 R2 E2).
  - exfalso. apply text4_form in Eb; auto. apply text6_form in Ea; auto.
    destruct Eb as (_ & r1 & E1 & R1). destruct Ea as (r2 & E2 & R2).
    rewrite E1 in E2. exact (mixed_texts b a mode r1 r2 Wb Wa R1 R2 E2).
  - apply text6_form in Ea; auto. apply text6_form in Eb; auto.
    destruct Ea as (r1 & E1 & R1). destruct Eb as (r2 & E2 & R2). rewrite E1 in E2.
    assert (T : inet_ntop6 (s6 a) = inet_ntop6 (s6 b)).
    { apply (same_texts6 _ _ mode r1 r2); auto using ntop6_chars, wf_ip. }
    apply (f_equal inet_pton6) in T. rewrite !ntop6_pton6 in T by apply wf_ip, Wa || apply wf_ip, Wb.
    unfold value. congruence.
Qed.
