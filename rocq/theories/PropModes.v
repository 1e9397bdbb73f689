(* Properties C119-C121: the modes of the text output, the names of the
   network types, the texts of ranges. *)
From Coq Require Import ZifyBool ZifyNat.
From Verif Require Import Base Addr Spec Range SpecRange Inet SpecText SpecIpv6 AddrText SpecModes.
From Verif Require AddrProofs AddrProofs2 AddrProofs3 AddrProofs4 InetProofs InetProofs2 TextProofs PropText PropAddr PropParser6 RangeProofs ParserProofs10 ParserProofs11 Ipv6Proofs2.
Import AddrProofs AddrProofs2 AddrProofs3 InetProofs InetProofs2 TextProofs Ipv6Proofs2.
Local Open Scope Z_scope.

Lemma has_lor mode f g : has mode (Z.lor f g) = has mode f || has mode g.
Proof.
  unfold has. rewrite Z.land_lor_distr_r. destruct (Z.lor _ _ =? 0) eqn:E.
  - rewrite Z.eqb_eq, Z.lor_eq_0_iff in E. destruct E as [-> ->]. reflexivity.
  - destruct (Z.land mode f =? 0) eqn:F, (Z.land mode g =? 0) eqn:G; try reflexivity.
    apply Z.eqb_eq in F, G. rewrite F, G in E. discriminate.
Qed.
Lemma has_bit mode n : 0 <= n -> has mode (2 ^ n) = bit mode n.
Proof.
  intros H. unfold has, bit. destruct (Z.testbit mode n) eqn:T; [|].
  - destruct (_ =? 0) eqn:E; [|reflexivity]. apply Z.eqb_eq in E.
    assert (Z.testbit (Z.land mode (2 ^ n)) n = true) as X by (rewrite Z.land_spec, T, Z.pow2_bits_true; auto).
    rewrite E, Z.bits_0 in X. discriminate.
  - replace (Z.land mode (2 ^ n)) with 0; [reflexivity|]. symmetry. apply Z.bits_inj'. intros i Hi.
    rewrite Z.land_spec, Z.bits_0. destruct (Z.eq_dec i n) as [->|N]; [now rewrite T|]. rewrite Z.pow2_bits_false by lia. apply andb_false_r.
Qed.
Lemma flags mode :
  has mode STRING_IP_ADDRESS = bit mode 0 /\ has mode STRING_IP_BRACKET_ADDRESS = bit mode 1
  /\ has mode STRING_IP_PORT = bit mode 2 /\ has mode STRING_IP_PORT_NAME = bit mode 3
  /\ has mode STRING_IP_MASK = bit mode 4 /\ has mode STRING_IP_BRACKET_MASK = bit mode 5
  /\ has mode STRING_IP_MASK_AS_ADDRESS = bit mode 6 /\ has mode STRING_IP_MASK_IF_NEEDED = bit mode 7
  /\ has mode STRING_IP_DEFAULT_AS_ASTERISK = bit mode 8 /\ has mode STRING_IP_DEFAULT_AS_IPV4 = bit mode 9.
Proof.
  rewrite <- !has_bit by lia. repeat (split; [reflexivity|]). reflexivity.
Qed.
Lemma wants mode : shows_address mode = wants_address mode /\ shows_port mode = wants_port mode
  /\ brackets mode = wants_brackets mode /\ slash mode = stroke mode.
Proof.
  destruct (flags mode) as (F0 & F1 & F2 & F3 & F4 & F5 & F6 & F7 & F8 & F9).
  unfold shows_address, shows_port, brackets, slash, wants_address, wants_port, wants_brackets, stroke, wants_address, wants_port.
  rewrite !has_lor, F0, F1, F2, F3, F5. rewrite orb_assoc. repeat (split; [reflexivity|]). 
  destruct (bit mode 1), (bit mode 2), (bit mode 3), (bit mode 5); split; reflexivity.
Qed.
Lemma mask_shown mode a : addr_wf a -> (shows_mask mode a = true <-> wants_mask mode (mask_value a)).
Proof.
  intros W. destruct (flags mode) as (F0 & F1 & F2 & F3 & F4 & F5 & F6 & F7 & F8 & F9).
  unfold shows_mask, wants_mask. rewrite !has_lor, F4, F5, F6, F7.
  rewrite <- (PropText.mask_size_128 a W), andb_true_iff. generalize (bit mode 4 || bit mode 5 || bit mode 6). intros u.
  destruct (Z.eqb_spec (get_mask_size a) 128) as [E|E], (bit mode 7); cbn [negb orb]; intuition congruence.
Qed.
Lemma port_parts y a mode s : port_text y a mode = Ok s -> port_of y a mode s.
Proof.
  destruct (wants mode) as (WA & WP & _). destruct (flags mode) as (_ & _ & _ & F3 & _).
  unfold port_text. rewrite WA, WP, F3.
  assert (plain_decimal (dec_string (get_port a)) (get_port a)) as PD.
  { apply PropText.plain_dec_string. apply get_port_range. }
  destruct (wants_port mode) eqn:W; [|intros E; injection E as <-; now constructor].
  fold (colon mode). destruct (bit mode 3) eqn:B3.
  - destruct (get_port_name y a) as [n|e| |] eqn:G; cbn [rbind]; try discriminate.
    destruct n as [|c n]; intros E; injection E as <-.
    + now apply port_number.
    + apply port_name; [exact B3|exact G|discriminate].
  - cbn [rbind]. intros E. injection E as <-. apply port_number; [exact W|congruence|exact PD].
Qed.

Lemma mask_parts4 a mode s : addr_wf a -> mask_text4 a mode = Ok s -> mask4 (mask_value a) mode s.
Proof.
  intros W. destruct (wants mode) as (_ & _ & _ & SL). destruct (flags mode) as (_ & _ & _ & _ & _ & _ & F6 & _).
  pose proof (mask_shown mode a W) as MS. unfold mask_text4. destruct (shows_mask mode a).
  2:{ intros E. injection E as <-. apply mask4_none. intros X. apply MS in X. discriminate. }
  destruct (is_mask_ipv4_compatible a) eqn:C; [|discriminate]. cbn [negb]. intros E. injection E as <-. rewrite SL.
  apply mask_ipv4_compatible_value in C; [|exact W].
  destruct (ParserProofs11.ntop_mask4 (f_mask a) (wf_mask _ W) C) as (w & DW & EW). fold (mask_value a) in EW.
  pose proof (proj1 MS eq_refl) as WM. unfold mask_bits. rewrite F6. destruct (bit mode 6) eqn:B6.
  - apply (mask4_address _ _ _ w WM); auto.
  - destruct (get_mask_size_spec a W) as [(n & Hn & E & ->)|[N ->]].
    + replace (n =? -1) with false by lia.
      assert (96 <= n) as N96.
      { rewrite E in C. destruct (Z_lt_le_dec n 96) as [L|L]; [|exact L]. exfalso. revert C. unfold prefix_mask.
        assert (2 ^ 33 <= 2 ^ (128 - n)) as X by (apply Z.pow_le_mono_r; lia).
        change (2 ^ (128 - 96)) with 4294967296. change (2 ^ 33) with 8589934592 in X. lia. }
      rewrite ParserProofs10.to_string_dec by lia.
      apply (mask4_number _ _ n); auto; [lia|]. apply PropText.plain_dec_string. lia.
    + change (-1 =? -1) with true. apply (mask4_address _ _ _ w WM); auto.
      right. intros (k & K & EK). now apply (N k K).
Qed.
Lemma mask_parts6 a mode b : addr_wf a -> mask6 (mask_value a) mode b (mask_text6 a mode b).
Proof.
  intros W. destruct (wants mode) as (_ & _ & _ & SL). destruct (flags mode) as (_ & _ & _ & _ & _ & _ & F6 & _).
  pose proof (mask_shown mode a W) as MS. unfold mask_text6. destruct (shows_mask mode a).
  2:{ apply mask6_none. intros X. apply MS in X. discriminate. }
  rewrite SL. pose proof (proj1 MS eq_refl) as WM. unfold mask_bits. rewrite F6.
  change (bracketed b (inet_ntop6 (f_mask a))) with (within b (inet_ntop6 (f_mask a))).
  pose proof (ntop6_text _ (wf_mask _ W)) as PM. destruct (bit mode 6) eqn:B6.
  - apply (mask6_address _ _ _ _ WM); auto.
  - destruct (get_mask_size_spec a W) as [(n & Hn & E & ->)|[N ->]].
    + replace (n =? -1) with false by lia. rewrite ParserProofs10.to_string_dec by lia.
      apply (mask6_number _ _ _ n); auto. apply PropText.plain_dec_string. lia.
    + change (-1 =? -1) with true. apply (mask6_address _ _ _ _ WM); auto.
      right. intros (k & K & EK). now apply (N k K).
Qed.
Lemma address_parts6 a mode t b : addr_wf a -> ip_text6 a mode = (t, b) -> address6 (value a) mode b t.
Proof.
  intros W. destruct (wants mode) as (WA & _ & BR & _). destruct (flags mode) as (_ & _ & _ & _ & _ & _ & _ & _ & F8 & F9).
  pose proof (is_default_value a W) as DV. unfold ip_text6. rewrite WA, BR, F8, F9.
  change bracketed with within. destruct (wants_address mode) eqn:WA'.
  2:{ intros E. injection E as <- <-. now constructor. }
  destruct (is_default a).
  - pose proof (proj1 DV eq_refl) as D. destruct (bit mode 8) eqn:B8; [|destruct (bit mode 9) eqn:B9];
      intros E; injection E as <- <-; now constructor.
  - intros E. injection E as <- <-. apply address6_text; auto.
    + intros X. apply DV in X. discriminate.
    + apply ntop6_text, (wf_ip _ W).
Qed.

(* ---------- C119 ---------- *)
Theorem C119_ipv4_parts : forall y a mode s, addr_wf a -> to_ipv4_string y a mode = Ok s -> text4 y a mode s.
Proof.
  intros y a mode s W. destruct (wants mode) as (WA & _). destruct (flags mode) as (_ & _ & _ & _ & _ & _ & _ & _ & F8 & _).
  pose proof (is_default_value a W) as DV. unfold to_ipv4_string. rewrite WA, F8.
  match goal with |- rbind ?X _ = _ -> _ => assert (forall A, X = Ok A -> address4 (value a) mode A) as AP; [|destruct X as [A|e| |]] end;
    cbn [rbind]; try discriminate.
  - intros A. destruct (wants_address mode) eqn:WA'; [|intros E; injection E as <-; now constructor].
    destruct (is_ipv4 a) eqn:I; [|discriminate]. cbn [negb].
    destruct (bit mode 8) eqn:B8, (is_default a) eqn:D; cbn [andb]; intros E; injection E as <-.
    1: apply address4_star; [exact WA'|apply DV; reflexivity|exact B8].
    all: destruct (PropText.C20_dotted_round_trip y a W (proj1 (is_ipv4_value a W) I)) as (s0 & E0 & _ & D0 & _);
      rewrite PropText.text4_address_only, I in E0; injection E0 as <-;
      apply (address4_text _ _ _ (value a - v4_base)); [exact WA'| |exact D0|lia].
    + intros [X _]. apply DV in X. discriminate.
    + intros [_ X]. congruence.
    + intros [_ X]. congruence.
  - destruct (port_text y a mode) as [P|e| |] eqn:EP; cbn [rbind]; try discriminate.
    destruct (mask_text4 a mode) as [M|e| |] eqn:EM; cbn [rbind]; try discriminate.
    intros E. injection E as <-. exists A, P, M. split; [reflexivity|]. split; [now apply AP|].
    split; [now apply port_parts|now apply mask_parts4].
Qed.
Print Assumptions C119_ipv4_parts.

Theorem C119_ipv6_parts : forall y a mode s, addr_wf a -> to_ipv6_string y a mode = Ok s -> text6 y a mode s.
Proof.
  intros y a mode s W. unfold to_ipv6_string. destruct (ip_text6 a mode) as [A b] eqn:EA.
  destruct (port_text y a mode) as [P|e| |] eqn:EP; cbn [rbind]; try discriminate.
  intros E. injection E as <-. exists b, A, P, (mask_text6 a mode b). split; [reflexivity|].
  split; [now apply address_parts6|]. split; [now apply port_parts|now apply mask_parts6].
Qed.
Print Assumptions C119_ipv6_parts.

Theorem C119_either_parts : forall y a mode s, addr_wf a -> to_ipv4or6_string y a mode = Ok s ->
  text y a mode s.
Proof.
  intros y a mode s W. pose proof (is_ipv4_value a W) as IV. unfold to_ipv4or6_string. destruct (is_ipv4 a); intros E; split; intros V.
  - now apply C119_ipv4_parts.
  - destruct V. now apply IV.
  - apply IV in V. discriminate.
  - now apply C119_ipv6_parts.
Qed.
Print Assumptions C119_either_parts.

(* A named port, a default address, a mask which is no prefix, a mask which is
   not needed. *)
Definition web_sys : sys := mk_sys (fun _ => None) (fun _ _ => NoEntry) (fun _ _ => Found (lit "https"))
  (fun _ => NoEntry) (fun _ => Found (lit "tcp")).
Example C119_witness : addr_wf PropAddr.w4 /\ addr_wf PropAddr.w6 /\ addr_wf addr_new
  /\ to_ipv4or6_string web_sys PropAddr.w4 0x7B = Ok (lit "192.168.3.17:https/255.255.255.0")
  /\ to_ipv4or6_string PropText.y0 PropAddr.w6 0x64 = Ok (lit "53/[ffff:ffff:ffff:ffff:ffff:ffff:ffff:ffff]")
  /\ to_ipv4or6_string PropText.y0 PropAddr.w6 0x91 = Ok (lit "2001:db8::1:ffff")
  /\ to_ipv6_string PropText.y0 addr_new 0x105 = Ok (lit "[*]:0")
  /\ to_ipv6_string PropText.y0 addr_new 0x215 = Ok (lit "0.0.0.0:0/128")
  /\ to_ipv4_string PropText.y0 PropAddr.w4 0x10 = Ok (lit "24").
Proof.
  split; [apply PropAddr.w4_wf|]. split; [apply PropAddr.w6_wf|]. split; [apply new_wf|]. vm_compute. auto 10.
Qed.

(* ---------- C120 ---------- *)
Theorem C120_type_names : forall a, addr_wf a -> f_private_network a = NETWORK_TYPE_UNDEFINED ->
  In (spec_network_type (value a), snd (get_network_type_string a)) type_names
  /\ snd (get_network_type_string (fst (get_network_type_string a))) = snd (get_network_type_string a)
  /\ s6 (fst (get_network_type_string a)) = s6 a /\ f_mask (fst (get_network_type_string a)) = f_mask a.
Proof.
  intros a W H. destruct (PropAddr.C12_network_type_table a W H) as [T U]. 
  pose proof (PropAddr.C12_query_twice a W) as Q. unfold get_network_type_string.
  assert (s6 (fst (get_network_type a)) = s6 a /\ f_mask (fst (get_network_type a)) = f_mask a) as K.
  { unfold get_network_type. rewrite H. split; reflexivity. }
  destruct (get_network_type a) as [a' t]. cbn [fst snd] in *.
  destruct (get_network_type a') as [a'' t']. cbn [fst snd] in *. subst t'. rewrite <- T. split; [|split; [reflexivity|exact K]].
  destruct t; [congruence|..]; cbn; auto 12.
Qed.
Print Assumptions C120_type_names.
(* Each type has one name, and no two types share a name. *)
Theorem C120_names_differ : forall t u n m, In (t, n) type_names -> In (u, m) type_names -> (t = u <-> n = m).
Proof.
  intros t u n m H K. unfold type_names in *. cbn [In] in *.
  repeat destruct H as [H|H]; try contradiction; injection H as <- <-;
    repeat destruct K as [K|K]; try contradiction; injection K as <- <-; split; intros; try reflexivity; discriminate.
Qed.
Print Assumptions C120_names_differ.

Example C120_witness : addr_wf PropAddr.w4 /\ f_private_network PropAddr.w4 = NETWORK_TYPE_UNDEFINED
  /\ snd (get_network_type_string PropAddr.w4) = lit "Private"
  /\ snd (get_network_type_string PropAddr.w6) = lit "Documentation".
Proof. split; [apply PropAddr.w4_wf|]. vm_compute. auto. Qed.

(* ---------- C121 ---------- *)
Lemma land_address mode : address_bits mode (Z.land mode (Z.lor STRING_IP_ADDRESS STRING_IP_BRACKET_ADDRESS)).
Proof.
  intros n Hn. unfold bit. rewrite Z.land_spec. change (Z.lor STRING_IP_ADDRESS STRING_IP_BRACKET_ADDRESS) with (Z.ones 2).
  rewrite andb_comm. f_equal. destruct (n <? 2) eqn:L; [apply Z.ones_spec_low|apply Z.ones_spec_high]; lia.
Qed.
Theorem C121_range_text : forall y r mode s, range_wf r -> range_to_string y r mode = Ok s -> text_range y r mode s.
Proof.
  intros y r mode s [WF WT] E. unfold range_to_string in E.
  destruct (is_defined r) eqn:D.
  2:{ rewrite orb_true_r in E. injection E as <-. apply range_undefined. unfold is_defined in D. unfold defined.
      intros [X|X]; rewrite X in D; [|rewrite orb_true_r in D]; discriminate. }
  cbn [negb] in E. rewrite orb_false_r in E.
  assert (defined r) as DR by (unfold is_defined in D; apply orb_true_iff in D; exact D).
  pose proof (RangeProofs.is_empty_spec r (mk_range_wf _ WF WT) DR) as IE.
  unfold has_from, has_to in E. destruct (is_empty r) eqn:EM.
  - injection E as <-. unfold is_empty, is_range in EM.
    destruct (f_has_from r) eqn:HF, (f_has_to r) eqn:HT; cbn [andb negb] in EM; try discriminate.
    apply range_nothing; [split; assumption|]. intros v [_ V]. lia.
  - destruct (f_has_from r) eqn:HF, (f_has_to r) eqn:HT; cbn [andb] in E.
    + destruct (to_ipv4or6_string y (f_from r) _) as [u|e| |] eqn:EF; cbn [rbind] in E; try discriminate.
      destruct (to_ipv4or6_string y (f_to r) mode) as [t|e| |] eqn:ET; cbn [rbind] in E; try discriminate.
      injection E as <-. eapply range_both; [split; assumption|split; [exact DR|lia]|apply land_address| |].
      * apply C119_either_parts; [exact WF|exact EF].
      * apply C119_either_parts; [exact WT|exact ET].
    + apply range_from; auto. now apply C119_either_parts.
    + destruct (to_ipv4or6_string y (f_to r) mode) as [t|e| |] eqn:ET; cbn [rbind] in E; try discriminate.
      injection E as <-. apply range_to; auto. now apply C119_either_parts.
    + destruct DR; congruence.
Qed.
Print Assumptions C121_range_text.

Lemma join_loop y mode sep rs : forall acc s,
  ranges_to_string_loop y rs mode sep false acc = Ok s <->
  exists texts, Forall2 (fun r t => range_to_string y r mode = Ok t) rs texts
    /\ s = acc ++ concat (map (fun t => sep ++ t) texts).
Proof.
  induction rs as [|r rs IH]; intros acc s; cbn [ranges_to_string_loop].
  - split.
    + intros E. injection E as <-. exists []. split; [constructor|]. cbn. now rewrite app_nil_r.
    + intros (ts & F & ->). inversion F. cbn. now rewrite app_nil_r.
  - destruct (range_to_string y r mode) as [t|e| |] eqn:ER; cbn [rbind].
    + rewrite IH. split.
      * intros (ts & F & ->). exists (t :: ts). split; [now constructor|]. cbn [map concat]. now rewrite <- !app_assoc.
      * intros (ts & F & ->). inversion F as [|r0 t0 rs0 ts0 E0 F0]; subst. exists ts0. split; [exact F0|].
        rewrite ER in E0. injection E0 as <-. cbn [map concat]. now rewrite <- !app_assoc.
    + split; [discriminate|]. intros (ts & F & ->). inversion F as [|r0 t0 rs0 ts0 E0 F0]; congruence.
    + split; [discriminate|]. intros (ts & F & ->). inversion F as [|r0 t0 rs0 ts0 E0 F0]; congruence.
    + split; [discriminate|]. intros (ts & F & ->). inversion F as [|r0 t0 rs0 ts0 E0 F0]; congruence.
Qed.
Lemma separated_concat sep t ts : separated sep (t :: ts) = t ++ concat (map (fun u => sep ++ u) ts).
Proof.
  revert t. induction ts as [|u ts IH]; intros t; [cbn; now rewrite app_nil_r|].
  change (separated sep (t :: u :: ts)) with (t ++ sep ++ separated sep (u :: ts)). rewrite IH. cbn [map concat].
  now rewrite <- !app_assoc.
Qed.
Theorem C121_list_text : forall y rs mode sep s,
  ranges_to_string y rs mode sep = Ok s <->
  exists texts, Forall2 (fun r t => range_to_string y r mode = Ok t) rs texts /\ s = separated sep texts.
Proof.
  intros y rs mode sep s. unfold ranges_to_string. destruct rs as [|r rs]; cbn [ranges_to_string_loop].
  - split; [intros E; injection E as <-; exists []; now split|]. intros (ts & F & ->). inversion F. reflexivity.
  - destruct (range_to_string y r mode) as [t|e| |] eqn:ER; cbn [rbind].
    + rewrite join_loop. split.
      * intros (ts & F & ->). exists (t :: ts). split; [now constructor|]. now rewrite separated_concat.
      * intros (ts & F & ->). inversion F as [|r0 t0 rs0 ts0 E0 F0]; subst. exists ts0. split; [exact F0|].
        rewrite ER in E0. injection E0 as <-. now rewrite separated_concat.
    + split; [discriminate|]. intros (ts & F & ->). inversion F as [|r0 t0 rs0 ts0 E0 F0]; congruence.
    + split; [discriminate|]. intros (ts & F & ->). inversion F as [|r0 t0 rs0 ts0 E0 F0]; congruence.
    + split; [discriminate|]. intros (ts & F & ->). inversion F as [|r0 t0 rs0 ts0 E0 F0]; congruence.
Qed.
Print Assumptions C121_list_text.

Example C121_witness : range_wf PropParser6.four_range /\ full PropParser6.four_range /\ nonempty PropParser6.four_range
  /\ ranges_to_string PropText.y0 [PropParser6.four_range; range_new; PropParser6.four_range] 0x11 (lit ", ")
     = Ok (lit "192.168.3.17-192.168.3.57/24, <empty address range>, 192.168.3.17-192.168.3.57/24").
Proof.
  split; [split; now apply AddrProofs4.addr_wfb_ok|]. split; [now split|]. split; [split; [now left|vm_compute; congruence]|].
  vm_compute. reflexivity.
Qed.
