(* Properties of the text form of addresses: C20, C21, C23, C65-C67. *)
From Verif Require Import Base Addr Spec Range Inet AddrText SpecText.
From Verif Require AddrProofs AddrProofs2 AddrProofs3 AddrProofs4 InetProofs InetProofs2 TextProofs PropAddr.
From Coq Require Import ZifyBool.
Import AddrProofs AddrProofs2 AddrProofs3 AddrProofs4 InetProofs InetProofs2 TextProofs PropAddr.
Local Open Scope Z_scope.
Ltac Zify.zify_post_hook ::= Z.div_mod_to_equations.

Lemma plain_dec_string v : 0 <= v -> plain_decimal (dec_string v) v.
Proof.
  intros H. destruct (dec_string_spec v H) as (N & F & V & Z).
  unfold plain_decimal, decimal. repeat split; auto. intros ->. reflexivity.
Qed.

(* a system to run the examples with: every lookup fails *)
Definition y0 : sys := mk_sys (fun _ => None) (fun _ _ => NoEntry) (fun _ _ => NoEntry)
  (fun _ => NoEntry) (fun _ => Failed).

(* ---------- C20 ---------- *)
Lemma text4_address_only y a : to_ipv4_string y a STRING_IP_ADDRESS
  = if is_ipv4 a then Ok (inet_ntop4 (skipn 12 (s6 a))) else Throw E_invalid_state.
Proof.
  unfold to_ipv4_string, shows_address, has, port_text, shows_port, mask_text4, shows_mask, has.
  cbn [Z.land Pos.land Z.eqb negb]. change (Z.land STRING_IP_ADDRESS (Z.lor STRING_IP_ADDRESS STRING_IP_BRACKET_ADDRESS) =? 0) with false.
  cbn [negb]. destruct (is_ipv4 a); [|reflexivity]. cbn. now rewrite app_nil_r.
Qed.

Lemma skip12_value a : addr_wf a -> is_ipv4 a = true ->
  exists p q r t, is_byte p /\ is_byte q /\ is_byte r /\ is_byte t
    /\ skipn 12 (s6 a) = [p; q; r; t] /\ value a - v4_base = quad p q r t.
Proof.
  intros W I. destruct (skip12_bytes _ (wf_ip _ W)) as (p & q & r & t & E & Hp & Hq & Hr & Ht).
  exists p, q, r, t. do 5 (split; [assumption|]).
  pose proof (skip12_num _ (wf_ip _ W)) as N. rewrite E in N. fold (value a) in N.
  apply is_ipv4_value in I; auto. unfold is_v4_value, v4_base in *.
  cbn [num length] in N.
  change (256 ^ Z.of_nat 3) with (2^24) in N. change (256 ^ Z.of_nat 2) with (2^16) in N.
  change (256 ^ Z.of_nat 1) with (2^8) in N. change (256 ^ Z.of_nat 0) with 1 in N.
  unfold quad. generalize dependent (value a). intros v I N. clear - I N. lia.
Qed.

(* The text printed for an IPv4 address is its dotted notation, and the parser
   of IPv4 texts gives back its bytes. *)
Theorem C20_dotted_round_trip : forall y a, addr_wf a -> is_v4_value (value a) ->
  exists s, to_ipv4_string y a STRING_IP_ADDRESS = Ok s
    /\ to_ipv4or6_string y a STRING_IP_ADDRESS = Ok s
    /\ dotted s (value a - v4_base)
    /\ exists q, inet_pton4 s = Some q /\ num q = value a - v4_base /\ q = skipn 12 (s6 a).
Proof.
  intros y a W V. pose proof (proj2 (is_ipv4_value a W) V) as I.
  destruct (skip12_value a W I) as (p & q & r & t & Hp & Hq & Hr & Ht & E & N).
  exists (inet_ntop4 [p; q; r; t]).
  assert (T : to_ipv4_string y a STRING_IP_ADDRESS = Ok (inet_ntop4 [p; q; r; t]))
    by (rewrite text4_address_only, I, E; reflexivity).
  split; [exact T|]. split; [unfold to_ipv4or6_string; now rewrite I|]. split.
  - exists p, q, r, t, (dec_string p), (dec_string q), (dec_string r), (dec_string t).
    unfold is_byte in *. repeat (split; [solve [auto | apply plain_dec_string; lia]|]).
    reflexivity.
  - exists [p; q; r; t]. rewrite ntop4_pton4 by auto. split; auto. split; auto.
    rewrite N. unfold quad. cbn [num length].
    change (256 ^ Z.of_nat 3) with (2^24). change (256 ^ Z.of_nat 2) with (2^16).
    change (256 ^ Z.of_nat 1) with (2^8). change (256 ^ Z.of_nat 0) with 1. lia.
Qed.
Print Assumptions C20_dotted_round_trip.

Theorem C20_distinct_texts : forall y a b s, addr_wf a -> addr_wf b ->
  to_ipv4_string y a STRING_IP_ADDRESS = Ok s ->
  to_ipv4_string y b STRING_IP_ADDRESS = Ok s -> value a = value b.
Proof.
  intros y a b s Wa Wb Ea Eb. rewrite text4_address_only in *.
  destruct (is_ipv4 a) eqn:Ia; [|discriminate]. destruct (is_ipv4 b) eqn:Ib; [|discriminate].
  apply (text_injective y y STRING_IP_ADDRESS a b s); auto.
  - unfold to_ipv4or6_string. rewrite Ia, text4_address_only, Ia. exact Ea.
  - unfold to_ipv4or6_string. rewrite Ib, text4_address_only, Ib. exact Eb.
Qed.
Print Assumptions C20_distinct_texts.

(* The parser of IPv4 texts accepts nothing but dotted notations. *)
Theorem C20_only_dotted_accepted : forall s q, inet_pton4 s = Some q ->
  length q = 4%nat /\ Forall is_byte q /\ dotted s (num q).
Proof.
  intros s q H. destruct (pton4_only_canonical s q H) as (L & F & ->).
  split; auto. split; auto.
  destruct (bytes4_explicit q L F) as (a & b & c & d & -> & Ha & Hb & Hc & Hd).
  exists a, b, c, d, (dec_string a), (dec_string b), (dec_string c), (dec_string d).
  unfold is_byte in *. split; auto. split; auto. split; auto. split; auto.
  split.
  - unfold quad. cbn [num length].
    change (256 ^ Z.of_nat 3) with (2^24). change (256 ^ Z.of_nat 2) with (2^16).
    change (256 ^ Z.of_nat 1) with (2^8). change (256 ^ Z.of_nat 0) with 1. lia.
  - repeat (split; [apply plain_dec_string; lia|]). reflexivity.
Qed.
Print Assumptions C20_only_dotted_accepted.

Example C20_witness : addr_wf w4 /\ is_v4_value (value w4)
  /\ to_ipv4_string y0 w4 STRING_IP_ADDRESS = Ok (lit "192.168.3.17")
  /\ inet_pton4 (lit "192.168.3.17") = Some [192;168;3;17]
  /\ inet_pton4 (lit "192.168.03.17") = None /\ inet_pton4 (lit "192.168.3.256") = None.
Proof.
  split; [apply w4_wf|]. split; [apply is_ipv4_value; [apply w4_wf|reflexivity]|].
  vm_compute. auto.
Qed.

(* ---------- C21 ---------- *)
Lemma text6_address_only y a : addr_wf a -> value a <> v4_base ->
  to_ipv6_string y a STRING_IP_ADDRESS = Ok (inet_ntop6 (s6 a)).
Proof.
  intros W N. unfold to_ipv6_string.
  assert (E : ip_text6 a STRING_IP_ADDRESS = (inet_ntop6 (s6 a), false)).
  { unfold ip_text6. change (shows_address STRING_IP_ADDRESS) with true.
    change (has STRING_IP_ADDRESS STRING_IP_DEFAULT_AS_ASTERISK) with false.
    change (has STRING_IP_ADDRESS STRING_IP_DEFAULT_AS_IPV4) with false.
    change (brackets STRING_IP_ADDRESS) with false. cbv iota. unfold bracketed.
    destruct (is_default a) eqn:D; auto. rewrite default6; auto.
    rewrite is_ipv4_bool by auto. apply is_default_value in D; auto.
    unfold v4_base in *. lia. }
  rewrite E. change (port_text y a STRING_IP_ADDRESS) with (Ok (A:=str) []).
  cbn [rbind app]. change (mask_text6 a STRING_IP_ADDRESS false) with (@nil Z).
  now rewrite app_nil_r.
Qed.

(* Every address but 0.0.0.0 (which to_ipv6_string() prints as "::"), with
   and without brackets around the text. *)
Theorem C21_round_trip : forall y a, addr_wf a -> value a <> v4_base ->
  exists s, to_ipv6_string y a STRING_IP_ADDRESS = Ok s
    /\ to_ipv6_string y a STRING_IP_BRACKET_ADDRESS = Ok (lit "[" ++ s ++ lit "]")
    /\ inet_pton6 s = Some (s6 a).
Proof.
  intros y a W N. exists (inet_ntop6 (s6 a)). split; [now apply text6_address_only|].
  split; [|apply ntop6_pton6, (wf_ip _ W)].
  unfold to_ipv6_string.
  assert (E : ip_text6 a STRING_IP_BRACKET_ADDRESS
              = (lit "[" ++ inet_ntop6 (s6 a) ++ lit "]", true)).
  { unfold ip_text6. change (shows_address STRING_IP_BRACKET_ADDRESS) with true.
    change (has STRING_IP_BRACKET_ADDRESS STRING_IP_DEFAULT_AS_ASTERISK) with false.
    change (has STRING_IP_BRACKET_ADDRESS STRING_IP_DEFAULT_AS_IPV4) with false.
    change (brackets STRING_IP_BRACKET_ADDRESS) with true. cbv iota. unfold bracketed.
    destruct (is_default a) eqn:D; auto. rewrite default6; auto.
    rewrite is_ipv4_bool by auto. apply is_default_value in D; auto.
    unfold v4_base in *. lia. }
  rewrite E. change (port_text y a STRING_IP_BRACKET_ADDRESS) with (Ok (A:=str) []).
  cbn [rbind]. change (mask_text6 a STRING_IP_BRACKET_ADDRESS true) with (@nil Z).
  now rewrite !app_nil_r.
Qed.
Print Assumptions C21_round_trip.

Theorem C21_distinct_texts : forall y a b s, addr_wf a -> addr_wf b ->
  value a <> v4_base -> value b <> v4_base ->
  to_ipv6_string y a STRING_IP_ADDRESS = Ok s ->
  to_ipv6_string y b STRING_IP_ADDRESS = Ok s -> value a = value b.
Proof.
  intros y a b s Wa Wb Na Nb. rewrite !text6_address_only by auto. intros Ea Eb.
  assert (E : inet_ntop6 (s6 a) = inet_ntop6 (s6 b)) by congruence.
  apply (f_equal inet_pton6) in E.
  rewrite (ntop6_pton6 _ (wf_ip _ Wa)), (ntop6_pton6 _ (wf_ip _ Wb)) in E.
  unfold value. congruence.
Qed.
Print Assumptions C21_distinct_texts.

(* The one exception: the IPv4 address 0.0.0.0 is printed like the IPv6 "::",
   whose text gives another address. *)
Theorem C21_any_v4_prints_as_any_v6 : forall y a, addr_wf a -> value a = v4_base ->
  to_ipv6_string y a STRING_IP_ADDRESS = Ok (lit "::")
  /\ inet_pton6 (lit "::") = Some (repeat 0 16) /\ s6 a <> repeat 0 16.
Proof.
  intros y a W E. assert (D : is_default a = true) by (apply is_default_value; auto).
  split; [|split; [reflexivity|]].
  - unfold to_ipv6_string.
    assert (T : ip_text6 a STRING_IP_ADDRESS = (lit "::", false))
      by (unfold ip_text6; rewrite D; reflexivity).
    rewrite T. reflexivity.
  - intros S. unfold value in E. rewrite S in E. vm_compute in E. discriminate.
Qed.
Print Assumptions C21_any_v4_prints_as_any_v6.

Example C21_witness : addr_wf w6 /\ value w6 <> v4_base
  /\ to_ipv6_string y0 w6 STRING_IP_ADDRESS = Ok (lit "2001:db8::1:ffff")
  /\ inet_pton6 (lit "2001:db8::1:ffff") = Some (s6 w6)
  /\ to_ipv6_string y0 w4 STRING_IP_ADDRESS = Ok (lit "::ffff:192.168.3.17").
Proof. split; [apply w6_wf|]. vm_compute. repeat split; auto; discriminate. Qed.

(* ---------- C23 ---------- *)
Theorem C23_printing_distinguishes : forall y1 y2 mode a b s, addr_wf a -> addr_wf b ->
  asks mode (Z.lor STRING_IP_ADDRESS STRING_IP_BRACKET_ADDRESS) ->
  ~ asks mode (Z.lor STRING_IP_DEFAULT_AS_ASTERISK STRING_IP_DEFAULT_AS_IPV4) ->
  to_ipv4or6_string y1 a mode = Ok s -> to_ipv4or6_string y2 b mode = Ok s ->
  value a = value b.
Proof.
  intros y1 y2 mode a b s Wa Wb A D. apply text_injective; auto.
  - unfold shows_address, has. unfold asks in A. apply negb_true_iff, Z.eqb_neq. exact A.
  - unfold asks in D. lia.
Qed.
Print Assumptions C23_printing_distinguishes.

(* The conditions are needed: an asterisk is printed for both default
   addresses. *)
Theorem C23_asterisk_is_ambiguous : exists a b, addr_wf a /\ addr_wf b /\ value a <> value b
  /\ exists s, to_ipv4or6_string y0 a (Z.lor STRING_IP_ADDRESS STRING_IP_DEFAULT_AS_ASTERISK) = Ok s
     /\ to_ipv4or6_string y0 b (Z.lor STRING_IP_ADDRESS STRING_IP_DEFAULT_AS_ASTERISK) = Ok s.
Proof.
  exists addr_new, (fst (set_ipv4 addr_new (mk_in AF_INET 0 0))).
  split; [apply new_wf|]. split; [now apply addr_wfb_ok|]. split; [vm_compute; discriminate|].
  exists (lit "*"). vm_compute. auto.
Qed.
Print Assumptions C23_asterisk_is_ambiguous.

Example C23_witness : addr_wf w4 /\ addr_wf w6
  /\ asks STRING_IP_ALL (Z.lor STRING_IP_ADDRESS STRING_IP_BRACKET_ADDRESS)
  /\ ~ asks STRING_IP_ALL (Z.lor STRING_IP_DEFAULT_AS_ASTERISK STRING_IP_DEFAULT_AS_IPV4)
  /\ to_ipv4or6_string y0 w4 STRING_IP_ALL = Ok (lit "192.168.3.17:443/24")
  /\ to_ipv4or6_string y0 w6 STRING_IP_ALL = Ok (lit "[2001:db8::1:ffff]:53/128").
Proof.
  split; [apply w4_wf|]. split; [apply w6_wf|]. unfold asks.
  vm_compute. repeat split; auto; discriminate.
Qed.

(* ---------- C65: the exceptions of the text output ---------- *)
Lemma shows_address_asks mode : shows_address mode = true
  <-> asks mode (Z.lor STRING_IP_ADDRESS STRING_IP_BRACKET_ADDRESS).
Proof. unfold shows_address, has, asks. rewrite negb_true_iff. apply Z.eqb_neq. Qed.

Definition mask_wanted (mode : Z) (a : addr) : Prop :=
  asks mode (Z.lor (Z.lor (Z.lor STRING_IP_MASK STRING_IP_BRACKET_MASK)
                          STRING_IP_MASK_AS_ADDRESS) STRING_IP_MASK_IF_NEEDED)
  /\ ~ (asks mode STRING_IP_MASK_IF_NEEDED /\ mask_value a = LAST).

Lemma mask_size_128 a : addr_wf a -> (get_mask_size a = 128 <-> mask_value a = LAST).
Proof.
  intros W. rewrite get_mask_size_iff by (auto; lia). split; intros H.
  - destruct H as [_ H]. rewrite H. reflexivity.
  - split; [lia|]. rewrite H. reflexivity.
Qed.

Lemma shows_mask_wanted mode a : addr_wf a -> (shows_mask mode a = true <-> mask_wanted mode a).
Proof.
  intros W. unfold shows_mask, mask_wanted, has, asks.
  rewrite andb_true_iff, orb_true_iff, !negb_true_iff, !Z.eqb_neq, negb_false_iff, Z.eqb_eq.
  rewrite <- (mask_size_128 a W). 
  destruct (Z.eq_dec (get_mask_size a) 128), (Z.eq_dec (Z.land mode STRING_IP_MASK_IF_NEEDED) 0); tauto.
Qed.

Lemma port_text_numeric y a mode : ~ asks mode STRING_IP_PORT_NAME ->
  exists p, port_text y a mode = Ok p.
Proof.
  intros H. unfold port_text, has. unfold asks in H.
  assert (E : Z.land mode STRING_IP_PORT_NAME = 0) by lia. rewrite E. cbn [Z.eqb negb rbind].
  destruct (shows_port mode); eauto.
Qed.

(* Port names aside, to_ipv4_string() throws exactly when the address was
   asked for and is not an IPv4 address, or when the mask is printed and does
   not start with 96 ones; to_ipv6_string() never throws. *)
Theorem C65_when_printing_fails : forall y a mode, addr_wf a ->
  ~ asks mode STRING_IP_PORT_NAME ->
  (exists s, to_ipv6_string y a mode = Ok s)
  /\ (asks mode (Z.lor STRING_IP_ADDRESS STRING_IP_BRACKET_ADDRESS)
      -> ~ is_v4_value (value a) -> to_ipv4_string y a mode = Throw E_invalid_state)
  /\ ((asks mode (Z.lor STRING_IP_ADDRESS STRING_IP_BRACKET_ADDRESS) -> is_v4_value (value a))
      -> (mask_wanted mode a -> prefix_mask 96 <= mask_value a)
      -> exists s, to_ipv4_string y a mode = Ok s)
  /\ ((asks mode (Z.lor STRING_IP_ADDRESS STRING_IP_BRACKET_ADDRESS) -> is_v4_value (value a))
      -> mask_wanted mode a -> mask_value a < prefix_mask 96
      -> to_ipv4_string y a mode = Throw E_unexpected_mask).
Proof.
  intros y a mode W H. destruct (port_text_numeric y a mode H) as [p P].
  rewrite <- (shows_address_asks mode), <- (shows_mask_wanted mode a W), <- (is_ipv4_value a W).
  assert (C : is_mask_ipv4_compatible a = true <-> prefix_mask 96 <= mask_value a).
  { apply mask_ipv4_compatible_value, W. }
  repeat split.
  - unfold to_ipv6_string. destruct (ip_text6 a mode). rewrite P. eexists. reflexivity.
  - intros A N. unfold to_ipv4_string. rewrite A. destruct (is_ipv4 a); [congruence|]. reflexivity.
  - intros A M. unfold to_ipv4_string. rewrite P.
    assert (E : exists ip, (if shows_address mode
      then if negb (is_ipv4 a) then Throw E_invalid_state
           else if has mode STRING_IP_DEFAULT_AS_ASTERISK && is_default a then Ok [42]
           else Ok (inet_ntop4 (skipn 12 (s6 a))) else Ok []) = Ok ip).
    { destruct (shows_address mode); [|eauto]. rewrite A by auto. cbn [negb].
      destruct (_ && _); eauto. }
    destruct E as [ip ->]. cbn [rbind]. unfold mask_text4.
    destruct (shows_mask mode a); [|eexists; reflexivity].
    rewrite (proj2 C) by auto. eexists. reflexivity.
  - intros A M L. unfold to_ipv4_string. rewrite P.
    assert (E : exists ip, (if shows_address mode
      then if negb (is_ipv4 a) then Throw E_invalid_state
           else if has mode STRING_IP_DEFAULT_AS_ASTERISK && is_default a then Ok [42]
           else Ok (inet_ntop4 (skipn 12 (s6 a))) else Ok []) = Ok ip).
    { destruct (shows_address mode); [|eauto]. rewrite A by auto. cbn [negb].
      destruct (_ && _); eauto. }
    destruct E as [ip ->]. cbn [rbind]. unfold mask_text4. rewrite M.
    destruct (is_mask_ipv4_compatible a) eqn:F; [|reflexivity].
    exfalso. pose proof (proj1 C eq_refl). lia.
Qed.
Print Assumptions C65_when_printing_fails.

Example C65_witness : addr_wf w6 /\ ~ asks STRING_IP_ALL STRING_IP_PORT_NAME
  /\ to_ipv4_string y0 w6 STRING_IP_ALL = Throw E_invalid_state
  /\ to_ipv4_string y0 (set_mask w4 (repeat 0 16)) STRING_IP_ALL = Throw E_unexpected_mask
  /\ mask_wanted STRING_IP_ALL (set_mask w4 (repeat 0 16)).
Proof.
  split; [apply w6_wf|]. unfold asks, mask_wanted, asks. vm_compute.
  repeat split; auto; try discriminate. intros [? ?]. discriminate.
Qed.

(* ---------- C66: is_hostname_an_ip() ---------- *)
Lemma c_str_no_nul s : ~ In 0 s -> c_str s = s.
Proof.
  induction s as [|c s IH]; cbn [c_str In]; auto. intros H.
  destruct (c =? 0) eqn:E; [exfalso; apply H; left; lia|]. f_equal. tauto.
Qed.

Lemma chars_no_nul p s : p 0 = false -> forallb p s = true -> ~ In 0 s.
Proof. intros P F I. rewrite forallb_forall in F. rewrite (F 0 I) in P. discriminate. Qed.

(* A host name which is the text printed for an address is an IP... *)
Theorem C66_printed_addresses_are_ips : forall y a b s, addr_wf b ->
  (f_hostname a = [] ->  is_hostname_an_ip a = true)
  /\ (to_ipv4or6_string y b STRING_IP_ADDRESS = Ok s -> f_hostname a = s ->
      is_hostname_an_ip a = true).
Proof.
  intros y a b s W. unfold is_hostname_an_ip. split; [now intros ->|].
  intros T ->. destruct s as [|c s]; auto.
  unfold to_ipv4or6_string in T. destruct (is_ipv4 b) eqn:I.
  - rewrite text4_address_only, I in T. apply (f_equal (fun r => match r with Ok x => x | _ => [] end)) in T.
    cbv beta iota in T. rewrite <- T.
    destruct (skip12_value b W I) as (p & q & r & t & Hp & Hq & Hr & Ht & E & _). rewrite E.
    rewrite c_str_no_nul by (apply (chars_no_nul dotted_char); [reflexivity|now apply ntop4_chars]).
    now rewrite ntop4_pton4 by auto.
  - rewrite text6_address_only in T; auto.
    + apply (f_equal (fun r => match r with Ok x => x | _ => [] end)) in T.
      cbv beta iota in T. rewrite <- T.
      rewrite c_str_no_nul by (apply (chars_no_nul ip_char); [reflexivity|apply ntop6_chars, (wf_ip _ W)]).
      rewrite ntop6_pton6 by apply (wf_ip _ W).
      match goal with |- match ?x with _ => _ end = _ => destruct x; reflexivity end.
    + intros V. rewrite is_ipv4_bool in I by auto. unfold v4_base in *. lia.
Qed.
Print Assumptions C66_printed_addresses_are_ips.

Lemma ip_text_char_spec c : ip_text_char c = true <-> ip_text c.
Proof. unfold ip_text_char, ip_char, dotted_char, ip_text. lia. Qed.

(* ...and a host name with any character which does not occur in IP
   addresses is not. *)
Theorem C66_names_are_not_ips : forall a c, is_hostname_an_ip a = true ->
  ~ In 0 (f_hostname a) -> In c (f_hostname a) -> ip_text c.
Proof.
  intros a c H N I. unfold is_hostname_an_ip in H.
  destruct (f_hostname a) as [|x r] eqn:E; [destruct I|].
  rewrite c_str_no_nul in H by auto. apply ip_text_char_spec.
  destruct (inet_pton4 (x :: r)) eqn:P4.
  - apply pton4_chars in P4. rewrite forallb_forall in P4. now apply dotted_text, P4.
  - destruct (inet_pton6 (x :: r)) eqn:P6; [|discriminate].
    apply pton6_chars in P6. rewrite forallb_forall in P6. now apply P6.
Qed.
Print Assumptions C66_names_are_not_ips.

Example C66_witness :
  is_hostname_an_ip (set_hostname w6 (lit "2001:db8::1")) = true
  /\ is_hostname_an_ip (set_hostname w6 (lit "127.0.0.1")) = true
  /\ is_hostname_an_ip (set_hostname w6 (lit "localhost")) = false
  /\ to_ipv4or6_string y0 w6 STRING_IP_ADDRESS = Ok (lit "2001:db8::1:ffff").
Proof. vm_compute. auto. Qed.
