(* C144: a list which is printed is read back. *)
From Coq Require Import ZifyBool ZifyNat.
From Verif Require Import Base Addr Spec Range SpecRange Inet SpecText SpecIpv6 AddrText Parser SpecParser SpecParser2 SpecParser4 SpecLanguage SpecModes SpecLists.
From Verif Require InetProofs TextProofs AddrProofs AddrProofs2 AddrProofs3 AddrProofs4 ParserProofs ParserProofs3 ParserProofs9
  ParserProofs10 ParserProofs11 ListProofs PropText PropModes PropParser PropParser2 PropParser4 PropParser5 PropParser6 PropParser9 PropParser10.
Import TextProofs AddrProofs AddrProofs2 AddrProofs4 ParserProofs ParserProofs3 ParserProofs9 ParserProofs10 ParserProofs11 ListProofs
  PropParser PropParser2 PropParser4 PropParser5 PropParser6 PropParser10.
Local Open Scope Z_scope.

(* Texts which are parsed without an error one by one, with lists switched
   off, are parsed to the same when put into one list. *)
Theorem C144_entries : forall y g p w ts ls, reads_lists p -> converts_decimals y -> resolver_ok g ->
  (get_allow p ALLOW_ADDRESS_LOOKUP = Ok true -> known_protocols g) ->
  w <> [] -> Forall (separator p) w -> Forall (one_of_list p) ts ->
  Forall2 (fun t l => parse y g t (alone p) = (alone p, Ok l)) ts ls ->
  exists l2, parse y g (separated w ts) p = (p, Ok (concat l2)) /\ Forall2 (Forall2 same_range) ls l2.
Proof. exact list_of_entries. Qed.
Print Assumptions C144_entries.

(* ---------- the characters which are printed ---------- *)
Definition entry_char (c : Z) : bool := ip_text_char c || (c =? 45) || (c =? 47) || (c =? 91) || (c =? 93).
Lemma ip_entry s : forallb ip_text_char s = true -> forallb entry_char s = true.
Proof. rewrite !forallb_forall. intros H c I. unfold entry_char. now rewrite (H c I). Qed.
Lemma dec_entry n : 0 <= n -> forallb entry_char (dec_string n) = true.
Proof.
  intros H. destruct (decimal_dec n H) as (_ & D & _). rewrite forallb_forall in *. intros c I. specialize (D c I).
  unfold is_digit in D. unfold entry_char, ip_text_char, InetProofs2.ip_char, InetProofs.dotted_char, InetProofs.digit_char. lia.
Qed.
Lemma entry_one p t : t <> [] -> forallb entry_char t = true -> one_of_list p t.
Proof.
  intros NE F. rewrite forallb_forall in F.
  assert (forall c, In c t -> ~ blank c /\ c <> 0 /\ c <> 44 /\ c <> 10 /\ c <> 35 /\ c <> 59) as N.
  { intros c I. specialize (F c I). unfold blank.
    unfold entry_char, ip_text_char, InetProofs2.ip_char, InetProofs.dotted_char, InetProofs.digit_char in F. lia. }
  split; [split; [exact NE|split]|split].
  - intros c r ->. apply N. now left.
  - intros c r ->. apply N. apply in_app_iff. right. now left.
  - intros I. now apply N in I.
  - intros c I. destruct (N c I) as (NB & N0 & N44 & N10 & N35 & N59). unfold separator, starts_comment. split; [|tauto].
    intros [[_ X]|[[_ X]|[_ X]]]; [congruence| |congruence]. apply NB. now left.
Qed.
Lemma written_chars A n T : 0 <= n -> forallb ip_text_char A = true -> written A (58 :: dec_string n) T -> forallb entry_char T = true.
Proof.
  intros Hn FA W. apply ip_entry in FA. pose proof (dec_entry n Hn) as FD.
  inversion W as [body P N|body P|body N]; subst; rewrite ?forallb_app; cbn [forallb]; rewrite ?FA, ?FD; reflexivity.
Qed.
Lemma six_chars t ws : ipv6_text t ws -> forallb entry_char t = true.
Proof. intros T. apply ip_entry. apply (denotes_chars t (words_value ws)). right. eauto. Qed.
Lemma mask_chars lim M m : address_mask lim M m -> forallb entry_char M = true.
Proof.
  intros [(_ & w & D & _)|(_ & t & ws & -> & T & _)].
  - apply ip_entry, (denotes_chars M (v4_base + w)). left. eauto.
  - rewrite !forallb_app. rewrite (six_chars t ws T). reflexivity.
Qed.
Lemma four_iff a : addr_wf a -> is_ipv4 a = true <-> is_v4_value (value a).
Proof. intros W. rewrite is_ipv4_bool by exact W. unfold is_v4_value, v4_base. lia. Qed.
Lemma prefix_96 k : 0 <= k -> prefix_mask 96 <= prefix_mask k -> 96 <= k.
Proof.
  intros H L. unfold prefix_mask in L. destruct (Z_lt_ge_dec k 96) as [X|X]; [|lia]. exfalso.
  assert (2 ^ (128 - 96) < 2 ^ (128 - k)) by (apply Z.pow_lt_mono_r; lia). lia.
Qed.
Lemma printed_chars y a s : addr_wf a -> (is_ipv4 a = true -> prefix_mask 96 <= mask_value a) ->
  to_ipv4or6_string y a STRING_IP_ALL = Ok s -> s <> [] /\ forallb entry_char s = true.
Proof.
  intros W K E. pose proof (AddrProofs3.get_port_range a) as PR.
  destruct (get_mask_size_spec a W) as [(k & K0 & MK & _)|[_ MS]].
  - assert (is_ipv4 a = true -> 96 <= k) as K4 by (intros I; apply prefix_96; [lia|]; rewrite <- MK; now apply K).
    destruct (printed_all y a k W K0 MK K4) as (A & T & ES & DN & HW & _).
    rewrite ES in E. injection E as <-. split; [destruct T; discriminate|]. rewrite forallb_app. cbn [forallb].
    rewrite (written_chars A (get_port a) T) by (try lia; auto; now apply (denotes_chars A (value a))).
    rewrite dec_entry; [reflexivity|]. destruct (is_ipv4 a); [specialize (K4 eq_refl)|]; lia.
  - destruct (printed_odd y a W MS K) as (A & T & M & ES & DN & HW & _ & HM & _).
    rewrite ES in E. injection E as <-. split; [destruct T; discriminate|]. rewrite forallb_app. cbn [forallb].
    rewrite (written_chars A (get_port a) T) by (try lia; auto; now apply (denotes_chars A (value a))).
    now rewrite (mask_chars _ M _ HM).
Qed.
Lemma range_chars y r s : range_wf r -> single r \/ ipv4_range r -> mask_printed r ->
  range_to_string y r STRING_IP_ALL = Ok s -> s <> [] /\ forallb entry_char s = true.
Proof.
  intros [WF WT] [[HF HT]|((HF & HT) & (_ & LH) & V1 & V2)] MP E.
  - unfold mask_printed, last_end, hi in MP. unfold has_from, has_to in *. rewrite HT in MP. unfold get_from in MP.
    unfold range_to_string, is_empty, is_defined, is_range, has_from, has_to in E. rewrite HF, HT in E. cbn [andb orb negb] in E.
    apply (printed_chars y (f_from r)); auto. intros I. apply MP. now apply four_iff.
  - unfold mask_printed, last_end in MP. unfold lo, hi, has_from, has_to, get_to, get_from in *. rewrite HF, HT in *.
    unfold range_to_string, is_empty, is_defined, is_range, has_from, has_to in E. rewrite HF, HT in E. cbn [andb orb negb] in E.
    rewrite gt_value in E by assumption. replace (value (f_from r) >? value (f_to r)) with false in E by lia. cbn [orb] in E.
    change (Z.land STRING_IP_ALL (Z.lor STRING_IP_ADDRESS STRING_IP_BRACKET_ADDRESS)) with STRING_IP_BRACKET_ADDRESS in E.
    assert (is_ipv4 (f_from r) = true) as I1 by (now apply four_iff). rewrite printed4_address in E by exact I1. cbn [rbind] in E.
    destruct (to_ipv4or6_string y (f_to r) STRING_IP_ALL) as [t|e| |] eqn:ET; cbn [rbind] in E; try discriminate.
    destruct (ntop_denotes4 y _ WF I1) as [DA _]. destruct (denotes_chars _ _ DA) as [NA FA].
    set (A := inet_ntop4 (skipn 12 (s6 (f_from r)))) in *. clearbody A. injection E as <-.
    destruct (printed_chars y (f_to r) t WT ltac:(intros _; now apply MP) ET) as [_ FT].
    split; [destruct A; discriminate|]. rewrite forallb_app. cbn [forallb]. rewrite (ip_entry _ FA), FT. reflexivity.
Qed.

(* ---------- one range, printed and read alone ---------- *)
Definition back (y y2 : sys) (g : resolver) (p : parser) (r : addr_range) : Prop :=
  exists s r2, range_to_string y r STRING_IP_ALL = Ok s /\ parse y2 g s p = (p, Ok [r2]) /\ says_the_same r r2.
Lemma single_back y y2 g p r : range_wf r -> single r ->
  (exists s r2, to_ipv4or6_string y (get_from r) STRING_IP_ALL = Ok s /\ parse y2 g s p = (p, Ok [r2])
    /\ has_from r2 = true /\ has_to r2 = false /\ value (get_from r2) = value (get_from r)
    /\ get_port (get_from r2) = get_port (get_from r) /\ mask_value (get_from r2) = mask_value (get_from r)) ->
  back y y2 g p r.
Proof.
  intros W [HF HT] (s & r2 & E & EP & F2 & T2 & V & PO & M). exists s, r2.
  split; [unfold range_to_string, is_empty, is_defined, is_range, has_from, has_to in *; rewrite HF, HT; exact E|]. split; [exact EP|].
  unfold says_the_same, last_end, element, lo, hi. unfold has_from, has_to, get_from in *. rewrite HF, HT, F2, T2.
  repeat split; auto; try tauto; try lia.
Qed.
Lemma range_back y y2 g p r : ipv4_range r ->
  (exists s r2, range_to_string y r STRING_IP_ALL = Ok s
    /\ parse y2 g s p = (p, Ok [r2])
    /\ full r2 /\ (forall v, element r2 v <-> element r v)
    /\ get_port (get_from r2) = get_port (get_to r) /\ get_port (get_to r2) = get_port (get_to r)
    /\ mask_value (get_from r2) = mask_value (get_to r)) -> back y y2 g p r.
Proof.
  intros ([HF HT] & _) (s & r2 & E & EP & [F2 T2] & EL & P1 & P2 & M). exists s, r2. split; [exact E|]. split; [exact EP|].
  unfold says_the_same, last_end, has_from, has_to. rewrite HF, HT, F2, T2. auto 8.
Qed.

Lemma same_says r r2 r3 : has_from r = true -> says_the_same r r2 -> same_range r2 r3 -> says_the_same r r3.
Proof.
  intros HF (F & T & EL & P1 & P2 & M) (SF & ST & CF & CT). rewrite F in SF, CF. rewrite T in ST, CT.
  specialize (CF HF) as (V1 & M1 & Q1 & _). unfold says_the_same, last_end in *. rewrite <- SF, <- ST, HF.
  split; [reflexivity|]. split; [reflexivity|].
  assert (has_to r = true -> value (get_to r2) = value (get_to r3) /\ get_port (get_to r2) = get_port (get_to r3)) as CT2.
  { intros X. destruct (CT X) as (? & _ & ? & _). auto. } clear CT.
  split.
  { intros v. rewrite <- EL. unfold element, lo, hi. change (f_has_from r3) with (has_from r3). change (f_has_to r3) with (has_to r3).
    change (f_has_from r2) with (has_from r2). change (f_has_to r2) with (has_to r2). change (f_from r3) with (get_from r3).
    change (f_from r2) with (get_from r2). change (f_to r3) with (get_to r3). change (f_to r2) with (get_to r2).
    rewrite F, T, <- SF, <- ST, HF, <- V1. destruct (has_to r); [destruct (CT2 eq_refl) as [<- _]|]; tauto. }
  rewrite T in P2. split; [congruence|]. split; [destruct (has_to r); [destruct (CT2 eq_refl) as [_ <-]|]; congruence|congruence].
Qed.

Lemma alone_numbers p : reads_lists p -> get_allow p ALLOW_ADDRESS_LOOKUP = Ok false ->
  get_default_mask4 p = [] -> get_default_mask6 p = [] -> takes_numbers (alone p).
Proof.
  intros [_ _ U TE] L M4 M6. destruct (alone_one p U) as [S C U2]. pose proof (alone_agree p) as AG. constructor; [exact S|exact C|exact U2|..].
  - rewrite alone_allow. exact L.
  - rewrite <- (ag_protocol _ _ AG). now apply (te_protocol p TE).
  - right. now rewrite <- (ag_m4 _ _ AG), <- (ag_m6 _ _ AG).
Qed.

Lemma list_back y y2 g p w rs : reads_lists p -> converts_decimals y2 -> resolver_ok g ->
  get_allow p ALLOW_ADDRESS_LOOKUP = Ok false -> w <> [] -> Forall (separator p) w ->
  Forall (fun r => range_wf r /\ (single r \/ ipv4_range r) /\ mask_printed r /\ back y y2 g (alone p) r) rs ->
  exists s l, ranges_to_string y rs STRING_IP_ALL w = Ok s /\ parse y2 g s p = (p, Ok l) /\ Forall2 says_the_same rs l.
Proof.
  intros RL HC HG L NW FW F.
  assert (exists ts ls, Forall2 (fun r t => range_to_string y r STRING_IP_ALL = Ok t) rs ts
    /\ Forall2 (fun t l => parse y2 g t (alone p) = (alone p, Ok l)) ts ls /\ Forall (one_of_list p) ts
    /\ Forall2 (fun r l => has_from r = true /\ exists r2, l = [r2] /\ says_the_same r r2) rs ls) as (ts & ls & FT & FP & FO & FS).
  { clear - F. induction F as [|r rs (W & K & MP & s & r2 & E & EP & SS) F (ts & ls & FT & FP & FO & FS)].
    - exists [], []. repeat split; constructor.
    - exists (s :: ts), ([r2] :: ls). split; [now constructor|]. split; [now constructor|]. split.
      + constructor; [|exact FO]. destruct (range_chars y r s W K MP E). now apply entry_one.
      + constructor; [|exact FS]. split; [destruct K as [[X _]|[[X _] _]]; exact X|eauto]. }
  destruct (C144_entries y2 g p w ts ls RL HC HG) as (l2 & EP & SR); auto.
  { rewrite L. discriminate. }
  exists (separated w ts), (concat l2). split; [apply PropModes.C121_list_text; eauto|]. split; [exact EP|].
  clear - FS SR. revert l2 SR. induction FS as [|r l rs ls (HF & r2 & -> & SS) FS IH]; intros l2 SR; inversion SR as [|? x ? xs S1 S2]; subst; [constructor|].
  inversion S1 as [|? r3 ? ? S3 S4]; subst. inversion S4; subst. cbn [concat app]. constructor; [|now apply IH].
  now apply (same_says r r2 r3).
Qed.

(* ---------- the theorems ---------- *)
(* A list of addresses and of IPv4 ranges, with masks which are prefixes,
   printed in full with what the parser takes for separators: the parser reads
   as many ranges, in this order, each with the same addresses, port and mask.
   IPv6 ranges are not read back (C79_ipv6_range_refuted). *)
Theorem C144_printed_list_partial : forall y y2 g p w rs, reads_lists p -> converts_decimals y2 -> resolver_ok g ->
  get_allow p ALLOW_ADDRESS_LOOKUP = Ok false -> get_allow p ALLOW_ADDRESS_RANGE = Ok true -> get_allow p ALLOW_MASK = Ok true ->
  ports_allowed p -> get_default_mask4 p = [] -> get_default_mask6 p = [] ->
  w <> [] -> Forall (separator p) w ->
  Forall (fun r => range_wf r /\ (single r \/ ipv4_range r) /\ prefix_printed r) rs ->
  exists s l, ranges_to_string y rs STRING_IP_ALL w = Ok s /\ parse y2 g s p = (p, Ok l) /\ Forall2 says_the_same rs l.
Proof.
  intros y y2 g p w rs RL HC HG L AR AM AP M4 M6 NW FW F. apply list_back; auto.
  pose proof (alone_numbers p RL L M4 M6) as TN. pose proof (alone_agree p) as AG. apply (ag_ports p (alone p) AG) in AP.
  assert (get_allow (alone p) ALLOW_MASK = Ok true) as AM2 by (rewrite alone_allow; exact AM).
  assert (get_allow (alone p) ALLOW_ADDRESS_RANGE = Ok true) as AR2 by (rewrite alone_allow; exact AR).
  eapply Forall_impl; [|exact F]. intros r (W & K & k & K0 & MK & K4). split; [exact W|]. split; [exact K|].
  split.
  { intros V. specialize (K4 V). rewrite MK. unfold prefix_mask.
    assert (2 ^ (128 - k) <= 2 ^ (128 - 96)) by (apply Z.pow_le_mono_r; lia). lia. }
  destruct K as [S|R].
  - apply single_back; auto. destruct W as [WF WT]. destruct S as [HF HT]. unfold last_end, hi in MK, K4.
    unfold has_to in *. rewrite HT in MK, K4.
    apply (C22_printed_is_read_back y y2 g (alone p) (get_from r) k); auto.
  - apply range_back; auto. destruct R as (FU & NE & V1 & V2). specialize (K4 V2).
    unfold last_end in MK. destruct FU as [HF HT]. change (f_has_to r) with (has_to r) in HT. rewrite HT in MK.
    apply (C79_ipv4_range_partial y y2 g (alone p) r k); auto; [now split|lia].
Qed.
Print Assumptions C144_printed_list_partial.

(* With any mask which is printed in full, when masks can be addresses. *)
Theorem C144_every_mask_partial : forall y y2 g p w rs, reads_lists p -> converts_decimals y2 -> resolver_ok g -> resolves_numbers g ->
  get_allow p ALLOW_ADDRESS_LOOKUP = Ok false -> get_allow p ALLOW_ADDRESS_RANGE = Ok true -> get_allow p ALLOW_MASK = Ok true ->
  get_allow p ALLOW_ADDRESS_MASK = Ok true -> ports_allowed p -> get_default_mask4 p = [] -> get_default_mask6 p = [] ->
  w <> [] -> Forall (separator p) w ->
  Forall (fun r => range_wf r /\ (single r \/ ipv4_range r) /\ mask_printed r) rs ->
  exists s l, ranges_to_string y rs STRING_IP_ALL w = Ok s /\ parse y2 g s p = (p, Ok l) /\ Forall2 says_the_same rs l.
Proof.
  intros y y2 g p w rs RL HC HG HN L AR AM AA AP M4 M6 NW FW F. apply list_back; auto.
  pose proof (alone_numbers p RL L M4 M6) as TN. pose proof (alone_agree p) as AG. apply (ag_ports p (alone p) AG) in AP.
  assert (get_allow (alone p) ALLOW_MASK = Ok true) as AM2 by (rewrite alone_allow; exact AM).
  assert (get_allow (alone p) ALLOW_ADDRESS_MASK = Ok true) as AA2 by (rewrite alone_allow; exact AA).
  assert (get_allow (alone p) ALLOW_ADDRESS_RANGE = Ok true) as AR2 by (rewrite alone_allow; exact AR).
  eapply Forall_impl; [|exact F]. intros r (W & K & MP). split; [exact W|]. split; [exact K|]. split; [exact MP|].
  destruct K as [S|R].
  - apply single_back; auto. destruct W as [WF WT]. destruct S as [HF HT]. unfold mask_printed, last_end, hi in MP.
    unfold has_to in *. rewrite HT in MP.
    apply (C22_every_mask_is_read_back y y2 g (alone p) (get_from r)); auto.
  - apply range_back; auto. destruct R as (FU & NE & V1 & V2). specialize (MP V2).
    unfold last_end in MP. destruct FU as [HF HT]. change (f_has_to r) with (has_to r) in HT. rewrite HT in MP.
    apply (C79_ipv4_every_mask_partial y y2 g (alone p) r); auto. now split.
Qed.
Print Assumptions C144_every_mask_partial.

(* ---------- cases ---------- *)
Definition all_lists : parser :=
  parser_run ref_sys numbers [P_set_allow ALLOW_ADDRESS_LOOKUP false; P_set_allow ALLOW_MASK true;
    P_set_allow ALLOW_ADDRESS_MASK true; P_set_allow ALLOW_ADDRESS_RANGE true;
    P_set_allow ALLOW_MULTI_ADDRESSES_COMMAS true; P_set_allow ALLOW_MULTI_ADDRESSES_SPACES true].
Definition six_one : addr_range :=
  set_from range_new (fst (set_mask_count (fst (set_port (ip_from_uint128 addr_new 0x20010db8000000000000000000000005) 80)) 64)).
Definition two : list addr_range := [four_range; six_one].
Lemma all_lists_ok : reads_lists all_lists.
Proof.
  constructor.
  - exists 44. left. now split.
  - left. apply no_comments. reflexivity.
  - reflexivity.
  - constructor; [intros _; now left|vm_compute; split; discriminate|vm_compute; tauto].
Qed.
Example C144_witness : reads_lists all_lists /\ resolver_ok numbers /\ get_allow all_lists ALLOW_ADDRESS_LOOKUP = Ok false
  /\ get_allow all_lists ALLOW_ADDRESS_RANGE = Ok true /\ get_allow all_lists ALLOW_MASK = Ok true
  /\ get_allow all_lists ALLOW_ADDRESS_MASK = Ok true /\ ports_allowed all_lists
  /\ get_default_mask4 all_lists = [] /\ get_default_mask6 all_lists = [] /\ Forall (separator all_lists) (lit ", ")
  /\ Forall (fun r => range_wf r /\ (single r \/ ipv4_range r) /\ prefix_printed r) two
  /\ ranges_to_string ref_sys two STRING_IP_ALL (lit ", ")
     = Ok (lit "192.168.3.17-192.168.3.57:443/24, [2001:db8::5]:80/64").
Proof.
  split; [apply all_lists_ok|]. split; [apply PropParser9.numbers_ok|]. do 4 (split; [reflexivity|]).
  split; [now left|]. split; [reflexivity|]. split; [reflexivity|].
  split; [constructor; [left; now split|constructor; [right; left; now split|constructor]]|].
  split; [|vm_compute; reflexivity]. constructor; [|constructor; [|constructor]].
  - split; [split; now apply addr_wfb_ok|]. split.
    + right. split; [now split|]. split; [split; [now left|vm_compute; congruence]|]. split; vm_compute; split; congruence.
    + exists 120. split; [lia|]. split; [vm_compute; reflexivity|]. lia.
  - split; [split; now apply addr_wfb_ok|]. split; [left; now split|].
    exists 64. split; [lia|]. split; [vm_compute; reflexivity|]. intros [_ X]. exfalso. vm_compute in X. discriminate X.
Qed.

(* An IPv6 range anywhere in the list is an error and is missing; when lines
   and comments are allowed and the list is on one line, only its first range
   is read, without an error. *)
Definition lines_too : parser :=
  parser_run ref_sys numbers [P_set_allow ALLOW_ADDRESS_LOOKUP false; P_set_allow ALLOW_MASK true;
    P_set_allow ALLOW_ADDRESS_MASK true; P_set_allow ALLOW_ADDRESS_RANGE true;
    P_set_allow ALLOW_MULTI_ADDRESSES_COMMAS true; P_set_allow ALLOW_MULTI_ADDRESSES_NEWLINES true; P_set_allow ALLOW_COMMENT_HASH true].
Theorem C144_every_list_refuted :
  (exists y g p rs s p2 l, converts_decimals y /\ resolves_numbers g /\ reads_lists p
    /\ get_allow p ALLOW_ADDRESS_RANGE = Ok true /\ get_allow p ALLOW_MASK = Ok true /\ get_allow p ALLOW_ADDRESS_MASK = Ok true
    /\ ports_allowed p /\ separator p 44 /\ Forall range_wf rs /\ Forall nonempty rs /\ Forall mask_printed rs
    /\ ranges_to_string y rs STRING_IP_ALL [44] = Ok s /\ parse y g s p = (p2, Ok l)
    /\ length l <> length rs /\ error_count p < error_count p2)
  /\ (exists y g p rs s l, converts_decimals y /\ resolves_numbers g /\ unsorted p /\ takes_entries p
    /\ get_allow p ALLOW_ADDRESS_RANGE = Ok true /\ get_allow p ALLOW_MASK = Ok true /\ get_allow p ALLOW_ADDRESS_MASK = Ok true
    /\ ports_allowed p /\ separator p 44 /\ Forall range_wf rs /\ Forall single rs /\ Forall mask_printed rs
    /\ ranges_to_string y rs STRING_IP_ALL [44] = Ok s /\ parse y g s p = (p, Ok l)
    /\ length l <> length rs).
Proof.
  split.
  - exists ref_sys, numbers, all_lists, [six_one; six_range]. eexists _, _, _.
    split; [apply ref_sys_converts|]. split; [apply numbers_resolves|]. split; [apply all_lists_ok|].
    do 3 (split; [reflexivity|]). split; [now left|]. split; [left; now split|].
    split; [constructor; [|constructor; [|constructor]]; split; now apply addr_wfb_ok|].
    split; [constructor; [|constructor; [|constructor]]; (split; [now left|vm_compute; congruence])|].
    split. { constructor; [|constructor; [|constructor]]; intros [_ X]; exfalso; vm_compute in X; first [discriminate X|now apply X]. }
    split; [vm_compute; reflexivity|]. split; [vm_compute; reflexivity|]. split; vm_compute; congruence.
  - exists ref_sys, numbers, lines_too, [six_one; six_one]. eexists _, _.
    split; [apply ref_sys_converts|]. split; [apply numbers_resolves|]. split; [reflexivity|].
    split. { constructor; [intros _; now left|vm_compute; split; discriminate|vm_compute; tauto]. }
    do 3 (split; [reflexivity|]). split; [now left|]. split; [left; now split|].
    split; [constructor; [|constructor; [|constructor]]; split; now apply addr_wfb_ok|]. split; [repeat constructor|].
    split. { constructor; [|constructor; [|constructor]]; intros [_ X]; exfalso; vm_compute in X; first [discriminate X|now apply X]. }
    split; [vm_compute; reflexivity|]. split; [vm_compute; reflexivity|]. vm_compute. congruence.
Qed.
Print Assumptions C144_every_list_refuted.
