(* Properties C76, C77, C22, C78: numeric entries, numeric ranges, reading back
   what was printed, and masks written as addresses. *)
From Coq Require Import ZifyBool ZifyNat.
From Verif Require Import Base Addr Spec Range SpecRange Inet SpecText SpecIpv6 AddrText Parser SpecParser SpecParser2.
From Verif Require AddrProofs2 AddrProofs AddrProofs4 ParserProofs ParserProofs2 ParserProofs3 ParserProofs7 ParserProofs8
  ParserProofs9 ParserProofs10 ParserProofs11 PropAddr PropText PropParser PropParser2 PropParser4.
Import AddrProofs AddrProofs4 ParserProofs ParserProofs2 ParserProofs3 ParserProofs7 ParserProofs8 ParserProofs9
  ParserProofs10 ParserProofs11 PropAddr PropParser PropParser2 PropParser4.
Local Open Scope Z_scope.

Lemma tn_facts p : takes_numbers p ->
  allow p ALLOW_ADDRESS_LOOKUP = false /\ (p_protocol p = -1 \/ protocol_ok (p_protocol p))
  /\ (allow p ALLOW_MASK = false \/ (f_default_mask4 p = [] /\ f_default_mask6 p = [])).
Proof.
  intros [_ _ _ L PR M]. allowed L. split; [exact L|]. split; [exact PR|].
  destruct M as [M|M]; [left; now allowed M|right; exact M].
Qed.

(* ---------- C76 ---------- *)
(* The text of an address, with or without a port, gives that address. *)
Theorem C76_one_address : forall y g p A v P n given s,
  converts_decimals y -> takes_numbers p ->
  denotes A v -> port_part p P n given -> written A P s ->
  exists r, parse y g s p = (p, Ok [r])
    /\ has_from r = true /\ has_to r = false /\ stands_for p v n given A (get_from r).
Proof.
  intros y g p A v P n d s C TN D HP HW. destruct (tn_facts p TN) as (L & PR & M). destruct TN as [NS NC U _ _ _].
  destruct (denotes_chars _ _ D) as [NE F].
  destruct (written_parse y g p A P s n d NS NC U M NE (ip_body _ F) HP HW
    (fun l => exists a, l = [set_from range_new a] /\ stands_for p v n d A a)) as (l & E & a & -> & S).
  { intros ipv6. eapply wp_conseq; [apply (range_port_one y g p L PR C A v (skipn 1 P) n d ipv6 D)|].
    - exact (proj1 (port_part_ok _ _ _ _ HP)).
    - intros r ms (-> & a & -> & S). split; [reflexivity|]. eauto. }
  exists (set_from range_new a). repeat split; try exact E; try reflexivity; apply S.
Qed.
Print Assumptions C76_one_address.

(* Any other text is rejected; nothing is looked up. A is what stands in the
   place of the address. *)
Theorem C76_rejected : forall y g p A P s,
  takes_numbers p -> A <> [] -> (forall v, ~ denotes A v) -> ~ In 0 A ->
  ~ In 45 A \/ get_allow p ALLOW_ADDRESS_RANGE = Ok false ->
  (* A, A:port, [A] followed by anything, or A with two colons *)
  (s = A ++ P /\ ~ In 58 A /\ hd 0 A <> 91 /\ (P = [] \/ exists D, P = 58 :: D /\ ~ In 58 D))
  \/ (s = [91] ++ A ++ [93] ++ P /\ ~ In 93 A)
  \/ (s = A /\ two_colons A /\ hd 0 A <> 91) ->
  trimmed s -> ~ In 47 s ->
  exists p2, parse y g s p = (p2, Ok []) /\ error_count p < error_count p2.
Proof.
  intros y g p A P s TN NE ND N0 N45 W T N. destruct (tn_facts p TN) as (L & _ & _). destruct TN as [NS NC U _ _ _].
  assert (~ In 45 A \/ allow p ALLOW_ADDRESS_RANGE = false) as R.
  { destruct N45 as [X|X]; [now left|]. allowed X. now right. }
  apply plain_fails; auto.
  destruct W as [(-> & N58 & N91 & HP)|[(-> & N93)|(-> & TC & N91)]].
  - now apply unknown_plain.
  - now apply (unknown_brackets y g p A).
  - now apply unknown_bare.
Qed.
Print Assumptions C76_rejected.

(* A NUL ends the text early: what follows is ignored, so the condition on
   NUL above is needed. *)
Theorem C76_nul_refuted : exists y g p A r,
  takes_numbers p /\ (forall v, ~ denotes A v) /\ ~ In 45 A /\ ~ In 58 A /\ hd 0 A <> 91 /\ trimmed A /\ ~ In 47 A
  /\ parse y g A p = (p, Ok [r]).
Proof.
  exists ref_sys, no_answer, numeric, (lit "1.2.3.4" ++ 0 :: lit " and more"). eexists.
  split. { constructor; [now apply no_seps|now apply no_comments|reflexivity|reflexivity|now left|left; reflexivity]. }
  split. { intros v D. apply denotes_chars in D as [_ D]. discriminate. }
  split; [now apply not_in|]. split; [now apply not_in|]. split; [discriminate|]. split; [now apply trimmed_lit|].
  split; [now apply not_in|]. vm_compute. reflexivity.
Qed.
Print Assumptions C76_nul_refuted.

Lemma denotes_lit s q : inet_pton6 s = Some q -> denotes s (num q).
Proof. intros E. apply denotes_iff. right. eauto. Qed.
Lemma denotes_dotted s q : inet_pton4 s = Some q -> denotes s (v4_base + num q).
Proof. intros E. left. exists (num q). split; [|reflexivity]. now apply PropText.C20_only_dotted_accepted. Qed.
Lemma digits_decimal s : s <> [] -> forallb is_digit s = true -> decimal s (decimal_value s).
Proof. intros. now repeat split. Qed.

Example C76_witness : converts_decimals ref_sys /\ takes_numbers bare
  /\ denotes (lit "10.1.2.3") (v4_base + num [10;1;2;3]) /\ denotes (lit "fe80::1") (num (254 :: 128 :: repeat 0 13 ++ [1]))
  /\ port_part bare (lit ":8080") 8080 true /\ port_part bare [] 0 false
  /\ written (lit "10.1.2.3") (lit ":8080") (lit "10.1.2.3:8080")
  /\ written (lit "fe80::1") (lit ":8080") (lit "[fe80::1]:8080")
  /\ written (lit "fe80::1") [] (lit "fe80::1")
  /\ (exists r, parse ref_sys no_answer (lit "[fe80::1]:8080") bare = (bare, Ok [r]) /\ get_port (get_from r) = 8080)
  /\ (forall v, ~ denotes (lit "localhost") v) /\ (forall v, ~ denotes (lit "1.2.3.256") v)
  /\ 0 < error_count (fst (parse ref_sys one_name (lit "localhost:80") bare)).
Proof.
  split; [apply ref_sys_converts|].
  split. { constructor; [now apply no_seps|now apply no_comments|reflexivity|reflexivity|now left|right; now split]. }
  split; [now apply denotes_dotted|]. split; [now apply denotes_lit|].
  split. { apply (port_given bare (lit "8080") 8080); [now repeat split|lia|left; reflexivity]. }
  split; [now apply port_none|]. split; [apply (written_plain (lit "10.1.2.3")); now apply not_in|].
  split; [apply (written_brackets (lit "fe80::1"))|].
  split; [apply written_bare; now exists (lit "fe80"), [], (lit "1")|].
  split. { eexists. split; vm_compute; reflexivity. }
  split. { intros v D. apply denotes_chars in D as [_ D]. discriminate. }
  split; [|vm_compute; reflexivity].
  intros v. rewrite denotes_iff. intros [(w & D & _)|(q & E & _)]; [|discriminate].
  destruct (dotted_pton _ _ D) as (q & E & _). discriminate.
Qed.

(* ---------- C77 ---------- *)
(* Two addresses with a dash between them: both ends with the port which
   follows; a range without any address is dropped if that was asked for. *)
Theorem C77_both_ends : forall y g p A v B w P n given s,
  converts_decimals y -> takes_numbers p -> get_allow p ALLOW_ADDRESS_RANGE = Ok true ->
  denotes A v -> denotes B w -> port_part p P n given -> written (A ++ [45] ++ B) P s ->
  (v <= w \/ Z.land (get_sort_order p) SORT_NO_EMPTY = 0 ->
     exists r, parse y g s p = (p, Ok [r]) /\ has_from r = true /\ has_to r = true
       /\ stands_for p v n given A (get_from r) /\ stands_for p w n given B (get_to r))
  /\ (w < v -> Z.land (get_sort_order p) SORT_NO_EMPTY <> 0 -> parse y g s p = (p, Ok [])).
Proof.
  intros y g p A v B w P n d s C TN AR DA DB HP HW. destruct (tn_facts p TN) as (L & PR & M). destruct TN as [NS NC U _ _ _].
  allowed AR. destruct (denotes_chars _ _ DA) as [NA FA]. destruct (denotes_chars _ _ DB) as [NB FB].
  destruct (written_parse y g p (A ++ [45] ++ B) P s n d NS NC U M) with
    (L := fun l => exists a b, stands_for p v n d A a /\ stands_for p w n d B b
      /\ l = if (v >? w) && negb (Z.land (f_sort p) SORT_NO_EMPTY =? 0) then [] else [set_to (set_from range_new a) b])
    as (l & E & a & b & SA & SB & EL); auto.
  { destruct A; discriminate. }
  { rewrite !forallb_app, (ip_body A), (ip_body B) by assumption. reflexivity. }
  { intros ipv6. cbn [app]. eapply wp_conseq; [apply (range_port_both y g p L PR C A v B w (skipn 1 P) n d ipv6 AR DA DB)|].
    - exact (proj1 (port_part_ok _ _ _ _ HP)).
    - cbv beta. intros r ms (-> & a & b & SA & SB & ->). split; [reflexivity|]. eexists. split; [reflexivity|]. eauto. }
  unfold get_sort_order. split.
  - intros H. replace ((v >? w) && negb (Z.land (f_sort p) SORT_NO_EMPTY =? 0)) with false in EL by lia.
    subst l. eexists. split; [exact E|]. split; [reflexivity|]. split; [reflexivity|]. split; [exact SA|exact SB].
  - intros H1 H2. replace ((v >? w) && negb (Z.land (f_sort p) SORT_NO_EMPTY =? 0)) with true in EL by lia.
    subst l. exact E.
Qed.
Print Assumptions C77_both_ends.

(* A dash after or before the only address: a range open at the other end. *)
Theorem C77_open_range : forall y g p A v P n given s,
  converts_decimals y -> takes_numbers p -> get_allow p ALLOW_ADDRESS_RANGE = Ok true ->
  denotes A v -> port_part p P n given ->
  (written (A ++ [45]) P s -> exists r, parse y g s p = (p, Ok [r]) /\ has_from r = true /\ has_to r = false
     /\ stands_for p v n given A (get_from r))
  /\ (written ([45] ++ A) P s -> exists r, parse y g s p = (p, Ok [r]) /\ has_from r = false /\ has_to r = true
     /\ stands_for p v n given A (get_to r)).
Proof.
  intros y g p A v P n d s C TN AR DA HP. destruct (tn_facts p TN) as (L & PR & M). destruct TN as [NS NC U _ _ _].
  allowed AR. destruct (denotes_chars _ _ DA) as [NA FA]. split; intros HW.
  - destruct (written_parse y g p (A ++ [45]) P s n d NS NC U M) with
      (L := fun l => exists a, stands_for p v n d A a /\ l = [set_from range_new a]) as (l & E & a & SA & ->); auto.
    { destruct A; discriminate. } { rewrite forallb_app, (ip_body A) by assumption. reflexivity. }
    { intros ipv6. eapply wp_conseq; [apply (range_port_from y g p L PR C A v (skipn 1 P) n d ipv6 AR DA)|].
      - exact (proj1 (port_part_ok _ _ _ _ HP)).
      - cbv beta. intros r ms (-> & a & -> & S). split; [reflexivity|]. eauto. }
    eexists. split; [exact E|]. split; [reflexivity|]. split; [reflexivity|exact SA].
  - destruct (written_parse y g p ([45] ++ A) P s n d NS NC U M) with
      (L := fun l => exists a, stands_for p v n d A a /\ l = [swap_from_to (set_from range_new a)]) as (l & E & a & SA & ->); auto.
    { discriminate. } { rewrite forallb_app, (ip_body A) by assumption. reflexivity. }
    { intros ipv6. eapply wp_conseq; [apply (range_port_to y g p L PR C A v (skipn 1 P) n d ipv6 AR DA)|].
      - exact (proj1 (port_part_ok _ _ _ _ HP)).
      - cbv beta. intros r ms (-> & a & -> & S). split; [reflexivity|]. eauto. }
    eexists. split; [exact E|]. split; [reflexivity|]. split; [reflexivity|exact SA].
Qed.
Print Assumptions C77_open_range.

Definition ranging : parser := with_allow bare ALLOW_ADDRESS_RANGE true.
Definition no_empty : parser := fst (set_sort_order ranging SORT_NO_EMPTY).
Definition ends (r : parser * res (list addr_range)) : list (Z * Z * Z * Z) :=
  match snd r with
  | Ok l => map (fun r => (value (f_from r), get_port (f_from r), value (f_to r), get_port (f_to r))) l
  | _ => []
  end.
Lemma ranging_numbers : takes_numbers ranging.
Proof. constructor; [now apply no_seps|now apply no_comments|reflexivity|reflexivity|now left|right; now split]. Qed.
Example C77_witness : takes_numbers ranging /\ takes_numbers no_empty
  /\ get_allow ranging ALLOW_ADDRESS_RANGE = Ok true /\ get_allow no_empty ALLOW_ADDRESS_RANGE = Ok true
  /\ written (lit "10.1.2.3" ++ [45] ++ lit "10.1.2.9") (lit ":80") (lit "10.1.2.3-10.1.2.9:80")
  /\ written (lit "fe80::1" ++ [45] ++ lit "fe80::9") (lit ":80") (lit "[fe80::1-fe80::9]:80")
  /\ ends (parse ref_sys no_answer (lit "10.1.2.3-10.1.2.9:80") ranging)
     = [(v4_base + num [10;1;2;3], 80, v4_base + num [10;1;2;9], 80)]
  /\ ends (parse ref_sys no_answer (lit "[fe80::1-fe80::9]:80") ranging)
     = [(num (254 :: 128 :: repeat 0 13 ++ [1]), 80, num (254 :: 128 :: repeat 0 13 ++ [9]), 80)]
  /\ snd (parse ref_sys no_answer (lit "10.1.2.9-10.1.2.3:80") no_empty) = Ok []
  /\ length (ends (parse ref_sys no_answer (lit "10.1.2.9-10.1.2.3:80") ranging)) = 1%nat.
Proof.
  split; [apply ranging_numbers|].
  split. { constructor; [now apply no_seps|now apply no_comments|reflexivity|reflexivity|now left|right; now split]. }
  split; [reflexivity|]. split; [reflexivity|].
  split; [apply (written_plain (lit "10.1.2.3-10.1.2.9")); now apply not_in|].
  split; [apply (written_brackets (lit "fe80::1-fe80::9"))|]. repeat split; vm_compute; reflexivity.
Qed.

(* ---------- C22 ---------- *)
(* An address whose mask is a prefix, printed in full, is read back with the
   same address, port and mask. The mask of an IPv4 address must have at least
   96 ones (as all masks which fit IPv4 have). *)
Theorem C22_printed_is_read_back : forall y y2 g p a k,
  converts_decimals y2 -> takes_numbers p ->
  get_allow p ALLOW_MASK = Ok true ->
  get_allow p ALLOW_PORT = Ok true \/ get_allow p ALLOW_REQUIRED_PORT = Ok true ->
  addr_wf a -> 0 <= k <= 128 -> mask_value a = prefix_mask k -> (is_v4_value (value a) -> 96 <= k) ->
  exists s r, to_ipv4or6_string y a STRING_IP_ALL = Ok s
    /\ parse y2 g s p = (p, Ok [r])
    /\ has_from r = true /\ has_to r = false
    /\ value (get_from r) = value a
    /\ get_port (get_from r) = get_port a
    /\ mask_value (get_from r) = mask_value a.
Proof.
  intros y y2 g p a k C TN AM AP W K MK K4.
  assert (is_ipv4 a = true -> 96 <= k) as K4'.
  { intros I. apply K4. rewrite AddrProofs2.is_ipv4_bool in I by exact W. unfold is_v4_value, v4_base in *. lia. }
  destruct (printed_all y a k W K MK K4') as (A & T & ES & DN & HW & WY & _).
  assert (port_part p (58 :: dec_string (get_port a)) (get_port a) true) as HP.
  { pose proof (AddrProofs3.get_port_range a). apply port_given; [apply decimal_dec; lia|lia|exact AP]. }
  destruct (C76_one_address y2 g p A (value a) _ _ true T C TN DN HP HW) as (r1 & E1 & F1 & T1 & S1).
  destruct (denotes_chars _ _ DN) as [NE F].
  destruct (written_trimmed p A _ T _ _ NE (ip_body _ F) HP HW) as [TT N47].
  destruct (written_has_address p A _ T _ _ NE (ip_body _ F) HP HW) as [HA SY].
  destruct TN as [NS NC U _ _ _]. allowed AM.
  set (n := if is_ipv4 a then k - 96 else k) in *.
  assert (0 <= n) as Hn by (unfold n; destruct (is_ipv4 a); lia).
  destruct (entry_numeric y2 g p T (way T) NS NC U AM TT N47 HA SY (dec_string n) n [r1] (decimal_dec n Hn) E1) as [H _].
  assert (is_ipv4 (get_from r1) = is_ipv4 a) as I1.
  { rewrite !AddrProofs2.is_ipv4_bool by (try apply S1; exact W). now rewrite (st_value _ _ _ _ _ _ S1). }
  assert (128 - limit (way T) r1 + n = k /\ n <= limit (way T) r1) as [LK LN].
  { unfold limit. rewrite WY, I1. unfold n. destruct (is_ipv4 a); cbn [andb]; lia. }
  destruct H as (l2 & E2 & F2); [now repeat constructor|].
  clearbody n. inversion F2 as [|x r2 l l' MB F3 EX EY]. subst x l l2. inversion F3. subst l'.
  rewrite LK in MB. destruct MB as (B1 & B2 & B3 & m & B4 & B5).
  exists (T ++ 47 :: dec_string n), r2. split; [exact ES|]. split; [exact E2|]. rewrite B1, B2, B4.
  split; [exact F1|]. split; [exact T1|].
  split; [exact (st_value _ _ _ _ _ _ S1)|]. split; [exact (st_port _ _ _ _ _ _ S1)|].
  rewrite MK. exact B5.
Qed.
Print Assumptions C22_printed_is_read_back.

Example C22_witness : takes_numbers bare /\ get_allow bare ALLOW_MASK = Ok true /\ get_allow bare ALLOW_PORT = Ok true
  /\ addr_wf w4 /\ is_v4_value (value w4) /\ addr_wf w6 /\ ~ is_v4_value (value w6)
  /\ (exists k, 96 <= k < 128 /\ mask_value (fst (set_mask_count w4 117)) = prefix_mask k)
  /\ to_ipv4or6_string ref_sys (fst (set_mask_count w4 117)) STRING_IP_ALL = Ok (lit "192.168.3.17:443/21")
  /\ mask_of (parse ref_sys no_answer (lit "192.168.3.17:443/21") bare) = [prefix_mask 117].
Proof.
  split. { constructor; [now apply no_seps|now apply no_comments|reflexivity|reflexivity|now left|right; now split]. }
  split; [reflexivity|]. split; [reflexivity|]. split; [apply w4_wf|]. split; [vm_compute; split; congruence|].
  split; [apply w6_wf|]. split; [vm_compute; intros [? ?]; congruence|].
  split; [exists 117; split; [lia|vm_compute; reflexivity]|]. split; vm_compute; reflexivity.
Qed.

(* ---------- C78 ---------- *)
Lemma respects four lim m (q : bool) r0 r1 : but_mask r0 r1 ->
  ((limit four r1 = lim /\ q = true) -> (limit four r0 = lim /\ q = true))
  /\ ((limit four r1 <> lim \/ q = false) -> (limit four r0 <> lim \/ q = false))
  /\ forall r2, masked_with m r0 r2 -> masked_with m r1 r2.
Proof.
  intros B. rewrite (but_mask_limit four r0 r1 B). split; [tauto|]. split; [tauto|].
  intros r2 (M1 & M2 & M3 & b & M4 & M5). pose proof (but_mask_set r0 r1 b B) as E. destruct B as (B1 & B2 & B3 & _).
  split; [unfold has_from in *; congruence|]. split; [unfold has_to in *; congruence|]. split; [unfold get_to in *; congruence|].
  exists b. split; [congruence|exact M5].
Qed.
(* An entry A which is accepted is given an address as its mask: the mask is
   that address, the upper 96 bits of an IPv4 mask being ones. The mask is
   rejected when such masks are not allowed and when one is IPv4 and the other
   IPv6. *)
Theorem C78_address_mask : forall y g A M lim m p four l,
  nobody (separator p) -> nobody (starts_comment p) -> unsorted p -> get_allow p ALLOW_MASK = Ok true ->
  trimmed A -> ~ In 47 A -> has_address A -> syntax four p A ->
  resolves_numbers g -> address_mask lim M m ->
  parse y g A p = (p, Ok l) ->
  (Forall (fun r => limit four r = lim) l -> get_allow p ALLOW_ADDRESS_MASK = Ok true ->
     exists l2, parse y g (A ++ 47 :: M) p = (p, Ok l2) /\ Forall2 (masked_with m) l l2)
  /\ (Exists (fun r => limit four r <> lim) l \/ (l <> [] /\ get_allow p ALLOW_ADDRESS_MASK = Ok false) ->
     exists p2, parse y g (A ++ 47 :: M) p = (p2, Ok []) /\ error_count p < error_count p2).
Proof.
  intros y g A M lim m p four l NS NC U AM T N H Y HG HM E. allowed AM.
  destruct (address_mask_text M m lim HM) as (NM & _ & LM).
  destruct (entry_masked y g p A four NS NC U AM T N H Y M _ _ _ l NM LM
    (address_mask_does g p M m lim HG HM four) ltac:(apply respects) E) as [H1 H2].
  split.
  - intros F AA. allowed AA. apply H1. apply Forall_forall. intros r I. rewrite Forall_forall in F. split; [now apply F|exact AA].
  - intros X. apply H2. destruct X as [X|[X AA]].
    + apply Exists_exists in X as (r & I & R). apply Exists_exists. exists r. split; [exact I|now left].
    + allowed AA. destruct l as [|r l]; [congruence|]. apply Exists_cons_hd. now right.
Qed.
Print Assumptions C78_address_mask.

(* The printed form of every address with a mask which can be printed is read
   back, also when the mask is not a prefix. *)
Theorem C22_every_mask_is_read_back : forall y y2 g p a,
  converts_decimals y2 -> resolves_numbers g -> takes_numbers p ->
  get_allow p ALLOW_MASK = Ok true -> get_allow p ALLOW_ADDRESS_MASK = Ok true ->
  get_allow p ALLOW_PORT = Ok true \/ get_allow p ALLOW_REQUIRED_PORT = Ok true ->
  addr_wf a -> (is_v4_value (value a) -> prefix_mask 96 <= mask_value a) ->
  exists s r, to_ipv4or6_string y a STRING_IP_ALL = Ok s
    /\ parse y2 g s p = (p, Ok [r])
    /\ has_from r = true /\ has_to r = false
    /\ value (get_from r) = value a
    /\ get_port (get_from r) = get_port a
    /\ mask_value (get_from r) = mask_value a.
Proof.
  intros y y2 g p a C HG TN AM AA AP W K4.
  assert (is_ipv4 a = true -> is_v4_value (value a)) as V4.
  { intros I. rewrite AddrProofs2.is_ipv4_bool in I by exact W. unfold is_v4_value, v4_base in *. lia. }
  destruct (AddrProofs2.get_mask_size_spec a W) as [(k & K & MK & _)|[_ MS]].
  { apply (C22_printed_is_read_back y y2 g p a k); auto. intros V. specialize (K4 V). rewrite MK in K4.
    unfold prefix_mask in K4. destruct (Z_lt_ge_dec k 96) as [L|L]; [|lia]. exfalso.
    assert (2 ^ (128 - 96) < 2 ^ (128 - k)) by (apply Z.pow_lt_mono_r; lia). lia. }
  destruct (printed_odd y a W MS (fun I => K4 (V4 I))) as (A & T & M & ES & DN & HW & WY & HM & _).
  assert (port_part p (58 :: dec_string (get_port a)) (get_port a) true) as HP.
  { pose proof (AddrProofs3.get_port_range a). apply port_given; [apply decimal_dec; lia|lia|exact AP]. }
  destruct (C76_one_address y2 g p A (value a) _ _ true T C TN DN HP HW) as (r1 & E1 & F1 & T1 & S1).
  destruct (denotes_chars _ _ DN) as [NE F].
  destruct (written_trimmed p A _ T _ _ NE (ip_body _ F) HP HW) as [TT N47].
  destruct (written_has_address p A _ T _ _ NE (ip_body _ F) HP HW) as [HA SY].
  destruct (C78_address_mask y2 g T M _ _ p (way T) [r1] (tn_separator p TN) (tn_comment p TN) (tn_unsorted p TN)
    AM TT N47 HA SY HG HM E1) as [H _].
  assert (is_ipv4 (get_from r1) = is_ipv4 a) as I1.
  { rewrite !AddrProofs2.is_ipv4_bool by (try apply S1; exact W). now rewrite (st_value _ _ _ _ _ _ S1). }
  destruct H as (l2 & E2 & F2); [|exact AA|].
  { constructor; [|constructor]. unfold limit. rewrite WY, I1. now rewrite andb_diag. }
  inversion F2 as [|x r2 l l' MB F3 EX EY]. subst x l l2. inversion F3. subst l'.
  destruct MB as (B1 & B2 & B3 & m & B4 & B5 & _).
  exists (T ++ 47 :: M), r2. split; [exact ES|]. split; [exact E2|]. rewrite B1, B2, B4.
  split; [exact F1|]. split; [exact T1|].
  split; [exact (st_value _ _ _ _ _ _ S1)|]. split; [exact (st_port _ _ _ _ _ _ S1)|]. exact B5.
Qed.
Print Assumptions C22_every_mask_is_read_back.

(* a getaddrinfo() for numbers *)
Definition numbers : resolver := fun node service numeric_host socktype protocol =>
  match inet_pton4 node with
  | Some q => GAI_list [mk_ai AF_INET SIZEOF_IN 6 (mk_in AF_INET 0 (load32 q 0)) init_in6]
  | None =>
      match inet_pton6 node with
      | Some q => GAI_list [mk_ai AF_INET6 SIZEOF_IN6 6 (mk_in AF_INET 0 0) (mk_in6 AF_INET6 0 0 q 0)]
      | None => GAI_error (lit "Name or service not known")
      end
  end.
Lemma numbers_resolves : resolves_numbers numbers.
Proof.
  intros node service st pr. unfold numbers. split.
  - intros w D. destruct (dotted_pton _ _ D) as (q & -> & <- & L & B). destruct (load32_num q L B) as [E R].
    eexists _, _. split; [reflexivity|]. cbn [ai_family ai_addrlen ai_in s_addr]. auto.
  - intros ws T. pose proof (text_read _ _ T) as Q. assert (inet_pton4 node = None) as ->.
    { destruct (inet_pton4 node) as [q4|] eqn:E; [|reflexivity]. apply TextProofs.pton4_chars in E. apply pton6_colon in Q.
      rewrite forallb_forall in E. specialize (E _ Q). discriminate. }
    rewrite Q. eexists _, _. split; [reflexivity|]. cbn [ai_family ai_addrlen ai_in6 sin6_addr].
    split; [reflexivity|]. split; [reflexivity|]. split; [now apply pton6_bytes in Q|]. apply num_words, (text_range _ _ T).
Qed.
Definition address_masks : parser := with_allow bare ALLOW_ADDRESS_MASK true.
Definition odd_mask : addr := set_mask w4 (repeat 255 12 ++ [255; 0; 255; 0]).
Example C78_witness : resolves_numbers numbers /\ takes_numbers address_masks
  /\ get_allow address_masks ALLOW_MASK = Ok true /\ get_allow address_masks ALLOW_ADDRESS_MASK = Ok true
  /\ get_allow bare ALLOW_ADDRESS_MASK = Ok false
  /\ address_mask 32 (lit "255.0.255.0") (prefix_mask 96 + num [255; 0; 255; 0])
  /\ address_mask 128 (lit "[ffff::]") (num ([255; 255] ++ repeat 0 14))
  /\ mask_of (parse ref_sys numbers (lit "10.1.2.3:80/255.0.255.0") address_masks) = [prefix_mask 96 + num [255; 0; 255; 0]]
  /\ mask_of (parse ref_sys numbers (lit "fe80::1/[ffff::]") address_masks) = [prefix_mask 16]
  /\ mask_of (parse ref_sys numbers (lit "10.1.2.3:80/[ffff::]") address_masks) = []
  /\ addr_wf odd_mask /\ prefix_mask 96 <= mask_value odd_mask /\ get_mask_size odd_mask = -1
  /\ to_ipv4or6_string ref_sys odd_mask STRING_IP_ALL = Ok (lit "192.168.3.17:443/255.0.255.0").
Proof.
  split; [apply numbers_resolves|].
  split. { constructor; [now apply no_seps|now apply no_comments|reflexivity|reflexivity|now left|right; now split]. }
  split; [reflexivity|]. split; [reflexivity|]. split; [reflexivity|].
  split. { left. split; [reflexivity|]. eexists. split; [now apply PropText.C20_only_dotted_accepted|reflexivity]. }
  split. { right. split; [reflexivity|]. exists (lit "ffff::").
    destruct (proj2 (six_iff (lit "ffff::") (num ([255; 255] ++ repeat 0 14)))) as (ws & T & E);
      [eexists; split; [vm_compute; reflexivity|reflexivity]|]. now exists ws. }
  split; [vm_compute; reflexivity|]. split; [vm_compute; reflexivity|]. split; [vm_compute; reflexivity|].
  split; [now apply addr_wfb_ok|]. split; [vm_compute; congruence|]. split; vm_compute; reflexivity.
Qed.
