(* Entries which are looked up, and entries without an address. *)
From Coq Require Import ZifyBool ZifyNat.
From Verif Require Import Base Addr Spec Range SpecRange Inet SpecText Parser SpecParser SpecParser2 SpecParser4.
From Verif Require Import AddrProofs AddrProofs2 AddrProofs4 RangeProofs InetProofs InetProofs2 TextProofs
  ParserProofs ParserProofs2 ParserProofs3 ParserProofs4 ParserProofs5 ParserProofs6 ParserProofs7 ParserProofs8
  ParserProofs9 ParserProofs10.
From Verif Require PropText.
Local Open Scope Z_scope.

Lemma allow_of p f b : get_allow p f = Ok b -> allow p f = b.
Proof. unfold get_allow. destruct (_ || _); [discriminate|congruence]. Qed.
Lemma ports_allow p : ports_allowed p -> allow p ALLOW_PORT || allow p ALLOW_REQUIRED_PORT = true
  /\ negb (allow p ALLOW_PORT) && negb (allow p ALLOW_REQUIRED_PORT) = false.
Proof. intros [H|H]; apply allow_of in H; rewrite H; split; cbn; rewrite ?orb_true_r, ?andb_false_r; reflexivity. Qed.

(* ---------- from the text to parse_address_range_port() ---------- *)
Definition entry_way (s : str) : bool :=
  match s with c :: _ => negb (c =? 91) && negb (count_char 58 s >=? 2) | [] => true end.
Lemma plain_count A P : ~ In 58 A -> P = [] \/ (exists S, P = 58 :: S /\ ~ In 58 S) -> count_char 58 (A ++ P) <= 1.
Proof.
  intros N58 HP. rewrite count_char_app, (count_char_none 58 A) by exact N58.
  destruct HP as [->|(D & -> & D58)]; [unfold count_char; cbn; lia|]. rewrite count_char_cons, count_char_none by exact D58. lia.
Qed.
Lemma brackets_address6 y g p A P k : ~ In 93 A -> P = [] \/ (exists S, P = 58 :: S /\ ports_allowed p) ->
  parse_address6 y g ([91] ++ A ++ [93] ++ P) k p = parse_address_range_port y g A (skipn 1 P) true p.
Proof.
  intros N93 HP. cbn [app]. unfold parse_address6, bind at 1 2, allowed, ask. cbn [Z.eqb Pos.eqb].
  assert (find_char 93 (91 :: A ++ 93 :: P) = Some (length (91 :: A))) as ->.
  { apply (find_char_first 93 (91 :: A)). intros [X|X]; [discriminate|]. contradiction. }
  replace (skipn (length (91 :: A) + 1) (91 :: A ++ 93 :: P)) with P by (symmetry; apply (skipn_length_app (91 :: A))).
  replace (firstn (length (91 :: A) - 1) (skipn 1 (91 :: A ++ 93 :: P))) with A
    by (cbn [length skipn]; rewrite Nat.sub_succ, Nat.sub_0_r; symmetry; apply firstn_length_app).
  destruct HP as [->|(S & -> & PA)]; [reflexivity|]. cbn [Z.eqb Pos.eqb negb skipn].
  destruct (ports_allow p PA) as [_ ->]. reflexivity.
Qed.
Lemma plain_address4 y g p A P : ~ In 58 A -> P = [] \/ (exists S, P = 58 :: S /\ ~ In 58 S /\ ports_allowed p) ->
  parse_address4 y g (A ++ P) p = parse_address_range_port y g A (skipn 1 P) false p.
Proof.
  intros N58 HP. unfold parse_address4, bind at 1 2, allowed, ask. destruct HP as [->|(S & -> & NS & PA)].
  - now rewrite app_nil_r, find_char_none.
  - rewrite find_char_first by exact N58. rewrite firstn_length_app, skipn_length_app.
    destruct (ports_allow p PA) as [-> _]. reflexivity.
Qed.
Lemma bare_address6 y g p A : two_colons A -> hd 0 A <> 91 ->
  parse_address6 y g A (count_char 58 A) p = parse_address_range_port y g A [] true p.
Proof.
  intros T N91. apply two_colons_count in T. unfold parse_address6, bind at 1 2, allowed, ask.
  replace (match A with c :: _ => c =? 91 | [] => false end) with false by (destruct A; cbn [hd] in N91; [reflexivity|lia]).
  now replace (count_char 58 A =? 1) with false by lia.
Qed.
Definition tagged (m : M (list addr_range)) (four : bool) : M (list addr_range * bool) := do! l <- m in ret (l, four).
Lemma tagged_eq m1 m2 four (p : parser) : m1 p = m2 p -> tagged m1 four p = tagged m2 four p.
Proof. intros E. unfold tagged, bind. now rewrite E. Qed.

Lemma entry_address y g p A P s mask : host_entry p A P s ->
  parse_address y g s mask p = tagged (parse_address_range_port y g A (skipn 1 P) (negb (entry_way s))) (entry_way s) p.
Proof.
  intros H. destruct H as [A P NE N91 N58 N93 HP|A P NE N93 HP|A T N91].
  - assert (count_char 58 (A ++ P) <= 1) as CC.
    { apply plain_count; [exact N58|]. destruct HP as [->|(S & -> & NS & _)]; [now left|right; now exists S]. }
    assert (entry_way (A ++ P) = true) as W.
    { destruct A as [|c b]; [congruence|]. cbn [hd] in N91. cbn [app entry_way]. change (c :: b ++ P) with ((c :: b) ++ P).
      replace (c =? 91) with false by lia. replace (count_char 58 ((c :: b) ++ P) >=? 2) with false by lia. reflexivity. }
    rewrite W. cbn [negb]. rewrite <- (tagged_eq _ _ true p (plain_address4 y g p A P N58 HP)).
    unfold parse_address. cbv zeta. replace (count_char 58 (A ++ P) >=? 2) with false by lia.
    destruct A as [|c b] eqn:EA; [congruence|]. cbn [app hd] in *.
    replace (c =? 58) with false by (symmetry; apply Z.eqb_neq; intros ->; apply N58; now left).
    replace (c =? 91) with false by lia. cbn [orb]. rewrite (find_char_none 93) by exact N93.
    unfold bind at 1 2, allowed, ask.
    destruct (negb (allow p ALLOW_PORT) && negb (allow p ALLOW_REQUIRED_PORT)) eqn:AL; [|reflexivity].
    destruct HP as [->|(S & -> & NS & PA)].
    + rewrite app_nil_r. now rewrite (find_char_none 58).
    + destruct (ports_allow p PA) as [_ X]. congruence.
  - assert (entry_way ([91] ++ A ++ [93] ++ P) = false) as W by reflexivity. rewrite W. cbn [negb].
    rewrite <- (tagged_eq _ _ false p (brackets_address6 y g p A P (count_char 58 ([91] ++ A ++ [93] ++ P)) N93 HP)).
    unfold parse_address. cbv zeta. cbn [app Z.eqb Pos.eqb orb].
    destruct (_ >=? 2); reflexivity.
  - pose proof (proj1 (two_colons_count _) T) as C2. assert (entry_way A = false) as W.
    { unfold entry_way. destruct A as [|c b]; [unfold count_char in C2; cbn in C2; lia|].
      replace (count_char 58 (c :: b) >=? 2) with true by lia. apply andb_false_r. }
    rewrite W. cbn [negb skipn]. rewrite <- (tagged_eq _ _ false p (bare_address6 y g p A T N91)).
    unfold parse_address. cbv zeta. now replace (count_char 58 A >=? 2) with true by lia.
Qed.
Lemma one_range_port y g p A P six : one_host p A ->
  parse_address_range_port y g A P six p = parse_address_port y g A P six p.
Proof.
  intros H. unfold parse_address_range_port, bind at 1, allowed, ask.
  replace (if allow p ALLOW_ADDRESS_RANGE then find_char 45 A else None) with (@None nat); [reflexivity|].
  destruct (allow p ALLOW_ADDRESS_RANGE) eqn:AR; [|reflexivity].
  destruct H as [N|N]; [|apply allow_of in N; congruence]. symmetry. now apply find_char_none.
Qed.

(* ---------- the lookup ---------- *)
Lemma hints_are n st pr : hints n st pr -> st = hint_socktype n /\ pr = hint_protocol n.
Proof.
  intros [| |m N1 N2]; [split; reflexivity|split; reflexivity|]. unfold hint_socktype, hint_protocol.
  replace (m =? IPPROTO_TCP) with false by lia. replace (m =? IPPROTO_UDP) with false by lia. now split.
Qed.
Definition invalid (A P : str) (text : str) : str :=
  lit "Invalid address in """ ++ A ++ (match P with [] => [] | _ => lit ":" end) ++ P ++ lit """ error " ++ text.
Definition port_used (p : parser) (P : str) : str :=
  match skipn 1 P with
  | [] => if negb (f_default_port p =? -1) then to_string_int (f_default_port p) else []
  | t => t
  end.
Lemma lookup_port y g p A P six given ans : allow p ALLOW_ADDRESS_LOOKUP = true -> A <> [] -> ~ In 0 A ->
  asked g p A P given ans ->
  parse_address_port y g A (skipn 1 P) six p
    = match ans with
      | GAI_error text => fail (invalid A (port_used p P) text) p
      | GAI_list l => use_addrinfo l true A given p
      end.
Proof.
  intros L NE N0 (S & st & pr & HS & HH & E). apply hints_are in HH. destruct HH as [-> ->]. unfold parser_get_protocol in E. unfold port_used.
  unfold parse_address_port. cbv zeta. replace (match A with [] => true | _ => false end) with false by (destruct A; congruence).
  Local Ltac run L := repeat (progress (cbv beta iota delta [bind allowed ask]; cbn [negb andb])); rewrite ?L.
  destruct HS as [S NS NS0|D P HP R DP PD|P HP R DP].
  - cbn [skipn]. destruct S as [|d S]; [congruence|]. run L. run L.
    rewrite (c_str_id A N0), (c_str_id _ NS0), E. destruct ans; reflexivity.
  - apply allow_of in R. replace (skipn 1 P) with (@nil Z) by (destruct HP as [-> | ->]; reflexivity). run R. run R. run L.
    unfold get_default_port in *. replace (f_default_port p =? -1) with false by lia. run L.
    assert (0 <= f_default_port p) as R0.
    { destruct PD as ((NN & F & <-) & _). pose proof (fold_digits_ge D 0 ltac:(lia) F). unfold decimal_value. lia. }
    assert (to_string_int (f_default_port p) = D) as ->.
    { rewrite to_string_dec by exact R0. apply (plain_unique _ _ (f_default_port p)); [now apply PropText.plain_dec_string|exact PD]. }
    assert (D <> []) as ND by (destruct PD as ((NN & _) & _); exact NN).
    replace (match D with [] => lit "0" | _ => D end) with D by (destruct D; congruence).
    assert (~ In 0 D) as D0. { destruct PD as ((_ & F & _) & _). intros X. rewrite forallb_forall in F. specialize (F _ X). discriminate. }
    rewrite (c_str_id A N0), (c_str_id D D0), E. destruct ans; reflexivity.
  - apply allow_of in R. replace (skipn 1 P) with (@nil Z) by (destruct HP as [-> | ->]; reflexivity). run R. run R. run L.
    unfold get_default_port in *. rewrite DP. cbn [Z.eqb Pos.eqb negb]. run L.
    rewrite (c_str_id A N0). change (c_str (lit "0")) with (lit "0"). rewrite E. destruct ans; reflexivity.
Qed.
Lemma built_answer host given ai a : addrinfo_ok ai -> protocol_ok (ai_protocol ai) ->
  (ai_family ai = AF_INET /\ built a (v4_base + bswap32 (s_addr (ai_in ai))) (bswap16 (sin_port (ai_in ai))) host (ai_protocol ai) given)
  \/ (ai_family ai = AF_INET6 /\ built a (num (sin6_addr (ai_in6 ai))) (bswap16 (sin6_port (ai_in6 ai))) host (ai_protocol ai) given
      /\ f_address a = ai_in6 ai) ->
  answer host given ai (set_from range_new a).
Proof.
  intros OK PR H.
  assert (forall v port, built a v port host (ai_protocol ai) given -> addr_wf a /\ f_protocol a = ai_protocol ai
    /\ mask_value a = LAST /\ f_hostname a = host /\ f_port_defined a = given) as B.
  { intros v port [B1 B2 B3 B4 B5 B6 B7 B8]. split; [exact B1|]. split; [|split; [|now split]].
    - rewrite B5. unfold proto_of. replace (ai_protocol ai =? -1) with false; [reflexivity|].
      unfold protocol_ok, IPPROTO_IP, IPPROTO_TCP, IPPROTO_UDP in PR. lia.
    - unfold mask_value. rewrite B7. reflexivity. }
  destruct H as [[F H]|(F & H & E)]; destruct (B _ _ H) as (C1 & C2 & C3 & C4 & C5); constructor; auto.
  - intros _. split; apply H.
  - intros X. rewrite F in X. discriminate.
  - intros X. rewrite F in X. discriminate.
Qed.
Lemma range6_address in6 host proto dp a : range6 in6 host proto dp = Ok (set_from range_new a) -> f_address a = in6.
Proof.
  unfold range6, on, set_ipv6. destruct (negb (sin6_family in6 =? AF_INET6)); [discriminate|]. cbn [fst snd rbind].
  destruct (negb (proto =? -1)).
  - unfold set_protocol. destruct (_ || _); [|discriminate]. destruct (negb _); cbn [fst snd rbind]; intros E;
      injection E as <-; reflexivity.
  - cbn [rbind]. intros E. injection E as <-. reflexivity.
Qed.
Lemma usable_cases ai : usable ai = true -> (ai_family ai = AF_INET /\ ai_addrlen ai = SIZEOF_IN)
  \/ (ai_family ai = AF_INET6 /\ ai_addrlen ai = SIZEOF_IN6).
Proof. unfold usable. lia. Qed.

Lemma use_all p host given : forall l first, Forall addrinfo_ok l ->
  Forall (fun ai => usable ai = true -> protocol_ok (ai_protocol ai)) l ->
  wp p (use_addrinfo l first host given) (fun r ms =>
    (exists rs, r = Ok rs /\ Forall2 (answer host given) (filter usable l) rs)
    /\ (first = true -> (ms = [] <-> Forall (fun ai => usable ai = true) l))
    /\ (Forall (fun ai => usable ai = true) l -> ms = [])).
Proof.
  induction l as [|ai l IH]; intros first OK PR; cbn [use_addrinfo].
  { apply wp_ret. split; [exists []; split; [reflexivity|constructor]|]. split; [|reflexivity]. intros _. split; [constructor|reflexivity]. }
  inversion OK as [|? ? A1 A2]; subst. inversion PR as [|? ? P1 P2]; subst.
  assert (forall msg fi, usable ai = false -> wp p (do! _ <- emit msg in use_addrinfo l fi host given) (fun r ms =>
    (exists rs, r = Ok rs /\ Forall2 (answer host given) (filter usable (ai :: l)) rs)
    /\ (first = true -> (ms = [] <-> Forall (fun ai => usable ai = true) (ai :: l)))
    /\ (Forall (fun ai => usable ai = true) (ai :: l) -> ms = []))) as BAD.
  { intros msg fi NU. wbind. apply wp_emit. eapply wp_conseq; [apply IH; assumption|]. cbv beta.
    intros r ms ((rs & -> & F2) & _). cbn [app filter]. rewrite NU. split; [eauto|].
    split; [intros _; split; [discriminate|]|]; intros X; inversion X; congruence. }
  assert (forall m a, usable ai = true -> m = Ok (set_from range_new a) -> answer host given ai (set_from range_new a) ->
    wp p (do! r <- lift m in do! rs <- use_addrinfo l first host given in ret (r :: rs)) (fun r ms =>
    (exists rs, r = Ok rs /\ Forall2 (answer host given) (filter usable (ai :: l)) rs)
    /\ (first = true -> (ms = [] <-> Forall (fun ai => usable ai = true) (ai :: l)))
    /\ (Forall (fun ai => usable ai = true) (ai :: l) -> ms = []))) as GOOD.
  { intros m a US -> AN. wbind. apply wp_lift. cbv beta iota. wbind. eapply wp_conseq; [apply IH; assumption|]. cbv beta.
    intros r ms ((rs & -> & F2) & H1 & H2). apply wp_ret. cbn [app filter]. rewrite US, app_nil_r. split.
    - eexists. split; [reflexivity|]. now constructor.
    - split.
      + intros ->. rewrite (H1 eq_refl). split; intros X; [now constructor|now inversion X].
      + intros X. apply H2. now inversion X. }
  destruct A1 as [A4 A6].
  destruct (ai_family ai =? AF_INET) eqn:F4; [|destruct (ai_family ai =? AF_INET6) eqn:F6].
  - apply Z.eqb_eq in F4. destruct (ai_addrlen ai =? SIZEOF_IN) eqn:LN; cbn [negb].
    + assert (usable ai = true) as US by (unfold usable; rewrite F4, LN; reflexivity).
      destruct (A4 F4) as [S1 S2]. specialize (P1 US).
      destruct (range4_spec (ai_in ai) host (ai_protocol ai) given S1 S2) as [(x & _ & X)|(_ & a & E & B)]; [tauto|].
      eapply GOOD; [exact US|exact E|]. apply built_answer; [now split|exact P1|]. left. now split.
    + apply BAD. unfold usable. rewrite F4, LN. reflexivity.
  - apply Z.eqb_eq in F6. destruct (ai_addrlen ai =? SIZEOF_IN6) eqn:LN; cbn [negb].
    + assert (usable ai = true) as US by (unfold usable; rewrite F6, LN; reflexivity).
      destruct (A6 F6) as [S1 S2]. specialize (P1 US).
      destruct (range6_spec (ai_in6 ai) host (ai_protocol ai) given S1 S2) as [(x & _ & X)|(_ & a & E & B)]; [tauto|].
      eapply GOOD; [exact US|exact E|]. apply built_answer; [now split|exact P1|]. right. split; [exact F6|].
      split; [exact B|]. now apply range6_address in E.
    + apply BAD. unfold usable. rewrite F6, LN. reflexivity.
  - assert (usable ai = false) as NU by (unfold usable; rewrite F4, F6; reflexivity).
    destruct first; [now apply BAD|]. eapply wp_conseq; [apply IH; assumption|]. cbv beta.
    intros r ms ((rs & -> & F2) & H1 & H2). cbn [filter]. rewrite NU. split; [eauto|]. split; [discriminate|].
    intros X; inversion X; congruence.
Qed.

(* ---------- the whole entry ---------- *)
Lemma wp_eq {A} (m1 m2 : M A) p Q : (forall e c, m1 (with_errors p e c) = m2 (with_errors p e c)) -> wp p m2 Q -> wp p m1 Q.
Proof. intros E (ms & r & H & HQ). exists ms, r. split; [|exact HQ]. intros e c. rewrite E. apply H. Qed.
Lemma host_entry_errors p A P s e c : host_entry p A P s -> host_entry (with_errors p e c) A P s.
Proof. intros [X Y H1 H2 H3 H4 H5|X Y H1 H2 H3|X H1 H2]; now constructor. Qed.
Lemma asked_errors g p A P d ans e c : asked g p A P d ans -> asked g (with_errors p e c) A P d ans.
Proof.
  intros (S & st & pr & HS & HH & E). exists S, st, pr. split; [|now split]. destruct HS; [now constructor|now constructor|now constructor].
Qed.
Section Lookup.
Variables (y : sys) (g : resolver) (p : parser) (A P s : str) (given : bool).
Hypothesis NM : takes_names p.
Hypothesis HE : host_entry p A P s.
Hypothesis H1 : one_host p A.
Hypothesis N0 : ~ In 0 A.
Hypothesis T : trimmed s.
Hypothesis N47 : ~ In 47 s.

Lemma host_not_empty : A <> [].
Proof.
  destruct HE as [X Y NE _ _ _ _|X Y NE _ _|X TC _]; auto.
  intros ->. destruct TC as (a & b & c & TC). destruct a; discriminate.
Qed.
Lemma lookup_entry ans (L : list addr_range -> list str -> Prop) : asked g p A P given ans ->
  match ans with
  | GAI_error text => L [] [invalid A (port_used p P) text]
  | GAI_list l => wp p (use_addrinfo l true A given) (fun r ms => exists l, r = Ok l /\ L l ms)
  end ->
  exists l ms, parse y g s p = (with_errors p (f_error p ++ flat ms) (f_error_count p + Z.of_nat (length ms)),
      Ok (if allow p ALLOW_MASK && (match ms with [] => false | _ => true end) then [] else l))
    /\ L l ms.
Proof.
  intros HA HL. destruct NM as [NS NC U LK MK]. apply allow_of in LK.
  assert (wp p (parse_address y g s []) (fun r ms => exists l b, r = Ok (l, b) /\ L l ms)) as W.
  { apply (wp_eq _ (tagged (match ans with
      | GAI_error text => fail (invalid A (port_used p P) text)
      | GAI_list l => use_addrinfo l true A given end) (entry_way s))).
    - intros e c. rewrite (entry_address y g _ A P s [] (host_entry_errors _ _ _ _ e c HE)). apply tagged_eq.
      rewrite one_range_port by exact H1.
      rewrite (lookup_port y g (with_errors p e c) A P (negb (entry_way s)) given _ LK host_not_empty N0 (asked_errors _ _ _ _ _ _ e c HA)).
      destruct ans; reflexivity.
    - unfold tagged. wbind. destruct ans as [t|l].
      + apply wp_fail. apply wp_ret. cbn [app]. eauto.
      + eapply wp_conseq; [exact HL|]. cbv beta. intros r ms (l2 & -> & X). apply wp_ret. rewrite app_nil_r. eauto. }
  assert (wp p (parse_cidr y g s) (fun r ms => exists l, L l ms
    /\ r = Ok (if allow p ALLOW_MASK && (match ms with [] => false | _ => true end) then [] else l))) as W2.
  { assert (trim_string s = s) as TS by (now apply trimmed_trim).
    destruct (allow p ALLOW_MASK) eqn:AM.
    - destruct MK as [M|[E4 E6]]; [apply allow_of in M; congruence|].
      apply (cidr_with_mask y g p s s []); [exact AM|rewrite TS; now apply split_mask_none|].
      unfold masked. wbind. eapply wp_conseq; [exact W|]. cbv beta. intros r ms (l & b & -> & X).
      eapply wp_conseq; [apply (no_masks g p b E4 E6)|]. cbv beta. intros r ms2 (-> & ->). rewrite app_nil_r.
      exists l. split; [exact X|]. destruct ms; reflexivity.
    - apply cidr_without_mask; [exact AM|]. rewrite TS. wbind. eapply wp_conseq; [exact W|]. cbv beta.
      intros r ms (l & b & -> & X). apply wp_ret. rewrite app_nil_r. exists l. now split. }
  destruct (parse_wp y g s p _ NS NC U T W2) as (ms & r & E & l & X & ->). exists l, ms. now split.
Qed.
End Lookup.

(* ---------- entries without an address ---------- *)
Lemma fold_hint s : forall n, forallb is_digit s = true -> 0 <= n ->
  fold_left (fun v c => v * 10 + (c - 48)) s n <= 1000 ->
  mask_hint s n = fold_left (fun v c => v * 10 + (c - 48)) s n.
Proof.
  induction s as [|c s IH]; intros n F N H; [reflexivity|]. cbn [forallb mask_hint fold_left] in *. apply andb_prop in F. destruct F as [F1 F2].
  unfold is_digit in F1. rewrite F1. cbv zeta. replace (n * 10 + c - 48) with (n * 10 + (c - 48)) by lia.
  pose proof (fold_digits_ge s (n * 10 + (c - 48)) ltac:(lia) F2) as G.
  replace (n * 10 + (c - 48) >? 1000) with false by lia. apply IH; [exact F2|lia|exact H].
Qed.
Lemma hint_large s : forall n, 0 <= n <= 1000 -> mask_hint s n <> -1 ->
  forallb is_digit s = true /\ mask_hint s n = fold_left (fun v c => v * 10 + (c - 48)) s n /\ mask_hint s n <= 1000.
Proof.
  induction s as [|c s IH]; intros n N; cbn [mask_hint forallb fold_left]; [intros _; split; [reflexivity|split; [reflexivity|lia]]|].
  destruct ((48 <=? c) && (c <=? 57)) eqn:D; [|congruence]. cbv zeta. replace (n * 10 + c - 48) with (n * 10 + (c - 48)) by lia.
  destruct (_ >? 1000) eqn:G; [congruence|]. intros H. destruct (IH (n * 10 + (c - 48)) ltac:(lia) H) as (F & E & L).
  unfold is_digit at 1. rewrite D. cbn [andb]. auto.
Qed.
Lemma hint_number m : m <> [] -> ~ In 0 m -> (mask_hint (c_str m) 0 >? 32 = true <-> large_number m).
Proof.
  intros NE N0. rewrite c_str_id by exact N0. unfold large_number. split.
  - intros H. destruct (hint_large m 0 ltac:(lia) ltac:(lia)) as (F & E & L). exists (decimal_value m).
    split; [now repeat split|]. unfold decimal_value. lia.
  - intros (n & (_ & F & V) & R). unfold decimal_value in V. rewrite fold_hint; [lia|exact F|lia|lia].
Qed.
Lemma no_address_choice y g p P m (six : bool) : no_address P -> (P = [] \/ ports_allowed p) -> ~ In 0 m -> (six = true <-> means_six p m) ->
  parse_address y g P m p = tagged (parse_address_range_port y g [] (skipn 1 P) six) (negb six) p.
Proof.
  intros HP PA N0 HS.
  assert (forall k, k = count_char 58 P -> parse_address6 y g P k p = parse_address_range_port y g [] (skipn 1 P) true p) as S6.
  { intros k ->. unfold parse_address6, bind at 1 2, allowed, ask. destruct HP as [->|(S & -> & N58 & _)]; [reflexivity|].
    cbn [Z.eqb Pos.eqb]. rewrite count_char_cons, count_char_none by exact N58. reflexivity. }
  assert (parse_address4 y g P p = parse_address_range_port y g [] (skipn 1 P) false p) as S4.
  { apply (plain_address4 y g p [] P); [auto|]. destruct HP as [->|(S & -> & N58 & _)]; [now left|right]. exists S.
    destruct PA as [X|PA]; [discriminate|]. auto. }
  assert (forall b : bool, b = six ->
    (if b then tagged (parse_address6 y g P (count_char 58 P)) false else tagged (parse_address4 y g P) true) p
    = tagged (parse_address_range_port y g [] (skipn 1 P) six) (negb six) p) as CH.
  { intros b ->. destruct six; cbn [negb]; apply tagged_eq; [now apply S6|exact S4]. }
  assert (count_char 58 P >=? 2 = false) as C2.
  { destruct HP as [->|(S & -> & N58 & _)]; [reflexivity|]. rewrite count_char_cons, count_char_none by exact N58. reflexivity. }
  assert (match m with
    | c :: _ => if c =? 91 then true else mask_hint (c_str m) 0 >? 32
    | [] => match f_default_address4 p, f_default_address6 p with [], _ :: _ => true | _, _ => false end
    end = six) as B.
  { destruct m as [|c m'] eqn:EM.
    - assert ((match f_default_address4 p, f_default_address6 p with [], _ :: _ => true | _, _ => false end) = true <-> means_six p []) as X.
      { unfold means_six, get_default_address4, get_default_address6. destruct (f_default_address4 p), (f_default_address6 p);
          split; intros H; try discriminate; try reflexivity; try (destruct H as [[H _]|(_ & H1 & H2)]; congruence).
        right. repeat split; discriminate. }
      rewrite <- HS in X. destruct six, (match f_default_address4 p, f_default_address6 p with [], _ :: _ => true | _, _ => false end);
        try reflexivity; [now apply X|symmetry; now apply X].
    - rewrite <- EM in *. assert ((if c =? 91 then true else mask_hint (c_str m) 0 >? 32) = true <-> means_six p m) as X.
      { assert (m <> []) as NM by (subst; discriminate). unfold means_six, ipv6_mask. rewrite <- hint_number by assumption.
        assert (hd 0 m = c) as -> by (subst; reflexivity).
        destruct (c =? 91) eqn:E91; split; intros H.
        - left. split; [exact NM|left; lia].
        - reflexivity.
        - left. split; [exact NM|right; exact H].
        - destruct H as [[_ [H|H]]|[H _]]; [lia|exact H|contradiction]. }
      rewrite <- HS in X. destruct six, (if c =? 91 then true else mask_hint (c_str m) 0 >? 32); try reflexivity; [now apply X|symmetry; now apply X]. }
  rewrite <- (CH _ B). unfold parse_address. cbv zeta. rewrite C2.
  destruct HP as [->|(S & -> & N58 & _)].
  - destruct m as [|c m]; [|destruct (c =? 91); [reflexivity|]; destruct (_ >? 32); reflexivity].
    unfold bind at 1 2, ask. destruct (f_default_address4 p), (f_default_address6 p); reflexivity.
  - cbn [Z.eqb Pos.eqb]. destruct m as [|c m]; [|destruct (c =? 91); [reflexivity|]; destruct (_ >? 32); reflexivity].
    unfold bind at 1 2, ask. destruct (f_default_address4 p), (f_default_address6 p); reflexivity.
Qed.
Lemma default_port_address y g p six D S : allow p ALLOW_REQUIRED_ADDRESS = false -> default_for p six D ->
  parse_address_port y g [] S six p = parse_address_port y g D S six p /\ D <> [].
Proof.
  intros R HD.
  assert (default_address p six = D /\ D <> []) as [E NE].
  { unfold default_address, default_for, get_default_address4, get_default_address6 in *.
    destruct six; destruct HD as [[-> N]|[Z ->]].
    - destruct (f_default_address6 p); [congruence|now split].
    - rewrite Z. split; [reflexivity|discriminate].
    - destruct (f_default_address4 p); [congruence|now split].
    - rewrite Z. split; [reflexivity|discriminate]. }
  split; [|exact NE]. unfold parse_address_port. destruct D as [|d D]; [congruence|]. cbv beta iota zeta delta [bind allowed ask].
  destruct (_ && allow p ALLOW_REQUIRED_PORT); [reflexivity|]. cbv beta iota zeta delta [bind allowed ask].
  cbn [andb]. rewrite R, E. reflexivity.
Qed.
Lemma default_address_eq y g p P m six D W : allow p ALLOW_REQUIRED_ADDRESS = false ->
  no_address P -> (P = [] \/ ports_allowed p) -> ~ In 0 m -> (six = true <-> means_six p m) ->
  default_for p six D -> spelled p six D P W ->
  parse_address y g P m p = parse_address y g (W ++ P) m p.
Proof.
  intros R HP PA N0 HS HD (H1 & _ & HW). destruct (default_port_address y g p six D (skipn 1 P) R HD) as [E NE].
  rewrite (no_address_choice y g p P m six HP PA N0 HS).
  assert (host_entry p D P (W ++ P) /\ entry_way (W ++ P) = negb six) as [HE EW].
  { destruct six; destruct HW as [N HW].
    - subst W. change ([91] ++ D ++ [93]) with ([91] ++ (D ++ [93])). rewrite <- !app_assoc. split; [|reflexivity]. constructor; auto.
      destruct HP as [->|(S & -> & _)]; [now left|right]. destruct PA as [PA|PA]; [discriminate|eauto].
    - destruct HW as (N93 & N91 & ->).
      assert (P = [] \/ (exists S, P = 58 :: S /\ ~ In 58 S)) as HP2 by (destruct HP as [->|(S & -> & X & _)]; [now left|right; eauto]).
      split.
      + constructor; auto. destruct HP as [->|(S & -> & X & _)]; [now left|right]. destruct PA as [PA|PA]; [discriminate|eauto].
      + pose proof (plain_count D P N HP2) as CC. unfold entry_way. destruct D as [|c D']; [congruence|]. cbn [hd] in N91. cbn [app] in *.
        replace (c =? 91) with false by lia. replace (count_char 58 (c :: D' ++ P) >=? 2) with false by lia. reflexivity. }
  rewrite (entry_address y g p D P (W ++ P) m HE), EW, Bool.negb_involutive.
  apply tagged_eq. rewrite one_range_port by (left; intros []). rewrite one_range_port by exact H1. exact E.
Qed.
Lemma parse_one y g s p : nobody (separator p) -> nobody (starts_comment p) -> plain_text s ->
  parse y g s p = (do! l <- parse_cidr y g s in do! sort <- ask f_sort in lift (arrange sort l)) p.
Proof.
  intros N C [->|T]; [|now apply parse_single]. apply nobody_separators in N. apply nobody_comments in C.
  unfold parse, bind at 1. rewrite entries_single by assumption. rewrite single_entry_nil. reflexivity.
Qed.
Lemma cidr_split y g p a1 a2 m M : mask_part p m M -> ~ In 47 a1 -> ~ In 47 a2 -> plain_text (a1 ++ M) -> plain_text (a2 ++ M) ->
  parse_address y g a1 m p = parse_address y g a2 m p ->
  parse_cidr y g (a1 ++ M) p = parse_cidr y g (a2 ++ M) p.
Proof.
  intros HM N1 N2 T1 T2 E.
  assert (forall s, plain_text s -> trim_string s = s) as TS by (intros s [->|T]; [reflexivity|now apply trimmed_trim]).
  assert (forall a, ~ In 47 a -> plain_text (a ++ M) -> parse_cidr y g (a ++ M) p =
    if allow p ALLOW_MASK then
      (do! errcnt <- ask f_error_count in
       do! am <- parse_address y g a m in
       let '(addr_mask, ipv4) := am in
       do! l <- apply_masks g m ipv4 addr_mask in
       do! errcnt' <- ask f_error_count in
       if errcnt =? errcnt' then ret l else ret []) p
    else (do! am <- parse_address y g a m in ret (fst am)) p) as X.
  { intros a N T. unfold parse_cidr. cbv zeta. rewrite (TS _ T). unfold bind at 1, allowed, ask.
    destruct HM as [[-> ->]|(-> & _ & AM)].
    - rewrite app_nil_r. rewrite find_char_none by exact N. destruct (allow p ALLOW_MASK); reflexivity.
    - apply allow_of in AM. rewrite AM. rewrite find_char_first by exact N. rewrite firstn_length_app, skipn_length_app. reflexivity. }
  rewrite (X a1), (X a2) by assumption. clear X. unfold bind, ask. now rewrite E.
Qed.

(* ---------- ports which are not allowed ---------- *)
Lemma find_char_before c a b : In c a -> exists n, find_char c (a ++ b) = Some n /\ (n < length a)%nat.
Proof.
  induction a as [|x a IH]; intros [].
  - subst x. cbn [app find_char]. rewrite Z.eqb_refl. exists 0%nat. split; [reflexivity|cbn [length]; lia].
  - cbn [app find_char]. destruct (x =? c); [exists 0%nat; split; [reflexivity|cbn [length]; lia]|].
    destruct (IH H) as (n & -> & L). exists (S n). split; [reflexivity|cbn [length]; lia].
Qed.
Lemma address_dotted y g p a port mask : allow p ALLOW_PORT = false -> allow p ALLOW_REQUIRED_PORT = false ->
  a <> [] -> hd 0 a <> 91 -> In 46 a -> ~ In 58 (a ++ port) -> ~ In 93 (a ++ port) ->
  addr_fails y g p (a ++ 58 :: port) mask.
Proof.
  intros Hp Hr NE H91 H46 H58 H93. assert (~ In 58 a /\ ~ In 58 port) as [HA HP] by (rewrite in_app_iff in H58; tauto).
  unfold addr_fails, parse_address. cbv zeta.
  assert (count_char 58 (a ++ 58 :: port) = 1) as -> by (rewrite count_char_app, count_char_cons, !count_char_none by assumption; lia).
  cbn [Z.geb Z.compare Pos.compare Pos.compare_cont].
  assert (find_char 93 (a ++ 58 :: port) = None) as F93.
  { apply find_char_none. rewrite in_app_iff in *. intros [I|[I|I]]; [tauto|discriminate|tauto]. }
  destruct (find_char_before 46 a (58 :: port) H46) as (n & F46 & L).
  assert (find_char 58 (a ++ 58 :: port) = Some (length a)) as F58 by now apply find_char_first.
  assert (wp p (do! l <- parse_address4 y g (a ++ 58 :: port) in ret (l, true))
    (fun r ms => exists b, r = Ok ([], b) /\ ms <> [])) as F.
  { eapply wp_conseq; [apply pair_fails|intros r ms H; exists true; exact H].
    unfold parse_address4. wallow. wallow. rewrite F58, Hp, Hr. apply fails_fail. }
  destruct a as [|c b] eqn:EA; [congruence|]. cbn [app hd] in *.
  replace (c =? 58) with false by (symmetry; apply Z.eqb_neq; intros ->; apply HA; now left).
  replace (c =? 91) with false by lia. cbn [orb]. rewrite F93.
  wallow. wallow. rewrite Hp, Hr. cbn [negb andb]. rewrite F58, F46.
  replace (length (c :: b) <? n)%nat with false by lia. exact F.
Qed.
