(* The language of a parser. *)
From Coq Require Import ZifyBool ZifyNat.
From Verif Require Import Base Addr Spec Range SpecRange Inet SpecText Parser SpecParser SpecParser2 SpecParser4 SpecLanguage.
From Verif Require Import AddrProofs AddrProofs2 AddrProofs3 RangeProofs InetProofs InetProofs2 TextProofs
  ParserProofs ParserProofs2 ParserProofs3 ParserProofs7 ParserProofs8 ParserProofs9 ParserProofs10 ParserProofs11 ParserProofs12.
From Verif Require PropText.
Local Open Scope Z_scope.

Lemma denotes_dec A : (exists v, denotes A v) \/ forall v, ~ denotes A v.
Proof.
  destruct (inet_pton4 A) as [q|] eqn:E4.
  - left. exists (v4_base + num q). left. exists (num q). split; [|reflexivity].
    destruct (PropText.C20_only_dotted_accepted A q E4) as (_ & _ & D). exact D.
  - destruct (inet_pton6 A) as [q|] eqn:E6; [left; exists (num q); apply denotes_iff; right; eauto|right].
    intros v. rewrite denotes_iff. intros [(w & D & _)|(q & Q & _)]; [|congruence]. apply dotted_pton in D. destruct D as (q & Q & _). congruence.
Qed.
Lemma denotes_fun A v w : denotes A v -> denotes A w -> v = w.
Proof.
  rewrite !denotes_iff. intros [(a & D & ->)|(q & Q & ->)] [(b & E & ->)|(r & R & ->)].
  - apply dotted_pton in D, E. destruct D as (q & Q & <- & _), E as (r & R & <- & _). congruence.
  - apply dotted_pton in D. destruct D as (q & Q & _). apply pton4_chars in Q. apply pton6_colon in R.
    rewrite forallb_forall in Q. specialize (Q _ R). discriminate.
  - apply dotted_pton in E. destruct E as (r & R & _). apply pton4_chars in R. apply pton6_colon in Q.
    rewrite forallb_forall in R. specialize (R _ Q). discriminate.
  - congruence.
Qed.
Lemma denotes_no A v c : denotes A v -> ip_text_char c = false -> ~ In c A.
Proof. intros D. destruct (denotes_chars _ _ D) as [_ F]. now apply ip_char_not. Qed.
Lemma default_for_eq p six D : default_for p six D <-> D = default_address p six.
Proof.
  unfold default_for, default_address, get_default_address4, get_default_address6.
  destruct six; [destruct (f_default_address6 p)|destruct (f_default_address4 p)]; split; intros H; try (destruct H as [[-> H]|[H1 H2]]; congruence);
    subst; [right|left|right|left]; split; congruence || discriminate || reflexivity.
Qed.
Lemma first_char c (s : str) : ~ In c s \/ exists a b, s = a ++ c :: b /\ ~ In c a.
Proof.
  induction s as [|x s IH]; [left; intros []|]. destruct (Z.eq_dec x c) as [->|N].
  - right. exists [], s. split; [reflexivity|intros []].
  - destruct IH as [IH|(a & b & -> & IH)].
    + left. intros [H|H]; [congruence|now apply IH].
    + right. exists (x :: a), b. split; [reflexivity|]. intros [H|H]; [congruence|now apply IH].
Qed.
Lemma split_unique c (a b a2 b2 : str) : a ++ c :: b = a2 ++ c :: b2 -> ~ In c a -> ~ In c a2 -> a = a2 /\ b = b2.
Proof.
  revert a2. induction a as [|x a IH]; intros [|x2 a2] E N N2; cbn in *.
  - split; congruence.
  - injection E as E _. elim N2. now left.
  - injection E as E _. elim N. now left.
  - injection E as -> E. destruct (IH a2 E) as [-> ->]; [tauto|tauto|]. now split.
Qed.
(* A single account of a call: no message and G, or messages and nothing fits
   G; C: then the result is empty, too. *)
Definition decides (p0 : parser) (C : Prop) (m : M (list addr_range)) (G : list addr_range -> Prop) : Prop :=
  wp p0 m (fun r ms => exists l, r = Ok l /\ (ms = [] -> G l) /\ (ms <> [] -> (forall l2, ~ G l2) /\ (C -> l = []))).
Lemma wp_result {A} p (m : M A) Q (Q2 : res A -> Prop) : wp p m Q -> wp p m (fun r _ => Q2 r) -> wp p m (fun r ms => Q r ms /\ Q2 r).
Proof.
  intros (ms & r & E & H) (ms2 & r2 & E2 & H2). exists ms, r. split; [exact E|]. split; [exact H|].
  specialize (E [] 0). specialize (E2 [] 0). congruence.
Qed.
Lemma decides_iff p0 C m (G G2 : list addr_range -> Prop) : (forall l, G l <-> G2 l) -> decides p0 C m G -> decides p0 C m G2.
Proof.
  intros E W. eapply wp_conseq; [exact W|]. cbv beta. intros r ms (l & -> & H1 & H2). exists l. split; [reflexivity|]. split.
  - intros X. now apply E, H1.
  - intros X. destruct (H2 X) as [H3 H4]. split; [|exact H4]. intros l2 K. apply (H3 l2). now apply E.
Qed.
Lemma decides_wp p0 C m m2 G G2 : (forall l, G l <-> G2 l) -> (forall Q, wp p0 m2 Q -> wp p0 m Q) -> decides p0 C m2 G2 -> decides p0 C m G.
Proof. intros E W H. apply (decides_iff p0 C m G2 G); [intros l; symmetry; apply E|]. now apply W. Qed.
Lemma decides_no p0 C m (G : list addr_range -> Prop) : (forall l, ~ G l) -> fails p0 m -> decides p0 C m G.
Proof.
  intros N W. eapply wp_conseq; [exact W|]. cbv beta. intros r ms (-> & NM). exists []. split; [reflexivity|].
  split; [intros X; congruence|]. intros _. split; [exact N|reflexivity].
Qed.
(* The ranges of single addresses. *)
Definition good (r : addr_range) : Prop := exists a, r = set_from range_new a /\ addr_wf a.
Lemma bind_from (m : res addr) host proto dp r :
  (let! a := m in let a := set_hostname a host in
   let! a := if negb (proto =? -1) then on (set_protocol a proto) else Ok a in
   Ok (set_from range_new (set_port_defined a dp))) = Ok r -> exists a, r = set_from range_new a.
Proof.
  destruct m as [a|x| |]; cbn [rbind]; try discriminate. cbv zeta.
  match goal with |- rbind ?k _ = _ -> _ => destruct k; cbn [rbind]; try discriminate end. intros X. injection X as <-. eauto.
Qed.
Lemma use_plain p host given : forall l first, wp p (use_addrinfo l first host given) (fun r _ =>
  forall rs, r = Ok rs -> Forall (fun r => exists a, r = set_from range_new a) rs).
Proof.
  induction l as [|ai l IH]; intros first; cbn [use_addrinfo].
  { apply wp_ret. intros rs E. injection E as <-. constructor. }
  assert (forall msg fi, wp p (do! _ <- emit msg in use_addrinfo l fi host given) (fun r _ =>
    forall rs, r = Ok rs -> Forall (fun r => exists a, r = set_from range_new a) rs)) as BAD.
  { intros msg fi. wbind. apply wp_emit. eapply wp_conseq; [apply IH|]. auto. }
  assert (forall m, (forall r, m = Ok r -> exists a, r = set_from range_new a) ->
    wp p (do! r <- lift m in do! rs <- use_addrinfo l first host given in ret (r :: rs)) (fun r _ =>
    forall rs, r = Ok rs -> Forall (fun r => exists a, r = set_from range_new a) rs)) as GOOD.
  { intros m K. wbind. apply wp_lift. destruct m as [r|x| |]; try discriminate. specialize (K r eq_refl). wbind.
    eapply wp_conseq; [apply IH|]. cbv beta. intros [rs|x| |] ms H; try discriminate. apply wp_ret. intros rs2 E. injection E as <-.
    constructor; [exact K|]. now apply H. }
  destruct (ai_family ai =? AF_INET); [destruct (negb _); [apply BAD|apply GOOD; intros r; apply bind_from]|].
  destruct (ai_family ai =? AF_INET6); [destruct (negb _); [apply BAD|apply GOOD; intros r; apply bind_from]|].
  destruct first; [apply BAD|apply IH].
Qed.
Lemma drop_spec first : addr_wf first -> forall rest, Forall good rest ->
  exists rest2, drop_duplicates first rest = Ok rest2 /\ (rest2 = [] <-> Forall (fun r => value (get_from r) = value first) rest).
Proof.
  intros W. induction rest as [|r rest IH]; intros F; cbn [drop_duplicates].
  { exists []. split; [reflexivity|]. split; [constructor|reflexivity]. }
  inversion F as [|x l (a & EA & WA) F2]; subst. assert (exists b, set_protocol a (get_protocol first) = (b, Ok tt)) as (b & E).
  { pose proof (wf_protocol _ W) as P. unfold set_protocol, get_protocol. unfold protocol_ok in P.
    match goal with |- context [if ?c then _ else _] => replace c with true by lia end. destruct (negb _); eauto. }
  change (get_from (set_from range_new a)) with a. unfold on. rewrite E. cbn [fst snd rbind]. pose proof (set_protocol_wf _ _ _ _ WA E) as WB.
  assert (value b = value a) as VB.
  { unfold set_protocol in E. destruct (_ || _); [|discriminate]. destruct (negb _); injection E as <-; reflexivity. }
  rewrite ne_value by assumption. rewrite VB. destruct (Z.eqb_spec (value first) (value a)) as [V|V]; cbn [negb].
  - destruct (IH F2) as (rest2 & E2 & K). exists rest2. split; [exact E2|]. rewrite K. split; intros X; [constructor; [now rewrite V|exact X]|now inversion X].
  - eexists. split; [reflexivity|]. split; [discriminate|]. intros X. inversion X as [|x l X1 X2]; subst. elim V. symmetry. exact X1.
Qed.
Lemma allowed_is p f b : 0 <= f < 16 -> allow p f = b -> get_allow p f = Ok b.
Proof. intros R <-. unfold get_allow. match goal with |- (if ?c then _ else _) = _ => replace c with false by (unfold ALLOW_max; lia) end. reflexivity. Qed.

Lemma number_grows d : forall n, forallb is_digit d = true -> 0 <= n -> n <= fold_left (fun v c => v * 10 + (c - 48)) d n.
Proof.
  induction d as [|c d IH]; intros n D N; cbn [fold_left]; [lia|]. cbn [forallb] in D. apply andb_prop in D as [D1 D2]. unfold is_digit in D1.
  specialize (IH (n * 10 + (c - 48)) D2). lia.
Qed.
Lemma mask_number_cases s : forall n, 0 <= n <= 10000 ->
  (forallb is_digit s = true /\ mask_number s n = Some (fold_left (fun v c => v * 10 + (c - 48)) s n) /\ fold_left (fun v c => v * 10 + (c - 48)) s n <= 10000)
  \/ (mask_number s n = Some (-1) /\ forallb is_digit s = false
      /\ forall d t, s = d ++ t -> forallb is_digit d = true -> fold_left (fun v c => v * 10 + (c - 48)) d n <= 10000)
  \/ (mask_number s n = None /\ is_digit (hd 0 s) = true
      /\ exists d t, s = d ++ t /\ forallb is_digit d = true /\ 10000 < fold_left (fun v c => v * 10 + (c - 48)) d n).
Proof.
  induction s as [|c s IH]; intros n N.
  - left. cbn. split; [reflexivity|]. split; [reflexivity|lia].
  - cbn [mask_number hd forallb fold_left]. change ((48 <=? c) && (c <=? 57)) with (is_digit c). destruct (is_digit c) eqn:D.
    + unfold is_digit in D. replace (n * 10 + c - 48) with (n * 10 + (c - 48)) by lia. cbn [andb].
      destruct (n * 10 + (c - 48) >? 10000) eqn:G.
      * right. right. split; [reflexivity|]. split; [reflexivity|]. exists [c], s. split; [reflexivity|]. cbn. split; [now rewrite andb_true_r|lia].
      * destruct (IH (n * 10 + (c - 48)) ltac:(lia)) as [(A1 & A2 & A3)|[(A1 & A2 & A3)|(A1 & A2 & d & t & -> & A3 & A4)]].
        -- left. auto.
        -- right. left. split; [exact A1|]. split; [exact A2|]. intros [|x d] t E F; [cbn; lia|]. injection E as <- E. cbn [forallb] in F.
           apply andb_prop in F as [_ F]. cbn [fold_left]. now apply (A3 d t).
        -- right. right. split; [exact A1|]. split; [reflexivity|]. exists (c :: d), t. split; [reflexivity|]. cbn [forallb fold_left].
           split; [|exact A4]. rewrite A3, andb_true_r. exact D.
    + right. left. split; [reflexivity|]. split; [reflexivity|]. intros [|x d] t E F; [cbn; lia|]. injection E as <- E. cbn [forallb] in F.
      apply andb_prop in F as [F _]. congruence.
Qed.
Lemma number_mask T : T <> [] -> ~ In 0 T ->
  (exists n, decimal T n /\ mask_number (c_str T) 0 = Some n /\ 0 <= n)
  \/ (mask_number (c_str T) 0 = Some (-1) /\ no_number T)
  \/ (mask_number (c_str T) 0 = None /\ ~ no_number T /\ hd 0 T <> 91 /\ forall n, decimal T n -> 10000 < n).
Proof.
  intros NE N0. rewrite c_str_id by exact N0. destruct (mask_number_cases T 0 ltac:(lia)) as [(A1 & A2 & A3)|[(A1 & A2 & A3)|(A1 & A2 & d & t & E & A3 & A4)]].
  - left. eexists. split; [split; [exact NE|]; split; [exact A1|reflexivity]|]. split; [exact A2|]. now apply number_grows.
  - right. left. split; [exact A1|]. split.
    + intros n (_ & F & _). congruence.
    + intros d t n E (_ & F & <-). now apply (A3 d t).
  - right. right. assert (d <> []) as ND by (intros ->; cbn in A4; lia). split; [exact A1|]. split; [|split].
    + intros [_ X]. specialize (X d t _ E (conj ND (conj A3 eq_refl))). unfold decimal_value in X. lia.
    + unfold is_digit in A2. lia.
    + intros n (_ & F & <-). unfold decimal_value. rewrite E, fold_left_app. rewrite E, forallb_app in F. apply andb_prop in F as [_ F].
      pose proof (number_grows t _ F (Z.lt_le_incl _ _ (Z.lt_trans 0 10000 _ eq_refl A4))). lia.
Qed.
Lemma ones_bytes : bytes16 (repeat 255 16).
Proof. split; [reflexivity|]. repeat constructor; lia. Qed.
Lemma bits_bytes : forall idx n bits b, bytes16 bits -> mask_bits_loop idx n bits = Some b -> bytes16 b.
Proof.
  assert (forall l i v, bytes16 l -> is_byte v -> bytes16 (upd l i v)) as U.
  { intros l i v [L F] V. split; [|revert i; clear L; induction F; intros [|i]; cbn [upd]; constructor; auto].
    rewrite <- L. clear. revert i. induction l; intros [|i]; cbn [upd length]; congruence. }
  induction idx as [|idx IH]; intros n bits b Hb; cbn [mask_bits_loop]; (destruct (n >? 8); [|intros X; injection X as <-; apply U; [exact Hb|apply u8_byte]]).
  - discriminate.
  - apply IH. apply U; [exact Hb|]. split; lia.
Qed.
Lemma in_brackets T : hd 0 T = 91 -> back T = 93 -> T = [91] ++ inner T ++ [93].
Proof.
  intros H B. destruct T as [|c T]; [discriminate|]. cbn [hd] in H. subst c. destruct T as [|c T]; [discriminate|].
  destruct (@exists_last _ (c :: T)) as (u & z & E); [discriminate|]. rewrite E in *. clear E c T.
  unfold back in B. change (91 :: u ++ [z]) with ((91 :: u) ++ [z]) in B. rewrite last_last in B. subst z.
  change (91 :: u ++ [93]) with ([91] ++ u ++ [93]). now rewrite inner_brackets.
Qed.

Section Language.
Variables (y : sys) (g : resolver) (p0 : parser).
Hypothesis TE : takes_entries p0.
Hypothesis Hconv : converts_decimals y.
Hypothesis Hg : resolver_ok g.
Hypothesis Hk : allow p0 ALLOW_ADDRESS_LOOKUP = true -> known_protocols g.

Definition numbers_only : Prop := allow p0 ALLOW_ADDRESS_LOOKUP = false.

Lemma default_no_nul six : ~ In 0 (default_address p0 six).
Proof.
  destruct (te_nul p0 TE) as (N4 & N6 & _). unfold default_address, get_default_address4, get_default_address6 in *.
  destruct six; [destruct (f_default_address6 p0)|destruct (f_default_address4 p0)]; auto; cbn; lia.
Qed.
Lemma numeric_decides (Hlookup : allow p0 ALLOW_ADDRESS_LOOKUP = false) A port dp : ~ In 0 A -> 0 <= port <= 65535 ->
  (exists v, denotes A v /\ wp p0 (numeric_address A port dp) (one p0 v port dp A))
  \/ ((forall v, ~ denotes A v) /\ fails p0 (numeric_address A port dp)).
Proof.
  intros N P. destruct (denotes_dec A) as [[v D]|D].
  - left. exists v. split; [exact D|]. apply (numeric_value p0); try assumption. apply (te_protocol p0 TE), allowed_is; [unfold ALLOW_ADDRESS_LOOKUP; lia|exact Hlookup].
  - right. split; [exact D|]. now apply numeric_unknown.
Qed.
Definition port_answer (D : str) : option (Z * bool) :=
  match D with
  | [] => if allow p0 ALLOW_REQUIRED_PORT then None
          else if f_default_port p0 =? -1 then Some (0, false)
          else if allow p0 ALLOW_PORT then Some (f_default_port p0, false) else None
  | _ => match convert_string y D with
         | Some n => if (0 <=? n) && (n <=? 65535) && (allow p0 ALLOW_PORT || allow p0 ALLOW_REQUIRED_PORT) then Some (n, true) else None
         | None => None
         end
  end.
Lemma ports_allowed_iff : ports_allowed p0 <-> allow p0 ALLOW_PORT || allow p0 ALLOW_REQUIRED_PORT = true.
Proof. unfold ports_allowed, get_allow. cbn. rewrite orb_true_iff. split; intros [H|H]; [left|right|left|right]; congruence. Qed.
Lemma port_text_iff D n d : port_text y p0 D n d <-> port_answer D = Some (n, d).
Proof.
  pose proof (te_port p0 TE) as TP. unfold get_default_port in TP. split.
  - intros [D' k NE C R PA|R DP|R AP DP]; unfold port_answer, get_default_port in *.
    + destruct D' as [|c D']; [congruence|]. rewrite C. apply ports_allowed_iff in PA. rewrite PA.
      replace ((0 <=? k) && (k <=? 65535) && true) with true by lia. reflexivity.
    + rewrite (allow_of _ _ _ R). now replace (f_default_port p0 =? -1) with true by lia.
    + rewrite (allow_of _ _ _ R), (allow_of _ _ _ AP). now replace (f_default_port p0 =? -1) with false by lia.
  - unfold port_answer. destruct D as [|c D].
    + destruct (allow p0 ALLOW_REQUIRED_PORT) eqn:R; [discriminate|].
      assert (get_allow p0 ALLOW_REQUIRED_PORT = Ok false) as GR by (unfold get_allow; cbn; now f_equal).
      destruct (f_default_port p0 =? -1) eqn:E.
      * intros H. injection H as <- <-. apply port_missing; [exact GR|]. unfold get_default_port. lia.
      * destruct (allow p0 ALLOW_PORT) eqn:AP; [|discriminate]. intros H. injection H as <- <-.
        apply port_from_default; [exact GR|unfold get_allow; cbn; now f_equal|]. unfold get_default_port. lia.
    + destruct (convert_string y (c :: D)) as [k|] eqn:C; [|discriminate].
      destruct (_ && _) eqn:B; [|discriminate]. intros H. injection H as <- <-.
      apply andb_true_iff in B. destruct B as [B PA].
      apply port_written; [discriminate|exact C|lia|now apply ports_allowed_iff].
Qed.
Lemma address_port_decides (Hlookup : allow p0 ALLOW_ADDRESS_LOOKUP = false) X D six : ~ In 0 X ->
  (exists H v n d, address_text p0 six X H v /\ port_text y p0 D n d
     /\ wp p0 (parse_address_port y g X D six) (one p0 v n d H))
  \/ ((forall H v n d, address_text p0 six X H v -> port_text y p0 D n d -> False)
      /\ fails p0 (parse_address_port y g X D six)).
Proof.
  intros N. pose proof (te_port p0 TE) as TP. unfold get_default_port in TP.
  set (host := match X with [] => default_address p0 six | _ => X end).
  assert (~ In 0 host) as NH by (unfold host; destruct X; [apply default_no_nul|exact N]).
  assert (forall H v, address_text p0 six X H v -> denotes host v /\ H = host
    /\ (X = [] -> allow p0 ALLOW_REQUIRED_ADDRESS = false)) as AT.
  { clear NH. subst host. clear N. intros H v [A w DA|T w R DF DD].
    - destruct (denotes_chars _ _ DA) as [NE _]. destruct A as [|c A]; [congruence|]. split; [exact DA|]. split; [reflexivity|]. discriminate.
    - apply default_for_eq in DF. subst T. split; [exact DD|]. split; [reflexivity|]. intros _. now apply allow_of. }
  assert (forall v, denotes host v -> (X = [] -> allow p0 ALLOW_REQUIRED_ADDRESS = false) -> address_text p0 six X host v) as TA.
  { intros v DV RA. unfold host in *. destruct X as [|c X]; [|now constructor].
    apply address_default; [unfold get_allow; cbn; now rewrite RA|now apply default_for_eq|exact DV]. }
  destruct (port_answer D) as [[n d]|] eqn:PA.
  - pose proof (proj2 (port_text_iff D n d) PA) as PT.
    destruct (match X with [] => allow p0 ALLOW_REQUIRED_ADDRESS | _ => false end) eqn:RA.
    { right. split.
      - intros H v n' d' HA _. destruct (AT H v HA) as (_ & _ & K). destruct X; [rewrite K in RA by reflexivity|]; discriminate.
      - destruct X as [|c X]; [|discriminate]. unfold parse_address_port. cbv zeta. wallow.
        match goal with |- wp _ (if ?b then _ else _) _ => destruct b end; [apply fails_fail|].
        wask. wallow. rewrite RA. apply fails_fail. }
    assert (0 <= n <= 65535) as RN.
    { destruct PT as [D' k NE C R P|R DP|R AP DP]; unfold get_default_port in *; lia. }
    assert (forall Q, wp p0 (numeric_address host n d) Q -> wp p0 (parse_address_port y g X D six) Q) as W.
    { intros Q W. unfold parse_address_port. cbv zeta. wallow.
      assert (forall Q2 : Prop, (negb (match D with [] => false | _ => true end) && allow p0 ALLOW_REQUIRED_PORT = false -> Q2) -> Q2) as K.
      { intros Q2 K. apply K. unfold port_answer in PA. destruct D; [|reflexivity]. destruct (allow p0 ALLOW_REQUIRED_PORT); [discriminate|reflexivity]. }
      apply K. clear K. intros ->. wask. wallow.
      replace ((match X with [] => true | _ => false end) && allow p0 ALLOW_REQUIRED_ADDRESS) with false
        by (destruct X; [cbn [andb]; congruence|reflexivity]).
      wask. replace (if match X with [] => true | _ => false end then default_address p0 six else X) with host by (now destruct X).
      wallow. rewrite Hlookup. wallow. unfold port_answer in PA. destruct D as [|c D'].
      - destruct (allow p0 ALLOW_REQUIRED_PORT); [discriminate|]. cbn [negb andb orb].
        destruct (f_default_port p0 =? -1) eqn:DP; [injection PA as <- <-; exact W|].
        destruct (allow p0 ALLOW_PORT); [|discriminate]. injection PA as <- <-. cbn [negb].
        assert (to_string_int (f_default_port p0) = dec_string (f_default_port p0)) as ->
          by (unfold to_string_int; now replace (f_default_port p0 <? 0) with false by lia).
        destruct (PropText.plain_dec_string (f_default_port p0) ltac:(lia)) as [Dec _].
        assert (dec_string (f_default_port p0) <> []) as NE' by (destruct Dec; assumption).
        replace (match dec_string (f_default_port p0) with [] => false | _ => true end) with true by (destruct (dec_string (f_default_port p0)); congruence).
        rewrite (Hconv _ _ Dec) by lia. replace ((f_default_port p0 <? 0) || (f_default_port p0 >? 65535)) with false by lia.
        exact W.
      - cbn [negb andb]. rewrite orb_true_r. destruct (convert_string y (c :: D')) as [k|]; [|discriminate].
        destruct ((0 <=? k) && (k <=? 65535) && _) eqn:B; [|discriminate]. injection PA as <- <-.
        replace ((k <? 0) || (k >? 65535)) with false by lia.
        replace (negb (allow p0 ALLOW_PORT) && negb (allow p0 ALLOW_REQUIRED_PORT)) with false; [exact W|].
        destruct (allow p0 ALLOW_PORT), (allow p0 ALLOW_REQUIRED_PORT); try reflexivity. rewrite andb_false_r in B. discriminate. }
    destruct (numeric_decides Hlookup host n d NH RN) as [(v & DV & WV)|[ND WF]].
    + left. exists host, v, n, d. split; [|split; [exact PT|now apply W]]. apply TA; [exact DV|]. intros ->. exact RA.
    + right. split; [|now apply W]. intros H v n' d' HA _. destruct (AT H v HA) as (DV & _). now apply (ND v).
  - right. split.
    + intros H v n d _ PT. apply port_text_iff in PT. congruence.
    + unfold parse_address_port. cbv zeta. wallow. unfold port_answer in PA. destruct D as [|c D'].
      * destruct (allow p0 ALLOW_REQUIRED_PORT); [apply fails_fail|]. cbn [negb andb orb]. wask. wallow.
        destruct ((match X with [] => true | _ => false end) && _); [apply fails_fail|]. wask. wallow. rewrite Hlookup. wallow.
        destruct (f_default_port p0 =? -1) eqn:DP; [discriminate|]. destruct (allow p0 ALLOW_PORT); [discriminate|]. cbn [negb].
        match goal with |- wp _ (if match ?t with _ => _ end then _ else _) _ => assert (match t with [] => false | _ => true end = true) as -> end.
        { unfold to_string_int. replace (f_default_port p0 <? 0) with false by lia.
          destruct (PropText.plain_dec_string (f_default_port p0) ltac:(lia)) as [[NE _] _].
          destruct (dec_string (f_default_port p0)); congruence. }
        destruct (convert_string y _) as [k|]; [|apply fails_fail]. destruct (_ || _); apply fails_fail.
      * cbn [negb andb]. wask. wallow. destruct ((match X with [] => true | _ => false end) && _); [apply fails_fail|].
        wask. wallow. rewrite Hlookup. wallow. rewrite orb_true_r.
        destruct (convert_string y (c :: D')) as [k|]; [|apply fails_fail].
        destruct ((k <? 0) || (k >? 65535)) eqn:B; [apply fails_fail|].
        replace ((0 <=? k) && (k <=? 65535)) with true in PA by lia.
        destruct (allow p0 ALLOW_PORT), (allow p0 ALLOW_REQUIRED_PORT); try discriminate. apply fails_fail.
Qed.
Lemma port_ok_of D n d : port_text y p0 D n d -> 0 <= n <= 65535.
Proof. pose proof (te_port p0 TE) as TP. intros [D' k NE C R P|R DP|R AP DP]; unfold get_default_port in *; lia. Qed.
Lemma address_text_not_nil six X H v : X <> [] -> address_text p0 six X H v <-> denotes X v /\ H = X.
Proof.
  intros NE. split.
  - intros HA. revert NE. destruct HA as [A w D|T w _ _ _]; [now split|congruence].
  - intros [D ->]. now constructor.
Qed.
Lemma address_text_fun six X H H2 v v2 : address_text p0 six X H v -> address_text p0 six X H2 v2 -> v = v2.
Proof.
  intros A B. destruct A as [X v DV|T v _ DF DV].
  - apply address_text_not_nil in B; [|now destruct (denotes_chars _ _ DV)]. destruct B as [B _]. now apply (denotes_fun X).
  - remember [] as X eqn:EX. destruct B as [X v2 DW|T2 v2 _ DF2 DW].
    + subst X. destruct (denotes_chars _ _ DW). congruence.
    + apply default_for_eq in DF, DF2. subst. now apply (denotes_fun (default_address p0 six)).
Qed.
Lemma port_text_fun D n d n2 d2 : port_text y p0 D n d -> port_text y p0 D n2 d2 -> n = n2 /\ d = d2.
Proof. rewrite !port_text_iff. intros A B. rewrite A in B. injection B. auto. Qed.
Definition alike (r r2 : addr_range) : Prop :=
  is_ipv4 (get_from r) = is_ipv4 (get_from r2) /\ get_port (get_from r) = get_port (get_from r2)
  /\ get_protocol (get_from r) = get_protocol (get_from r2).
Lemma range_one a : range_of (set_from range_new a) (Some a) None.
Proof. split; [reflexivity|]. split; [reflexivity|]. split; [reflexivity|]. discriminate. Qed.
Lemma range_to a : range_of (swap_from_to (set_from range_new a)) None (Some a).
Proof. split; [reflexivity|]. split; [reflexivity|]. split; [reflexivity|]. intros b E. injection E as <-. reflexivity. Qed.
Lemma range_both a b : range_of (set_to (set_from range_new a) b) (Some a) (Some b).
Proof. split; [reflexivity|]. split; [reflexivity|]. split; [reflexivity|]. intros c E. injection E as <-. reflexivity. Qed.
(* ---------- what is found ---------- *)
Lemma service_fun P S d S2 d2 : service_of p0 P S d -> service_of p0 P S2 d2 -> S = S2 /\ d = d2.
Proof.
  assert (forall X, 58 :: X = [] \/ 58 :: X = [58] -> X = []) as K by (intros X [H|H]; congruence).
  intros A B. destruct A as [S NE N0|S P HP R DP PD|P HP R DP].
  - inversion B as [S3 NE3 N3 E1 E2 E3|S3 P3 HP3 R3 DP3 PD3 E1 E2 E3|P3 HP3 R3 DP3 E1 E2 E3]; subst; [auto|elim NE; auto..].
  - destruct B as [S3 NE3 N3|S3 P HP3 R3 DP3 PD3|P HP3 R3 DP3]; [elim NE3; auto| |contradiction].
    split; [|reflexivity]. eapply plain_unique; eassumption.
  - destruct B as [S3 NE3 N3|S3 P HP3 R3 DP3 PD3|P HP3 R3 DP3]; [elim NE3; auto|contradiction|now split].
Qed.
Lemma asked_fun H P d d2 a a2 : asked g p0 H P d a -> asked g p0 H P d2 a2 -> d = d2 /\ a = a2.
Proof.
  intros (S & st & pr & SO & HH & E) (S2 & st2 & pr2 & SO2 & HH2 & E2). destruct (service_fun _ _ _ _ _ SO SO2) as [<- <-].
  apply hints_are in HH, HH2. destruct HH as [-> ->], HH2 as [-> ->]. split; [reflexivity|congruence].
Qed.
Lemma host_is six A H : host_text p0 six A H -> H = match A with [] => default_address p0 six | _ => A end.
Proof. intros [[NE ->]|(-> & _ & D)]; [destruct A; congruence|now apply default_for_eq]. Qed.
Definition finds (m : M (list addr_range)) (G : list addr_range -> Prop) : Prop :=
  wp p0 m (fun r ms => exists l, r = Ok l /\ Forall good l /\ (ms = [] -> G l)
    /\ (ms <> [] -> (forall l2, ~ G l2) /\ (numbers_only -> l = []))).
Lemma finds_no m (G : list addr_range -> Prop) : (forall l, ~ G l) -> fails p0 m -> finds m G.
Proof.
  intros N W. eapply wp_conseq; [exact W|]. cbv beta. intros r ms (-> & NM). exists []. split; [reflexivity|]. split; [constructor|].
  split; [intros X; congruence|]. intros _. split; [exact N|reflexivity].
Qed.
Lemma names_decide X D six : allow p0 ALLOW_ADDRESS_LOOKUP = true -> ~ In 0 X -> ~ In 0 D ->
  finds (parse_address_port y g X D six) (found y g p0 six X D).
Proof.
  intros LK NX ND. pose proof (te_port p0 TE) as TP. unfold get_default_port in TP.
  assert (get_allow p0 ALLOW_ADDRESS_LOOKUP = Ok true) as GL by (apply allowed_is; [unfold ALLOW_ADDRESS_LOOKUP; lia|exact LK]).
  set (host := match X with [] => default_address p0 six | _ => X end).
  assert (~ In 0 host) as NH by (unfold host; destruct X; [apply default_no_nul|exact NX]).
  unfold finds, parse_address_port. cbv zeta. wallow.
  destruct (negb (match D with [] => false | _ => true end) && allow p0 ALLOW_REQUIRED_PORT) eqn:RP.
  { apply finds_no; [|apply fails_fail]. destruct D; [|discriminate]. cbn [negb andb] in RP. intros l G.
    destruct G as [H v n d r a L _ _ _ _|H d ais rs _ _ (S & st & pr & SO & _) _ _]; [congruence|].
    inversion SO as [S3 NE3 N3 E1 E2 E3|S3 P3 HP3 R3 DP3 PD3 E1 E2 E3|P3 HP3 R3 DP3 E1 E2 E3]; subst; [congruence|apply allow_of in R3; congruence..]. }
  wask. wallow.
  destruct ((match X with [] => true | _ => false end) && allow p0 ALLOW_REQUIRED_ADDRESS) eqn:RA.
  { apply finds_no; [|apply fails_fail]. destruct X; [|discriminate]. cbn [andb] in RA. intros l G.
    destruct G as [H v n d r a L _ _ _ _|H d ais rs _ [[NE _]|(_ & R & _)] _ _ _]; [congruence|congruence|]. apply allow_of in R. congruence. }
  wask. replace (if match X with [] => true | _ => false end then default_address p0 six else X) with host by (now destruct X).
  wallow. rewrite LK. wask.
  set (port := if negb (match D with [] => false | _ => true end) && negb (f_default_port p0 =? -1) then to_string_int (f_default_port p0) else D).
  set (svc := match port with [] => lit "0" | _ => port end). set (given := match D with [] => false | _ => true end).
  assert (service_of p0 (58 :: D) svc given /\ ~ In 0 svc) as [SO NS].
  { unfold svc, port, given. destruct D as [|c D]; cbn [negb andb].
    - assert (get_allow p0 ALLOW_REQUIRED_PORT = Ok false) as R by (apply allowed_is; [unfold ALLOW_REQUIRED_PORT; lia|exact RP]).
      destruct (Z.eqb_spec (f_default_port p0) (-1)) as [DP|DP]; cbn [negb].
      + split; [apply service_zero; auto|cbn; lia].
      + destruct (PropText.plain_dec_string (f_default_port p0) ltac:(lia)) as [Dec Rest]. rewrite to_string_dec by lia.
        assert (dec_string (f_default_port p0) <> []) as NE by (destruct Dec; assumption).
        replace (match dec_string (f_default_port p0) with [] => lit "0" | _ => dec_string (f_default_port p0) end) with (dec_string (f_default_port p0)) by (destruct (dec_string (f_default_port p0)); congruence).
        split.
        * apply service_default; auto. split; [exact Dec|exact Rest].
        * destruct Dec as (_ & F & _). intros I. rewrite forallb_forall in F. specialize (F _ I). discriminate.
    - split; [apply service_given; [discriminate|exact ND]|exact ND]. }
  assert (asked g p0 host (58 :: D) given (g host svc false (hint_socktype (p_protocol p0)) (hint_protocol (p_protocol p0)))) as AK.
  { exists svc, (hint_socktype (p_protocol p0)), (hint_protocol (p_protocol p0)). split; [exact SO|]. split; [|reflexivity].
    unfold parser_get_protocol, hint_socktype, hint_protocol. destruct (Z.eqb_spec (p_protocol p0) IPPROTO_TCP) as [->|N1]; [constructor|].
    destruct (Z.eqb_spec (p_protocol p0) IPPROTO_UDP) as [->|N2]; [constructor|]. now constructor. }
  assert (host_text p0 six X host) as HT.
  { unfold host. destruct X as [|c X]; [right|left; split; [discriminate|reflexivity]]. split; [reflexivity|]. cbn [andb] in RA.
    split; [apply allowed_is; [unfold ALLOW_REQUIRED_ADDRESS; lia|exact RA]|now apply default_for_eq]. }
  rewrite (c_str_id host NH), (c_str_id svc NS).
  assert (forall l, found y g p0 six X D l -> exists ais, asked g p0 host (58 :: D) given (GAI_list ais) /\ Forall (fun ai => usable ai = true) ais) as INV.
  { intros l G. destruct G as [H v n d r a L _ _ _ _|H d ais rs _ HT2 AK2 US _]; [congruence|]. apply host_is in HT2. fold host in HT2. subst H.
    destruct (asked_fun _ _ _ _ _ _ AK AK2) as [-> _]. eauto. }
  destruct (g host svc false (hint_socktype (p_protocol p0)) (hint_protocol (p_protocol p0))) as [text|ais] eqn:GQ.
  { apply finds_no; [|apply fails_fail]. intros l G. destruct (INV l G) as (ais & AK2 & _). destruct (asked_fun _ _ _ _ _ _ AK AK2). discriminate. }
  destruct (Hg _ _ _ _ _ _ GQ) as [NA OK]. pose proof (Hk LK _ _ _ _ _ _ GQ) as PR.
  eapply wp_conseq; [apply wp_result; [apply (use_all p0 host given ais true OK)|apply use_plain]|].
  - eapply Forall_impl; [|exact PR]. auto.
  - cbv beta. intros r ms [((rs & -> & F2) & H1 & H2) PL]. specialize (PL rs eq_refl). exists rs. split; [reflexivity|]. split; [|split].
    + apply Forall_forall. intros r I. rewrite Forall_forall in PL. destruct (PL r I) as (a & ->). exists a. split; [reflexivity|].
      assert (forall l, Forall2 (answer host given) l rs -> addr_wf (get_from (set_from range_new a))) as K.
      { clear - I. intros l F. revert l F. induction rs as [|z rs IH]; intros l F; [destruct I|]. inversion F as [|x y1 l0 l1 AN F2]; subst.
        destruct I as [->|I]; [exact (an_wf _ _ _ _ AN)|eauto]. }
      exact (K _ F2).
    + intros E. apply (H1 eq_refl) in E. apply (found_names y g p0 six X D host given ais); auto.
      assert (filter usable ais = ais) as <-; [|exact F2]. clear - E. induction E as [|x l U E IH]; [reflexivity|]. cbn [filter]. now rewrite U, IH.
    + intros NM. split; [|intros X1; unfold numbers_only in X1; congruence]. intros l G. destruct (INV l G) as (ais2 & AK2 & US).
      destruct (asked_fun _ _ _ _ _ _ AK AK2) as [_ E]. injection E as <-. apply NM. now apply H2.
Qed.
Lemma found_decides X D six : ~ In 0 X -> ~ In 0 D -> finds (parse_address_port y g X D six) (found y g p0 six X D).
Proof.
  intros NX ND. assert (allow p0 ALLOW_ADDRESS_LOOKUP = true \/ allow p0 ALLOW_ADDRESS_LOOKUP = false) as [LK|LK]
    by (clear Hk; destruct (allow p0 ALLOW_ADDRESS_LOOKUP); auto); [now apply names_decide|].
  assert (get_allow p0 ALLOW_ADDRESS_LOOKUP = Ok false) as GL by (apply allowed_is; [unfold ALLOW_ADDRESS_LOOKUP; lia|exact LK]).
  destruct (address_port_decides LK X D six NX) as [(H & v & n & d & AT & PT & W)|[F W]].
  - eapply wp_conseq; [exact W|]. intros r ms (-> & a & -> & S). eexists. split; [reflexivity|]. split; [|split; [|congruence]].
    + constructor; [|constructor]. exists a. split; [reflexivity|apply (st_wf _ _ _ _ _ _ S)].
    + intros _. eapply found_number; [exact GL|exact AT|exact PT|exact S|]. apply range_one.
  - apply finds_no; [|exact W]. intros l G. destruct G as [H v n d r a L AT PT _ _|H d ais rs L _ _ _ _]; [eauto|congruence].
Qed.
Definition same_as (r r2 : addr_range) : Prop := alike r r2 /\ value (get_from r) = value (get_from r2).
Lemma same_of a b : addr_wf a -> addr_wf b -> value a = value b -> is_ipv4 a = is_ipv4 b.
Proof.
  intros W1 W2 V. pose proof (is_ipv4_value a W1) as E1. pose proof (is_ipv4_value b W2) as E2. rewrite V in E1.
  destruct (is_ipv4 a), (is_ipv4 b); try reflexivity; [symmetry; apply E2, E1|apply E1, E2]; reflexivity.
Qed.
Lemma answer_same H d ai r r2 : usable ai = true -> answer H d ai r -> answer H d ai r2 -> same_as r r2.
Proof.
  intros U [_ _ W1 A4 A6 AP _ _ _] [_ _ W2 B4 B6 BP _ _ _].
  assert (value (get_from r) = value (get_from r2) /\ get_port (get_from r) = get_port (get_from r2)) as [V P].
  { destruct (usable_cases ai U) as [[F _]|[F _]].
    - destruct (A4 F), (B4 F). split; congruence.
    - specialize (A6 F). specialize (B6 F). unfold get_ipv6 in *. unfold value, get_port, s6. rewrite A6, B6. now split. }
  split; [|exact V]. split; [now apply same_of|]. split; [exact P|congruence].
Qed.
Lemma found_same six X D l l2 : found y g p0 six X D l -> found y g p0 six X D l2 -> Forall2 same_as l l2.
Proof.
  intros A B. destruct A as [H v n d r a L AT PT S R|H d ais rs L HT AK US F2]; destruct B as [H2 v2 n2 d2 r2 a2 L2 AT2 PT2 S2 R2|H2 d2 ais2 rs2 L2 HT2 AK2 US2 F22]; try congruence.
  - constructor; [|constructor]. destruct (port_text_fun _ _ _ _ _ PT PT2) as [<- <-]. pose proof (address_text_fun _ _ _ _ _ _ AT AT2). subst v2.
    destruct R as (_ & _ & R & _), R2 as (_ & _ & R2 & _). unfold same_as, alike. rewrite R, R2.
    destruct S as [W1 V1 P1 _ R1 _ _], S2 as [W2 V2 P2 _ R3 _ _]. split; [|congruence]. split; [apply same_of; auto; congruence|]. split; congruence.
  - apply host_is in HT, HT2. subst H2 H. destruct (asked_fun _ _ _ _ _ _ AK AK2) as [<- E]. injection E as <-.
    clear - US F2 F22. revert rs2 F22. induction F2 as [|ai r ais rs A F IH]; intros rs2 F22; inversion F22; subst; constructor.
    + inversion US; subst. eapply answer_same; eassumption.
    + apply IH; [now inversion US|assumption].
Qed.
Lemma found_one_same six X D a b : found_one y g p0 six X D a -> found_one y g p0 six X D b ->
  is_ipv4 a = is_ipv4 b /\ get_port a = get_port b /\ get_protocol a = get_protocol b /\ value a = value b.
Proof.
  intros (_ & r & rest & F & <- & _) (_ & r2 & rest2 & F2 & <- & _). pose proof (found_same _ _ _ _ _ F F2) as S.
  inversion S as [|x z l0 l1 [(S1 & S2 & S3) S4] _]; subst. auto.
Qed.

(* ---------- ranges ---------- *)
Lemma range_end_decides X D msg six : ~ In 0 X -> ~ In 0 D -> X <> [] ->
  wp p0 (range_end y g X D msg six) (fun r ms => exists o, r = Ok o
    /\ (o = None \/ exists a, o = Some (Some (set_from range_new a)) /\ addr_wf a)
    /\ (ms = [] -> exists a, o = Some (Some (set_from range_new a)) /\ addr_wf a /\ found_one y g p0 six X D a)
    /\ (ms <> [] -> (forall a, ~ found_one y g p0 six X D a) /\ (numbers_only -> o = None))).
Proof.
  intros NX ND NE. unfold range_end. destruct X as [|c X']; [congruence|]. set (X := c :: X') in *. wbind. unfold parse_address_port_ignore_duplicates. wbind.
  eapply wp_conseq; [exact (found_decides X D six NX ND)|]. cbv beta. intros r ms (l & -> & GD & H1 & H2). cbv beta iota.
  destruct l as [|r rest].
  - apply wp_ret. cbv beta iota. apply wp_ret. rewrite !app_nil_r. exists None. split; [reflexivity|]. split; [now left|]. split.
    + intros E. specialize (H1 E). exfalso. inversion H1 as [|H d ais rs L HT (S & st & pr & _ & _ & GQ) US F2]; subst.
      apply Hg in GQ. destruct GQ as [GQ _]. inversion F2; subst. congruence.
    + intros E. destruct (H2 E) as [H3 _]. split; [|reflexivity]. intros a (_ & r & rest & F & _). apply (H3 _ F).
  - inversion GD as [|x0 l0 (a & -> & WA) GR]; subst. wbind. apply wp_lift. change (get_from (set_from range_new a)) with a.
    destruct (drop_spec a WA rest GR) as (rest2 & -> & DS). cbv beta iota. apply wp_ret. cbv beta iota.
    destruct rest2 as [|r2 rest2].
    + apply wp_ret. rewrite !app_nil_r. eexists. split; [reflexivity|]. split; [right; eauto|]. split.
      * intros E. exists a. split; [reflexivity|]. split; [exact WA|]. split; [exact NE|]. exists (set_from range_new a), rest. split; [now apply H1|]. split; [reflexivity|].
        now apply DS.
      * intros E. destruct (H2 E) as [H3 H4]. split; [|intros NO; discriminate (H4 NO)]. intros b (_ & r & rest3 & F & _). apply (H3 _ F).
    + wbind. apply wp_emit. cbv beta iota. apply wp_ret. exists None. split; [reflexivity|]. split; [now left|]. split.
      * intros E. exfalso. destruct (app_eq_nil _ _ E) as [_ E0]. discriminate.
      * intros _. split; [|reflexivity]. intros b OB. destruct ms as [|m0 ms].
        -- specialize (H1 eq_refl). destruct OB as (_ & r & rest3 & F & <- & FV). pose proof (found_same _ _ _ _ _ H1 F) as S.
           inversion S as [|x z l0 l1 [_ S1] S2]; subst. change (get_from (set_from range_new a)) with a in S1.
           assert (Forall (fun r => value (get_from r) = value a) rest) as K.
           { clear - S1 S2 FV. induction S2 as [|x z l0 l1 [_ V] S2 IH]; [constructor|]. inversion FV; subst. constructor; [congruence|auto]. }
           apply DS in K. discriminate.
        -- destruct (H2 ltac:(discriminate)) as [H3 _]. destruct OB as (_ & r & rest3 & F & _). apply (H3 _ F).
Qed.
Definition made (l : list addr_range) (from to : option addr) : Prop := exists r, l = [r] /\ range_of r from to.
Definition dashed (six : bool) (A B D : str) (l : list addr_range) : Prop :=
  (exists a b, found_one y g p0 six A D a /\ found_one y g p0 six B D b
      /\ ((value a <= value b \/ Z.land (get_sort_order p0) SORT_NO_EMPTY = 0) /\ made l (Some a) (Some b)
          \/ value b < value a /\ Z.land (get_sort_order p0) SORT_NO_EMPTY <> 0 /\ l = []))
  \/ (B = [] /\ exists a, found_one y g p0 six A D a /\ made l (Some a) None)
  \/ (A = [] /\ exists a, found_one y g p0 six B D a /\ made l None (Some a)).
Lemma addresses_dash six A B D l : get_allow p0 ALLOW_ADDRESS_RANGE = Ok true -> ~ In 45 A ->
  addresses y g p0 six (A ++ 45 :: B) D l <-> dashed six A B D l.
Proof.
  intros AR NA. split.
  - intros HA. remember (A ++ 45 :: B) as X eqn:EX. destruct HA as [X D l ND F|A1 B1 D a b r _ N1 FA FB C R|A1 B1 D a b _ N1 FA FB C1 C2|A1 D a r _ N1 FA R|B1 D a r _ FB R].
    + exfalso. subst X. destruct ND as [ND|ND]; [|congruence]. apply ND, in_or_app. right. now left.
    + apply split_unique in EX; [|exact N1|exact NA]. destruct EX as [-> ->]. left. exists a, b. split; [exact FA|]. split; [exact FB|]. left.
      split; [exact C|]. now exists r.
    + apply split_unique in EX; [|exact N1|exact NA]. destruct EX as [-> ->]. left. exists a, b. split; [exact FA|]. split; [exact FB|]. right. now split.
    + apply split_unique in EX; [|exact N1|exact NA]. destruct EX as [-> <-]. right. left. split; [reflexivity|]. exists a. split; [exact FA|]. now exists r.
    + apply (split_unique 45 []) in EX; [|intros []|exact NA]. destruct EX as [<- ->]. right. right. split; [reflexivity|]. exists a. split; [exact FB|]. now exists r.
  - intros [(a & b & FA & FB & [(C & r & -> & R)|(C1 & C2 & ->)])|[(-> & a & FA & r & -> & R)|(-> & a & FB & r & -> & R)]].
    + eapply both_ends; eassumption.
    + eapply inverted; eassumption.
    + eapply first_only; eassumption.
    + eapply last_only; eassumption.
Qed.
Lemma addresses_one six X D l : ~ In 45 X \/ get_allow p0 ALLOW_ADDRESS_RANGE = Ok false ->
  addresses y g p0 six X D l <-> found y g p0 six X D l.
Proof.
  intros NX. split; [|now apply no_range].
  intros HA. revert NX. destruct HA as [X D l ND F|A1 B1 D a b r AR N1 FA FB C R|A1 B1 D a b AR N1 FA FB C1 C2|A1 D a r AR N1 FA R|B1 D a r AR FB R].
  { intros _. exact F. }
  all: intros NX; exfalso; destruct NX as [NX|NX]; [|congruence]; apply NX, in_or_app; (right; now left) || (left; now left).
Qed.
Lemma range_port_one_decides X D six : ~ In 0 X -> ~ In 0 D -> ~ In 45 X \/ get_allow p0 ALLOW_ADDRESS_RANGE = Ok false ->
  decides p0 numbers_only (parse_address_range_port y g X D six) (addresses y g p0 six X D).
Proof.
  intros N ND NX.
  eapply decides_iff; [intros l; symmetry; apply (addresses_one six X D l NX)|].
  unfold decides, parse_address_range_port. wallow.
  assert ((if allow p0 ALLOW_ADDRESS_RANGE then find_char 45 X else None) = None) as ->.
  { destruct NX as [NX|NX]; [rewrite find_char_none by exact NX; now destruct (allow p0 ALLOW_ADDRESS_RANGE)|now rewrite (allow_of _ _ _ NX)]. }
  eapply wp_conseq; [exact (found_decides X D six N ND)|]. cbv beta. intros r ms (l & -> & _ & H). exists l. split; [reflexivity|exact H].
Qed.
Lemma dashed_decides A B D six : ~ In 0 (A ++ 45 :: B) -> ~ In 0 D -> get_allow p0 ALLOW_ADDRESS_RANGE = Ok true -> ~ In 45 A ->
  decides p0 numbers_only (parse_address_range_port y g (A ++ 45 :: B) D six) (dashed six A B D).
Proof.
  intros N ND AR NA.
  assert (~ In 0 A /\ ~ In 0 B) as [N0A N0B] by (split; intros I; apply N, in_or_app; [now left|right; now right]).
  assert (forall a X, found_one y g p0 six X D a -> X <> []) as FN by (intros a X (NE & _); exact NE).
  assert (forall l, dashed six A B D l -> (A <> [] -> exists a, found_one y g p0 six A D a) /\ (B <> [] -> exists b, found_one y g p0 six B D b) /\ (A <> [] \/ B <> [])) as INV.
  { intros l [(a & b & FA & FB & _)|[(-> & a & FA & _)|(-> & a & FB & _)]].
    - split; [eauto|]. split; [eauto|]. left. eauto.
    - split; [eauto|]. split; [congruence|]. left. eauto.
    - split; [congruence|]. split; [eauto|]. right. eauto. }
  destruct (split_dash A B NA) as (E1 & E2 & E3). unfold decides, parse_address_range_port. wallow. rewrite (allow_of _ _ _ AR), E1, E2, E3. cbv zeta.
  assert (A = [] \/ A <> []) as [->|NEA] by (destruct A; [now left|right; discriminate]).
  { assert (B = [] \/ B <> []) as [->|NEB] by (destruct B; [now left|right; discriminate]).
    { apply (decides_no p0 numbers_only); [intros l G; destruct (INV l G) as (_ & _ & [H|H]); congruence|apply fails_fail]. }
    assert (forall (T : Type) (a b : T), match B with [] => a | _ => b end = b) as EB by (intros; destruct B; [congruence|reflexivity]).
    rewrite EB. wbind. cbn [range_end]. apply wp_ret. cbv beta iota. wbind.
    eapply wp_conseq; [exact (range_end_decides B D _ six N0B ND NEB)|]. cbv beta. intros r ms (o & -> & O & H1 & H2). cbv beta iota.
    destruct O as [-> |(a & -> & WA)].
    - apply wp_ret. rewrite app_nil_r. cbn [app]. eexists. split; [reflexivity|]. split.
      + intros E. destruct (H1 E) as (a & X & _). discriminate.
      + intros E. destruct (H2 E) as [H3 _]. split; [|reflexivity]. intros l G. destruct (INV l G) as (_ & IB & _). destruct (IB NEB) as [b FB]. apply (H3 b FB).
    - cbn [option_map]. apply wp_ret. rewrite app_nil_r. cbn [app]. eexists. split; [reflexivity|]. split.
      + intros E. destruct (H1 E) as (b & X & _ & FB). injection X as ->. right. right. split; [reflexivity|]. exists b. split; [exact FB|].
        eexists. split; [reflexivity|]. apply range_to.
      + intros E. destruct (H2 E) as [H3 H4]. split; [|intros NO; discriminate (H4 NO)]. intros l G. destruct (INV l G) as (_ & IB & _). destruct (IB NEB) as [b FB]. apply (H3 b FB). }
  assert (match A with [] => match B with [] => true | _ => false end | _ => false end = false) as EA by (destruct A; [congruence|reflexivity]).
  rewrite EA. wbind. eapply wp_conseq; [exact (range_end_decides A D _ six N0A ND NEA)|]. cbv beta. intros r ms (o & -> & O & H1 & H2). cbv beta iota.
  destruct O as [-> |(a & -> & WA)].
  { apply wp_ret. rewrite app_nil_r. eexists. split; [reflexivity|]. split.
    - intros E. destruct (H1 E) as (a & X & _). discriminate.
    - intros E. destruct (H2 E) as [H3 _]. split; [|reflexivity]. intros l G. destruct (INV l G) as (IA & _). destruct (IA NEA) as [b FB]. apply (H3 b FB). }
  assert (ms <> [] -> (forall l, ~ dashed six A B D l) /\ ~ numbers_only) as BADA.
  { intros E. destruct (H2 E) as [H3 H4]. split; [|intros NO; discriminate (H4 NO)]. intros l G. destruct (INV l G) as (IA & _). destruct (IA NEA) as [b FB]. apply (H3 b FB). }
  assert (ms = [] -> found_one y g p0 six A D a) as GOODA.
  { intros E. destruct (H1 E) as (b & X & _ & FA). injection X as ->. exact FA. }
  clear H1 H2. wbind.
  assert (B = [] \/ B <> []) as [->|NEB] by (destruct B; [now left|right; discriminate]).
  { cbn [range_end]. apply wp_ret. cbv beta iota. cbn [option_map]. apply wp_ret. rewrite !app_nil_r. eexists. split; [reflexivity|]. split.
    - intros E. right. left. split; [reflexivity|]. exists a. split; [now apply GOODA|]. eexists. split; [reflexivity|]. apply range_one.
    - intros E. destruct (BADA E) as [K1 K2]. split; [exact K1|contradiction]. }
  eapply wp_conseq; [exact (range_end_decides B D _ six N0B ND NEB)|]. cbv beta. intros r ms2 (o & -> & O & H1 & H2). cbv beta iota.
  destruct O as [-> |(b & -> & WB)].
  { apply wp_ret. cbn [app]. rewrite app_nil_r. eexists. split; [reflexivity|]. split.
    - intros E. destruct (app_eq_nil _ _ E) as [_ E0]. destruct (H1 E0) as (b & X & _). discriminate.
    - intros E. split; [|reflexivity]. intros l G. destruct ms as [|m0 ms]; [|destruct (BADA ltac:(discriminate)) as [K1 _]; apply (K1 l G)].
      destruct (H2 E) as [H3 _]. destruct (INV l G) as (_ & IB & _). destruct (IB NEB) as [b FB]. apply (H3 b FB). }
  assert (ms ++ ms2 <> [] -> (forall l, ~ dashed six A B D l) /\ ~ numbers_only) as BAD.
  { intros E. destruct ms as [|m0 ms]; [|apply BADA; discriminate]. destruct (H2 E) as [H3 H4]. split; [|intros NO; discriminate (H4 NO)].
    intros l G. destruct (INV l G) as (_ & IB & _). destruct (IB NEB) as [b2 FB]. apply (H3 b2 FB). }
  assert (ms ++ ms2 = [] -> found_one y g p0 six A D a /\ found_one y g p0 six B D b) as GOOD.
  { intros E. apply app_eq_nil in E as [EE1 EE2]. split; [now apply GOODA|]. destruct (H1 EE2) as (b2 & X & _ & FB). injection X as ->. exact FB. }
  cbn [option_map]. change (get_to (swap_from_to (set_from range_new b))) with b.
  wask. assert (is_empty (set_to (set_from range_new a) b) = (value a >? value b)) as ->.
  { rewrite is_empty_spec; [reflexivity| |left; reflexivity]. split; assumption. }
  assert (forall l, ((value a <= value b \/ Z.land (f_sort p0) SORT_NO_EMPTY = 0) /\ l = [set_to (set_from range_new a) b]
     \/ value b < value a /\ Z.land (f_sort p0) SORT_NO_EMPTY <> 0 /\ l = []) -> wp p0 (ret l) (fun r2 ms3 => exists l2, r2 = Ok l2
       /\ (ms ++ ms2 ++ [] ++ ms3 = [] -> dashed six A B D l2) /\ (ms ++ ms2 ++ [] ++ ms3 <> [] -> (forall l3, ~ dashed six A B D l3) /\ (numbers_only -> l2 = [])))) as K.
  { intros l H. apply wp_ret. cbn [app]. rewrite app_nil_r. exists l. split; [reflexivity|]. split.
    - intros E. destruct (GOOD E) as [FA FB]. left. exists a, b. split; [exact FA|]. split; [exact FB|]. destruct H as [[H ->]|H].
      + left. split; [exact H|]. eexists. split; [reflexivity|]. apply range_both.
      + right. exact H.
    - intros E. destruct (BAD E) as [K1 K2]. split; [exact K1|contradiction]. }
  destruct (Z.land (f_sort p0) SORT_NO_EMPTY =? 0) eqn:C1, (value a >? value b) eqn:C2; cbn [negb andb orb]; apply K; clear - C1 C2.
  - left. split; [right; lia|reflexivity].
  - left. split; [right; lia|reflexivity].
  - right. split; [lia|]. split; [lia|reflexivity].
  - left. split; [left; lia|reflexivity].
Qed.
Lemma range_port_decides X D six : ~ In 0 X -> ~ In 0 D ->
  decides p0 numbers_only (parse_address_range_port y g X D six) (addresses y g p0 six X D).
Proof.
  intros N ND. destruct (allow p0 ALLOW_ADDRESS_RANGE) eqn:AR.
  - apply allowed_is in AR; [|unfold ALLOW_ADDRESS_RANGE; lia]. destruct (first_char 45 X) as [N45|(A & B & -> & NA)].
    + apply range_port_one_decides; [exact N|exact ND|now left].
    + eapply decides_iff; [intros l; symmetry; apply (addresses_dash six A B D l AR NA)|]. now apply dashed_decides.
  - apply allowed_is in AR; [|unfold ALLOW_ADDRESS_RANGE; lia]. apply range_port_one_decides; [exact N|exact ND|now right].
Qed.

(* ---------- the layouts ---------- *)
Lemma layout_brackets_inv six A R A2 D : ~ In 93 A ->
  layout p0 six (91 :: A ++ 93 :: R) A2 D <-> A2 = A /\ (R = [] /\ D = [] \/ R = 58 :: D /\ ports_allowed p0).
Proof.
  intros N. split.
  - intros L. remember (91 :: A ++ 93 :: R) as b eqn:E. destruct L as [X T H|X T H|X D N1 N2 H P|X NX|X D NX P].
    + subst X. elim H. reflexivity.
    + subst X. elim H. reflexivity.
    + destruct X as [|x X]; [discriminate|]. cbn [hd] in H. injection E as E _. congruence.
    + injection E as E. apply split_unique in E; [|exact NX|exact N]. destruct E as [-> <-]. split; [reflexivity|]. now left.
    + injection E as E. change (X ++ [93; 58] ++ D) with (X ++ 93 :: 58 :: D) in E. apply split_unique in E; [|exact NX|exact N]. destruct E as [-> <-].
      split; [reflexivity|]. right. now split.
  - intros [-> [[-> ->]|[-> P]]].
    + now apply layout_brackets.
    + now apply (layout_brackets_port p0 six A D).
Qed.
Lemma layout_open six t A D : ~ In 93 t -> ~ layout p0 six (91 :: t) A D.
Proof.
  intros N L. remember (91 :: t) as b eqn:E. destruct L as [X T H|X T H|X D N1 N2 H P|X NX|X D NX P].
  - subst X. elim H. reflexivity.
  - subst X. elim H. reflexivity.
  - destruct X as [|x X]; [discriminate|]. cbn [hd] in H. injection E as E _. congruence.
  - injection E as E. apply N. rewrite <- E. apply in_or_app. right. now left.
  - injection E as E. apply N. rewrite <- E. apply in_or_app. right. now left.
Qed.
Lemma layout_plain_inv six b A D : hd 0 b <> 91 -> layout p0 six b A D ->
  (two_colons b \/ ~ In 58 b) /\ A = b /\ D = []
  \/ b = A ++ 58 :: D /\ ~ In 58 A /\ ~ In 58 D /\ (ports_allowed p0 \/ six = true).
Proof.
  intros H L. destruct L as [X T H1|X T H1|X D N1 N2 H1 P|X NX|X D NX P].
  - left. auto.
  - left. auto.
  - right. auto.
  - elim H. reflexivity.
  - elim H. reflexivity.
Qed.
Lemma one_colon A D : ~ In 58 A -> ~ two_colons (A ++ 58 :: D) -> ~ In 58 D.
Proof. intros NA T I. apply T. apply in_split in I. destruct I as (a & b & ->). now exists A, a, b. Qed.
Lemma no_ports : ~ ports_allowed p0 -> allow p0 ALLOW_PORT = false /\ allow p0 ALLOW_REQUIRED_PORT = false.
Proof.
  intros N. destruct (allow p0 ALLOW_PORT) eqn:E1; [elim N; left; unfold get_allow; cbn; now rewrite E1|].
  destruct (allow p0 ALLOW_REQUIRED_PORT) eqn:E2; [elim N; right; unfold get_allow; cbn; now rewrite E2|]. now split.
Qed.
Lemma ports_dec : ports_allowed p0 \/ ~ ports_allowed p0.
Proof. rewrite ports_allowed_iff. destruct (allow p0 ALLOW_PORT || allow p0 ALLOW_REQUIRED_PORT); [now left|right; discriminate]. Qed.
Definition laid (six : bool) (b : str) (l : list addr_range) : Prop := exists A D, layout p0 six b A D /\ addresses y g p0 six A D l.
Lemma laid4_decides b : ~ In 0 b -> ~ two_colons b -> hd 0 b <> 91 -> decides p0 numbers_only (parse_address4 y g b) (laid false b).
Proof.
  intros N T H. destruct (first_char 58 b) as [N58|(A & D & -> & NA)].
  - eapply decides_wp; [..|apply (range_port_decides b [] false N (fun x => x))].
    + intros l. split.
      * intros (A & D & L & HA). apply layout_plain_inv in L; [|exact H]. destruct L as [(_ & -> & ->)|(-> & _)]; [exact HA|].
        elim N58. apply in_or_app. right. now left.
      * intros HA. exists b, []. split; [now apply layout_plain|exact HA].
    + intros Q W. unfold parse_address4. wallow. wallow. now rewrite find_char_none.
  - pose proof (one_colon A D NA T) as ND.
    assert (forall l, laid false (A ++ 58 :: D) l <-> ports_allowed p0 /\ addresses y g p0 false A D l) as E.
    { intros l. split.
      - intros (A2 & D2 & L & HA). apply layout_plain_inv in L; [|exact H].
        destruct L as [([L|L] & _)|(E & NA2 & _ & [P|P])]; [contradiction| | |discriminate].
        + elim L. apply in_or_app. right. now left.
        + apply split_unique in E; [|exact NA|exact NA2]. destruct E as [<- <-]. now split.
      - intros [P HA]. exists A, D. split; [|exact HA]. apply (layout_port p0 false A D); auto. destruct A; [discriminate|exact H]. }
    destruct ports_dec as [P|P].
    + eapply decides_wp; [..|apply (range_port_decides A D false)].
      * intros l. rewrite E. tauto.
      * intros Q W. unfold parse_address4. wallow. wallow. rewrite find_char_first by exact NA. apply ports_allowed_iff in P. rewrite P.
        now rewrite firstn_length_app, skipn_length_app.
      * intros I. apply N, in_or_app. now left.
      * intros I. apply N, in_or_app. right. now right.
    + apply decides_no; [intros l L; apply E in L; tauto|]. unfold parse_address4. wallow. wallow. rewrite find_char_first by exact NA.
      destruct (no_ports P) as [-> ->]. apply fails_fail.
Qed.
Lemma count_one A D : ~ In 58 A -> ~ In 58 D -> count_char 58 (A ++ 58 :: D) = 1.
Proof. intros NA ND. rewrite count_char_app, count_char_cons, !count_char_none by assumption. reflexivity. Qed.
Lemma address6_port A D Q : ~ In 58 A -> ~ In 58 D -> hd 0 (A ++ 58 :: D) <> 91 -> wp p0 (parse_address_range_port y g A D true) Q ->
  wp p0 (parse_address6 y g (A ++ 58 :: D) (count_char 58 (A ++ 58 :: D))) Q.
Proof.
  intros NA ND H W. rewrite count_one by assumption. unfold parse_address6. wallow. wallow.
  replace (match A ++ 58 :: D with c :: _ => c =? 91 | [] => false end) with false
    by (destruct A; [reflexivity|cbn [app hd] in H |- *; lia]).
  change (1 =? 1) with true. cbv iota. rewrite find_char_first by exact NA. now rewrite firstn_length_app, skipn_length_app.
Qed.
Lemma laid6_decides b : ~ In 0 b -> decides p0 numbers_only (parse_address6 y g b (count_char 58 b)) (laid true b).
Proof.
  intros N. destruct (Z.eq_dec (hd 0 b) 91) as [H|H].
  - destruct b as [|c t]; [discriminate|]. cbn [hd] in H. subst c. destruct (first_char 93 t) as [N93|(A & R & -> & NA)].
    + apply decides_no; [intros l (A & D & L & _); now apply layout_open in L|]. unfold parse_address6. wallow. wallow. change (91 =? 91) with true. cbv iota.
      rewrite find_char_none by (intros [X|X]; [discriminate|contradiction]). apply fails_fail.
    + assert (~ In 0 A) as N0A by (intros I; apply N; right; apply in_or_app; now left).
      assert (forall X Q, (wp p0 match R with
          | [] => parse_address_range_port y g A [] true
          | c :: port_str =>
            if negb (c =? 58) then fail (lit "The IPv6 address """ ++ (91 :: A ++ 93 :: R) ++ lit """ is followed by unknown data.")
            else if negb (allow p0 ALLOW_PORT) && negb (allow p0 ALLOW_REQUIRED_PORT) then fail (lit "Port not allowed (" ++ (91 :: A ++ 93 :: R) ++ lit ").")
            else parse_address_range_port y g A port_str true end Q) -> wp p0 (parse_address6 y g (91 :: A ++ 93 :: R) X) Q) as K.
      { intros X Q K. unfold parse_address6. wallow. wallow. change (91 =? 91) with true. cbv iota.
        assert (find_char 93 (91 :: A ++ 93 :: R) = Some (length (91 :: A))) as ->.
        { apply (find_char_first 93 (91 :: A)). intros [Y|Y]; [discriminate|]. contradiction. }
        replace (skipn (length (91 :: A) + 1) (91 :: A ++ 93 :: R)) with R by (symmetry; apply (skipn_length_app (91 :: A))).
        replace (firstn (length (91 :: A) - 1) (skipn 1 (91 :: A ++ 93 :: R))) with A
          by (cbn [length skipn]; rewrite Nat.sub_succ, Nat.sub_0_r; symmetry; apply firstn_length_app).
        exact K. }
      assert (forall l, laid true (91 :: A ++ 93 :: R) l <-> exists D, (R = [] /\ D = [] \/ R = 58 :: D /\ ports_allowed p0) /\ addresses y g p0 true A D l) as E.
      { intros l. split.
        - intros (A2 & D & L & HA). apply layout_brackets_inv in L; [|exact NA]. destruct L as [-> L]. now exists D.
        - intros (D & L & HA). exists A, D. split; [|exact HA]. apply layout_brackets_inv; [exact NA|]. now split. }
      destruct R as [|c R].
      * eapply decides_wp; [..|apply (range_port_decides A [] true N0A (fun x => x))].
        -- intros l. rewrite E. split; [intros (D & [[_ ->]|[X _]] & HA); [exact HA|discriminate]|]. intros HA. exists []. auto.
        -- intros Q W. now apply K.
      * assert (~ In 0 R) as N0R by (intros I; apply N; right; apply in_or_app; right; right; now right).
        destruct (Z.eq_dec c 58) as [->|NC].
        -- destruct ports_dec as [P|P].
           ++ eapply decides_wp; [..|apply (range_port_decides A R true N0A N0R)].
              ** intros l. rewrite E. split; [intros (D & [[X _]|[X _]] & HA); [discriminate|injection X as ->; exact HA]|]. intros HA. exists R. auto.
              ** intros Q W. apply K. change (negb (58 =? 58)) with false. cbv iota. destruct (ports_allow p0 P) as [_ ->]. exact W.
           ++ apply decides_no; [intros l L; apply E in L; destruct L as (D & [[X _]|[_ X]] & _); [discriminate|contradiction]|].
              apply K. change (negb (58 =? 58)) with false. cbv iota. destruct (no_ports P) as [-> ->]. apply fails_fail.
        -- apply decides_no; [intros l L; apply E in L; destruct L as (D & [[X _]|[X _]] & _); congruence|].
           apply K. replace (negb (c =? 58)) with true by lia. apply fails_fail.
  - assert (match b with c :: _ => c =? 91 | [] => false end = false) as H91 by (destruct b; [reflexivity|cbn [hd] in H; lia]).
    destruct (in_dec Z.eq_dec 58 b) as [I|N58].
    + destruct (Z_le_gt_dec 2 (count_char 58 b)) as [T|T].
      * pose proof (proj2 (two_colons_count b) T) as TC. eapply decides_wp; [..|apply (range_port_decides b [] true N (fun x => x))].
        -- intros l. split.
           ++ intros (A & D & L & HA). apply layout_plain_inv in L; [|exact H]. destruct L as [(_ & -> & ->)|(-> & NA & ND & _)]; [exact HA|].
              rewrite count_one in T by assumption. lia.
           ++ intros HA. exists b, []. split; [now apply layout_bare|exact HA].
        -- intros Q W2. unfold parse_address6. wallow. wallow. rewrite H91. now replace (count_char 58 b =? 1) with false by lia.
      * assert (~ two_colons b) as TC by (rewrite two_colons_count; lia). destruct (first_char 58 b) as [X|(A & D & -> & NA)]; [contradiction|].
        pose proof (one_colon A D NA TC) as ND.
        eapply decides_wp; [..|apply (range_port_decides A D true)].
        -- intros l. split.
           ++ intros (A2 & D2 & L & HA). apply layout_plain_inv in L; [|exact H].
              destruct L as [([L|L] & _)|(E & NA2 & _ & L)]; [contradiction|contradiction|].
              apply split_unique in E; [|exact NA|exact NA2]. destruct E as [<- <-]. exact HA.
           ++ intros HA. exists A, D. split; [|exact HA]. apply (layout_port p0 true A D); auto. destruct A; [discriminate|exact H].
        -- intros Q. now apply address6_port.
        -- intros I2. apply N, in_or_app. now left.
        -- intros I2. apply N, in_or_app. right. now right.
    + eapply decides_wp; [..|apply (range_port_decides b [] true N (fun x => x))].
      * intros l. split.
        -- intros (A & D & L & HA). apply layout_plain_inv in L; [|exact H]. destruct L as [(_ & -> & ->)|(-> & _)]; [exact HA|].
           elim N58. apply in_or_app. right. now left.
        -- intros HA. exists b, []. split; [now apply layout_plain|exact HA].
      * intros Q W2. unfold parse_address6. wallow. wallow. rewrite H91. now rewrite count_char_none by exact N58.
Qed.

(* ---------- the way of writing ---------- *)
Lemma way_fun m b six six2 : SpecLanguage.way p0 m b six -> SpecLanguage.way p0 m b six2 -> six = six2.
Proof.
  assert (forall P : Prop, forall x z : bool, (x = true <-> P) -> (z = true <-> P) -> x = z) as K.
  { intros P x z X Z. destruct x, z; try reflexivity; [symmetry; apply Z, X|apply X, Z]; reflexivity. }
  intros [b1 T|b1 s1 T S1 M1|b1 s1 T NE N58 M1] H; inversion H; subst; try contradiction; try reflexivity; try tauto; eapply K; eassumption.
Qed.
Definition meant_six (p : parser) (m : str) : bool :=
  match m with
  | c :: _ => if c =? 91 then true else mask_hint (c_str m) 0 >? 32
  | [] => match f_default_address4 p, f_default_address6 p with [], _ :: _ => true | _, _ => false end
  end.
Lemma meant_six_iff m : ~ In 0 m -> meant_six p0 m = true <-> means_six p0 m.
Proof.
  intros N0. destruct m as [|c m'].
  - cbn [meant_six]. unfold means_six, get_default_address4, get_default_address6. destruct (f_default_address4 p0), (f_default_address6 p0);
      split; intros H; try discriminate; try reflexivity; try (destruct H as [[H _]|(_ & H1 & H2)]; congruence).
    right. split; [reflexivity|]. split; [reflexivity|discriminate].
  - unfold meant_six. set (m := c :: m') in *. assert (m <> []) as NM by discriminate. unfold means_six, ipv6_mask. rewrite <- hint_number by assumption.
    assert (hd 0 m = c) as -> by reflexivity.
    destruct (c =? 91) eqn:E91; split; intros H.
    + left. split; [exact NM|left; lia].
    + reflexivity.
    + left. split; [exact NM|right; exact H].
    + destruct H as [[_ [H|H]]|[H _]]; [lia|exact H|contradiction].
Qed.
Definition addr_decides (b m : str) (six : bool) : Prop :=
  wp p0 (parse_address y g b m) (fun r ms => exists l, r = Ok (l, negb six) /\ (ms = [] -> laid six b l)
    /\ (ms <> [] -> (forall l2, ~ laid six b l2) /\ (numbers_only -> l = []))).
Lemma tagged_decides b m six k : 
  (forall Q, wp p0 (tagged k (negb six)) Q -> wp p0 (parse_address y g b m) Q) ->
  decides p0 numbers_only k (laid six b) -> addr_decides b m six.
Proof.
  intros W D. apply W. unfold tagged. wbind. eapply wp_conseq; [exact D|]. cbv beta. intros r ms (l & -> & L). cbv beta iota. apply wp_ret.
  rewrite app_nil_r. exists l. split; [reflexivity|exact L].
Qed.
Lemma colon_first_iff A D : ~ In 58 A -> colon_first (A ++ 58 :: D) <-> match find_char 46 (A ++ 58 :: D) with Some d => (length A <? d)%nat | None => true end = true.
Proof.
  intros NA. split.
  - intros (a & c & E & N1 & N2). apply split_unique in E; [|exact NA|exact N1]. destruct E as [<- <-].
    destruct (first_char 46 (58 :: D)) as [X|(u & v & E & NU)].
    + rewrite find_char_none; [reflexivity|]. intros I. apply in_app_or in I. tauto.
    + rewrite E, app_assoc. rewrite find_char_first by (intros I; apply in_app_or in I; tauto). apply Nat.ltb_lt.
      rewrite app_length. destruct u as [|x u]; [discriminate|]. cbn [length]. lia.
  - intros C. exists A, D. split; [reflexivity|]. split; [exact NA|]. intros I.
    destruct (find_char_before 46 A (58 :: D) I) as (n & E & L). rewrite E in C. apply Nat.ltb_lt in C. lia.
Qed.
Lemma way_address b m : ~ In 0 b -> ~ In 0 m -> exists six, SpecLanguage.way p0 m b six /\ addr_decides b m six.
Proof.
  intros N0 NM. destruct (Z_le_gt_dec 2 (count_char 58 b)) as [T|T].
  { pose proof (proj2 (two_colons_count b) T) as TC. exists true. split; [now apply way_colons|].
    eapply tagged_decides; [|apply (laid6_decides b N0)].
    intros Q W. unfold parse_address. cbv zeta. replace (count_char 58 b >=? 2) with true by lia. exact W. }
  assert (~ two_colons b) as TC by (rewrite two_colons_count; lia).
  assert (forall Q, wp p0 (if meant_six p0 m then tagged (parse_address6 y g b (count_char 58 b)) false else tagged (parse_address4 y g b) true) Q ->
    b = [] \/ hd 0 b = 58 -> wp p0 (parse_address y g b m) Q) as K.
  { intros Q W HB. unfold parse_address. cbv zeta. replace (count_char 58 b >=? 2) with false by lia.
    assert (wp p0 match m with
        | [] => do! a4 <- ask f_default_address4 in do! a6 <- ask f_default_address6 in
                match a4, a6 with [], _ :: _ => tagged (parse_address6 y g b (count_char 58 b)) false | _, _ => tagged (parse_address4 y g b) true end
        | c :: _ => if c =? 91 then tagged (parse_address6 y g b (count_char 58 b)) false
                    else if mask_hint (c_str m) 0 >? 32 then tagged (parse_address6 y g b (count_char 58 b)) false else tagged (parse_address4 y g b) true
        end Q) as W2.
    { destruct m as [|c m'].
      - wask. wask. cbn [meant_six] in W. destruct (f_default_address4 p0), (f_default_address6 p0); exact W.
      - unfold meant_six in W. destruct (c =? 91); [exact W|]. destruct (_ >? 32); exact W. }
    destruct b as [|c b']; [exact W2|]. destruct HB as [HB|HB]; [discriminate|]. cbn [hd] in HB. subst c. exact W2. }
  assert (b = [] \/ hd 0 b = 58 \/ b <> [] /\ hd 0 b <> 58) as [HB|[HB|[NE N58]]].
  { destruct b as [|c b]; [now left|right]. destruct (Z.eq_dec (hd 0 (c :: b)) 58); [now left|right]. split; [discriminate|assumption]. }
  1,2: exists (meant_six p0 m); split; [apply way_nothing; [exact TC|auto|now apply meant_six_iff]|];
    destruct (meant_six p0 m) eqn:MS;
    [ eapply tagged_decides; [|apply (laid6_decides b N0)]; intros Q W; apply K; auto
    | eapply tagged_decides; [|apply (laid4_decides b N0 TC); first [rewrite HB; discriminate | subst b; discriminate]]; intros Q W; apply K; auto ].
  destruct b as [|c b']; [congruence|]. set (b := c :: b') in *. cbn [hd b] in N58.
  assert ((c =? 91) || (match find_char 93 b with Some _ => true | None => false end) = true <-> hd 0 b = 91 \/ In 93 b) as E91.
  { cbn [hd b]. destruct (in_dec Z.eq_dec 93 b) as [I|I].
    - destruct (first_char 93 b) as [X|(u & v & E & NU)]; [contradiction|]. rewrite E at 1. rewrite find_char_first by exact NU. rewrite orb_true_r. split; [intros _; right; exact I|reflexivity].
    - rewrite find_char_none by exact I. rewrite orb_false_r. split; [left; lia|]. intros [H|H]; [lia|contradiction]. }
  destruct ((c =? 91) || match find_char 93 b with Some _ => true | None => false end) eqn:C91.
  - exists true. split; [apply way_brackets; auto; destruct (proj1 E91 eq_refl); tauto|].
    eapply tagged_decides; [|apply (laid6_decides b N0)].
    intros Q W. unfold parse_address. cbv zeta. replace (count_char 58 b >=? 2) with false by lia.
    unfold b at 1. replace (c =? 58) with false by lia. fold b. rewrite C91. exact W.
  - assert (hd 0 b <> 91 /\ ~ In 93 b) as [H91 H93] by (split; intros H; destruct E91 as [_ E91]; discriminate E91; auto).
    assert (forall Q, wp p0 (if negb (allow p0 ALLOW_PORT) && negb (allow p0 ALLOW_REQUIRED_PORT) then
       match find_char 58 b with
       | Some p => if match find_char 46 b with Some d => (p <? d)%nat | None => true end then tagged (parse_address6 y g b (count_char 58 b)) false else tagged (parse_address4 y g b) true
       | None => tagged (parse_address4 y g b) true end else tagged (parse_address4 y g b) true) Q -> wp p0 (parse_address y g b m) Q) as K2.
    { intros Q W. unfold parse_address. cbv zeta. replace (count_char 58 b >=? 2) with false by lia.
      unfold b at 1. replace (c =? 58) with false by lia. fold b. rewrite C91. wallow. wallow. exact W. }
    assert (~ (~ ports_allowed p0 /\ colon_first b) -> SpecLanguage.way p0 m b false) as WF.
    { intros NO. apply way_brackets; auto. split; [discriminate|]. intros [H|[H|H]]; contradiction. }
    destruct ports_dec as [P|P].
    + exists false. split; [apply WF; tauto|].
      eapply tagged_decides; [|apply (laid4_decides b N0 TC H91)]. intros Q W. apply K2. destruct (ports_allow p0 P) as [_ ->]. exact W.
    + destruct (no_ports P) as [P1 P2]. destruct (first_char 58 b) as [F58|(A & D & EB & NA)].
      { exists false. split; [apply WF; intros (_ & u & v & E & _); apply F58; rewrite E; apply in_or_app; right; now left|].
        eapply tagged_decides; [|apply (laid4_decides b N0 TC H91)]. intros Q W. apply K2. rewrite P1, P2. rewrite find_char_none by exact F58. exact W. }
      pose proof (colon_first_iff A D NA) as CF. rewrite <- EB in CF.
      destruct (match find_char 46 b with Some d => (length A <? d)%nat | None => true end) eqn:C46.
      * exists true. split; [apply way_brackets; auto; split; [intros _; right; right; split; [exact P|now apply CF]|reflexivity]|].
        eapply tagged_decides; [|apply (laid6_decides b N0)]. intros Q W. apply K2. rewrite P1, P2. cbn [negb andb].
        rewrite EB at 1. rewrite find_char_first by exact NA. rewrite C46. exact W.
      * exists false. split; [apply WF; intros [_ X]; apply CF in X; discriminate|].
        eapply tagged_decides; [|apply (laid4_decides b N0 TC H91)]. intros Q W. apply K2. rewrite P1, P2. cbn [negb andb].
        rewrite EB at 1. rewrite find_char_first by exact NA. rewrite C46. exact W.
Qed.

(* ---------- masks ---------- *)
Lemma mask_asked a text ai : mask_answer g a text ai <-> exists l, g text (dec_string (get_port a)) true (hint_socktype (get_protocol a)) (hint_protocol (get_protocol a)) = GAI_list (ai :: l).
Proof.
  assert (plain_decimal (dec_string (get_port a)) (get_port a)) as P by (apply PropText.plain_dec_string; unfold get_port; pose proof (bswap16_range (sin6_port (f_address a))); lia).
  split.
  - intros (s & st & pr & l & S & H & E). apply hints_are in H. destruct H as [-> ->]. rewrite (plain_unique s _ _ S P) in E. eauto.
  - intros (l & E). exists (dec_string (get_port a)), (hint_socktype (get_protocol a)), (hint_protocol (get_protocol a)), l. split; [exact P|]. split; [|exact E].
    unfold hint_socktype, hint_protocol. destruct (Z.eqb_spec (get_protocol a) IPPROTO_TCP) as [->|N1]; [constructor|].
    destruct (Z.eqb_spec (get_protocol a) IPPROTO_UDP) as [->|N2]; [constructor|]. now constructor.
Qed.
Lemma remade_self r : remade r (get_from r) = r.
Proof. destruct r. reflexivity. Qed.
Lemma remade_mask r b m : num b = m -> length b = 16%nat -> Forall is_byte b -> masked_with m r (remade r (set_mask (get_from r) b)).
Proof. intros E L F. split; [reflexivity|]. split; [reflexivity|]. split; [reflexivity|]. exists b. auto. Qed.
Definition refused (six : bool) (T : str) (r : addr_range) : Prop := forall r1 r2, alike r r1 -> ~ gets_mask g p0 six T r1 r2.
Lemma mask_decides six T r : ~ In 0 T ->
  wp p0 (parse_mask g T (get_from r) (negb six && is_ipv4 (get_from r))) (fun res ms => exists a, res = Ok a
    /\ (ms = [] -> gets_mask g p0 six T r (remade r a)) /\ (ms <> [] -> refused six T r)).
Proof.
  intros N0. set (cidr := get_from r). set (v4 := negb six && is_ipv4 cidr).
  assert (limit (negb six) r = if v4 then 32 else 128) as EL by reflexivity.
  assert (forall r1, alike r r1 -> limit (negb six) r1 = if v4 then 32 else 128) as EL1.
  { intros r1 (E & _). rewrite <- EL. unfold limit. now rewrite E. }
  assert (forall msg, refused six T r -> wp p0 (do! _ <- emit msg in ret cidr) (fun res ms => exists a, res = Ok a
    /\ (ms = [] -> gets_mask g p0 six T r (remade r a)) /\ (ms <> [] -> refused six T r))) as BAD.
  { intros msg R. wbind. apply wp_emit. apply wp_ret. eexists. split; [reflexivity|]. split; [discriminate|]. intros _. exact R. }
  assert (forall a, gets_mask g p0 six T r (remade r a) -> wp p0 (ret a) (fun res ms => exists a, res = Ok a
    /\ (ms = [] -> gets_mask g p0 six T r (remade r a)) /\ (ms <> [] -> refused six T r))) as GOOD.
  { intros a R. apply wp_ret. eexists. split; [reflexivity|]. split; [intros _; exact R|congruence]. }
  unfold parse_mask. destruct T as [|c0 T'] eqn:ET.
  { apply GOOD. unfold cidr. rewrite remade_self. constructor. }
  rewrite <- ET in *. assert (T <> []) as NT by (subst; discriminate). assert (hd 0 T = c0) as HT by (subst; reflexivity).
  assert (forall n, decimal T n -> hd 0 T <> 91) as D91.
  { intros n (_ & F & _). rewrite ET in F. cbn [forallb] in F. apply andb_prop in F as [F _]. unfold is_digit in F. rewrite HT. lia. }
  destruct (number_mask T NT N0) as [(n & D & -> & NN)|[(-> & NO)|(-> & NO & N91 & LA)]].
  3:{ apply BAD. intros r1 r2 A G. pose proof (EL1 r1 A) as E1. destruct G as [r1|r1 L AA|m n r1 r2 D LE MW|m ai r1 r2 L AA NE NN H91 MA F6 S6 MW|t ai r1 r2 L AA NE MA F6 S6 MW]; try congruence; try (now cbn in N91).
      specialize (LA n D). destruct v4; lia. }
  - replace (n =? -1) with false by lia. cbn [negb].
    assert (forall r1, alike r r1 -> forall r2, gets_mask g p0 six T r1 r2 -> n <= if v4 then 32 else 128) as REF.
    { intros r1 A r2 G. rewrite <- (EL1 r1 A). revert D D91. destruct G as [r1|r1 L AA|m n1 r1 r2 D1 LE MW|m ai r1 r2 L AA NE NN1 H91 MA F6 S6 MW|t ai r1 r2 L AA NE MA F6 S6 MW]; intros D D91.
      - congruence.
      - elim (D91 n D). reflexivity.
      - destruct D as (_ & _ & <-), D1 as (_ & _ & <-). exact LE.
      - destruct NN1 as [NN1 _]. elim (NN1 n D).
      - elim (D91 n D). reflexivity. }
    assert (n <= (if v4 then 32 else 128) -> exists bits, mask_bits_loop 15 ((if v4 then 32 else 128) - n) (repeat 255 16) = Some bits
      /\ gets_mask g p0 six T r (remade r (set_mask cidr bits))) as MK.
    { intros LE. destruct (mask_bits ((if v4 then 32 else 128) - n)) as (bits & E & NB); [destruct v4; lia|]. exists bits. split; [exact E|].
      destruct (bits_bytes _ _ _ _ ones_bytes E) as [L2 F2].
      apply (gets_number g p0 six T n r); [exact D|rewrite EL; exact LE|]. apply remade_mask; [|exact L2|exact F2].
      rewrite EL, NB. f_equal. lia. }
    destruct v4; cbn [andb negb].
    + destruct (n >? 32) eqn:G; [apply BAD; intros r1 r2 A X; specialize (REF r1 A r2 X); lia|].
      destruct (MK ltac:(lia)) as (bits & -> & X). now apply GOOD.
    + destruct (n >? 128) eqn:G; [apply BAD; intros r1 r2 A X; specialize (REF r1 A r2 X); lia|].
      destruct (MK ltac:(lia)) as (bits & -> & X). now apply GOOD.
  - cbn [Z.eqb negb Pos.eqb].
    (* what any mask of this text needs *)
    assert (forall r1 r2, alike r r1 -> gets_mask g p0 six T r1 r2 -> allow p0 ALLOW_ADDRESS_MASK = true
      /\ (v4 = true -> c0 <> 91 /\ exists ai, mask_answer g cidr T ai /\ ai_family ai = AF_INET /\ ai_addrlen ai = SIZEOF_IN)
      /\ (v4 = false -> c0 = 91 /\ back T = 93 /\ (inner T <> [] -> exists ai, mask_answer g cidr (inner T) ai /\ ai_family ai = AF_INET6 /\ ai_addrlen ai = SIZEOF_IN6))) as NEED.
    { intros r1 r2 A G. pose proof (EL1 r1 A) as E1. destruct A as (_ & AP & AR). fold cidr in AP, AR.
      assert (forall x t, mask_answer g (get_from r1) t x -> mask_answer g cidr t x) as MM.
      { intros x t. rewrite !mask_asked. now rewrite AP, AR. }
      revert NO D91 HT E1 MM NT. clear BAD GOOD ET N0. destruct G as [r1|r1 L AA|m n1 r1 r2 D1 LE MW|m ai r1 r2 L AA NE NN1 H91 MA F6 S6 MW|t ai r1 r2 L AA NE MA F6 S6 MW]; intros NO D91 HT E1 MM NT.
      - congruence.
      - split; [now apply allow_of|]. split; [intros X; rewrite X in *; lia|]. intros X. split; [now rewrite <- HT|]. split; [reflexivity|]. intros Y. elim Y. reflexivity.
      - destruct NO as [NO _]. elim (NO n1 D1).
      - split; [now apply allow_of|]. split; [|intros X; rewrite X in *; lia]. intros X. split; [congruence|]. exists ai. auto.
      - split; [now apply allow_of|]. split; [intros X; rewrite X in *; lia|]. intros X. split; [now rewrite <- HT|]. split; [apply back_brackets|].
        intros _. rewrite inner_brackets. exists ai. auto. }
    wallow. destruct (allow p0 ALLOW_ADDRESS_MASK) eqn:AA; cbn [negb].
    2:{ apply BAD. intros r1 r2 A G. destruct (NEED r1 r2 A G) as [X _]. discriminate. }
    assert (get_allow p0 ALLOW_ADDRESS_MASK = Ok true) as GA by (apply allowed_is; [unfold ALLOW_ADDRESS_MASK; lia|exact AA]).
    destruct v4 eqn:V4; cbn [andb negb].
    + destruct (c0 =? 91) eqn:C91; [apply BAD; intros r1 r2 A G; destruct (NEED r1 r2 A G) as (_ & X & _); destruct (X eq_refl); lia|].
      rewrite c_str_id by exact N0.
      match goal with |- wp _ (match ?q with _ => _ end) _ => destruct q as [text|[|ai l]] eqn:GQ end.
      * apply BAD. intros r1 r2 A G. destruct (NEED r1 r2 A G) as (_ & X & _). destruct (X eq_refl) as (_ & ai & MA & _). apply mask_asked in MA. destruct MA as [l MA]. congruence.
      * apply Hg in GQ. destruct GQ as [GQ _]. congruence.
      * assert (mask_answer g cidr T ai) as MA by (apply mask_asked; eauto).
        assert (forall x, mask_answer g cidr T x -> x = ai) as UA by (intros x X; apply mask_asked in X; destruct X as [l2 X]; congruence).
        apply Hg in GQ. destruct GQ as [_ GQ]. inversion GQ as [|x l0 [A4 _] _]; subst x l0.
        destruct (Z.eqb_spec (ai_family ai) AF_INET) as [F4|F4]; cbn [negb].
        2:{ apply BAD. intros r1 r2 A G. destruct (NEED r1 r2 A G) as (_ & X & _). destruct (X eq_refl) as (_ & x & MX & X1 & X2). rewrite (UA x MX) in *. congruence. }
        destruct (Z.eqb_spec (ai_addrlen ai) SIZEOF_IN) as [L4|L4]; cbn [negb].
        2:{ apply BAD. intros r1 r2 A G. destruct (NEED r1 r2 A G) as (_ & X & _). destruct (X eq_refl) as (_ & x & MX & X1 & X2). rewrite (UA x MX) in *. congruence. }
        apply GOOD. destruct (A4 F4) as [(_ & _ & R) _]. destruct (ones_num _ R) as [ON [OL OB]].
        apply (gets_four g p0 six T ai r); auto; [lia|]. now apply remade_mask.
    + destruct (c0 =? 91) eqn:C91; cbn [negb].
      2:{ apply BAD. intros r1 r2 A G. destruct (NEED r1 r2 A G) as (_ & _ & X). destruct (X eq_refl) as [Y _]. lia. }
      destruct (Z.eqb_spec (back T) 93) as [B93|B93]; cbn [negb].
      2:{ apply BAD. intros r1 r2 A G. destruct (NEED r1 r2 A G) as (_ & _ & X). destruct (X eq_refl) as (_ & Y & _). contradiction. }
      assert (T = [91] ++ inner T ++ [93]) as TT by (apply in_brackets; [lia|exact B93]).
      destruct (inner T) as [|t0 t] eqn:IT; cbn [andb].
      { apply GOOD. unfold cidr. rewrite remade_self. rewrite TT. now apply gets_brackets. }
      rewrite <- IT in *. assert (inner T <> []) as NI by (rewrite IT; discriminate).
      assert (~ In 0 (inner T)) as N0I. { intros I. apply N0. rewrite TT. apply in_or_app. right. apply in_or_app. left. exact I. }
      rewrite c_str_id by exact N0I.
      match goal with |- wp _ (match ?q with _ => _ end) _ => destruct q as [text|[|ai l]] eqn:GQ end.
      * apply BAD. intros r1 r2 A G. destruct (NEED r1 r2 A G) as (_ & _ & X). destruct (X eq_refl) as (_ & _ & Y). destruct (Y NI) as (ai & MA & _). apply mask_asked in MA. destruct MA as [l MA]. congruence.
      * apply Hg in GQ. destruct GQ as [GQ _]. congruence.
      * assert (mask_answer g cidr (inner T) ai) as MA by (apply mask_asked; eauto).
        assert (forall x, mask_answer g cidr (inner T) x -> x = ai) as UA by (intros x X; apply mask_asked in X; destruct X as [l2 X]; congruence).
        apply Hg in GQ. destruct GQ as [_ GQ]. inversion GQ as [|x l0 [_ A6] _]; subst x l0.
        destruct (Z.eqb_spec (ai_family ai) AF_INET6) as [F6|F6]; cbn [negb].
        2:{ apply BAD. intros r1 r2 A G. destruct (NEED r1 r2 A G) as (_ & _ & X). destruct (X eq_refl) as (_ & _ & Y). destruct (Y NI) as (x & MX & X1 & X2). rewrite (UA x MX) in *. congruence. }
        destruct (Z.eqb_spec (ai_addrlen ai) SIZEOF_IN6) as [L6|L6]; cbn [negb].
        2:{ apply BAD. intros r1 r2 A G. destruct (NEED r1 r2 A G) as (_ & _ & X). destruct (X eq_refl) as (_ & _ & Y). destruct (Y NI) as (x & MX & X1 & X2). rewrite (UA x MX) in *. congruence. }
        apply GOOD. destruct (A6 F6) as [(_ & _ & _ & (QL & QB) & _) _].
        rewrite TT. apply (gets_six g p0 six (inner T) ai r); auto. now apply remade_mask.
Qed.
Lemma used_effective six m T : mask_used p0 six m T -> effective_mask p0 m (negb six) = T.
Proof.
  intros [m1 NE| -> | -> I | -> I ]; cbn [effective_mask negb].
  - destruct m1; [congruence|reflexivity].
  - reflexivity.
  - unfold get_default_mask6 in *. destruct (first_char 58 (f_default_mask6 p0)) as [X|(a & b & E & NA)]; [contradiction|].
    rewrite E at 1. rewrite find_char_first by exact NA. reflexivity.
  - unfold get_default_mask6 in *. now rewrite find_char_none.
Qed.
Lemma used_some six m : exists T, mask_used p0 six m T.
Proof.
  destruct m as [|c m]; [|exists (c :: m); constructor; discriminate]. destruct six; [|eexists; now apply used_four].
  destruct (in_dec Z.eq_dec 58 (get_default_mask6 p0)); eexists; [now apply used_six|now apply used_none].
Qed.
Lemma used_nul six m T : ~ In 0 m -> mask_used p0 six m T -> ~ In 0 T.
Proof.
  destruct (te_nul p0 TE) as (_ & _ & N4 & N6). intros N U. revert N. destruct U as [m1 NE| -> | -> I | -> I ]; intros N; [exact N|exact N4| |intros []].
  cbn [app]. intros [X|X]; [discriminate|]. apply in_app_or in X. destruct X as [X|[X|[]]]; [auto|discriminate].
Qed.
Lemma masks_decide six m T : mask_used p0 six m T -> ~ In 0 T -> forall l,
  wp p0 (apply_masks g m (negb six) l) (fun res ms => exists l2, res = Ok l2
    /\ (ms = [] -> Forall2 (gets_mask g p0 six T) l l2)
    /\ (ms <> [] -> forall l1 l3, Forall2 alike l l1 -> ~ Forall2 (gets_mask g p0 six T) l1 l3)).
Proof.
  intros U N0. induction l as [|r l IH]; cbn [apply_masks].
  { apply wp_ret. exists []. split; [reflexivity|]. split; [constructor|congruence]. }
  wbind. apply wp_ask; [reflexivity|]. rewrite (used_effective six m T U). cbv beta iota.
  wbind. eapply wp_conseq; [exact (mask_decides six T r N0)|]. cbv beta. intros res ms (a & -> & H1 & H2). cbv beta iota.
  wbind. eapply wp_conseq; [exact IH|]. cbv beta. intros res ms2 (l2 & -> & K1 & K2). apply wp_ret.
  eexists. split; [reflexivity|]. cbn [app]. rewrite app_nil_r. split.
  - intros E. apply app_eq_nil in E as [E1 E2]. constructor; [exact (H1 E1)|exact (K1 E2)].
  - intros E l1 l3 FA FG. inversion FA as [|x x1 l0 l1' AX AL]; subst. inversion FG as [|x y1 l0 l3' GX GL]; subst.
    destruct ms as [|z ms].
    + destruct ms2 as [|z ms2]; [apply E; reflexivity|]. apply (K2 ltac:(discriminate) l1' l3' AL GL).
    + apply (H2 ltac:(discriminate) x1 y1 AX GX).
Qed.

Lemma made_alike l l1 f t f1 t1 : made l f t -> made l1 f1 t1 ->
  (forall a b, f = Some a -> f1 = Some b -> is_ipv4 a = is_ipv4 b /\ get_port a = get_port b /\ get_protocol a = get_protocol b) ->
  (f = None <-> f1 = None) -> Forall2 alike l l1.
Proof.
  intros (r & -> & _ & _ & F & _) (r1 & -> & _ & _ & F1 & _) K N. constructor; [|constructor]. unfold alike. rewrite F, F1.
  destruct f as [a|], f1 as [b|]; [now apply K|destruct N as [_ N]; discriminate (N eq_refl)|destruct N as [N _]; discriminate (N eq_refl)|auto].
Qed.
Lemma addresses_alike six X D l l1 : addresses y g p0 six X D l -> addresses y g p0 six X D l1 -> Forall2 alike l l1.
Proof.
  assert (~ In 45 X \/ get_allow p0 ALLOW_ADDRESS_RANGE = Ok false -> addresses y g p0 six X D l -> addresses y g p0 six X D l1 -> Forall2 alike l l1) as ONE.
  { intros N A B. apply addresses_one in A, B; [|exact N|exact N]. pose proof (found_same _ _ _ _ _ A B) as S. clear - S.
    induction S as [|x z l0 l2 [S1 _] S2 IH]; constructor; auto. }
  destruct (allow p0 ALLOW_ADDRESS_RANGE) eqn:AR; (apply allowed_is in AR; [|unfold ALLOW_ADDRESS_RANGE; lia]); [|apply ONE; now right].
  destruct (first_char 45 X) as [N45|(A & B & -> & NA)]; [apply ONE; now left|]. clear ONE.
  intros G G2. apply addresses_dash in G, G2; [|assumption..].
  assert (forall X a, found_one y g p0 six X D a -> X = [] -> False) as NN by (intros X0 a (NE & _); exact NE).
  destruct G as [(a & b & FA & FB & G)|[(EB & a & FA & M)|(EA & a & FB & M)]];
    destruct G2 as [(a2 & b2 & FA2 & FB2 & G2)|[(EB2 & a2 & FA2 & M2)|(EA2 & a2 & FB2 & M2)]];
    try (match goal with H : ?X = [], K : found_one _ _ _ _ ?X _ _ |- _ => elim (NN X _ K H) end).
  - destruct (found_one_same _ _ _ _ _ FA FA2) as (Q1 & Q2 & Q3 & Q4), (found_one_same _ _ _ _ _ FB FB2) as (_ & _ & _ & Q5).
    destruct G as [(C & M)|(C1 & C2 & ->)], G2 as [(C' & M2)|(C1' & C2' & ->)].
    + eapply made_alike; [exact M|exact M2| |split; discriminate]. intros x z E1 E2. injection E1 as <-. injection E2 as <-. auto.
    + exfalso. lia.
    + exfalso. lia.
    + constructor.
  - destruct (found_one_same _ _ _ _ _ FA FA2) as (Q1 & Q2 & Q3 & Q4).
    eapply made_alike; [exact M|exact M2| |split; discriminate]. intros x z E1 E2. injection E1 as <-. injection E2 as <-. auto.
  - eapply made_alike; [exact M|exact M2| |tauto]. discriminate.
Qed.
Lemma layout_fun six b A D A2 D2 : layout p0 six b A D -> layout p0 six b A2 D2 -> A = A2 /\ D = D2.
Proof.
  intros L L2. destruct (Z.eq_dec (hd 0 b) 91) as [H|H].
  - destruct b as [|c t]; [discriminate|]. cbn [hd] in H. subst c. destruct (first_char 93 t) as [N93|(X & R & -> & NX)]; [elim (layout_open six t A D N93 L)|].
    apply layout_brackets_inv in L, L2; [|assumption..]. destruct L as [-> L], L2 as [-> L2]. split; [reflexivity|].
    destruct L as [[-> ->]|[-> _]], L2 as [[L2 ->]|[L2 _]]; congruence.
  - apply layout_plain_inv in L, L2; [|assumption..].
    assert (forall X Y, (two_colons b \/ ~ In 58 b) -> b = X ++ 58 :: Y -> ~ In 58 X -> ~ In 58 Y -> False) as K.
    { intros X Y [T|T] -> NX NY; [|apply T, in_or_app; right; now left]. apply two_colons_count in T. rewrite count_one in T by assumption. lia. }
    destruct L as [(C & -> & ->)|(E & NA & ND & _)], L2 as [(C2 & -> & ->)|(E2 & NA2 & ND2 & _)].
    + now split.
    + elim (K A2 D2 C E2 NA2 ND2).
    + elim (K A D C2 E NA ND).
    + rewrite E in E2. apply split_unique in E2; auto.
Qed.
Lemma cut_fun s b m b2 m2 : slashed p0 s b m -> slashed p0 s b2 m2 -> b = b2 /\ m = m2.
Proof.
  intros C C2. destruct C as [s AM|s AM N|b m AM N].
  - inversion C2 as [x A2|x A2 N2|x x2 A2 N2]; subst; auto; congruence.
  - inversion C2 as [x A2|x A2 N2|x x2 A2 N2]; subst; auto. elim N. apply in_or_app. right. now left.
  - remember (b ++ 47 :: m) as s eqn:E. destruct C2 as [s A2|s A2 N2|b2 m2 A2 N2].
    + congruence.
    + elim N2. rewrite E. apply in_or_app. right. now left.
    + apply split_unique in E; [|exact N2|exact N]. destruct E. now split.
Qed.
Lemma accepted_iff s b m six l : slashed p0 s b m -> SpecLanguage.way p0 m b six ->
  accepted y g p0 s l <-> exists l1, laid six b l1 /\ (get_allow p0 ALLOW_MASK = Ok false /\ l = l1
     \/ get_allow p0 ALLOW_MASK = Ok true /\ exists T, mask_used p0 six m T /\ Forall2 (gets_mask g p0 six T) l1 l).
Proof.
  intros C W. split.
  - intros G. destruct G as [s b2 m2 six2 A D T l1 l2 C2 W2 L AD M]. destruct (cut_fun s b m b2 m2 C C2) as [<- <-].
    pose proof (way_fun m b six six2 W W2). subst six2. exists l1. split; [exists A, D; now split|]. destruct M as [M|(M1 & M2)]; [now left|right]. eauto.
  - intros (l1 & (A & D & L & AD) & M). destruct M as [M|(M1 & T & M2)].
    + apply (accepted_entry y g p0 s b m six A D [] l1 l); auto.
    + apply (accepted_entry y g p0 s b m six A D T l1 l); auto.
Qed.
Lemma cidr_decides s : ~ In 0 s -> plain_text s ->
  decides p0 (numbers_only \/ allow p0 ALLOW_MASK = true) (parse_cidr y g s) (accepted y g p0 s).
Proof.
  intros N0 PT. assert (trim_string s = s) as TS by (destruct PT as [->|T]; [reflexivity|now apply trimmed_trim]).
  destruct (allow p0 ALLOW_MASK) eqn:AM; pose proof (allowed_is p0 ALLOW_MASK _ ltac:(unfold ALLOW_MASK; lia) AM) as GM.
  - assert (exists b m, slashed p0 s b m /\ split_mask s = (b, m) /\ ~ In 0 b /\ ~ In 0 m) as (b & m & C & SM & NB & NM).
    { destruct (first_char 47 s) as [N47|(b & m & -> & NB)].
      - exists s, []. split; [now apply cut_none|]. split; [now apply split_mask_none|]. split; [exact N0|intros []].
      - exists b, m. split; [now apply cut_mask|]. split; [now apply split_mask_some|]. split; intros I; apply N0, in_or_app; [now left|right; now right]. }
    destruct (way_address b m NB NM) as (six & W & AD). destruct (used_some six m) as [T U]. pose proof (used_nul six m T NM U) as NT.
    assert (forall l, accepted y g p0 s l <-> exists l1, laid six b l1 /\ Forall2 (gets_mask g p0 six T) l1 l) as E.
    { intros l. rewrite (accepted_iff s b m six l C W). split.
      - intros (l1 & L & [[X _]|(_ & T2 & U2 & F)]); [congruence|]. exists l1. split; [exact L|].
        apply used_effective in U, U2. rewrite U in U2. now subst T2.
      - intros (l1 & L & F). exists l1. split; [exact L|]. right. split; [exact GM|]. eauto. }
    unfold decides. rewrite <- TS in SM. apply (cidr_with_mask y g p0 s b m); auto. unfold masked. wbind.
    eapply wp_conseq; [exact AD|]. cbv beta. intros r ms (l & -> & L1 & L2). cbv beta iota.
    eapply wp_conseq; [exact (masks_decide six m T U NT l)|]. cbv beta. intros r ms2 (l2 & -> & H1 & H2).
    destruct (ms ++ ms2) as [|m0 ms3] eqn:EM.
    + apply app_eq_nil in EM as [-> ->]. exists l2. split; [reflexivity|]. split; [|congruence]. intros _. apply E. exists l. split; [now apply L1|now apply H1].
    + exists []. split; [reflexivity|]. split; [discriminate|]. intros _. split; [|reflexivity]. intros l3 G. apply E in G. destruct G as (l1 & G1 & G).
      destruct ms as [|m1 ms]; [|destruct (L2 ltac:(discriminate)) as [L3 _]; apply (L3 l1 G1)].
      cbn [app] in EM. destruct (L1 eq_refl) as (A & D & L & AA). destruct G1 as (A1 & D1 & L3 & AA1).
      destruct (layout_fun _ _ _ _ _ _ L L3) as [<- <-]. apply (H2 ltac:(congruence) l1 l3); [|exact G]. eapply addresses_alike; eassumption.
  - destruct (way_address s [] N0 ltac:(auto)) as (six & W & AD).
    assert (forall l, accepted y g p0 s l <-> laid six s l) as E.
    { intros l. rewrite (accepted_iff s s [] six l (cut_forbidden _ _ GM) W). split.
      - intros (l1 & L & [[_ ->]|(X & _)]); [exact L|congruence].
      - intros L. exists l. split; [exact L|]. left. now split. }
    apply (decides_iff _ _ _ (laid six s)); [intros l; symmetry; apply E|].
    apply cidr_without_mask; [exact AM|]. rewrite TS. wbind. eapply wp_conseq; [exact AD|]. cbv beta. intros r ms (l & -> & L1 & L2). cbv beta iota. apply wp_ret.
    rewrite app_nil_r. exists l. split; [reflexivity|]. split; [exact L1|]. intros X. destruct (L2 X) as [L3 L4]. split; [exact L3|].
    intros [Y|Y]; [exact (L4 Y)|discriminate].
Qed.
Theorem language s : takes_one p0 -> ~ In 0 s -> plain_text s ->
  (exists l, parse y g s p0 = (p0, Ok l) /\ accepted y g p0 s l)
  \/ ((forall l, ~ accepted y g p0 s l) /\ exists p2 l, parse y g s p0 = (p2, Ok l) /\ error_count p0 < error_count p2
      /\ (get_allow p0 ALLOW_ADDRESS_LOOKUP = Ok false \/ get_allow p0 ALLOW_MASK = Ok true -> l = [])).
Proof.
  intros [NS NC US] N0 PT.
  assert (forall ms l, parse_cidr y g s p0 = (with_errors p0 (f_error p0 ++ flat ms) (f_error_count p0 + Z.of_nat (length ms)), Ok l) ->
    parse y g s p0 = (with_errors p0 (f_error p0 ++ flat ms) (f_error_count p0 + Z.of_nat (length ms)), Ok l)) as K.
  { intros ms l E. rewrite (parse_one y g s p0 NS NC PT). unfold bind. rewrite E. unfold ask, lift. cbn [f_sort with_errors].
    now rewrite arrange_unsorted by exact US. }
  destruct (cidr_decides s N0 PT) as (ms & r & E & l & -> & H1 & H2).
  specialize (E (f_error p0) (f_error_count p0)); rewrite with_errors_self in E; apply K in E. destruct ms as [|m ms].
  - left. exists l. split; [|now apply H1]. rewrite E. f_equal. cbn [flat length]. rewrite app_nil_r, Z.add_0_r. apply with_errors_self.
  - right. destruct (H2 ltac:(discriminate)) as [F H]. split; [exact F|]. eexists _, l. split; [exact E|]. split.
    + unfold error_count. cbn [f_error_count with_errors length]. lia.
    + intros [X|X]; apply H; [left|right]; now apply allow_of.
Qed.
End Language.
