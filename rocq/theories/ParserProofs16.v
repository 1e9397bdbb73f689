(* The messages about texts which are not accepted. *)
From Coq Require Import ZifyBool ZifyNat.
From Verif Require Import Base Addr Spec Range SpecRange Inet SpecText Parser SpecParser SpecParser2 SpecParser4 SpecLanguage SpecComplaint.
From Verif Require Import AddrProofs AddrProofs2 AddrProofs3 RangeProofs InetProofs InetProofs2 TextProofs
  ParserProofs ParserProofs2 ParserProofs3 ParserProofs7 ParserProofs8 ParserProofs9 ParserProofs10 ParserProofs11 ParserProofs12 ParserProofs13 ParserProofs15.
From Verif Require PropText.
Local Open Scope Z_scope.

(* No message and no reason, or the message of the only reason. *)
Definition told (ms : list str) (K : str -> Prop) : Prop :=
  ms = [] /\ (forall msg, ~ K msg) \/ exists msg, ms = [msg] /\ forall m2, K m2 <-> m2 = msg.
Lemma told_iff ms (K K2 : str -> Prop) : (forall msg, K msg <-> K2 msg) -> told ms K -> told ms K2.
Proof.
  intros E [[-> N]|(msg & -> & U)]; [left|right].
  - split; [reflexivity|]. intros msg H. apply (N msg). now apply E.
  - exists msg. split; [reflexivity|]. intros m2. rewrite <- E. apply U.
Qed.
Lemma told_one msg (K : str -> Prop) : K msg -> (forall m2, K m2 -> m2 = msg) -> told [msg] K.
Proof. intros H U. right. exists msg. split; [reflexivity|]. intros m2. split; [apply U|]. now intros ->. Qed.
Lemma told_nil (K : str -> Prop) : (forall msg, ~ K msg) -> told [] K.
Proof. left. now split. Qed.
(* Two accounts of the same call. *)
Lemma wp_both {A} p (m : M A) Q (G H : res A -> Prop) : wp p m Q -> wp p m (fun r ms => (ms = [] -> G r) /\ (ms <> [] -> H r)) ->
  wp p m (fun r ms => Q r ms /\ (ms = [] -> G r) /\ (ms <> [] -> H r)).
Proof.
  intros (ms & r & E & HQ) (ms2 & r2 & E2 & H1 & H2). exists ms, r. split; [exact E|]. split; [exact HQ|].
  specialize (E [] 0). specialize (E2 [] 0). rewrite E in E2.
  assert (r = r2 /\ length ms = length ms2) as [<- L].
  { split; [congruence|]. apply (f_equal fst) in E2. cbn [fst] in E2. apply (f_equal f_error_count) in E2. cbn [f_error_count with_errors] in E2. lia. }
  destruct ms, ms2; try discriminate; split; intros X; try congruence; auto. apply H2. discriminate.
Qed.

Section Messages.
Variables (y : sys) (g : resolver) (p0 : parser).
Hypothesis TE : takes_entries p0.
Hypothesis Hconv : converts_decimals y.
Hypothesis Hg : resolver_ok g.
Hypothesis Hs : sizes_ok g.
Hypothesis Hk : allow p0 ALLOW_ADDRESS_LOOKUP = true -> known_protocols g.
Hypothesis Hu : allow p0 ALLOW_ADDRESS_LOOKUP = true -> answers_usable g.

Definition says (m : M (list addr_range)) (K : str -> Prop) : Prop := wp p0 m (fun r ms => told ms K /\ (ms <> [] -> r = Ok [])).
Lemma says_iff m (K K2 : str -> Prop) : (forall msg, K msg <-> K2 msg) -> says m K -> says m K2.
Proof. intros E W. eapply wp_conseq; [exact W|]. cbv beta. intros r ms [T H]. split; [now apply (told_iff ms K)|exact H]. Qed.
Lemma says_fail msg (K : str -> Prop) : K msg -> (forall m2, K m2 -> m2 = msg) -> says (fail msg) K.
Proof. intros H U. apply wp_fail. split; [now apply told_one|reflexivity]. Qed.
Lemma told_ends ms (K : str -> Prop) : told ms K -> ms = [] /\ (forall msg, ~ K msg) \/ ms <> [] /\ exists msg, K msg.
Proof. intros [[-> N]|(msg & -> & U)]; [left; now split|right]. split; [discriminate|]. exists msg. now apply U. Qed.

(* ---------- one address ---------- *)
Lemma flag f b : 0 <= f < 16 -> get_allow p0 f = Ok b <-> allow p0 f = b.
Proof. intros R. split; [apply allow_of|now apply allowed_is]. Qed.
Lemma flag_off f : get_allow p0 f = Ok true -> get_allow p0 f = Ok false -> False.
Proof. congruence. Qed.
Lemma numeric_says A port dp : allow p0 ALLOW_ADDRESS_LOOKUP = false -> ~ In 0 A -> 0 <= port <= 65535 ->
  says (numeric_address A port dp) (fun msg => (forall v, ~ denotes A v) /\ msg = lit "Unknown address in """ ++ A ++ lit """ (no DNS lookup was allowed).").
Proof.
  intros LK N P. destruct (numeric_decides p0 TE LK A port dp N P) as [(v & D & W)|[D _]].
  - eapply wp_conseq; [exact W|]. intros r ms (-> & _). split; [|congruence]. apply told_nil. intros msg [X _]. apply (X v D).
  - unfold says, numeric_address. wask. rewrite (c_str_id A N). destruct (not_pton A D) as [-> ->].
    apply says_fail; [now split|]. now intros m2 [_ ->].
Qed.
Lemma host_iff six X H : host_text p0 six X H <-> H = (match X with [] => default_address p0 six | _ => X end)
  /\ (X = [] -> get_allow p0 ALLOW_REQUIRED_ADDRESS = Ok false).
Proof.
  split.
  - intros HT. split; [now apply host_is|]. destruct HT as [[N _]|(_ & R & _)]; [congruence|auto].
  - intros [-> R]. destruct X as [|c X]; [right|left; split; [discriminate|reflexivity]]. split; [reflexivity|]. split; [now apply R|].
    now apply default_for_eq.
Qed.
Lemma no_ports_flags : ~ ports_allowed p0 -> get_allow p0 ALLOW_PORT = Ok false /\ get_allow p0 ALLOW_REQUIRED_PORT = Ok false.
Proof. intros N. destruct (no_ports p0 N) as [A B]. split; apply flag; auto; unfold ALLOW_PORT, ALLOW_REQUIRED_PORT; lia. Qed.
Lemma shown_iff D S : port_shown p0 D S <-> S = let T := if negb (match D with [] => false | _ => true end) && negb (f_default_port p0 =? -1) then to_string_int (f_default_port p0) else D in
  (match T with [] => [] | _ => lit ":" end) ++ T.
Proof.
  pose proof (te_port p0 TE) as TP. unfold get_default_port in TP. cbv zeta. destruct D as [|c D]; cbn [negb andb].
  - destruct (Z.eqb_spec (f_default_port p0) (-1)) as [DP|DP]; cbn [negb].
    + split; [|intros ->; now apply shown_none]. intros K. destruct K as [H|S _ H _|_ _]; [congruence|unfold get_default_port in H; lia|reflexivity].
    + rewrite to_string_dec by lia. pose proof (PropText.plain_dec_string (f_default_port p0) ltac:(lia)) as PD. pose proof PD as [[NE _] _].
      assert ((match dec_string (f_default_port p0) with [] => [] | _ => lit ":" end) = lit ":") as -> by (destruct (dec_string (f_default_port p0)); congruence).
      split.
      * intros K. destruct K as [H|S _ H PD2|_ H]; [congruence| |unfold get_default_port in H; congruence]. now rewrite (plain_unique _ _ _ PD PD2).
      * intros ->. apply shown_default; [reflexivity|unfold get_default_port; lia|exact PD].
  - split; [|intros ->; now apply shown_written]. intros K. destruct K; congruence.
Qed.
Lemma address_port_says X D six : ~ In 0 X -> ~ In 0 D ->
  says (parse_address_port y g X D six) (wrong_address y g p0 six X D).
Proof.
  intros N N0D. pose proof (te_port p0 TE) as TP. unfold get_default_port in TP.
  set (host := match X with [] => default_address p0 six | _ => X end).
  assert (~ In 0 host) as NH by (unfold host; destruct X; [now apply default_no_nul|exact N]).
  pose proof (host_iff six X) as HI. fold host in HI.
  unfold says, parse_address_port. cbv zeta. wallow.
  destruct (negb (match D with [] => false | _ => true end) && allow p0 ALLOW_REQUIRED_PORT) eqn:RP.
  { destruct D; [|discriminate]. cbn [negb andb] in RP. apply flag in RP; [|unfold ALLOW_REQUIRED_PORT; lia].
    apply says_fail; [now apply port_absent|]. intros m2 K.
    destruct K as [_ _|[DD|R] _ _|H L _ DD _|H n L _ DD _ _ _|H S L _ _ NP _ _|H n d L _ PT _|H d S e L _ (sv & st & pr & SO & _) _]; try reflexivity; try congruence.
    - apply no_ports_flags in NP. destruct NP. congruence.
    - inversion PT; subst; congruence.
    - inversion SO; subst; congruence. }
  assert (D <> [] \/ get_allow p0 ALLOW_REQUIRED_PORT = Ok false) as RP2.
  { destruct D; [right|left; discriminate]. cbn [negb andb] in RP. apply flag; [unfold ALLOW_REQUIRED_PORT; lia|exact RP]. }
  wask. wallow.
  destruct ((match X with [] => true | _ => false end) && allow p0 ALLOW_REQUIRED_ADDRESS) eqn:RA.
  { destruct X; [|discriminate]. cbn [andb] in RA. apply flag in RA; [|unfold ALLOW_REQUIRED_ADDRESS; lia].
    assert (forall H, ~ host_text p0 six [] H) as NHT by (intros H HT; apply HI in HT; destruct HT as [_ R]; specialize (R eq_refl); congruence).
    apply says_fail; [now apply address_absent|]. intros m2 K.
    destruct K as [D0 R|_ _ _|H L HT _ _|H n L HT _ _ _ _|H S L HT _ _ _ _|H n d L HT _ _|H d S e L HT _ _]; try reflexivity; try (now elim (NHT H)).
    destruct RP2; congruence. }
  assert (X = [] -> get_allow p0 ALLOW_REQUIRED_ADDRESS = Ok false) as RA2.
  { intros ->. apply flag; [unfold ALLOW_REQUIRED_ADDRESS; lia|exact RA]. }
  assert (host_text p0 six X host) as HT by (apply HI; auto).
  assert (forall H, host_text p0 six X H -> H = host) as HU by (intros H K; now apply HI in K).
  wask. replace (if match X with [] => true | _ => false end then default_address p0 six else X) with host by (now destruct X).
  wallow.
  assert (allow p0 ALLOW_ADDRESS_LOOKUP = true \/ allow p0 ALLOW_ADDRESS_LOOKUP = false) as [LK|LK]
    by (clear Hk Hu; destruct (allow p0 ALLOW_ADDRESS_LOOKUP); auto); rewrite LK;
    assert (GL := LK); (apply flag in GL; [|unfold ALLOW_ADDRESS_LOOKUP; lia]).
  { (* lookup *)
    wask. pose proof (shown_iff D) as SI. cbv zeta in SI.
    set (port := if negb (match D with [] => false | _ => true end) && negb (f_default_port p0 =? -1) then to_string_int (f_default_port p0) else D) in *.
    set (svc := match port with [] => lit "0" | _ => port end). set (given := match D with [] => false | _ => true end).
    assert (service_of p0 (58 :: D) svc given /\ ~ In 0 svc) as [SO NS].
    { unfold svc, port, given. destruct D as [|c D]; cbn [negb andb].
      - assert (get_allow p0 ALLOW_REQUIRED_PORT = Ok false) as R by (destruct RP2; [congruence|assumption]).
        destruct (Z.eqb_spec (f_default_port p0) (-1)) as [DP|DP]; cbn [negb].
        + split; [apply service_zero; auto|cbn; lia].
        + destruct (PropText.plain_dec_string (f_default_port p0) ltac:(lia)) as [Dec Rest]. rewrite to_string_dec by lia.
          assert (dec_string (f_default_port p0) <> []) as NE by (destruct Dec; assumption).
          replace (match dec_string (f_default_port p0) with [] => lit "0" | _ => dec_string (f_default_port p0) end) with (dec_string (f_default_port p0)) by (destruct (dec_string (f_default_port p0)); congruence).
          split.
          * apply service_default; auto. split; [exact Dec|exact Rest].
          * destruct Dec as (_ & F & _). intros I. rewrite forallb_forall in F. specialize (F _ I). discriminate.
      - split; [apply service_given; [discriminate|exact N0D]|exact N0D]. }
    assert (asked g p0 host (58 :: D) given (g host svc false (hint_socktype (p_protocol p0)) (hint_protocol (p_protocol p0)))) as AK.
    { exists svc, (hint_socktype (p_protocol p0)), (hint_protocol (p_protocol p0)). split; [exact SO|]. split; [|reflexivity].
      unfold parser_get_protocol, hint_socktype, hint_protocol. destruct (Z.eqb_spec (p_protocol p0) IPPROTO_TCP) as [->|N1]; [constructor|].
      destruct (Z.eqb_spec (p_protocol p0) IPPROTO_UDP) as [->|N2]; [constructor|]. now constructor. }
    rewrite (c_str_id host NH), (c_str_id svc NS).
    assert (forall m2, wrong_address y g p0 six X D m2 -> exists e, asked g p0 host (58 :: D) given (GAI_error e)
      /\ m2 = lit "Invalid address in """ ++ host ++ ((match port with [] => [] | _ => lit ":" end) ++ port) ++ lit """ error " ++ e) as INV.
    { intros m2 K.
      destruct K as [D0 R|DD X0 R|H L HT2 DD NC|H n L HT2 DD C RN NP|H S L HT2 DD NP DP PD|H n d2 L HT2 PT2 ND|H d2 S e L HT2 AK2 PS]; try congruence.
      - destruct RP2; congruence.
      - specialize (RA2 X0). congruence.
      - apply HU in HT2. subst H. apply SI in PS. subst S. destruct (asked_fun g p0 _ _ _ _ _ _ AK AK2) as [<- _]. eauto. }
    destruct (g host svc false (hint_socktype (p_protocol p0)) (hint_protocol (p_protocol p0))) as [text|ais] eqn:GQ.
    - rewrite (app_assoc _ port). apply says_fail.
      + eapply lookup_failed; [exact GL|exact HT|exact AK|]. now apply SI.
      + intros m2 K. destruct (INV m2 K) as (e & AK2 & ->). destruct (asked_fun g p0 _ _ _ _ _ _ AK AK2) as [_ E]. now injection E as <-.
    - destruct (Hg _ _ _ _ _ _ GQ) as [NA OK]. pose proof (Hk LK _ _ _ _ _ _ GQ) as PR. pose proof (Hu LK _ _ _ _ _ GQ) as US.
      eapply wp_conseq; [apply (use_all p0 host given ais true OK)|].
      + eapply Forall_impl; [|exact PR]. auto.
      + cbv beta. intros r ms (_ & _ & H). specialize (H US). subst ms. split; [|intros Z0; now elim Z0]. apply told_nil. intros msg K. destruct (INV msg K) as (e & AK2 & _).
        destruct (asked_fun g p0 _ _ _ _ _ _ AK AK2). discriminate. }
  wallow.
  (* a message about the port *)
  assert (forall k, 0 <= k <= 65535 -> forall d, port_text y p0 D k d ->
    says (numeric_address host k (match D with [] => false | _ => true end)) (wrong_address y g p0 six X D)) as NUM.
  { intros k RK d PT. eapply says_iff; [|exact (numeric_says host k _ LK NH RK)]. intros msg. cbv beta. split.
    - intros [ND ->]. eapply no_such_address; eassumption.
    - intros K. destruct K as [D0 R|DD X0 R|H L HT2 DD NC|H n L HT2 DD C RN NP|H S L HT2 DD NP DP PD|H n d2 L HT2 PT2 ND|H d2 S e L HT2 AK2 PS]; [..|congruence].
      + destruct RP2; congruence.
      + specialize (RA2 X0). congruence.
      + exfalso. inversion PT; subst; try congruence. eapply NC; eassumption.
      + exfalso. inversion PT; subst; try congruence.
      + exfalso. subst D. apply no_ports_flags in NP. destruct NP as [NP _]. inversion PT; subst; try congruence. lia.
      + split; [now rewrite <- (HU H HT2)|now rewrite (HU H HT2)]. }
  destruct D as [|c D'].
  - assert (get_allow p0 ALLOW_REQUIRED_PORT = Ok false) as GR by (destruct RP2; [congruence|assumption]).
    apply flag in GR as GR2; [|unfold ALLOW_REQUIRED_PORT; lia]. rewrite GR2. cbn [negb andb orb].
    destruct (Z.eqb_spec (f_default_port p0) (-1)) as [DP|DP]; cbn [negb].
    + apply (NUM 0 ltac:(lia) false). now apply port_missing.
    + assert (to_string_int (f_default_port p0) = dec_string (f_default_port p0)) as ->
        by (unfold to_string_int; now replace (f_default_port p0 <? 0) with false by lia).
      pose proof (PropText.plain_dec_string (f_default_port p0) ltac:(lia)) as PD. pose proof PD as [Dec _].
      assert (dec_string (f_default_port p0) <> []) as NE' by (destruct Dec; assumption).
      replace (match dec_string (f_default_port p0) with [] => false | _ => true end) with true by (destruct (dec_string (f_default_port p0)); congruence).
      rewrite (Hconv _ _ Dec) by lia. replace ((f_default_port p0 <? 0) || (f_default_port p0 >? 65535)) with false by lia.
      destruct (allow p0 ALLOW_PORT) eqn:AP; (apply flag in AP; [|unfold ALLOW_PORT; lia]); cbn [negb].
      * apply (NUM (f_default_port p0) ltac:(lia) false). apply (port_from_default y p0); auto. unfold get_default_port. lia.
      * assert (~ ports_allowed p0) as NP by (intros [Y|Y]; congruence).
        apply says_fail; [eapply default_port_unwanted; eauto; unfold get_default_port; lia|]. intros m2 K.
        destruct K as [D0 R|DD X0 R|H L HT2 DD NC|H n L HT2 DD C RN NP2|H S L HT2 DD NP2 DP2 PD2|H n d2 L HT2 PT2 ND|H d2 S e L HT2 AK2 PS]; try congruence.
        -- specialize (RA2 X0). congruence.
        -- now rewrite (plain_unique _ _ _ PD PD2).
        -- exfalso. inversion PT2; subst; unfold get_default_port in *; congruence.
  - set (D := c :: D') in *. assert (D <> []) as ND by discriminate. cbn [negb andb]. change (match D with [] => false | _ => true end) with true. rewrite orb_true_r.
    assert ((forall n, convert_string y D = Some n -> ~ 0 <= n <= 65535) -> forall m2, wrong_address y g p0 six X D m2 ->
      m2 = lit "invalid port in """ ++ D ++ lit """ (no service name lookup allowed).") as BADP.
    { intros NC m2 K. destruct K as [D0 R|DD X0 R|H L HT2 DD NC2|H n L HT2 DD C RN NP2|H S L HT2 DD NP2 DP2 PD2|H n d2 L HT2 PT2 ND2|H d2 S e L HT2 AK2 PS]; try congruence.
      - specialize (RA2 X0). congruence.
      - elim (NC n C RN).
      - inversion PT2; subst; try discriminate. exfalso. eapply NC; eassumption. }
    destruct (convert_string y D) as [k|] eqn:C.
    2:{ apply says_fail; [eapply port_no_number; [exact GL|exact HT|exact ND|intros n E; congruence]|]. apply BADP. discriminate. }
    destruct ((k <? 0) || (k >? 65535)) eqn:B.
    { apply says_fail; [eapply port_no_number; [exact GL|exact HT|exact ND|intros n E; assert (n = k) by congruence; lia]|].
      apply BADP. intros n E. injection E as <-. lia. }
    destruct (ports_dec p0) as [P|P].
    + destruct (ports_allow p0 P) as [_ ->]. apply (NUM k ltac:(lia) true). apply port_written; auto. lia.
    + destruct (no_ports p0 P) as [-> ->]. cbn [negb andb]. apply says_fail; [eapply port_unwanted; eauto; lia|].
      intros m2 K. destruct K as [D0 R|DD X0 R|H L HT2 DD NC2|H n L HT2 DD C2 RN NP2|H S L HT2 DD NP2 DP2 PD2|H n d2 L HT2 PT2 ND2|H d2 S e L HT2 AK2 PS]; try congruence.
      * specialize (RA2 X0). congruence.
      * elim (NC2 k C). lia.
      * inversion PT2; subst; try discriminate. contradiction.
Qed.

(* ---------- ranges ---------- *)
Lemma range_end_says X D msg six : ~ In 0 X -> ~ In 0 D -> X <> [] ->
  wp p0 (range_end y g X D msg six) (fun r ms => told ms (wrong_end y g p0 six X D msg)
    /\ (ms = [] -> exists a, r = Ok (Some (Some (set_from range_new a))) /\ found_one y g p0 six X D a)
    /\ (ms <> [] -> r = Ok None /\ forall a, ~ found_one y g p0 six X D a)).
Proof.
  intros NX ND NE. unfold range_end. destruct X as [|c X']; [congruence|]. set (X := c :: X') in *. wbind. unfold parse_address_port_ignore_duplicates. wbind.
  eapply wp_conseq.
  { apply (wp_both p0 _ (fun r ms => told ms (wrong_address y g p0 six X D) /\ (ms <> [] -> r = Ok []))
      (fun r => exists l, r = Ok l /\ Forall (fun r => exists a, r = set_from range_new a /\ addr_wf a) l /\ found y g p0 six X D l)
      (fun _ => forall l, ~ found y g p0 six X D l)); [exact (address_port_says X D six NX ND)|].
    eapply wp_conseq; [exact (found_decides y g p0 TE Hconv Hg Hk X D six NX ND)|]. cbv beta.
    intros r ms (l & -> & G & H1 & H2). split; intros E; [|now apply H2]. exists l. split; [reflexivity|]. split; [exact G|now apply H1]. }
  cbv beta. intros r ms ((T & TR) & H1 & H2). destruct (told_ends _ _ T) as [[-> N]|[NM (m0 & K0)]].
  - destruct (H1 eq_refl) as (l & -> & GD & FL). cbv beta iota. destruct l as [|r rest].
    { exfalso. inversion FL as [|H d ais rs L HT (S & st & pr & _ & _ & GQ) US F2]; subst.
      apply Hg in GQ. destruct GQ as [GQ _]. inversion F2; subst. congruence. }
    inversion GD as [|x0 l0 (a & -> & WA) GR]; subst. wbind. apply wp_lift. change (get_from (set_from range_new a)) with a.
    destruct (drop_spec a WA rest GR) as (rest2 & -> & DS). cbv beta iota. apply wp_ret. cbv beta iota.
    assert (forall r rest3, found y g p0 six X D (r :: rest3) -> value (get_from r) = value a
      /\ (Forall (fun r => value (get_from r) = value a) rest3 <-> Forall (fun r => value (get_from r) = value a) rest)) as SAME.
    { intros r rest3 F3. pose proof (found_same y g p0 TE _ _ _ _ _ FL F3) as S. inversion S as [|x z l0 l1 [_ S1] S2]; subst.
      change (get_from (set_from range_new a)) with a in S1. split; [congruence|].
      clear - S2. induction S2 as [|x z l0 l1 [_ V] S2 IH]; [split; constructor|].
      split; intros K; inversion K; subst; constructor; try congruence; now apply IH. }
    destruct rest2 as [|r2 rest2].
    + apply wp_ret. cbn [app]. split; [|split; [|congruence]].
      * apply told_nil. intros msg2 K. destruct K as [msg2 K|r rest3 r2 F3 I V]; [now apply (N msg2)|]. destruct (SAME _ _ F3) as [E S].
        apply V. rewrite E. assert (Forall (fun r => value (get_from r) = value a) rest3) as F4 by (apply S; now apply DS).
        rewrite Forall_forall in F4. now apply F4.
      * intros _. exists a. split; [reflexivity|]. split; [exact NE|]. exists (set_from range_new a), rest. split; [exact FL|]. split; [reflexivity|].
        now apply DS.
    + wbind. apply wp_emit. cbv beta iota. apply wp_ret. cbn [app]. split; [|split; [discriminate|]].
      * apply told_one.
        -- assert (~ Forall (fun r => value (get_from r) = value a) rest) as NF by (intros F; apply DS in F; discriminate).
           assert (exists r3, In r3 rest /\ value (get_from r3) <> value a) as (r3 & I3 & V3).
           { clear - NF. induction rest as [|x rest IH]; [elim NF; constructor|]. destruct (Z.eq_dec (value (get_from x)) (value a)) as [E|E].
             - destruct IH as (r3 & I & V); [intros F; apply NF; now constructor|]. exists r3. split; [now right|exact V].
             - exists x. split; [now left|exact E]. }
           apply (end_many y g p0 six X D msg (set_from range_new a) rest r3 FL I3 V3).
        -- intros m2 K. destruct K as [m2 K|r rest3 r4 F3 I V]; [now elim (N m2)|reflexivity].
      * intros _. split; [reflexivity|]. intros b (_ & r & rest3 & F & <- & FV). destruct (SAME _ _ F) as [E S]. rewrite E in FV. apply S, DS in FV. discriminate.
  - rewrite (TR NM). cbv beta iota. apply wp_ret. cbv beta iota. apply wp_ret. rewrite !app_nil_r. specialize (H2 NM). split; [|split; [congruence|]].
    + eapply told_iff; [|exact T]. intros m2. split; [apply end_wrong|]. intros K. destruct K as [m2 K|r3 rest3 r4 F3 I V]; [exact K|elim (H2 _ F3)].
    + intros _. split; [reflexivity|]. intros b (_ & r3 & rest3 & F & _). apply (H2 _ F).
Qed.
Definition wrong_dashed (six : bool) (A B D msg : str) : Prop :=
  A = [] /\ B = [] /\ msg = lit "An address range requires at least one of the ""from"" or ""to"" addresses."
  \/ A <> [] /\ wrong_end y g p0 six A D (lit "The ""from"" of an address range must be exactly one address.") msg
  \/ (A = [] \/ exists a, found_one y g p0 six A D a) /\ B <> [] /\ wrong_end y g p0 six B D (lit "The ""to"" of an address range must be exactly one address.") msg.
Lemma wrong_dash_iff six A B D msg : get_allow p0 ALLOW_ADDRESS_RANGE = Ok true -> ~ In 45 A ->
  wrong_dashed six A B D msg <-> wrong_addresses y g p0 six (A ++ 45 :: B) D msg.
Proof.
  intros AR NA. split.
  - intros [(-> & -> & ->)|[(NE & K)|(NE & NB & K)]].
    + now apply wrong_dash.
    + now apply (wrong_first y g p0 six A B D msg).
    + now apply (wrong_last y g p0 six A B D msg).
  - intros K. remember (A ++ 45 :: B) as X eqn:EX. destruct K as [X D msg ND F|D _|A1 B1 D msg _ N1 NE1 F|A1 B1 D msg _ N1 O NB F].
    + exfalso. subst X. destruct ND as [ND|ND]; [|congruence]. apply ND, in_or_app. right. now left.
    + apply (split_unique 45 [] []) in EX; [|intros []|exact NA]. destruct EX as [<- <-]. now left.
    + apply split_unique in EX; [|exact N1|exact NA]. destruct EX as [-> ->]. right. left. now split.
    + apply split_unique in EX; [|exact N1|exact NA]. destruct EX as [-> ->]. right. right. auto.
Qed.
Lemma dashed_says A B D six : ~ In 0 (A ++ 45 :: B) -> ~ In 0 D -> get_allow p0 ALLOW_ADDRESS_RANGE = Ok true -> ~ In 45 A ->
  says (parse_address_range_port y g (A ++ 45 :: B) D six) (wrong_dashed six A B D).
Proof.
  intros N ND AR NA.
  assert (~ In 0 A /\ ~ In 0 B) as [N0A N0B] by (split; intros I; apply N, in_or_app; [now left|right; now right]).
  destruct (split_dash A B NA) as (E1 & E2 & E3). unfold says, parse_address_range_port. wallow. rewrite (allow_of _ _ _ AR), E1, E2, E3. cbv zeta.
  assert (forall a X, found_one y g p0 six X D a -> X <> []) as FN by (intros a X (NE & _); exact NE).
  assert (A = [] \/ A <> []) as [->|NEA] by (destruct A; [now left|right; discriminate]).
  { assert (B = [] \/ B <> []) as [->|NEB] by (destruct B; [now left|right; discriminate]).
    { apply says_fail; [now left|]. intros m2 [(_ & _ & ->)|[(X & _)|(_ & X & _)]]; congruence. }
    assert (forall (T : Type) (a b : T), match B with [] => a | _ => b end = b) as EB by (intros; destruct B; [congruence|reflexivity]).
    rewrite EB. wbind. cbn [range_end]. apply wp_ret. cbv beta iota. wbind.
    eapply wp_conseq; [exact (range_end_says B D _ six N0B ND NEB)|]. cbv beta. intros r ms (T & H1 & H2). cbv beta iota.
    apply (told_iff _ _ (wrong_dashed six [] B D)) in T.
    2:{ intros msg. split; [intros K; right; right; auto|]. intros [(_ & X & _)|[(X & _)|(_ & _ & K)]]; [congruence..|exact K]. }
    destruct ms as [|m ms].
    - destruct (H1 eq_refl) as (a & -> & _). cbv beta iota. cbn [option_map]. apply wp_ret. split; [exact T|intros Z0; now elim Z0].
    - destruct (H2 ltac:(discriminate)) as [-> _]. cbv beta iota. apply wp_ret. rewrite app_nil_r. split; [exact T|reflexivity]. }
  assert (match A with [] => match B with [] => true | _ => false end | _ => false end = false) as EA by (destruct A; [congruence|reflexivity]).
  rewrite EA. wbind. eapply wp_conseq; [exact (range_end_says A D _ six N0A ND NEA)|]. cbv beta. intros r ms (T & H1 & H2). cbv beta iota.
  destruct ms as [|m ms].
  2:{ destruct (H2 ltac:(discriminate)) as [-> NF]. cbv beta iota. apply wp_ret. rewrite app_nil_r. split; [|reflexivity]. eapply told_iff; [|exact T]. intros msg. split; [intros K; right; left; auto|].
      intros [(X & _)|[(_ & K)|([X|(a & F)] & _ & _)]]; [congruence|exact K|congruence|]. elim (NF a F). }
  destruct (H1 eq_refl) as (a & -> & FA). cbv beta iota. destruct T as [[_ NOA]|(m0 & X & _)]; [|discriminate]. wbind.
  assert (B = [] \/ B <> []) as [->|NEB] by (destruct B; [now left|right; discriminate]).
  { cbn [range_end]. apply wp_ret. cbv beta iota. cbn [option_map]. apply wp_ret. cbn [app]. split; [|congruence]. apply told_nil.
    intros msg [(X & _)|[(_ & K)|(_ & X & _)]]; [congruence|now apply (NOA msg)|congruence]. }
  eapply wp_conseq; [exact (range_end_says B D _ six N0B ND NEB)|]. cbv beta. intros r ms2 (T & K1 & K2). cbv beta iota. cbn [app].
  apply (told_iff _ _ (wrong_dashed six A B D)) in T.
  2:{ intros msg. split; [intros K; right; right; eauto|]. intros [(X & _)|[(_ & K)|(_ & _ & K)]]; [congruence|now elim (NOA msg)|exact K]. }
  destruct ms2 as [|m ms2].
  - destruct (K1 eq_refl) as (b & -> & _). cbv beta iota. cbn [option_map]. wask. destruct (_ || _); apply wp_ret; (split; [exact T|intros Z0; now elim Z0]).
  - destruct (K2 ltac:(discriminate)) as [-> _]. cbv beta iota. apply wp_ret. rewrite app_nil_r. split; [exact T|reflexivity].
Qed.
Lemma wrong_one_iff six X D msg : ~ In 45 X \/ get_allow p0 ALLOW_ADDRESS_RANGE = Ok false ->
  wrong_address y g p0 six X D msg <-> wrong_addresses y g p0 six X D msg.
Proof.
  intros NX. split; [now apply wrong_one|].
  intros K. revert NX. destruct K as [X D msg ND F|D AR|A1 B1 D msg AR N1 NE1 F|A1 B1 D msg AR N1 O NB F]; [auto|..].
  all: intros NX; exfalso; destruct NX as [NX|NX]; [|congruence]; apply NX; try (now left); apply in_or_app; (right; now left).
Qed.
Lemma range_port_says X D six : ~ In 0 X -> ~ In 0 D ->
  says (parse_address_range_port y g X D six) (wrong_addresses y g p0 six X D).
Proof.
  intros N ND.
  assert (~ In 45 X \/ get_allow p0 ALLOW_ADDRESS_RANGE = Ok false -> says (parse_address_range_port y g X D six) (wrong_addresses y g p0 six X D)) as ONE.
  { intros NX. eapply says_iff; [intros msg; apply (wrong_one_iff six X D msg NX)|]. unfold says, parse_address_range_port. wallow.
    assert ((if allow p0 ALLOW_ADDRESS_RANGE then find_char 45 X else None) = None) as ->.
    { destruct NX as [NX|NX]; [rewrite find_char_none by exact NX; now destruct (allow p0 ALLOW_ADDRESS_RANGE)|now rewrite (allow_of _ _ _ NX)]. }
    now apply address_port_says. }
  destruct (allow p0 ALLOW_ADDRESS_RANGE) eqn:AR; (apply allowed_is in AR; [|unfold ALLOW_ADDRESS_RANGE; lia]); [|apply ONE; now right].
  destruct (first_char 45 X) as [N45|(A & B & -> & NA)]; [apply ONE; now left|].
  eapply says_iff; [intros msg; now apply wrong_dash_iff|]. now apply dashed_says.
Qed.

(* ---------- the layouts ---------- *)
Definition wrong_laid (six : bool) (b msg : str) : Prop :=
  wrong_layout p0 six b msg \/ exists A D, layout p0 six b A D /\ wrong_addresses y g p0 six A D msg.
Lemma wrong_plain_inv six b msg : hd 0 b <> 91 -> wrong_layout p0 six b msg ->
  exists A D, b = A ++ 58 :: D /\ six = false /\ ~ In 58 A /\ ~ In 58 D /\ ~ ports_allowed p0 /\ msg = lit "Port not allowed (" ++ b ++ lit ").".
Proof.
  intros H K. revert H. destruct K as [t N|A c R N C|A D N P|A D S NA ND HA P]; intros H; try (elim H; reflexivity).
  exists A, D. auto 8.
Qed.
Lemma wrong_open_inv six t msg : ~ In 93 t -> wrong_layout p0 six (91 :: t) msg -> msg = lit "IPv6 is missing the ']' (" ++ (91 :: t) ++ lit ").".
Proof.
  intros N K. remember (91 :: t) as b eqn:E. destruct K as [t2 _|A c R _ _|A D _ _|A D S NA ND HA P].
  - reflexivity.
  - injection E as E. elim N. rewrite <- E. apply in_or_app. right. now left.
  - injection E as E. elim N. rewrite <- E. apply in_or_app. right. now left.
  - destruct A as [|x A]; [discriminate|]. cbn [hd] in HA. injection E as E _. congruence.
Qed.
Lemma wrong_brackets_inv six A R msg : ~ In 93 A -> wrong_layout p0 six (91 :: A ++ 93 :: R) msg ->
  (exists c R2, R = c :: R2 /\ c <> 58 /\ msg = lit "The IPv6 address """ ++ (91 :: A ++ 93 :: R) ++ lit """ is followed by unknown data.")
  \/ exists D, R = 58 :: D /\ ~ ports_allowed p0 /\ msg = lit "Port not allowed (" ++ (91 :: A ++ 93 :: R) ++ lit ").".
Proof.
  intros N K. remember (91 :: A ++ 93 :: R) as b eqn:E. destruct K as [t NT|A2 c R2 N2 C|A2 D N2 P|A2 D S NA ND HA P].
  - injection E as E. elim NT. rewrite E. apply in_or_app. right. now left.
  - injection E as E. apply split_unique in E; [|exact N2|exact N]. destruct E as [-> <-]. left. eauto.
  - injection E as E. change (A2 ++ [93; 58] ++ D) with (A2 ++ 93 :: 58 :: D) in E. apply split_unique in E; [|exact N2|exact N]. destruct E as [-> <-]. right. eauto.
  - destruct A2 as [|x A2]; [discriminate|]. cbn [hd] in HA. injection E as E _. congruence.
Qed.
Lemma says_wp m m2 (K K2 : str -> Prop) : (forall msg, K msg <-> K2 msg) -> (forall Q, wp p0 m2 Q -> wp p0 m Q) -> says m2 K2 -> says m K.
Proof. intros E W H. apply (says_iff m K2 K); [intros msg; symmetry; apply E|]. now apply W. Qed.
Lemma plain_says six b A D : hd 0 b <> 91 -> layout p0 six b A D -> 
  (forall A2 D2, layout p0 six b A2 D2 -> A2 = A /\ D2 = D) -> (forall msg, ~ wrong_layout p0 six b msg) ->
  forall msg, wrong_laid six b msg <-> wrong_addresses y g p0 six A D msg.
Proof.
  intros H L U NW msg. split.
  - intros [K|(A2 & D2 & L2 & K)]; [now elim (NW msg)|]. destruct (U _ _ L2) as [-> ->]. exact K.
  - intros K. right. eauto.
Qed.
Lemma laid_unique six b A D : layout p0 six b A D -> forall A2 D2, layout p0 six b A2 D2 -> A2 = A /\ D2 = D.
Proof. intros L A2 D2 L2. exact (layout_fun p0 six b A2 D2 A D L2 L). Qed.
Lemma laid4_says b : ~ In 0 b -> ~ two_colons b -> hd 0 b <> 91 -> says (parse_address4 y g b) (wrong_laid false b).
Proof.
  intros N T H. destruct (first_char 58 b) as [N58|(A & D & -> & NA)].
  - assert (layout p0 false b b []) as L by now apply layout_plain.
    eapply says_wp; [..|apply (range_port_says b [] false N (fun x => x))].
    + apply plain_says; auto; [now apply laid_unique|]. intros msg K. apply wrong_plain_inv in K; [|exact H]. destruct K as (A & D & -> & _).
      apply N58, in_or_app. right. now left.
    + intros Q W. unfold parse_address4. wallow. wallow. now rewrite find_char_none.
  - pose proof (one_colon A D NA T) as ND. assert (hd 0 A <> 91) as HA by (destruct A; [discriminate|exact H]).
    destruct (ports_dec p0) as [P|P].
    + assert (layout p0 false (A ++ 58 :: D) A D) as L by (apply (layout_port p0 false A D); auto).
      eapply says_wp; [..|apply (range_port_says A D false)].
      * apply plain_says; auto; [now apply laid_unique|]. intros msg K. apply wrong_plain_inv in K; [|exact H]. destruct K as (_ & _ & _ & _ & _ & _ & X & _). contradiction.
      * intros Q W. unfold parse_address4. wallow. wallow. rewrite find_char_first by exact NA. apply ports_allowed_iff in P. rewrite P.
        now rewrite firstn_length_app, skipn_length_app.
      * intros I. apply N, in_or_app. now left.
      * intros I. apply N, in_or_app. right. now right.
    + unfold says, parse_address4. wallow. wallow. rewrite find_char_first by exact NA.
      destruct (no_ports p0 P) as [-> ->]. cbn [orb]. apply says_fail.
      * left. now apply (unwanted_port_four p0 false A D).
      * intros m2 [K|(A2 & D2 & L & _)].
        -- apply wrong_plain_inv in K; [|exact H]. now destruct K as (_ & _ & _ & _ & _ & _ & _ & ->).
        -- exfalso. apply layout_plain_inv in L; [|exact H]. destruct L as [([L|L] & _)|(_ & _ & _ & [L|L])]; [contradiction| |contradiction|discriminate].
           apply L, in_or_app. right. now left.
Qed.
Lemma laid6_says b : ~ In 0 b -> says (parse_address6 y g b (count_char 58 b)) (wrong_laid true b).
Proof.
  intros N. destruct (Z.eq_dec (hd 0 b) 91) as [H|H].
  - destruct b as [|c t]; [discriminate|]. cbn [hd] in H. subst c. destruct (first_char 93 t) as [N93|(A & R & -> & NA)].
    + unfold says, parse_address6. wallow. wallow. change (91 =? 91) with true. cbv iota.
      rewrite find_char_none by (intros [X|X]; [discriminate|contradiction]). apply says_fail; [left; now apply (never_closed p0 true t)|].
      intros m2 [K|(A & D & L & _)]; [now apply wrong_open_inv in K|now apply layout_open in L].
    + assert (~ In 0 A) as N0A by (intros I; apply N; right; apply in_or_app; now left).
      assert (forall X Q, (wp p0 match R with
          | [] => parse_address_range_port y g A [] true
          | c :: port_str =>
            if negb (c =? 58) then fail (lit "The IPv6 address """ ++ (91 :: A ++ 93 :: R) ++ lit """ is followed by unknown data.")
            else if negb (allow p0 ALLOW_PORT) && negb (allow p0 ALLOW_REQUIRED_PORT) then fail (lit "Port not allowed (" ++ (91 :: A ++ 93 :: R) ++ lit ").")
            else parse_address_range_port y g A port_str true end Q) -> wp p0 (parse_address6 y g (91 :: A ++ 93 :: R) X) Q) as K.
      { intros X Q K. unfold parse_address6. wallow. wallow. change (91 =? 91) with true. cbv iota.
        assert (find_char 93 (91 :: A ++ 93 :: R) = Some (length (91 :: A))) as ->.
        { apply (find_char_first 93 (91 :: A)). intros [Y|Y]; [discriminate|]. contradiction. }
        replace (skipn (length (91 :: A) + 1) (91 :: A ++ 93 :: R)) with R by (symmetry; apply (skipn_length_app (91 :: A))).
        replace (firstn (length (91 :: A) - 1) (skipn 1 (91 :: A ++ 93 :: R))) with A
          by (cbn [length skipn]; rewrite Nat.sub_succ, Nat.sub_0_r; symmetry; apply firstn_length_app).
        exact K. }
      assert (forall D, (R = [] /\ D = [] \/ R = 58 :: D /\ ports_allowed p0) -> forall msg,
        wrong_laid true (91 :: A ++ 93 :: R) msg <-> wrong_addresses y g p0 true A D msg) as E.
      { intros D HD msg. assert (layout p0 true (91 :: A ++ 93 :: R) A D) as L by (apply layout_brackets_inv; auto). split.
        - intros [W|(A2 & D2 & L2 & W)].
          + exfalso. apply wrong_brackets_inv in W; [|exact NA]. destruct W as [(c & R2 & -> & NC & _)|(D2 & -> & NP & _)], HD as [[X _]|[X P]]; congruence.
          + destruct (layout_fun _ _ _ _ _ _ _ L L2) as [<- <-]. exact W.
        - intros W. right. eauto. }
      destruct R as [|c R].
      * eapply says_wp; [..|apply (range_port_says A [] true N0A (fun x => x))].
        -- apply E. now left.
        -- intros Q W. now apply K.
      * assert (~ In 0 R) as N0R by (intros I; apply N; right; apply in_or_app; right; right; now right).
        destruct (Z.eq_dec c 58) as [->|NC].
        -- destruct (ports_dec p0) as [P|P].
           ++ eapply says_wp; [..|apply (range_port_says A R true N0A N0R)].
              ** apply E. now right.
              ** intros Q W. apply K. change (negb (58 =? 58)) with false. cbv iota. destruct (ports_allow p0 P) as [_ ->]. exact W.
           ++ apply K. change (negb (58 =? 58)) with false. cbv iota. destruct (no_ports p0 P) as [-> ->]. apply says_fail.
              ** left. now apply (unwanted_port_six p0 true A R).
              ** intros m2 [W|(A2 & D2 & L & _)].
                 --- apply wrong_brackets_inv in W; [|exact NA]. destruct W as [(c & R2 & X & Y & _)|(D2 & _ & _ & ->)]; [congruence|reflexivity].
                 --- apply layout_brackets_inv in L; [|exact NA]. destruct L as [_ [[X _]|[_ X]]]; [discriminate|contradiction].
        -- apply K. replace (negb (c =? 58)) with true by lia. apply says_fail.
           ++ left. now apply (more_data p0 true A c R).
           ++ intros m2 [W|(A2 & D2 & L & _)].
              ** apply wrong_brackets_inv in W; [|exact NA]. destruct W as [(c2 & R2 & X & Y & ->)|(D2 & X & _)]; [reflexivity|congruence].
              ** apply layout_brackets_inv in L; [|exact NA]. destruct L as [_ [[X _]|[X _]]]; congruence.
  - assert (match b with c :: _ => c =? 91 | [] => false end = false) as H91 by (destruct b; [reflexivity|cbn [hd] in H; lia]).
    assert (forall msg, ~ wrong_layout p0 true b msg) as NW.
    { intros msg K. apply wrong_plain_inv in K; [|exact H]. destruct K as (_ & _ & _ & X & _). discriminate. }
    destruct (in_dec Z.eq_dec 58 b) as [I|N58].
    + destruct (Z_le_gt_dec 2 (count_char 58 b)) as [T|T].
      * pose proof (proj2 (two_colons_count b) T) as TC. eapply says_wp; [..|apply (range_port_says b [] true N (fun x => x))].
        -- assert (layout p0 true b b []) as L by now apply layout_bare. apply plain_says; auto. now apply laid_unique.
        -- intros Q W2. unfold parse_address6. wallow. wallow. rewrite H91. now replace (count_char 58 b =? 1) with false by lia.
      * assert (~ two_colons b) as TC by (rewrite two_colons_count; lia). destruct (first_char 58 b) as [X|(A & D & -> & NA)]; [contradiction|].
        pose proof (one_colon A D NA TC) as ND.
        eapply says_wp; [..|apply (range_port_says A D true)].
        -- assert (layout p0 true (A ++ 58 :: D) A D) as L by (apply (layout_port p0 true A D); auto; destruct A; [discriminate|exact H]).
           apply plain_says; auto. now apply laid_unique.
        -- intros Q. now apply address6_port.
        -- intros I2. apply N, in_or_app. now left.
        -- intros I2. apply N, in_or_app. right. now right.
    + eapply says_wp; [..|apply (range_port_says b [] true N (fun x => x))].
      * assert (layout p0 true b b []) as L by now apply layout_plain. apply plain_says; auto. now apply laid_unique.
      * intros Q W2. unfold parse_address6. wallow. wallow. rewrite H91. now rewrite count_char_none by exact N58.
Qed.

(* ---------- the way of writing ---------- *)
Lemma way_runs b m : ~ In 0 b -> ~ In 0 m -> exists six, SpecLanguage.way p0 m b six /\ (six = false -> ~ two_colons b /\ hd 0 b <> 91)
  /\ forall Q, wp p0 (tagged (if six then parse_address6 y g b (count_char 58 b) else parse_address4 y g b) (negb six)) Q -> wp p0 (parse_address y g b m) Q.
Proof.
  intros N0 NM. destruct (Z_le_gt_dec 2 (count_char 58 b)) as [T|T].
  { pose proof (proj2 (two_colons_count b) T) as TC. exists true. split; [now apply way_colons|].
    split; [discriminate|]. cbn [negb].
    intros Q W. unfold parse_address. cbv zeta. replace (count_char 58 b >=? 2) with true by lia. exact W. }
  assert (~ two_colons b) as TC by (rewrite two_colons_count; lia).
  assert (forall Q, wp p0 (if meant_six p0 m then tagged (parse_address6 y g b (count_char 58 b)) false else tagged (parse_address4 y g b) true) Q ->
    b = [] \/ hd 0 b = 58 -> wp p0 (parse_address y g b m) Q) as K.
  { intros Q W HB. unfold parse_address. cbv zeta. replace (count_char 58 b >=? 2) with false by lia.
    assert (wp p0 match m with
        | [] => do! a4 <- ask f_default_address4 in do! a6 <- ask f_default_address6 in
                match a4, a6 with [], _ :: _ => tagged (parse_address6 y g b (count_char 58 b)) false | _, _ => tagged (parse_address4 y g b) true end
        | c :: _ => if c =? 91 then tagged (parse_address6 y g b (count_char 58 b)) false
                    else if mask_hint (c_str m) 0 >? 32 then tagged (parse_address6 y g b (count_char 58 b)) false else tagged (parse_address4 y g b) true
        end Q) as W2.
    { destruct m as [|c m'].
      - wask. wask. cbn [meant_six] in W. destruct (f_default_address4 p0), (f_default_address6 p0); exact W.
      - unfold meant_six in W. destruct (c =? 91); [exact W|]. destruct (_ >? 32); exact W. }
    destruct b as [|c b']; [exact W2|]. destruct HB as [HB|HB]; [discriminate|]. cbn [hd] in HB. subst c. exact W2. }
  assert (b = [] \/ hd 0 b = 58 \/ b <> [] /\ hd 0 b <> 58) as [HB|[HB|[NE N58]]].
  { destruct b as [|c b]; [now left|right]. destruct (Z.eq_dec (hd 0 (c :: b)) 58); [now left|right]. split; [discriminate|assumption]. }
  1,2: exists (meant_six p0 m); split; [apply way_nothing; [exact TC|auto|now apply meant_six_iff]|];
    destruct (meant_six p0 m) eqn:MS;
    [ split; [discriminate|]; intros Q W; apply K; auto
    | split; [intros _; split; [exact TC|]; first [rewrite HB; discriminate | subst b; discriminate]|]; intros Q W; apply K; auto ].
  destruct b as [|c b']; [congruence|]. set (b := c :: b') in *. cbn [hd b] in N58.
  assert ((c =? 91) || (match find_char 93 b with Some _ => true | None => false end) = true <-> hd 0 b = 91 \/ In 93 b) as E91.
  { cbn [hd b]. destruct (in_dec Z.eq_dec 93 b) as [I|I].
    - destruct (first_char 93 b) as [X|(u & v & E & NU)]; [contradiction|]. rewrite E at 1. rewrite find_char_first by exact NU. rewrite orb_true_r. split; [intros _; right; exact I|reflexivity].
    - rewrite find_char_none by exact I. rewrite orb_false_r. split; [left; lia|]. intros [H|H]; [lia|contradiction]. }
  destruct ((c =? 91) || match find_char 93 b with Some _ => true | None => false end) eqn:C91.
  - exists true. split; [apply way_brackets; auto; destruct (proj1 E91 eq_refl); tauto|].
    split; [discriminate|]. cbn [negb].
    intros Q W. unfold parse_address. cbv zeta. replace (count_char 58 b >=? 2) with false by lia.
    unfold b at 1. replace (c =? 58) with false by lia. fold b. rewrite C91. exact W.
  - assert (hd 0 b <> 91 /\ ~ In 93 b) as [H91 H93] by (split; intros H; destruct E91 as [_ E91]; discriminate E91; auto).
    assert (forall Q, wp p0 (if negb (allow p0 ALLOW_PORT) && negb (allow p0 ALLOW_REQUIRED_PORT) then
       match find_char 58 b with
       | Some p => if match find_char 46 b with Some d => (p <? d)%nat | None => true end then tagged (parse_address6 y g b (count_char 58 b)) false else tagged (parse_address4 y g b) true
       | None => tagged (parse_address4 y g b) true end else tagged (parse_address4 y g b) true) Q -> wp p0 (parse_address y g b m) Q) as K2.
    { intros Q W. unfold parse_address. cbv zeta. replace (count_char 58 b >=? 2) with false by lia.
      unfold b at 1. replace (c =? 58) with false by lia. fold b. rewrite C91. wallow. wallow. exact W. }
    assert (~ (~ ports_allowed p0 /\ colon_first b) -> SpecLanguage.way p0 m b false) as WF.
    { intros NO. apply way_brackets; auto. split; [discriminate|]. intros [H|[H|H]]; contradiction. }
    destruct (ports_dec p0) as [P|P].
    + exists false. split; [apply WF; tauto|].
      split; [now split|]. cbn [negb]. intros Q W. apply K2. destruct (ports_allow p0 P) as [_ ->]. exact W.
    + destruct (no_ports p0 P) as [P1 P2]. destruct (first_char 58 b) as [F58|(A & D & EB & NA)].
      { exists false. split; [apply WF; intros (_ & u & v & E & _); apply F58; rewrite E; apply in_or_app; right; now left|].
        split; [now split|]. cbn [negb]. intros Q W. apply K2. rewrite P1, P2. rewrite find_char_none by exact F58. exact W. }
      pose proof (colon_first_iff p0 A D NA) as CF. rewrite <- EB in CF.
      destruct (match find_char 46 b with Some d => (length A <? d)%nat | None => true end) eqn:C46.
      * exists true. split; [apply way_brackets; auto; split; [intros _; right; right; split; [exact P|now apply CF]|reflexivity]|].
        split; [discriminate|]. cbn [negb]. intros Q W. apply K2. rewrite P1, P2. cbn [negb andb].
        rewrite EB at 1. rewrite find_char_first by exact NA. rewrite C46. exact W.
      * exists false. split; [apply WF; intros [_ X]; apply CF in X; discriminate|].
        split; [now split|]. cbn [negb]. intros Q W. apply K2. rewrite P1, P2. cbn [negb andb].
        rewrite EB at 1. rewrite find_char_first by exact NA. rewrite C46. exact W.
Qed.

Lemma address_says b m : ~ In 0 b -> ~ In 0 m -> exists six, SpecLanguage.way p0 m b six
  /\ wp p0 (parse_address y g b m) (fun r ms => told ms (wrong_laid six b)
    /\ (ms = [] -> exists l, r = Ok (l, negb six) /\ laid y g p0 six b l) /\ (ms <> [] -> r = Ok ([], negb six) /\ forall l, ~ laid y g p0 six b l)).
Proof.
  intros NB NM. destruct (way_runs b m NB NM) as (six & W & F & R). exists six. split; [exact W|].
  assert (wp p0 (parse_address y g b m) (fun r ms => told ms (wrong_laid six b) /\ (ms <> [] -> r = Ok ([], negb six)))) as S1.
  { apply R. unfold tagged. wbind.
    assert (says (if six then parse_address6 y g b (count_char 58 b) else parse_address4 y g b) (wrong_laid six b)) as S.
    { destruct six; [now apply laid6_says|]. destruct (F eq_refl). now apply laid4_says. }
    eapply wp_conseq; [exact S|]. cbv beta. intros r ms [T E]. destruct r.
    2-4: split; [exact T|intros X; discriminate (E X)].
    apply wp_ret; rewrite app_nil_r. split; [exact T|]. intros X. specialize (E X). now injection E as ->. }
  destruct (way_address y g p0 TE Hconv Hg Hk b m NB NM) as (six2 & W2 & D). rewrite <- (way_fun p0 m b six six2 W W2) in D.
  eapply wp_conseq.
  - apply (wp_both p0 _ _ (fun r => exists l, r = Ok (l, negb six) /\ laid y g p0 six b l) (fun _ => forall l, ~ laid y g p0 six b l) S1).
    eapply wp_conseq; [exact D|]. cbv beta. intros r ms (l & -> & H1 & H2). split; intros E; [eauto|now apply H2].
  - cbv beta. intros r ms ((T & E) & H1 & H2). split; [exact T|]. split; [exact H1|]. intros X. split; [now apply E|now apply H2].
Qed.

(* ---------- masks ---------- *)
Lemma question_iff a t answer : mask_question g a t answer <->
  g t (dec_string (get_port a)) true (hint_socktype (get_protocol a)) (hint_protocol (get_protocol a)) = answer.
Proof.
  assert (plain_decimal (dec_string (get_port a)) (get_port a)) as P by (apply PropText.plain_dec_string; unfold get_port; pose proof (bswap16_range (sin6_port (f_address a))); lia).
  split.
  - intros (s & st & pr & S & H & E). apply hints_are in H. destruct H as [-> ->]. rewrite (plain_unique s _ _ S P) in E. exact E.
  - intros E. exists (dec_string (get_port a)), (hint_socktype (get_protocol a)), (hint_protocol (get_protocol a)). split; [exact P|]. split; [|exact E].
    unfold hint_socktype, hint_protocol. destruct (Z.eqb_spec (get_protocol a) IPPROTO_TCP) as [->|N1]; [constructor|].
    destruct (Z.eqb_spec (get_protocol a) IPPROTO_UDP) as [->|N2]; [constructor|]. now constructor.
Qed.
Lemma decimal_grows T d t n k : decimal T k -> T = d ++ t -> decimal d n -> n <= k.
Proof.
  intros (_ & F & <-) -> (ND & FD & <-). unfold decimal_value. rewrite fold_left_app. rewrite forallb_app in F. apply andb_prop in F as [_ F].
  apply number_grows; [exact F|]. apply number_grows; [exact FD|lia].
Qed.
Lemma decimal_no_bracket T n : decimal T n -> hd 0 T <> 91.
Proof. intros (NE & F & _). destruct T as [|c T]; [congruence|]. cbn [forallb hd] in *. apply andb_prop in F as [F _]. unfold is_digit in F. lia. Qed.
Lemma decimal_fun T n k : decimal T n -> decimal T k -> n = k.
Proof. intros (_ & _ & <-) (_ & _ & <-). reflexivity. Qed.
Lemma brackets_fun t u : [91] ++ t ++ [93] = [91] ++ u ++ [93] -> t = u.
Proof. intros E. injection E as E. apply app_inj_tail in E. tauto. Qed.
Lemma brackets_number t : (forall n, ~ decimal (91 :: t) n) /\ no_number (91 :: t).
Proof.
  assert (forall u n, ~ decimal (91 :: u) n) as K by (intros u n (_ & F & _); cbn in F; discriminate).
  split; [apply K|]. split; [apply K|]. intros d u n E D. destruct d as [|c d]; [destruct D; congruence|]. injection E as <- _. elim (K d n D).
Qed.
Lemma family_fun n F F2 : family n F -> family n F2 -> F = F2.
Proof. intros A B. destruct A; inversion B; reflexivity. Qed.
Lemma mask_says six T r : ~ In 0 T ->
  wp p0 (parse_mask g T (get_from r) (negb six && is_ipv4 (get_from r))) (fun _ ms => told ms (wrong_mask g p0 six T r)).
Proof.
  intros N0. set (cidr := get_from r). set (v4 := negb six && is_ipv4 cidr).
  assert (limit (negb six) r = if v4 then 32 else 128) as EL by reflexivity.
  assert (forall msg (K : str -> Prop), K msg -> (forall m2, K m2 -> m2 = msg) -> wp p0 (do! _ <- emit msg in ret cidr) (fun _ ms => told ms K)) as BAD.
  { intros msg K H U. wbind. apply wp_emit. apply wp_ret. now apply told_one. }
  assert (forall a (K : str -> Prop), (forall m2, ~ K m2) -> wp p0 (ret a) (fun (_ : res addr) ms => told ms K)) as GOOD.
  { intros a K N. apply wp_ret. now apply told_nil. }
  unfold parse_mask. destruct T as [|c0 T'] eqn:ET.
  { apply GOOD. intros m2 K. destruct K as [d t n E D L|n N F D _ _ _|NE _ _|NO A L H|NE _ _ _ _|t A L E NC|t e NO A W NE Q|ai l NO A L NE H Q F|t ai l A L E NE Q F|ai l N NO A L NE H Q F S PD|t ai l N A L E NE Q F S PD];
      try congruence; try discriminate.
    - destruct d; [|discriminate]. destruct D; congruence.
    - destruct D; congruence.
    - destruct W as [(_ & -> & _)|[_ W]]; [congruence|discriminate]. }
  rewrite <- ET in *. assert (T <> []) as NT by (subst; discriminate). assert (hd 0 T = c0) as HT by (subst; reflexivity).
  rewrite (c_str_id T N0).
  destruct (mask_number_cases T 0 ltac:(lia)) as [(A1 & A2 & A3)|[(A2 & A1 & A3)|(A2 & A1 & d & t & E & A3 & A4)]]; rewrite A2; cbv iota.
  - (* a number *)
    set (n := fold_left (fun v c => v * 10 + (c - 48)) T 0) in *.
    assert (decimal T n) as D by (split; [exact NT|]; split; [exact A1|reflexivity]).
    assert (0 <= n) as NN by (apply number_grows; [exact A1|lia]).
    assert (~ no_number T) as YN by (intros [X _]; apply (X n D)).
    assert (forall t, T <> 91 :: t) as N91 by (intros t ->; apply decimal_no_bracket in D; now elim D).
    replace (n =? -1) with false by lia. cbn [negb].
    assert (forall m2, wrong_mask g p0 six T r m2 -> (if v4 then 32 else 128) < n /\ exists F, family (if v4 then 32 else 128) F
      /\ m2 = lit "Unsupported mask size (" ++ dec_string n ++ lit ", expected " ++ F ++ lit ").") as INV.
    { intros m2 K. destruct K as [d t k E DK L|k N F DK LK PK FK|NE NO _|NO A L H|NE NO _ _ _|t A L E NC|t e NO A W NE Q|ai l NO A L NE H Q F|t ai l A L E NE Q F|ai l N NO A L NE H Q F S PD|t ai l N A L E NE Q F S PD];
        try contradiction; try (elim (N91 _ E)).
      - pose proof (decimal_grows T d t k n D E DK). lia.
      - rewrite (decimal_fun T k n DK D) in *. rewrite EL in *. split; [lia|]. exists F. split; [exact FK|].
        now rewrite (plain_unique _ _ _ PK (PropText.plain_dec_string n NN)). }
    assert ((if v4 then 32 else 128) < n -> forall F, family (if v4 then 32 else 128) F ->
       wrong_mask g p0 six T r (lit "Unsupported mask size (" ++ dec_string n ++ lit ", expected " ++ F ++ lit ").")) as MK.
    { intros L F FF. apply (mask_large g p0 six T r n (dec_string n) F); [exact D|rewrite EL; lia|now apply PropText.plain_dec_string|now rewrite EL]. }
    destruct v4; cbn [andb negb].
    + destruct (n >? 32) eqn:G.
      * apply BAD; [apply (MK ltac:(lia) _ family_four)|]. intros m2 K. destruct (INV m2 K) as (_ & F & FF & ->). now rewrite (family_fun _ _ _ FF family_four).
      * destruct (mask_bits (32 - n) ltac:(lia)) as (bits & -> & _). apply GOOD. intros m2 K. destruct (INV m2 K). lia.
    + destruct (n >? 128) eqn:G.
      * apply BAD; [apply (MK ltac:(lia) _ family_six)|]. intros m2 K. destruct (INV m2 K) as (_ & F & FF & ->). now rewrite (family_fun _ _ _ FF family_six).
      * destruct (mask_bits (128 - n) ltac:(lia)) as (bits & -> & _). apply GOOD. intros m2 K. destruct (INV m2 K). lia.
  - (* no number *)
    assert (no_number T) as NO.
    { split; [intros n (_ & F & _); congruence|]. intros d t n E (_ & F & <-). now apply (A3 d t). }
    cbn [Z.eqb negb Pos.eqb]. wallow.
    assert (forall d t n, T = d ++ t -> decimal d n -> 10000 < n -> False) as NH by (intros d t n E D L; destruct NO as [_ NO]; specialize (NO d t n E D); lia).
    assert (forall n, ~ decimal T n) as ND by (apply NO).
    assert (forall f b, 0 <= f < 16 -> allow p0 f = b -> get_allow p0 f = Ok b) as FL by (intros f b R; now apply flag).
    destruct (allow p0 ALLOW_ADDRESS_MASK) eqn:AA; apply FL in AA; try (unfold ALLOW_ADDRESS_MASK; lia); cbn [negb].
    2:{ apply BAD; [now apply mask_unwanted|]. intros m2 K.
        destruct K as [d t n E D L|n N F D _ _ _|NE _ _|NO2 A L H|NE _ A _ _|t A L E NC|t e NO2 A W NE Q|ai l NO2 A L NE H Q F|t ai l A L E NE Q F|ai l N NO2 A L NE H Q F S PD|t ai l N A L E NE Q F S PD];
          try congruence; [elim (NH d t n E D L)|elim (ND n D)]. }
    destruct v4 eqn:V4; cbn [andb negb].
    + destruct (Z.eqb_spec c0 91) as [C91|C91].
      { apply BAD; [apply mask_not_four; auto; congruence|]. intros m2 K.
        destruct K as [d t n E D L|n N F D _ _ _|NE _ A|NO2 A L H|NE _ A L H|t A L E NC|t e NO2 A W NE Q|ai l NO2 A L NE H Q F|t ai l A L E NE Q F|ai l N NO2 A L NE H Q F S PD|t ai l N A L E NE Q F S PD];
          try congruence; [elim (NH d t n E D L)|elim (ND n D)|]. exfalso. destruct W as [(_ & _ & W)|[W _]]; congruence. }
      assert (forall m2, wrong_mask g p0 six T r m2 ->
           (exists e, mask_question g cidr T (GAI_error e) /\ m2 = lit "Invalid mask in ""/" ++ T ++ lit """, error " ++ e)
        \/ (exists ai l, mask_question g cidr T (GAI_list (ai :: l)) /\ (ai_family ai <> AF_INET
              /\ m2 = lit "Incompatible address between the address and mask address (first was an IPv4 second an IPv6)."
           \/ ai_family ai = AF_INET /\ ai_addrlen ai <> 16 /\ exists N, plain_decimal N (ai_addrlen ai)
              /\ m2 = lit "Unsupported address size (" ++ N ++ lit ", expected16)."))) as INV.
      { intros m2 K.
        destruct K as [d t n E D L|n N F D _ _ _|NE _ A|NO2 A L H|NE _ A L H|t A L E NC|t e NO2 A W NE Q|ai l NO2 A L NE H Q F|t ai l A L E NE Q F|ai l N NO2 A L NE H Q F S PD|t ai l N A L E NE Q F S PD];
          try congruence; try (elim (NH d t n E D L)); try (elim (ND n D)).
        - left. exists e. destruct W as [(_ & -> & _)|[W _]]; [auto|congruence].
        - right. exists ai, l. split; [exact Q|]. left. now split.
        - right. exists ai, l. split; [exact Q|]. right. split; [exact F|]. split; [exact S|]. eauto. }
      rewrite (c_str_id T N0).
      destruct (g T (dec_string (get_port cidr)) true (hint_socktype (get_protocol cidr)) (hint_protocol (get_protocol cidr))) as [text|[|ai l]] eqn:GQ;
        apply question_iff in GQ as MQ.
      * apply BAD; [eapply mask_no_address; eauto; left; auto; split; [exact EL|]; split; [reflexivity|congruence]|]. intros m2 K. apply INV in K. destruct K as [(e & Q & ->)|(ai & l & Q & _)]; apply question_iff in Q; congruence.
      * apply Hg in GQ. destruct GQ as [GQ _]. congruence.
      * assert (forall a, mask_question g cidr T a -> a = GAI_list (ai :: l)) as UQ by (intros a X; apply question_iff in X; congruence).
        apply Hs in GQ. inversion GQ as [|x l0 SZ _]; subst x l0.
        destruct (Z.eqb_spec (ai_family ai) AF_INET) as [F4|F4]; cbn [negb].
        2:{ apply BAD; [eapply mask_other_six; eauto; congruence|]. intros m2 K. apply INV in K. destruct K as [(e & Q & ->)|(a & l2 & Q & K)]; apply UQ in Q; [discriminate|].
            injection Q as -> ->. destruct K as [[_ ->]|(K & _)]; [reflexivity|contradiction]. }
        destruct (Z.eqb_spec (ai_addrlen ai) SIZEOF_IN) as [L4|L4]; cbn [negb].
        { apply GOOD. intros m2 K. apply INV in K. destruct K as [(e & Q & ->)|(a & l2 & Q & K)]; apply UQ in Q; [discriminate|].
          injection Q as -> ->. destruct K as [[K _]|(_ & K & _)]; contradiction. }
        pose proof (PropText.plain_dec_string (ai_addrlen ai) ltac:(lia)) as PD.
        apply BAD.
        { apply (mask_size_four g p0 six T r ai l (dec_string (ai_addrlen ai))); auto. congruence. }
        intros m2 K. apply INV in K. destruct K as [(e & Q & ->)|(a & l2 & Q & K)]; apply UQ in Q; [discriminate|].
        injection Q as -> ->. destruct K as [[K _]|(_ & _ & N & PN & ->)]; [contradiction|]. now rewrite (plain_unique _ _ _ PN PD).
    + destruct (Z.eqb_spec c0 91) as [C91|C91]; cbn [negb].
      2:{ apply BAD; [apply mask_not_six; auto; congruence|]. intros m2 K.
          destruct K as [d t n E D L|n N F D _ _ _|NE _ A|NO2 A L H|NE _ A L H|t A L E NC|t e NO2 A W NE Q|ai l NO2 A L NE H Q F|t ai l A L E NE Q F|ai l N NO2 A L NE H Q F S PD|t ai l N A L E NE Q F S PD];
            try congruence; try (elim (NH d t n E D L)); try (elim (ND n D)); exfalso.
          - rewrite E in HT. cbn in HT. congruence.
          - destruct W as [(W & _)|[_ W]]; [congruence|]. rewrite W in HT. cbn in HT. congruence.
          - rewrite E in HT. cbn in HT. congruence.
          - rewrite E in HT. cbn in HT. congruence. }
      assert (forall u, T = [91] ++ u -> ((exists w, u = w ++ [93]) <-> back T = 93)) as CL.
      { intros u E. split.
        - intros (w & ->). rewrite E. unfold back. change ([91] ++ w ++ [93]) with ((91 :: w) ++ [93]). now rewrite last_last.
        - intros B. pose proof (in_brackets T ltac:(congruence) B) as E2. rewrite E in E2. injection E2 as ->. now exists (inner ([91] ++ u)). }
      assert (T = [91] ++ T') as TB by (rewrite ET, C91; reflexivity).
      destruct (Z.eqb_spec (back T) 93) as [B93|B93]; cbn [negb].
      2:{ apply BAD; [apply (mask_never_closed g p0 six T r T'); auto; intros X; apply B93; now apply (CL T' TB)|]. intros m2 K.
          destruct K as [d t n E D L|n N F D _ _ _|NE _ A|NO2 A L H|NE _ A L H|t A L E NC|t e NO2 A W NE Q|ai l NO2 A L NE H Q F|t ai l A L E NE Q F|ai l N NO2 A L NE H Q F S PD|t ai l N A L E NE Q F S PD];
            try congruence; try (elim (NH d t n E D L)); try (elim (ND n D)); exfalso; apply B93.
          - destruct W as [(W & _)|[_ W]]; [congruence|]. apply (CL _ W). eauto.
          - apply (CL _ E). eauto.
          - apply (CL _ E). eauto. }
      assert (T = [91] ++ inner T ++ [93]) as TT by (apply in_brackets; [congruence|exact B93]).
      assert (forall m2, wrong_mask g p0 six T r m2 -> inner T <> [] /\ (
           (exists e, mask_question g cidr (inner T) (GAI_error e) /\ m2 = lit "Invalid mask in ""/" ++ T ++ lit """, error " ++ e)
        \/ (exists ai l, mask_question g cidr (inner T) (GAI_list (ai :: l)) /\ (ai_family ai <> AF_INET6
              /\ m2 = lit "Incompatible address between the address and mask address (first was an IPv6 second an IPv4)."
           \/ ai_family ai = AF_INET6 /\ ai_addrlen ai <> 28 /\ exists N, plain_decimal N (ai_addrlen ai)
              /\ m2 = lit "Unsupported address size (" ++ N ++ lit ", expected 28).")))) as INV.
      { assert (forall t, T = [91] ++ t ++ [93] -> t = inner T) as UI by (intros t X; apply brackets_fun; congruence).
        intros m2 K.
        destruct K as [d t n E D L|n N F D _ _ _|NE _ A|NO2 A L H|NE _ A L H|t A L E NC|t e NO2 A W NE Q|ai l NO2 A L NE H Q F|t ai l A L E NE Q F|ai l N NO2 A L NE H Q F S PD|t ai l N A L E NE Q F S PD];
          try congruence; try (elim (NH d t n E D L)); try (elim (ND n D)).
        - elim NC. now apply (CL t E).
        - destruct W as [(W & _)|[_ W]]; [congruence|]. rewrite <- (UI t W). split; [exact NE|]. left. eauto.
        - rewrite <- (UI t E). split; [exact NE|]. right. exists ai, l. split; [exact Q|]. left. now split.
        - rewrite <- (UI t E). split; [exact NE|]. right. exists ai, l. split; [exact Q|]. right. split; [exact F|]. split; [exact S|]. eauto. }
      destruct (inner T) as [|t0 t] eqn:IT; cbn [andb].
      { apply GOOD. intros m2 K. destruct (INV m2 K) as [K2 _]. congruence. }
      rewrite <- IT in *. assert (inner T <> []) as NI by (rewrite IT; discriminate).
      assert (~ In 0 (inner T)) as N0I. { intros I. apply N0. rewrite TT. apply in_or_app. right. apply in_or_app. left. exact I. }
      rewrite (c_str_id (inner T) N0I).
      destruct (g (inner T) (dec_string (get_port cidr)) true (hint_socktype (get_protocol cidr)) (hint_protocol (get_protocol cidr))) as [text|[|ai l]] eqn:GQ;
        apply question_iff in GQ as MQ.
      * apply BAD; [eapply mask_no_address; eauto|]. intros m2 K. apply INV in K. destruct K as [_ [(e & Q & ->)|(ai & l & Q & _)]]; apply question_iff in Q; congruence.
      * apply Hg in GQ. destruct GQ as [GQ _]. congruence.
      * assert (forall a, mask_question g cidr (inner T) a -> a = GAI_list (ai :: l)) as UQ by (intros a X; apply question_iff in X; congruence).
        apply Hs in GQ. inversion GQ as [|x l0 SZ _]; subst x l0.
        destruct (Z.eqb_spec (ai_family ai) AF_INET6) as [F6|F6]; cbn [negb].
        2:{ apply BAD; [eapply mask_other_four; eauto|]. intros m2 K. apply INV in K. destruct K as [_ [(e & Q & ->)|(a & l2 & Q & K)]]; apply UQ in Q; [discriminate|].
            injection Q as -> ->. destruct K as [[_ ->]|(K & _)]; [reflexivity|contradiction]. }
        destruct (Z.eqb_spec (ai_addrlen ai) SIZEOF_IN6) as [L6|L6]; cbn [negb].
        { apply GOOD. intros m2 K. apply INV in K. destruct K as [_ [(e & Q & ->)|(a & l2 & Q & K)]]; apply UQ in Q; [discriminate|].
          injection Q as -> ->. destruct K as [[K _]|(_ & K & _)]; contradiction. }
        pose proof (PropText.plain_dec_string (ai_addrlen ai) ltac:(lia)) as PD.
        apply BAD.
        { apply (mask_size_six g p0 six T r (inner T) ai l (dec_string (ai_addrlen ai))); auto. }
        intros m2 K. apply INV in K. destruct K as [_ [(e & Q & ->)|(a & l2 & Q & K)]]; apply UQ in Q; [discriminate|].
        injection Q as -> ->. destruct K as [[K _]|(_ & _ & N & PN & ->)]; [contradiction|]. now rewrite (plain_unique _ _ _ PN PD).
  - (* too large *)
    assert (decimal d (decimal_value d)) as DD by (split; [intros ->; cbn in A4; lia|]; split; [exact A3|reflexivity]).
    assert (10000 < decimal_value d) as LD by exact A4.
    assert (~ no_number T) as YN by (intros [_ X]; specialize (X d t _ E DD); lia).
    assert (forall u, T <> 91 :: u) as N91 by (intros u X; rewrite X in A1; discriminate).
    apply BAD; [now apply (mask_huge g p0 six T r d t (decimal_value d))|]. intros m2 K.
    destruct K as [d2 t2 n E2 D2 L2|n N F D LN _ _|NE NO _|NO A L H|NE NO _ _ _|t2 A L E2 NC|t2 e NO A W NE Q|ai l NO A L NE H Q F|t2 ai l A L E2 NE Q F|ai l N NO A L NE H Q F S PD|t2 ai l N A L E2 NE Q F S PD];
      try reflexivity; try contradiction; try (elim (N91 _ E2)).
    pose proof (decimal_grows T d t _ n D E DD). lia.
Qed.

Lemma wrong_mask_alike six T r r1 msg : alike r r1 -> wrong_mask g p0 six T r msg -> wrong_mask g p0 six T r1 msg.
Proof.
  intros (A4 & AP & AR) K.
  assert (limit (negb six) r = limit (negb six) r1) as EL by (unfold limit; now rewrite A4).
  assert (forall t a, mask_question g (get_from r) t a -> mask_question g (get_from r1) t a) as EQ.
  { intros t a. rewrite !question_iff. now rewrite AP, AR. }
  destruct K as [d t n E D L|n N F D L P FF|NE NO A|NO A L H|NE NO A L H|t A L E NC|t e NO A W NE Q|ai l NO A L NE H Q F|t ai l A L E NE Q F|ai l N NO A L NE H Q F S PD|t ai l N A L E NE Q F S PD];
    rewrite ?EL in *.
  - eapply mask_huge; eassumption.
  - eapply mask_large; eassumption.
  - now apply mask_unwanted.
  - now apply mask_not_four.
  - now apply mask_not_six.
  - eapply mask_never_closed; eassumption.
  - eapply mask_no_address; eauto.
  - eapply mask_other_six; eauto.
  - eapply mask_other_four; eauto.
  - eapply mask_size_four; eauto.
  - eapply mask_size_six; eauto.
Qed.
Lemma alike_sym r r1 : alike r r1 -> alike r1 r.
Proof. intros (A & B & C). split; [now symmetry|]. split; now symmetry. Qed.
Lemma masks_say six m T : mask_used p0 six m T -> ~ In 0 T -> forall l,
  wp p0 (apply_masks g m (negb six) l) (fun res ms => wrong_masks g p0 six T l ms
    /\ forall l1 ms2, Forall2 alike l l1 -> wrong_masks g p0 six T l1 ms2 -> ms2 = ms).
Proof.
  intros U N0. induction l as [|r l IH]; cbn [apply_masks].
  { apply wp_ret. split; [constructor|]. intros l1 ms2 F K. inversion F; subst. now inversion K. }
  wbind. apply wp_ask; [reflexivity|]. rewrite (used_effective p0 six m T U). cbv beta iota. wbind.
  eapply wp_conseq.
  { apply (wp_both p0 _ _ (fun res => exists a, res = Ok a /\ gets_mask g p0 six T r (remade r a)) (fun res => (exists a, res = Ok a) /\ refused g p0 six T r) (mask_says six T r N0)).
    eapply wp_conseq; [exact (mask_decides g p0 Hg six T r N0)|]. cbv beta. intros res ms (a & -> & H1 & H2). split; intros E; eauto. }
  cbv beta. intros res ms (TM & H1 & H2).
  assert (exists a, res = Ok a) as (a & ->) by (destruct ms; [destruct (H1 eq_refl) as (a & -> & _); eauto|now destruct (H2 ltac:(discriminate))]).
  cbv beta iota. wbind. eapply wp_conseq; [exact IH|]. cbv beta. intros res ms2 [K1 K2].
  assert (wrong_masks g p0 six T (r :: l) (ms ++ ms2) /\ forall l1 ms3, Forall2 alike (r :: l) l1 -> wrong_masks g p0 six T l1 ms3 -> ms3 = ms ++ ms2) as GOAL.
  2:{ destruct res; [apply wp_ret; rewrite app_nil_r|..]; exact GOAL. }
  destruct TM as [[-> NW]|(m0 & -> & UW)].
  - destruct (H1 eq_refl) as (a2 & _ & GM). cbn [app]. split; [eapply mask_fits; eassumption|].
    intros l1 ms3 F W. inversion F as [|x r1 l0 l1' A F2]; subst. inversion W as [|x r2 l0 ms0 G W2|x msg l0 ms0 WM W2]; subst; [eapply K2; eassumption|].
    exfalso. apply (NW msg). eapply wrong_mask_alike; [apply alike_sym; exact A|exact WM].
  - destruct (H2 ltac:(discriminate)) as [_ RF]. cbn [app]. split; [apply mask_wrong; [now apply UW|exact K1]|].
    intros l1 ms3 F W. inversion F as [|x r1 l0 l1' A F2]; subst. inversion W as [|x r2 l0 ms0 G W2|x msg l0 ms0 WM W2]; subst; [elim (RF r1 r2 A G)|].
    f_equal; [|eapply K2; eassumption]. apply UW. eapply wrong_mask_alike; [apply alike_sym; exact A|exact WM].
Qed.
Lemma complaint_iff s b m six ms : slashed p0 s b m -> SpecLanguage.way p0 m b six ->
  complaint y g p0 s ms <-> (exists msg, ms = [msg] /\ wrong_laid six b msg)
    \/ get_allow p0 ALLOW_MASK = Ok true /\ ms <> [] /\ exists l T, laid y g p0 six b l /\ mask_used p0 six m T /\ wrong_masks g p0 six T l ms.
Proof.
  intros C W. split.
  - intros K. destruct K as [b2 m2 six2 msg C2 W2 K|b2 m2 six2 A D msg C2 W2 L K|b2 m2 six2 A D l T ms C2 W2 L AD GM U K NE];
      destruct (cut_fun p0 s b m b2 m2 C C2) as [<- <-]; pose proof (way_fun p0 m b six six2 W W2); subst six2.
    + left. exists msg. split; [reflexivity|]. now left.
    + left. exists msg. split; [reflexivity|]. right. eauto.
    + right. split; [exact GM|]. split; [exact NE|]. exists l, T. split; [exists A, D; now split|]. now split.
  - intros [(msg & -> & [K|(A & D & L & K)])|(GM & NE & l & T & (A & D & L & AD) & U & K)].
    + eapply about_layout; eassumption.
    + eapply about_addresses; eassumption.
    + eapply about_mask; eassumption.
Qed.
(* No message and no reason, or the messages which are the only ones. *)
Definition heard (ms : list str) (K : list str -> Prop) : Prop :=
  ms = [] /\ (forall m2, ~ K m2) \/ ms <> [] /\ forall m2, K m2 <-> m2 = ms.
Lemma cidr_says s : ~ In 0 s -> plain_text s -> wp p0 (parse_cidr y g s) (fun r ms => heard ms (complaint y g p0 s) /\ (ms <> [] -> allow p0 ALLOW_MASK = false -> r = Ok [])).
Proof.
  intros N0 PT. assert (trim_string s = s) as TS by (destruct PT as [->|T]; [reflexivity|now apply trimmed_trim]).
  destruct (allow p0 ALLOW_MASK) eqn:AM; pose proof (allowed_is p0 ALLOW_MASK _ ltac:(unfold ALLOW_MASK; lia) AM) as GM.
  - eapply (wp_conseq _ _ (fun r ms => heard ms (complaint y g p0 s))); [|cbv beta; intros r ms H; split; [exact H|congruence]].
    assert (exists b m, slashed p0 s b m /\ split_mask s = (b, m) /\ ~ In 0 b /\ ~ In 0 m) as (b & m & C & SM & NB & NM).
    { destruct (first_char 47 s) as [N47|(b & m & -> & NB)].
      - exists s, []. split; [now apply cut_none|]. split; [now apply split_mask_none|]. split; [exact N0|intros []].
      - exists b, m. split; [now apply cut_mask|]. split; [now apply split_mask_some|]. split; intros I; apply N0, in_or_app; [now left|right; now right]. }
    destruct (address_says b m NB NM) as (six & W & AD). destruct (used_some p0 six m) as [T U]. pose proof (used_nul p0 TE six m T NM U) as NT.
    rewrite <- TS in SM. apply (cidr_with_mask y g p0 s b m); auto. unfold masked. wbind.
    eapply wp_conseq; [exact AD|]. cbv beta. intros r ms (TO & L1 & L2).
    assert (forall T2, mask_used p0 six m T2 -> T2 = T) as UT by (intros T2 U2; apply used_effective in U, U2; congruence).
    destruct TO as [[-> NOL]|(m0 & -> & UL)].
    + destruct (L1 eq_refl) as (l & -> & LA). cbv beta iota.
      assert (forall l2, laid y g p0 six b l2 -> Forall2 alike l l2) as AL.
      { intros l2 (A2 & D2 & LL2 & AD2). destruct LA as (A & D & LL & AD1). destruct (layout_fun _ _ _ _ _ _ _ LL LL2) as [<- <-].
        exact (addresses_alike y g p0 TE six A D l l2 AD1 AD2). }
      eapply wp_conseq; [exact (masks_say six m T U NT l)|].
      cbv beta. intros res ms2 (K & K1). cbn [app]. destruct ms2 as [|m1 ms2].
      * left. split; [reflexivity|]. intros m2 CO. apply (complaint_iff s b m six m2 C W) in CO. destruct CO as [(msg & _ & WL)|(_ & NE & l2 & T2 & LL & U2 & WM)]; [elim (NOL msg WL)|].
        rewrite (UT T2 U2) in WM. apply NE. exact (K1 l2 m2 (AL l2 LL) WM).
      * right. split; [discriminate|]. intros m2. rewrite (complaint_iff s b m six m2 C W). split.
        -- intros [(msg & _ & WL)|(_ & NE & l2 & T2 & LL & U2 & WM)]; [elim (NOL msg WL)|]. rewrite (UT T2 U2) in WM. exact (K1 l2 m2 (AL l2 LL) WM).
        -- intros ->. right. split; [exact GM|]. split; [discriminate|]. exists l, T. split; [exact LA|]. split; [exact U|exact K].
    + destruct (L2 ltac:(discriminate)) as [-> NL]. cbv beta iota. cbn [apply_masks]. apply wp_ret. rewrite app_nil_r.
      right. split; [discriminate|]. intros m2. rewrite (complaint_iff s b m six m2 C W). split.
      * intros [(msg & -> & WL)|(_ & NE & l2 & T2 & LL & _)]; [|elim (NL l2 LL)]. f_equal. now apply UL.
      * intros ->. left. exists m0. split; [reflexivity|]. now apply UL.
  - destruct (address_says s [] N0 ltac:(auto)) as (six & W & AD). apply cidr_without_mask; [exact AM|]. rewrite TS. wbind.
    eapply wp_conseq; [exact AD|]. cbv beta. intros r ms (TO & L1 & L2).
    assert (heard ms (complaint y g p0 s)) as TC.
    { destruct TO as [[-> NOL]|(m0 & -> & UL)]; [left|right].
      - split; [reflexivity|]. intros m2 CO. apply (complaint_iff s s [] six m2 (cut_forbidden _ _ GM) W) in CO. destruct CO as [(msg & _ & WL)|[X _]]; [elim (NOL msg WL)|congruence].
      - split; [discriminate|]. intros m2. rewrite (complaint_iff s s [] six m2 (cut_forbidden _ _ GM) W). split.
        + intros [(msg & -> & WL)|[X _]]; [|congruence]. f_equal. now apply UL.
        + intros ->. left. exists m0. split; [reflexivity|]. now apply UL. }
    destruct ms as [|m0 ms].
    + destruct (L1 eq_refl) as (l & -> & _). cbv beta iota. apply wp_ret. split; [exact TC|intros Z0; now elim Z0].
    + destruct (L2 ltac:(discriminate)) as [-> _]. cbv beta iota. apply wp_ret. rewrite app_nil_r. split; [exact TC|reflexivity].
Qed.

(* ---------- whole texts ---------- *)
Lemma cidr_both s : ~ In 0 s -> plain_text s -> wp p0 (parse_cidr y g s) (fun r ms => heard ms (complaint y g p0 s)
  /\ (ms = [] -> exists l, r = Ok l /\ accepted y g p0 s l) /\ (ms <> [] -> r = Ok [] /\ forall l, ~ accepted y g p0 s l)).
Proof.
  intros N0 PT. eapply wp_conseq.
  - apply (wp_both p0 _ _ (fun r => exists l, r = Ok l /\ accepted y g p0 s l)
      (fun r => (allow p0 ALLOW_MASK = true -> r = Ok []) /\ forall l, ~ accepted y g p0 s l) (cidr_says s N0 PT)).
    eapply wp_conseq; [exact (cidr_decides y g p0 TE Hconv Hg Hk s N0 PT)|]. cbv beta. intros r ms (l & -> & H1 & H2). split; intros E; [eauto|].
    destruct (H2 E) as [H3 H4]. split; [|exact H3]. intros X. rewrite H4; [reflexivity|]. now right.
  - cbv beta. intros r ms ((H & HR) & H1 & H2). split; [exact H|]. split; [exact H1|]. intros E. destruct (H2 E) as [K1 K2]. split; [|exact K2].
    destruct (allow p0 ALLOW_MASK); auto.
Qed.
Lemma heard_report ms s r : heard ms (complaint y g p0 s) -> plain_text s ->
  (ms = [] -> exists l, r = Ok l /\ accepted y g p0 s l) ->
  forall b1 b2, Forall blank b1 -> Forall blank b2 -> report y g p0 (b1 ++ s ++ b2) ms.
Proof.
  intros T PT H b1 b2 F1 F2. destruct T as [[-> _]|(NE & U)].
  - destruct (H eq_refl) as (l & _ & A). now apply (report_nothing y g p0 b1 s b2 l).
  - apply report_messages; auto. now apply U.
Qed.
Lemma one_report t e : ~ In 0 t -> trim_string t = trim_string e ->
  wp p0 (parse_cidr y g e) (fun r ms => (exists l, r = Ok l) /\ report y g p0 t ms).
Proof.
  intros N E. rewrite cidr_trim, <- E. destruct (trim_parts t) as (b1 & b2 & F1 & F2 & ET & PT). set (T := trim_string t) in *.
  assert (~ In 0 T) as NT by (intros I; apply N; now apply trim_in).
  eapply wp_conseq; [exact (cidr_both T NT PT)|]. cbv beta. intros r ms (TO & H1 & H2). split.
  - destruct ms; [destruct (H1 eq_refl) as (l & -> & _); eauto|]. destruct (H2 ltac:(discriminate)) as [-> _]. eauto.
  - rewrite ET. eapply heard_report; eassumption.
Qed.
Lemma all_reports ts es : Forall2 (fun t e => trim_string t = trim_string e) ts es -> (forall t, In t ts -> ~ In 0 t) ->
  wp p0 (one_after_the_other (parse_cidr y g) es) (fun r ms => (exists l, r = Ok l) /\ exists mss, ms = concat mss /\ Forall2 (report y g p0) ts mss).
Proof.
  intros F. induction F as [|t e ts es E F IH]; intros N.
  - eapply wp_ext; [|apply wp_ret]; [reflexivity|]. split; [eauto|]. exists []. split; [reflexivity|constructor].
  - apply (wp_ext p0 _ (do! a <- parse_cidr y g e in do! b <- one_after_the_other (parse_cidr y g) es in ret (a ++ b))).
    { intros p. rewrite one_cons. unfold bind, ret. destruct (parse_cidr y g e p) as [p1 [a|x| |]]; reflexivity. }
    wbind. eapply wp_conseq; [apply (one_report t e); [apply N; now left|exact E]|]. cbv beta. intros r ms ((l & ->) & R). cbv beta iota.
    wbind. eapply wp_conseq; [apply IH; intros t2 I; apply N; now right|]. cbv beta. intros r ms2 ((l2 & ->) & mss & -> & RS). cbv beta iota.
    apply wp_ret. rewrite app_nil_r. split; [eauto|]. exists (ms :: mss). split; [reflexivity|now constructor].
Qed.
Lemma logged_with ms : logged p0 ms (with_errors p0 (f_error p0 ++ flat ms) (f_error_count p0 + Z.of_nat (length ms))).
Proof. split; [now destruct p0|]. split; reflexivity. Qed.
Lemma reports s ts : unsorted p0 -> entries_of p0 s ts -> ~ In 0 s ->
  exists p2 l mss, parse y g s p0 = (p2, Ok l) /\ Forall2 (report y g p0) ts mss /\ logged p0 (concat mss) p2.
Proof.
  intros U E N0. destruct (entries_parsed y g p0 s ts U E) as (es & -> & F).
  destruct (all_reports ts es F) as (ms & r & EQ & (l & ->) & mss & -> & RS).
  { intros t It I. apply N0. eapply entries_in; eassumption. }
  specialize (EQ (f_error p0) (f_error_count p0)). rewrite with_errors_self in EQ. rewrite EQ. eexists _, l, mss. split; [reflexivity|]. split; [exact RS|].
  apply logged_with.
Qed.
Lemma one_entry_message s : takes_one p0 -> ~ In 0 s -> plain_text s ->
  (exists l, parse y g s p0 = (p0, Ok l) /\ accepted y g p0 s l /\ forall ms, ~ complaint y g p0 s ms)
  \/ exists ms p2, parse y g s p0 = (p2, Ok []) /\ (forall l, ~ accepted y g p0 s l) /\ ms <> [] /\ (forall m2, complaint y g p0 s m2 <-> m2 = ms) /\ logged p0 ms p2.
Proof.
  intros [NS NC US] N0 PT.
  assert (forall ms l, parse_cidr y g s p0 = (with_errors p0 (f_error p0 ++ flat ms) (f_error_count p0 + Z.of_nat (length ms)), Ok l) ->
    parse y g s p0 = (with_errors p0 (f_error p0 ++ flat ms) (f_error_count p0 + Z.of_nat (length ms)), Ok l)) as K.
  { intros ms l E. rewrite (parse_one y g s p0 NS NC PT). unfold bind. rewrite E. unfold ask, lift. cbn [f_sort with_errors].
    now rewrite arrange_unsorted by exact US. }
  destruct (cidr_both s N0 PT) as (ms & r & E & TO & H1 & H2). specialize (E (f_error p0) (f_error_count p0)). rewrite with_errors_self in E.
  destruct TO as [[-> N]|(NE & U)].
  - left. destruct (H1 eq_refl) as (l & -> & A). apply K in E. exists l. split; [|now split]. rewrite E. f_equal. cbn [flat length]. rewrite app_nil_r, Z.add_0_r. apply with_errors_self.
  - right. destruct (H2 NE) as [-> NA]. apply K in E. eexists ms, _. split; [exact E|]. split; [exact NA|]. split; [exact NE|]. split; [exact U|]. apply logged_with.
Qed.

(* Numbers have one address, and so one message. *)
Lemma found_single six X D l : get_allow p0 ALLOW_ADDRESS_LOOKUP = Ok false -> found y g p0 six X D l -> exists r, l = [r].
Proof. intros LK F. destruct F as [H v n d r a L _ _ _ _|H d ais rs L _ _ _ _]; [eauto|congruence]. Qed.
Lemma addresses_short six X D l : get_allow p0 ALLOW_ADDRESS_LOOKUP = Ok false -> addresses y g p0 six X D l -> l = [] \/ exists r, l = [r].
Proof.
  intros LK A. destruct A as [A D l _ F|A B D a b r _ _ _ _ _ _|A B D a b _ _ _ _ _ _|A D a r _ _ _ _|B D a r _ _ _]; eauto.
  right. eapply found_single; eassumption.
Qed.
Lemma complaint_one s ms : get_allow p0 ALLOW_ADDRESS_LOOKUP = Ok false \/ get_allow p0 ALLOW_MASK = Ok false -> complaint y g p0 s ms -> exists msg, ms = [msg].
Proof.
  intros O K. destruct K as [b m six msg _ _ _|b m six A D msg _ _ _ _|b m six A D l T ms _ _ _ AD GM _ W NE]; [eauto..|].
  destruct O as [LK|GM2]; [|congruence]. destruct (addresses_short six A D l LK AD) as [->|(r & ->)]; inversion W as [|x r2 l0 ms0 G W2|x msg l0 ms0 WM W2]; subst; try congruence.
  - inversion W2; subst. congruence.
  - inversion W2; subst. eauto.
Qed.
End Messages.
