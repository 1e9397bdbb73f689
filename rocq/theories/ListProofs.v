(* Proofs for C144: an entry means the same alone and in a list. *)
From Coq Require Import ZifyBool ZifyNat.
From Verif Require Import Base Addr Range Spec SpecRange Inet SpecText Parser SpecParser SpecParser2 SpecParser4 SpecLanguage SpecModes SpecLists.
From Verif Require IfaceHeapProofs ParserProofs3 PropParser9 PropParser10.
Import IfaceHeapProofs ParserProofs3 PropParser9 PropParser10.
Local Open Scope Z_scope.

(* Two parsers which agree on all that the meaning of an entry depends on. *)
Record agree (p q : parser) : Prop := mk_agree {
  ag_allow : forall f, In f [ALLOW_REQUIRED_ADDRESS; ALLOW_ADDRESS_LOOKUP; ALLOW_ADDRESS_RANGE; ALLOW_PORT; ALLOW_REQUIRED_PORT;
    ALLOW_MASK; ALLOW_ADDRESS_MASK] -> get_allow p f = get_allow q f;
  ag_a4 : get_default_address4 p = get_default_address4 q;
  ag_a6 : get_default_address6 p = get_default_address6 q;
  ag_m4 : get_default_mask4 p = get_default_mask4 q;
  ag_m6 : get_default_mask6 p = get_default_mask6 q;
  ag_protocol : parser_get_protocol p = parser_get_protocol q;
  ag_port : get_default_port p = get_default_port q;
  ag_sort : get_sort_order p = get_sort_order q
}.
Lemma agree_sym p q : agree p q -> agree q p.
Proof. intros [A B C D E F G H]. constructor; auto. intros f I. symmetry. now apply A. Qed.

Section Agree.
Variables (y : sys) (g : resolver) (p q : parser).
Hypothesis AG : agree p q.
Ltac flag := let H := fresh in intros H; rewrite <- H; symmetry; apply (ag_allow _ _ AG); cbn; tauto.
Lemma al f b : In f [ALLOW_REQUIRED_ADDRESS; ALLOW_ADDRESS_LOOKUP; ALLOW_ADDRESS_RANGE; ALLOW_PORT; ALLOW_REQUIRED_PORT;
    ALLOW_MASK; ALLOW_ADDRESS_MASK] -> get_allow p f = Ok b -> get_allow q f = Ok b.
Proof. intros I <-. symmetry. now apply (ag_allow _ _ AG). Qed.
Ltac fl := match goal with H : get_allow p ?f = Ok ?b |- get_allow q ?f = Ok ?b => apply al; [cbn; tauto|exact H] end.
Lemma ag_ports : ports_allowed p <-> ports_allowed q.
Proof.
  unfold ports_allowed. rewrite (ag_allow _ _ AG ALLOW_PORT), (ag_allow _ _ AG ALLOW_REQUIRED_PORT) by (cbn; tauto). tauto.
Qed.
Lemma ag_slashed s b m : slashed p s b m -> slashed q s b m.
Proof. intros [s' F|s' F N|b' m' F N]; constructor; auto; fl. Qed.
Lemma ag_six m : means_six p m <-> means_six q m.
Proof. unfold means_six. now rewrite (ag_a4 _ _ AG), (ag_a6 _ _ AG). Qed.
Lemma ag_way m b six : SpecLanguage.way p m b six -> SpecLanguage.way q m b six.
Proof.
  intros [b' T|b' six' T N E|b' six' T N1 N2 E]; [now constructor| |].
  - apply way_nothing; auto. now rewrite <- ag_six.
  - apply way_brackets; auto. now rewrite <- ag_ports.
Qed.
Lemma ag_layout six b A D : layout p six b A D -> layout q six b A D.
Proof. intros L. destruct L; constructor; auto; rewrite <- ag_ports; assumption. Qed.
Lemma ag_port_text D n b : port_text y p D n b -> port_text y q D n b.
Proof.
  intros P. destruct P as [D n N C R PA|F E|F F2 E].
  - apply port_written; auto. now rewrite <- ag_ports.
  - apply port_missing; [fl|]. now rewrite <- (ag_port _ _ AG).
  - rewrite (ag_port _ _ AG) in *. apply port_from_default; auto; fl.
Qed.
Lemma ag_default six D : default_for p six D -> default_for q six D.
Proof. unfold default_for. now rewrite (ag_a4 _ _ AG), (ag_a6 _ _ AG). Qed.
Lemma ag_address six A H v : address_text p six A H v -> address_text q six A H v.
Proof. intros X. destruct X; [now constructor|]. apply address_default; auto; [fl|now apply ag_default]. Qed.
Lemma ag_host six A H : host_text p six A H -> host_text q six A H.
Proof. intros [X|(X & F & D)]; [now left|right]. split; [exact X|]. split; [fl|now apply ag_default]. Qed.
Lemma ag_stands v n b H a : stands_for p v n b H a -> stands_for q v n b H a.
Proof. intros [A B C D E F G]. constructor; auto. now rewrite <- (ag_protocol _ _ AG). Qed.
Lemma ag_asked A P b an : asked g p A P b an -> asked g q A P b an.
Proof.
  intros (S & st & pr & SO & H & E). exists S, st, pr. rewrite (ag_protocol _ _ AG) in H. split; [|now split].
  destruct SO as [S N0 N|D P O F ND PD|P O F ND].
  - now constructor.
  - rewrite (ag_port _ _ AG) in *. apply service_default; auto. fl.
  - rewrite (ag_port _ _ AG) in *. apply service_zero; auto. fl.
Qed.
Lemma ag_found six A D l : found y g p six A D l -> found y g q six A D l.
Proof.
  intros F. destruct F as [H v n given r a F AT PT ST R|H given ais rs F HT AK US AN].
  - eapply found_number; [fl|apply ag_address; eassumption|apply ag_port_text; eassumption|apply ag_stands; eassumption|exact R].
  - eapply found_names; [fl|apply ag_host; eassumption|apply ag_asked; eassumption|exact US|exact AN].
Qed.
Lemma ag_found_one six A D a : found_one y g p six A D a -> found_one y g q six A D a.
Proof. intros (N & r & rest & F & X). split; [exact N|]. exists r, rest. split; [now apply ag_found|exact X]. Qed.
Lemma ag_addresses six A D l : addresses y g p six A D l -> addresses y g q six A D l.
Proof.
  intros X. destruct X as [A D l [N|F] L|A B D a b r F N FA FB O R|A B D a b F N FA FB O R|A D a r F N FA R|B D a r F FA R].
  - apply no_range; [now left|now apply ag_found].
  - apply no_range; [right; fl|now apply ag_found].
  - rewrite (ag_sort _ _ AG) in O. eapply both_ends; try (apply ag_found_one; eassumption); auto. fl.
  - rewrite (ag_sort _ _ AG) in R. eapply inverted; try (apply ag_found_one; eassumption); auto. fl.
  - eapply first_only; try (apply ag_found_one; eassumption); auto. fl.
  - eapply last_only; try (apply ag_found_one; eassumption); auto. fl.
Qed.
Lemma ag_used six m T : mask_used p six m T -> mask_used q six m T.
Proof.
  intros X. destruct X.
  - now constructor.
  - rewrite (ag_m4 _ _ AG). now constructor.
  - rewrite (ag_m6 _ _ AG) in *. now constructor.
  - rewrite (ag_m6 _ _ AG) in *. now constructor.
Qed.
Lemma ag_gets six T r r2 : gets_mask g p six T r r2 -> gets_mask g q six T r r2.
Proof.
  intros X. destruct X as [r|r L F|m n r r2 D N M|m ai r r2 L F N NN H MA FA LA M|t ai r r2 L F N MA FA LA M].
  - constructor.
  - constructor; [exact L|fl].
  - now apply gets_number with n.
  - apply gets_four with ai; auto. fl.
  - apply gets_six with ai; auto. fl.
Qed.
Lemma ag_accepted s l : accepted y g p s l -> accepted y g q s l.
Proof.
  intros [s' b m six A D T l1 l2 SL W L AD M].
  apply (accepted_entry y g q s' b m six A D T l1 l2); [now apply ag_slashed|now apply ag_way|now apply ag_layout|now apply ag_addresses|].
  destruct M as [[F E]|(F & U & G)]; [left|right].
  - split; [fl|exact E].
  - split; [fl|]. split; [now apply ag_used|]. clear - G AG. induction G; constructor; auto. now apply ag_gets.
Qed.
Lemma ag_takes : takes_entries p -> takes_entries q.
Proof.
  intros [A B (C1 & C2 & C3 & C4)]. constructor.
  - rewrite <- (ag_protocol _ _ AG). intros F. apply A. rewrite <- F. apply (ag_allow _ _ AG). cbn. tauto.
  - now rewrite <- (ag_port _ _ AG).
  - rewrite <- (ag_a4 _ _ AG), <- (ag_a6 _ _ AG), <- (ag_m4 _ _ AG), <- (ag_m6 _ _ AG). auto.
Qed.
End Agree.

(* ---------- the parser without lists ---------- *)
Definition off (fl : list bool) : list bool :=
  upd (upd (upd (upd (upd fl 2 false) 3 false) 4 false) 11 false) 12 false.
Lemma alone_eq p : alone p = with_flags p (off (f_flags p)).
Proof. destruct p. reflexivity. Qed.
Lemma nth_upd_false (l : list bool) i : nth i (upd l i false) false = false.
Proof. revert i. induction l as [|b l IH]; intros [|i]; cbn [upd nth]; auto. Qed.
Lemma off_nth fl n : nth n (off fl) false = if existsb (Nat.eqb n) [2; 3; 4; 11; 12]%nat then false else nth n fl false.
Proof.
  unfold off. cbn [existsb].
  repeat match goal with |- context [upd ?l ?k false] => lazymatch goal with
    |- nth n (upd l k false) false = _ => destruct (Nat.eqb_spec n k) as [->|]; [rewrite nth_upd_false; now rewrite ?orb_true_r|rewrite nth_upd_other by auto] end end.
  cbn [orb]. reflexivity.
Qed.
Lemma alone_allow p f : get_allow (alone p) f
  = if existsb (Z.eqb f) [2; 3; 4; 11; 12] then Ok false else get_allow p f.
Proof.
  rewrite alone_eq. unfold get_allow, ALLOW_max. destruct ((f <? 0) || (f >=? 16)) eqn:R.
  - destruct (existsb (Z.eqb f) [2; 3; 4; 11; 12]) eqn:E; [|reflexivity]. cbn [existsb] in E. lia.
  - unfold allow. cbn [with_flags f_flags]. rewrite off_nth.
    replace (existsb (Nat.eqb (Z.to_nat f)) [2; 3; 4; 11; 12]%nat) with (existsb (Z.eqb f) [2; 3; 4; 11; 12]).
    + now destruct (existsb (Z.eqb f) _).
    + cbn [existsb]. lia.
Qed.
Lemma alone_agree p : agree p (alone p).
Proof.
  constructor; try (rewrite alone_eq; reflexivity). intros f I. rewrite alone_allow.
  cbn in I. destruct I as [<-|[<-|[<-|[<-|[<-|[<-|[<-|[]]]]]]]]; reflexivity.
Qed.
Lemma alone_one p : unsorted p -> takes_one (alone p).
Proof.
  intros U. constructor.
  - intros c [[H _]|[[H _]|[H _]]]; rewrite alone_allow in H; discriminate.
  - intros c [[H _]|[H _]]; rewrite alone_allow in H; discriminate.
  - rewrite alone_eq. exact U.
Qed.

(* ---------- the pieces of a list ---------- *)
Lemma separated_in sep ts c : In c (separated sep ts) -> In c sep \/ exists t, In t ts /\ In c t.
Proof.
  induction ts as [|t ts IH]; cbn [separated]; [easy|]. destruct ts as [|t2 ts].
  - intros H. right. exists t. split; [now left|exact H].
  - rewrite !in_app_iff. intros [H|[H|H]]; [right; exists t; split; [now left|exact H]|now left|].
    destruct (IH H) as [X|(u & I & X)]; [now left|]. right. exists u. split; [now right|exact X].
Qed.
Lemma separated_pieces (sep : Z -> Prop) w ts : w <> [] -> Forall sep w ->
  Forall (fun t => t <> [] /\ Forall (fun c => ~ sep c) t) ts -> pieces sep (separated w ts) ts.
Proof.
  intros NE FW. induction ts as [|t ts IH]; intros F; [constructor; constructor|]. inversion F as [|? ? [NT FT] F2]; subst.
  cbn [separated]. destruct ts as [|t2 ts].
  - now apply pieces_single.
  - specialize (IH F2). change (t ++ w ++ separated w (t2 :: ts)) with ([] ++ t ++ (w ++ separated w (t2 :: ts))).
    constructor; auto.
    + right. destruct w as [|c w]; [congruence|]. exists c, (w ++ separated (c :: w) (t2 :: ts)). split; [reflexivity|]. now inversion FW.
    + clear - FW IH. set (s := separated w (t2 :: ts)) in *. clearbody s. inversion IH as [s' FS|seps piece rest l FS NP NS B R E]; subst.
      rewrite app_assoc. constructor; auto. now apply Forall_app.
Qed.

Lemma list_of_entries y g p w ts ls : reads_lists p -> converts_decimals y -> resolver_ok g -> lookup_known g p ->
  w <> [] -> Forall (separator p) w -> Forall (one_of_list p) ts ->
  Forall2 (fun t l => parse y g t (alone p) = (alone p, Ok l)) ts ls ->
  exists l2, parse y g (separated w ts) p = (p, Ok (concat l2)) /\ Forall2 (Forall2 same_range) ls l2.
Proof.
  intros [SP LI U TE] HC HG HK NW FW OL FP.
  assert (Forall2 (accepted y g p) ts ls) as AC.
  { clear - FP OL TE HC HG HK U. induction FP as [|t l ts ls E FP IH]; constructor; inversion OL as [|? ? (T & N0 & _) OL2]; subst; [|now apply IH].
    destruct (C122_only_these y g (alone p) t (alone p) l) as [_ A]; auto.
    - now apply alone_one.
    - apply (ag_takes p); [apply alone_agree|exact TE].
    - rewrite alone_allow. exact HK.
    - now right.
    - apply (ag_accepted y g (alone p) p); [apply agree_sym, alone_agree|exact A]. }
  assert (entries_of p (separated w ts) ts) as EN.
  { assert (filter nonempty_str ts = ts) as <-.
    { clear - OL. induction OL as [|t ts (T & _) OL IH]; [reflexivity|]. cbn [filter]. destruct t as [|c t]; [destruct T; congruence|]. cbn. now rewrite IH. }
    assert (filter nonempty_str ts = ts) as E.
    { clear - OL. induction OL as [|t ts (T & _) OL IH]; [reflexivity|]. cbn [filter]. destruct t as [|c t]; [destruct T; congruence|]. cbn. now rewrite IH. }
    rewrite E at 1. apply each_piece with ts; auto.
    - apply separated_pieces; auto. eapply Forall_impl; [|exact OL]. intros t (T & _ & C). split; [apply T|]. apply Forall_forall. intros c I. now apply C.
    - clear - OL. induction OL as [|t ts (T & _ & C) OL IH]; constructor; auto. split; [|now left]. apply Forall_forall. intros c I. now apply C. }
  destruct (C123_lists y g p (separated w ts) ts U TE HC HG HK) as (p2 & vs & EP & V & _ & Z); [|exact EN|].
  { intros I. apply separated_in in I as [I|(t & I & I2)].
    - rewrite Forall_forall in FW. destruct (FW _ I) as [[_ X]|[[_ X]|[_ X]]]; discriminate.
    - rewrite Forall_forall in OL. destruct (OL _ I) as (_ & N & _). contradiction. }
  assert (Forall2 (fun l v => Forall2 same_range l (fst v) /\ snd v = true) ls vs) as FV.
  { clear - V AC OL TE. revert ls AC. induction V as [|t v ts vs VT V IH]; intros ls AC; inversion AC as [|? l ? ls' A AC2]; subst; constructor; inversion OL as [|? ? (T & _) OL2]; subst; [|now apply IH].
    remember t as u eqn:EU in VT. destruct VT as [b1 x b2 l2 F1 PT F2 AX|b1 x b2 l2 F1 PT F2 N1 N2].
    - assert (x = t) as -> by (apply (plain_unique_text b1 x b2 [] t []); auto; [now right|cbn [app]; now rewrite app_nil_r]).
      split; [|reflexivity]. now apply (C122_one_meaning y g p t l l2 TE).
    - assert (x = t) as -> by (apply (plain_unique_text b1 x b2 [] t []); auto; [now right|cbn [app]; now rewrite app_nil_r]).
      elim (N1 l A). }
  rewrite Z in EP.
  - exists (map fst vs). split; [exact EP|]. clear - FV. induction FV as [|l v ls vs [X _] FV IH]; constructor; auto.
  - intros v I. clear - FV I. induction FV as [|l x ls vs [_ X] FV IH]; [destruct I|]. destruct I as [<-|I]; auto.
Qed.
