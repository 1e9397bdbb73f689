(* Property C155: what the resolver is asked. *)
From Coq Require Import ZifyBool ZifyNat.
From Verif Require Import Base Addr Spec Range SpecRange Inet SpecText AddrText Parser SpecParser SpecParser2 SpecParser4 Lookups.
From Verif Require Import ParserProofs ParserProofs2 ParserProofs3 ParserProofs4 ParserProofs5 ParserProofs7 ParserProofs8
  ParserProofs9 ParserProofs10 DottedProofs ParserProofs12 ParserProofs13 ParserProofs15 ValidatorProofs LookupProofs.
From Verif Require ValidateProofs AddrProofs2 AddrProofs4 PropText PropParser PropParser8 PropValidator.
Local Open Scope Z_scope.

(* ---------- specification ---------- *)
(* t is a part of s. *)
Definition part_of (t s : str) : Prop := exists a b, s = a ++ t ++ b.
(* What the system sees of the text h: it ends at a NUL. *)
Definition before_nul (h t : str) : Prop := ~ In 0 t /\ (h = t \/ exists u, h = t ++ 0 :: u).
(* A text which was written in s, in one entry and not in a comment. *)
Record taken_from (p : parser) (s t : str) : Prop := mk_taken_from {
  tf_some : t <> [];
  tf_part : part_of t s;
  tf_separator : Forall (fun c => ~ separator p c) t;
  tf_comment : (exists c, separator p c) -> Forall (fun c => ~ starts_comment p c) t }.
(* The question for a name: lookups are allowed; the node was written in s,
   before the mask, or is the default address; the service was written in s as
   well, or is the default port, or 0; and the hints are those of the protocol
   of the parser. *)
Record name_question (p : parser) (s : str) (q : question) : Prop := mk_name_question {
  nq_lookup : get_allow p ALLOW_ADDRESS_LOOKUP = Ok true;
  nq_numeric : q_numeric q = false;
  nq_hints : hints (parser_get_protocol p) (q_socktype q) (q_protocol q);
  nq_node : exists A, before_nul A (q_node q)
    /\ ((taken_from p s A /\ (get_allow p ALLOW_MASK = Ok true -> ~ In 47 A))
        \/ (get_allow p ALLOW_REQUIRED_ADDRESS = Ok false
            /\ In A [get_default_address4 p; get_default_address6 p; lit "0.0.0.0"; lit "::"] /\ A <> []));
  nq_service : exists S, before_nul S (q_service q)
    /\ ((taken_from p s S /\ (get_allow p ALLOW_MASK = Ok true -> ~ In 47 S))
        \/ (get_allow p ALLOW_REQUIRED_PORT = Ok false
            /\ ((get_default_port p = -1 /\ S = lit "0") \/ plain_decimal S (get_default_port p)))) }.
(* The question for a mask: masks like addresses are allowed, the mask was
   written in s or is a default mask, and the system is told that it is a
   number. *)
Record mask_question (p : parser) (s : str) (q : question) : Prop := mk_mask_question {
  mq_mask : get_allow p ALLOW_MASK = Ok true;
  mq_allowed : get_allow p ALLOW_ADDRESS_MASK = Ok true;
  mq_numeric : q_numeric q = true;
  mq_node : exists A, before_nul A (q_node q) /\ A <> []
    /\ (taken_from p s A \/ exists D, In D [get_default_mask4 p; get_default_mask6 p] /\ part_of A D);
  mq_service : exists n, 0 <= n < 65536 /\ plain_decimal (q_service q) n }.

(* ---------- proofs ---------- *)
Lemma c_str_before s : before_nul s (c_str s).
Proof.
  induction s as [|c s [N IH]]; [split; [intros []|now left]|]. cbn [c_str]. destruct (c =? 0) eqn:E.
  - split; [intros []|]. right. exists s. cbn. f_equal. lia.
  - split.
    + intros [->|I]; [discriminate|auto].
    + destruct IH as [IH|(u & IH)]; [left; now f_equal|right; exists u; cbn; now f_equal].
Qed.
Lemma part_refl s : part_of s s. Proof. exists [], []. cbn. now rewrite app_nil_r. Qed.
Lemma part_trans a b c : part_of a b -> part_of b c -> part_of a c.
Proof. intros (u & v & ->) (w & x & ->). exists (w ++ u), (v ++ x). now rewrite <- !app_assoc. Qed.
Lemma part_firstn n s : part_of (firstn n s) s.
Proof. exists [], (skipn n s). symmetry. apply firstn_skipn. Qed.
Lemma part_skipn n s : part_of (skipn n s) s.
Proof. exists (firstn n s), []. rewrite app_nil_r. symmetry. apply firstn_skipn. Qed.
Lemma part_nil s : part_of [] s. Proof. exists [], s. reflexivity. Qed.
Lemma part_forall (P : Z -> Prop) t s : part_of t s -> Forall P s -> Forall P t.
Proof. intros (a & b & ->) F. apply Forall_app in F. destruct F as [_ F]. apply Forall_app in F. tauto. Qed.
Lemma part_in t s c : part_of t s -> In c t -> In c s.
Proof. intros (a & b & ->) I. apply in_or_app. right. apply in_or_app. now left. Qed.

(* the question in terms of the texts it was made from *)
Definition from_texts (p : parser) (T : str -> Prop) (q : question) : Prop :=
  allow p ALLOW_ADDRESS_LOOKUP = true /\ q_numeric q = false
  /\ q_socktype q = hint_socktype (p_protocol p) /\ q_protocol q = hint_protocol (p_protocol p)
  /\ (exists A, q_node q = c_str A /\ A <> [] /\ (T A \/ (allow p ALLOW_REQUIRED_ADDRESS = false
        /\ In A [get_default_address4 p; get_default_address6 p; lit "0.0.0.0"; lit "::"])))
  /\ (exists S, q_service q = c_str S /\ ((S <> [] /\ T S) \/ (allow p ALLOW_REQUIRED_PORT = false
        /\ ((f_default_port p = -1 /\ S = lit "0") \/ (f_default_port p <> -1 /\ S = to_string_int (f_default_port p)))))).
Lemma from_texts_mono p p' (T T' : str -> Prop) q : same_config p' p -> (forall t, T t -> T' t) -> from_texts p' T q -> from_texts p T' q.
Proof.
  intros [F _ A4 A6 _ _ PR PO] I. unfold from_texts, get_default_address4, get_default_address6, allow. rewrite F, A4, A6, PR, PO.
  intros (L & N & H1 & H2 & (A & EA & NA & HA) & (S & ES & HS)). do 4 (split; [assumption|]). split.
  - exists A. split; [exact EA|]. split; [exact NA|]. destruct HA as [HA|HA]; auto.
  - exists S. split; [exact ES|]. destruct HS as [[NS HS]|HS]; auto.
Qed.

Lemma default_in p v6 : In (default_address p v6) [get_default_address4 p; get_default_address6 p; lit "0.0.0.0"; lit "::"]
  /\ default_address p v6 <> [].
Proof.
  unfold default_address, get_default_address4, get_default_address6.
  destruct v6; [destruct (f_default_address6 p) eqn:E|destruct (f_default_address4 p) eqn:E]; split; cbn; auto; discriminate.
Qed.
Lemma to_string_int_some n : to_string_int n <> [].
Proof.
  unfold to_string_int. destruct (n <? 0) eqn:L; [discriminate|].
  destruct (PropText.plain_dec_string n ltac:(lia)) as ((N & _) & _). exact N.
Qed.
Lemma q_address_port a ps v6 p q : In q (asks_address_port a ps v6 p) -> from_texts p (fun t => t = a \/ t = ps) q.
Proof.
  unfold asks_address_port. cbv zeta. destruct (negb _ && _) eqn:E1; [intros []|].
  destruct (match a with [] => true | _ => false end && _) eqn:E2; [intros []|].
  destruct (allow p ALLOW_ADDRESS_LOOKUP) eqn:L; [|intros []]. intros [<-|[]]. cbn [q_numeric].
  unfold from_texts. cbn [q_node q_service q_numeric q_socktype q_protocol]. do 4 (split; [auto|]). split.
  - destruct a as [|c a].
    + eexists. split; [reflexivity|]. destruct (default_in p v6) as [D1 D2]. split; [exact D2|]. right. split; [exact E2|exact D1].
    + eexists. split; [reflexivity|]. split; [discriminate|]. auto.
  - destruct ps as [|c ps].
    + cbn [negb andb] in *. destruct (f_default_port p =? -1) eqn:DP; cbn [negb].
      * eexists. split; [reflexivity|]. right. split; [exact E1|]. left. split; [lia|reflexivity].
      * pose proof (to_string_int_some (f_default_port p)) as NE. destruct (to_string_int (f_default_port p)) as [|d r] eqn:ES; [congruence|].
        exists (d :: r). split; [reflexivity|]. right. split; [exact E1|]. right. split; [lia|reflexivity].
    + cbn [negb andb]. eexists. split; [reflexivity|]. left. split; [discriminate|]. auto.
Qed.
Lemma range_end_config y g t ps m v6 p p1 r : range_end y g t ps m v6 p = (p1, r) -> same_config p1 p.
Proof.
  destruct (both_range_end p p y g g eq_refl eq_refl eq_refl eq_refl eq_refl (or_introl eq_refl) t ps m v6) as (ms & r2 & E & _).
  intros R. rewrite <- (with_errors_id p) in R. rewrite E in R. injection R as <- _. apply same_config_errors.
Qed.
Lemma q_range_port y g l ps v6 p q : In q (asks_address_range_port y g l ps v6 p) ->
  from_texts p (fun t => part_of t l \/ t = ps) q.
Proof.
  unfold asks_address_range_port. destruct (if allow p ALLOW_ADDRESS_RANGE then find_char 45 l else None) as [k|].
  - match goal with |- context [if ?b then [] else _] => destruct b end; [intros []|]. rewrite in_then.
    assert (EN : forall t p', same_config p' p -> part_of t l -> In q (asks_range_end t ps v6 p') -> from_texts p (fun t => part_of t l \/ t = ps) q).
    { intros t p' C P I. unfold asks_range_end in I. destruct t as [|c t]; [destruct I|]. apply q_address_port in I.
      revert I. apply from_texts_mono; [exact C|]. intros u [->|U]; auto. }
    intros [I|(r & p1 & R & I)].
    + eapply EN; [apply same_config_refl|apply part_firstn|exact I].
    + destruct r as [r|]; [|destruct I]. eapply EN; [|apply (part_skipn (k + 1))|exact I]. eapply range_end_config, R.
  - intros I. apply q_address_port in I. revert I. apply from_texts_mono; [apply same_config_refl|].
    intros t [->|U]; [left; apply part_refl|auto].
Qed.
Lemma q_inside p l ps s q : from_texts p (fun t => part_of t l \/ t = ps) q -> part_of l s -> part_of ps s -> from_texts p (fun t => part_of t s) q.
Proof. intros H L P. revert H. apply from_texts_mono; [apply same_config_refl|]. intros t [I| ->]; [eapply part_trans; eauto|exact P]. Qed.
Lemma q_address4 y g s p q : In q (asks_address4 y g s p) -> from_texts p (fun t => part_of t s) q.
Proof.
  unfold asks_address4. destruct (find_char 58 s) as [k|].
  - destruct (_ || _); [|intros []]. intros I. apply q_range_port in I. eapply q_inside; [exact I|apply part_firstn|apply part_skipn].
  - intros I. apply q_range_port in I. eapply q_inside; [exact I|apply part_refl|apply part_nil].
Qed.
Lemma q_address6 y g s n p q : In q (asks_address6 y g s n p) -> from_texts p (fun t => part_of t s) q.
Proof.
  unfold asks_address6. destruct (match s with c :: _ => c =? 91 | [] => false end).
  - destruct (find_char 93 s) as [k|]; [|intros []].
    assert (PA : part_of (firstn (k - 1) (skipn 1 s)) s) by (eapply part_trans; [apply part_firstn|apply part_skipn]).
    destruct (skipn (k + 1) s) as [|c r] eqn:E.
    + intros I. apply q_range_port in I. eapply q_inside; [exact I|exact PA|apply part_nil].
    + destruct (negb _); [intros []|]. destruct (_ && _); [intros []|]. intros I. apply q_range_port in I.
      eapply q_inside; [exact I|exact PA|]. eapply part_trans; [apply (part_skipn 1 (c :: r))|]. rewrite <- E. apply part_skipn.
  - destruct (n =? 1).
    + destruct (find_char 58 s); [|intros []]. intros I. apply q_range_port in I. eapply q_inside; [exact I|apply part_firstn|apply part_skipn].
    + intros I. apply q_range_port in I. eapply q_inside; [exact I|apply part_refl|apply part_nil].
Qed.
Lemma q_address y g s m p q : In q (asks_address y g s m p) -> from_texts p (fun t => part_of t s) q.
Proof.
  unfold asks_address. cbv zeta.
  set (a6 := asks_address6 y g s (count_char 58 s) p). set (a4 := asks_address4 y g s p).
  assert (H6 : In q a6 -> from_texts p (fun t => part_of t s) q) by apply q_address6.
  assert (H4 : In q a4 -> from_texts p (fun t => part_of t s) q) by apply q_address4. clearbody a6 a4.
  destruct (count_char 58 s >=? 2); [exact H6|].
  assert (HM : In q match m with
      | [] => match f_default_address4 p, f_default_address6 p with [], _ :: _ => a6 | _, _ => a4 end
      | c :: _ => if c =? 91 then a6 else if mask_hint (c_str m) 0 >? 32 then a6 else a4 end -> from_texts p (fun t => part_of t s) q).
  { destruct m as [|c r].
    - destruct (f_default_address4 p); [destruct (f_default_address6 p)|]; auto.
    - destruct (c =? 91); auto. destruct (_ >? _); auto. }
  destruct s as [|c0 r]; [exact HM|]. set (s := c0 :: r) in *. clearbody s. destruct (c0 =? 58); [exact HM|]. destruct (_ || _); [exact H6|].
  destruct (_ && _); [|exact H4]. destruct (find_char 58 s); [|exact H4]. destruct (match find_char 46 s with Some _ => _ | None => _ end); auto.
Qed.

Definition from_mask (p : parser) (T : str -> Prop) (q : question) : Prop :=
  allow p ALLOW_ADDRESS_MASK = true /\ q_numeric q = true
  /\ (exists A, q_node q = c_str A /\ A <> [] /\ (T A \/ exists D, In D [get_default_mask4 p; get_default_mask6 p] /\ part_of A D))
  /\ exists n, 0 <= n < 65536 /\ plain_decimal (q_service q) n.
Lemma mask_texts p T m a v4 q : In q (asks_mask m a v4 p) ->
  (m <> [] -> (v4 = true \/ hd 0 m <> 91) -> T m \/ exists D, In D [get_default_mask4 p; get_default_mask6 p] /\ part_of m D) ->
  (v4 = false -> hd 0 m = 91 -> back m = 93 -> inner m <> [] -> T (inner m) \/ exists D, In D [get_default_mask4 p; get_default_mask6 p] /\ part_of (inner m) D) ->
  from_mask p T q.
Proof.
  unfold asks_mask. destruct m as [|c0 m]; [intros []|]. cbv zeta.
  destruct (mask_number _ 0) as [k|]; [|intros []]. destruct (negb (k =? -1)); [intros []|].
  destruct (allow p ALLOW_ADDRESS_MASK) eqn:AM; [|intros []]. cbn [negb].
  destruct (v4 && (c0 =? 91)) eqn:E1; [intros []|]. destruct (negb v4 && negb (c0 =? 91)) eqn:E2; [intros []|].
  destruct (negb v4 && negb (back (c0 :: m) =? 93)) eqn:E3; [intros []|].
  match goal with |- context [if ?b then [] else _] => destruct b eqn:E4 end; [intros []|]. intros [<-|[]] H1 H2. unfold from_mask. cbn [q_node q_service q_numeric].
  split; [exact AM|]. split; [reflexivity|]. split.
  - eexists. split; [reflexivity|]. destruct v4; cbn [negb andb] in *.
    + split; [discriminate|]. apply H1; [discriminate|now left].
    + assert (inner (c0 :: m) <> []) as NE by (destruct (inner (c0 :: m)); [discriminate|discriminate]).
      split; [exact NE|]. apply H2; [reflexivity|cbn [hd]; lia|lia|exact NE].
  - exists (get_port a). assert (0 <= get_port a < 65536) as R.
    { unfold get_port. pose proof (AddrProofs2.bswap16_range (sin6_port (f_address a))) as B. change (2 ^ 16) with 65536 in B. exact B. }
    split; [exact R|]. apply PropText.plain_dec_string. lia.
Qed.
Lemma parse_mask_config g m a v4 p p1 r : parse_mask g m a v4 p = (p1, r) -> same_config p1 p.
Proof.
  destruct (both_mask p p g g eq_refl (or_introl eq_refl) m a v4) as (ms & r2 & E & _).
  intros R. rewrite <- (with_errors_id p) in R. rewrite E in R. injection R as <- _. apply same_config_errors.
Qed.
Lemma from_mask_mono p p' T q : same_config p' p -> from_mask p' T q -> from_mask p T q.
Proof. intros [F _ _ _ M4 M6 _ _]. unfold from_mask, get_default_mask4, get_default_mask6, allow. now rewrite F, M4, M6. Qed.
Lemma part_inner m : part_of (inner m) m.
Proof. unfold inner. eapply part_trans; [apply part_firstn|apply part_skipn]. Qed.
Lemma q_masks g m v4 q l : forall p, In q (asks_masks g m v4 l p) -> from_mask p (fun t => part_of t m) q.
Proof.
  induction l as [|am l IH]; intros p; [intros []|]. cbn [asks_masks]. cbv zeta. rewrite in_then. intros [I|(a & p1 & R & I)].
  - apply (mask_texts p _ _ _ _ _ I).
    + intros NE H. unfold effective_mask in *. destruct m as [|c m]; [|left; apply part_refl]. right. destruct v4.
      * exists (get_default_mask4 p). split; [now left|apply part_refl].
      * destruct (find_char 58 (f_default_mask6 p)); [|congruence]. destruct H as [H|H]; [cbn in H; discriminate|cbn in H; lia].
    + intros V H91 H93 NE. unfold effective_mask in *. destruct m as [|c m]; [|left; apply part_inner]. right. destruct v4.
      * exists (get_default_mask4 p). split; [now left|apply part_inner].
      * destruct (find_char 58 (f_default_mask6 p)); [|exfalso; apply NE; reflexivity].
        exists (get_default_mask6 p). split; [right; now left|]. unfold inner. rewrite !app_length. cbn [length app skipn].
        replace (1 + (length (f_default_mask6 p) + 1) - 2)%nat with (length (f_default_mask6 p)) by lia.
        rewrite (firstn_length_app (f_default_mask6 p)). apply part_refl.
  - eapply from_mask_mono; [eapply parse_mask_config, R|]. now apply IH.
Qed.
Lemma part_trim s : part_of (trim_string s) s.
Proof. destruct (trim_parts s) as (b1 & b2 & _ & _ & E & _). exists b1, b2. exact E. Qed.
Lemma from_mask_text p (T T' : str -> Prop) q : (forall t, T t -> T' t) -> from_mask p T q -> from_mask p T' q.
Proof.
  intros I (A & N & (D & E & NE & H) & R). split; [exact A|]. split; [exact N|]. split; [|exact R]. exists D. split; [exact E|]. split; [exact NE|].
  destruct H as [H|H]; auto.
Qed.
Lemma parse_address_config y g s m p p1 r : parse_address y g s m p = (p1, r) -> same_config p1 p.
Proof.
  destruct (both_address p p y g g eq_refl eq_refl eq_refl eq_refl eq_refl eq_refl (or_introl eq_refl) s m) as (ms & r2 & E & _).
  intros R. rewrite <- (with_errors_id p) in R. rewrite E in R. injection R as <- _. apply same_config_errors.
Qed.
Lemma q_cidr y g s p q : In q (asks_cidr y g s p) ->
  from_texts p (fun t => part_of t s /\ (allow p ALLOW_MASK = true -> ~ In 47 t)) q
  \/ (allow p ALLOW_MASK = true /\ from_mask p (fun t => part_of t s) q).
Proof.
  unfold asks_cidr. cbv zeta. destruct (allow p ALLOW_MASK) eqn:AM.
  - assert (exists a m, (match find_char 47 (trim_string s) with
      | Some k => (firstn k (trim_string s), skipn (k + 1) (trim_string s)) | None => (trim_string s, []) end) = (a, m)
      /\ part_of a s /\ part_of m s /\ ~ In 47 a) as (a & m & -> & PA & PM & N).
    { destruct (find_char 47 (trim_string s)) as [k|] eqn:E.
      - apply find_char_split in E. destruct E as (a & b & E & N & <-). exists a, b.
        rewrite E, firstn_length_app, skipn_length_app. split; [reflexivity|].
        split; [|split; [|exact N]]; (eapply part_trans; [|apply part_trim]); rewrite E.
        + exists [], (47 :: b). reflexivity.
        + exists (a ++ [47]), []. now rewrite app_nil_r, <- app_assoc.
      - exists (trim_string s), []. split; [reflexivity|]. split; [apply part_trim|]. split; [apply part_nil|].
        intros I. now apply ValidateProofs.find_char_in in I. }
    rewrite in_then. intros [I|([l v4] & p1 & R & I)].
    + left. apply q_address in I. revert I. apply from_texts_mono; [apply same_config_refl|]. intros t P. split; [eapply part_trans; eauto|].
      intros _ X. apply N. eapply part_in; eauto.
    + right. split; [reflexivity|]. cbn [fst snd] in I. apply q_masks in I. eapply from_mask_mono; [eapply parse_address_config, R|].
      revert I. apply from_mask_text. intros t P. eapply part_trans; eauto.
  - intros I. left. apply q_address in I. revert I. apply from_texts_mono; [apply same_config_refl|]. intros t P.
    split; [eapply part_trans; [exact P|apply part_trim]|discriminate].
Qed.
Definition asked_for (p : parser) (T : str -> Prop) (q : question) : Prop :=
  from_texts p (fun t => T t /\ (allow p ALLOW_MASK = true -> ~ In 47 t)) q \/ (allow p ALLOW_MASK = true /\ from_mask p T q).
Lemma asked_for_mono p p' (T T' : str -> Prop) q : same_config p' p -> (forall t, T t -> T' t) -> asked_for p' T q -> asked_for p T' q.
Proof.
  intros C I [H|[M H]]; [left|right].
  - revert H. apply from_texts_mono; [exact C|]. intros t [A B]. split; [auto|]. destruct C as [F _ _ _ _ _ _ _]. unfold allow in *. now rewrite <- F.
  - split; [destruct C as [F _ _ _ _ _ _ _]; unfold allow in *; now rewrite <- F|]. eapply from_mask_mono; [exact C|]. revert H. now apply from_mask_text.
Qed.
Lemma q_loop y g seps com nl q : forall fuel s p, In q (asks_loop y g fuel seps com nl s p) ->
  asked_for p (fun t => part_of t s /\ Forall (fun c => mem c seps = false) t /\ Forall (fun c => mem c com = false) t) q.
Proof.
  induction fuel as [|k IH]; intros s p; [destruct s; intros []|]. destruct s as [|c s]; [intros []|]. cbn [asks_loop].
  destruct (split_at_spec seps (c :: s)) as [N _]. pose proof (split_at_app seps (c :: s)) as E.
  set (w := c :: s) in *. clearbody w. destruct (split_at seps w) as [piece tail]. cbn [fst snd] in *. subst w.
  destruct piece as [|c1 piece].
  { intros I. apply IH in I. revert I. apply asked_for_mono; [apply same_config_refl|]. intros t (P & H). split; [|exact H].
    eapply part_trans; [exact P|]. cbn [app]. apply part_skipn. }
  set (w := c1 :: piece) in *. clearbody w.
  match goal with |- context [let (_, _) := ?x in _] => assert (exists text tl, x = (text, tl)
     /\ part_of text w /\ Forall (fun c => mem c com = false) text /\ part_of tl tail) as (text & tl & -> & PT & NC & TL) end.
  { destruct com as [|x com].
    - exists w, tail. split; [reflexivity|]. split; [apply part_refl|]. split; [|apply part_refl]. apply Forall_forall. reflexivity.
    - eexists _, _. split; [reflexivity|]. split; [|split].
      + exists [], (snd (split_at (x :: com) w)). symmetry. apply split_at_app.
      + apply split_at_spec.
      + destruct tail as [|d tl]; [apply part_refl|]. destruct (_ && _); [|apply part_refl].
        exists (fst (split_at [10] (d :: tl))), []. rewrite app_nil_r. symmetry. apply split_at_app. }
  assert (forall p', same_config p' p -> In q (asks_loop y g k seps com nl (skipn 1 tl) p') ->
    asked_for p (fun t => part_of t (w ++ tail) /\ Forall (fun c => mem c seps = false) t /\ Forall (fun c => mem c com = false) t) q) as NEXT.
  { intros p' C I. apply IH in I. revert I. apply asked_for_mono; [exact C|]. intros t (P & H). split; [|exact H].
    eapply part_trans; [exact P|]. eapply part_trans; [apply part_skipn|]. eapply part_trans; [exact TL|]. exists w, []. now rewrite app_nil_r. }
  rewrite in_then. intros [I|(a & p1 & R & I)].
  - destruct text as [|t0 text]; [destruct I|]. apply q_cidr in I. change (asked_for p (fun t => part_of t (t0 :: text)) q) in I.
    revert I. apply asked_for_mono; [apply same_config_refl|]. intros t P.
    split; [|split; [apply (part_forall _ t w); [eapply part_trans; [exact P|exact PT]|exact N]|now apply (part_forall _ t (t0 :: text))]].
    eapply part_trans; [exact P|]. eapply part_trans; [exact PT|]. exists [], tail. reflexivity.
  - apply (NEXT p1); [|exact I]. destruct text as [|t0 text]; [injection R as <- _; apply same_config_refl|].
    pose proof (cidr_config y g (t0 :: text) p) as C. now rewrite R in C.
Qed.
Lemma part_single com s : part_of (single_entry com s) s.
Proof.
  unfold single_entry. cbv zeta. destruct (_ <? _)%nat; [apply part_skipn|]. eapply part_trans; [apply part_firstn|apply part_skipn].
Qed.
Lemma q_parse y g s p q : In q (asks_parse y g s p) ->
  asked_for p (fun t => part_of t s /\ Forall (fun c => ~ separator p c) t
     /\ ((exists c, separator p c) -> Forall (fun c => ~ starts_comment p c) t)) q.
Proof.
  unfold asks_parse. destruct (separators p) as [|x seps] eqn:E.
  - assert (forall c, ~ separator p c) as NS by (intros c; rewrite <- mem_separators, E; discriminate).
    intros I. apply q_cidr in I. change (asked_for p (fun t => part_of t (single_entry (comment_chars p) s)) q) in I.
    revert I. apply asked_for_mono; [apply same_config_refl|]. intros t P. split; [eapply part_trans; [exact P|apply part_single]|].
    split; [apply Forall_forall; intros c _; apply NS|]. intros [c H]. now destruct (NS c).
  - intros I. apply q_loop in I. revert I. apply asked_for_mono; [apply same_config_refl|]. intros t (P & N1 & N2). rewrite <- E in N1.
    split; [exact P|]. split; [|intros _].
    + eapply Forall_impl; [|exact N1]. cbv beta. intros c M X. apply mem_separators in X. congruence.
    + eapply Forall_impl; [|exact N2]. cbv beta. intros c M X. apply mem_comments in X. congruence.
Qed.
Lemma hints_of n : hints n (hint_socktype n) (hint_protocol n).
Proof.
  unfold hint_socktype, hint_protocol. destruct (n =? IPPROTO_TCP) eqn:E1; [apply Z.eqb_eq in E1 as ->; constructor|].
  destruct (n =? IPPROTO_UDP) eqn:E2; [apply Z.eqb_eq in E2 as ->; constructor|]. constructor; lia.
Qed.
Lemma to_string_plain n : 0 <= n -> plain_decimal (to_string_int n) n.
Proof. intros H. unfold to_string_int. replace (n <? 0) with false by lia. now apply PropText.plain_dec_string. Qed.

(* ---------- theorems ---------- *)
(* Every question the resolver is asked is about a text which was written in
   the string (in one entry, outside of the comments) or about a default, and
   it is only asked when the flags allow it. *)
Theorem C155_questions y g s p q : -1 <= get_default_port p -> In q (asks_parse y g s p) ->
  name_question p s q \/ mask_question p s q.
Proof.
  intros DP I. apply q_parse in I. destruct I as [(L & N & H1 & H2 & (A & EA & NA & HA) & (S & ES & HS))|(M & AM & N & (A & EA & NA & HA) & SV)].
  - left. constructor.
    + change (Ok (allow p ALLOW_ADDRESS_LOOKUP) = Ok true). now f_equal.
    + exact N.
    + rewrite H1, H2. apply hints_of.
    + exists A. rewrite EA. split; [apply c_str_before|]. destruct HA as [((P & X & Y) & Z47)|[R D]].
      * left. split; [now constructor|]. intros X47. apply Z47. change (Ok (allow p ALLOW_MASK) = Ok true) in X47. congruence.
      * right. split; [|now split]. change (Ok (allow p ALLOW_REQUIRED_ADDRESS) = Ok false). now f_equal.
    + exists S. rewrite ES. split; [apply c_str_before|]. destruct HS as [[NS ((P & X & Y) & Z47)]|[R D]].
      * left. split; [now constructor|]. intros X47. apply Z47. change (Ok (allow p ALLOW_MASK) = Ok true) in X47. congruence.
      * right. split; [change (Ok (allow p ALLOW_REQUIRED_PORT) = Ok false); now f_equal|]. unfold get_default_port in *.
        destruct D as [[D ->]|[D ->]]; [now left|right]. apply to_string_plain. lia.
  - right. constructor; [change (Ok (allow p ALLOW_MASK) = Ok true); now f_equal|change (Ok (allow p ALLOW_ADDRESS_MASK) = Ok true); now f_equal
      |exact N| |exact SV].
    exists A. rewrite EA. split; [apply c_str_before|]. split; [exact NA|]. destruct HA as [(P & X & Y)|D]; [left; now constructor|now right].
Qed.
(* Without lookups and without masks like addresses nothing is asked. *)
Theorem C155_nothing y g s p : get_allow p ALLOW_ADDRESS_LOOKUP = Ok false ->
  get_allow p ALLOW_MASK = Ok false \/ get_allow p ALLOW_ADDRESS_MASK = Ok false -> asks_parse y g s p = [].
Proof.
  intros L M. destruct (asks_parse y g s p) as [|q l] eqn:E; [reflexivity|exfalso].
  assert (In q (asks_parse y g s p)) as I by (rewrite E; now left). apply q_parse in I.
  change (Ok (allow p ALLOW_ADDRESS_LOOKUP) = Ok false) in L. change (Ok (allow p ALLOW_MASK) = Ok false \/ Ok (allow p ALLOW_ADDRESS_MASK) = Ok false) in M.
  destruct I as [(L2 & _)|(M1 & M2 & _)]; [congruence|]. destruct M; congruence.
Qed.
(* The result is a function of the answers to these questions: with another
   resolver which gives the same answers, the same is asked and read. *)
Theorem C155_only_these_answers y g g' s p :
  (forall q, In q (asks_parse y g s p) ->
     g' (q_node q) (q_service q) (q_numeric q) (q_socktype q) (q_protocol q)
     = g (q_node q) (q_service q) (q_numeric q) (q_socktype q) (q_protocol q)) ->
  parse y g' s p = parse y g s p /\ asks_parse y g' s p = asks_parse y g s p.
Proof. intros H. apply dep_parse. exact H. Qed.

Lemma asks_plain4 y g p A P : ~ In 58 A -> P = [] \/ (exists S, P = 58 :: S /\ ~ In 58 S /\ ports_allowed p) ->
  asks_address4 y g (A ++ P) p = asks_address_range_port y g A (skipn 1 P) false p.
Proof.
  intros N58 HP. unfold asks_address4. destruct HP as [->|(S & -> & NS & PA)].
  - now rewrite app_nil_r, find_char_none.
  - rewrite find_char_first by exact N58. rewrite firstn_length_app, skipn_length_app.
    destruct (ports_allow p PA) as [-> _]. reflexivity.
Qed.
Lemma asks_brackets6 y g p A P k : ~ In 93 A -> P = [] \/ (exists S, P = 58 :: S /\ ports_allowed p) ->
  asks_address6 y g ([91] ++ A ++ [93] ++ P) k p = asks_address_range_port y g A (skipn 1 P) true p.
Proof.
  intros N93 HP. cbn [app]. unfold asks_address6. cbn [Z.eqb Pos.eqb].
  assert (find_char 93 (91 :: A ++ 93 :: P) = Some (length (91 :: A))) as ->.
  { apply (find_char_first 93 (91 :: A)). intros [X|X]; [discriminate|]. contradiction. }
  replace (skipn (length (91 :: A) + 1) (91 :: A ++ 93 :: P)) with P by (symmetry; apply (skipn_length_app (91 :: A))).
  replace (firstn (length (91 :: A) - 1) (skipn 1 (91 :: A ++ 93 :: P))) with A
    by (cbn [length skipn]; rewrite Nat.sub_succ, Nat.sub_0_r; symmetry; apply firstn_length_app).
  destruct HP as [->|(S & -> & PA)]; [reflexivity|]. cbn [Z.eqb Pos.eqb negb skipn].
  destruct (ports_allow p PA) as [_ ->]. reflexivity.
Qed.
Lemma asks_bare6 y g p A : two_colons A -> hd 0 A <> 91 ->
  asks_address6 y g A (count_char 58 A) p = asks_address_range_port y g A [] true p.
Proof.
  intros T N91. apply two_colons_count in T. unfold asks_address6.
  replace (match A with c :: _ => c =? 91 | [] => false end) with false by (destruct A; cbn [hd] in N91; [reflexivity|lia]).
  now replace (count_char 58 A =? 1) with false by lia.
Qed.
Lemma asks_entry y g p A P s mask : host_entry p A P s ->
  asks_address y g s mask p = asks_address_range_port y g A (skipn 1 P) (negb (entry_way s)) p.
Proof.
  intros H. destruct H as [A P NE N91 N58 N93 HP|A P NE N93 HP|A T N91].
  - assert (count_char 58 (A ++ P) <= 1) as CC.
    { apply plain_count; [exact N58|]. destruct HP as [->|(S & -> & NS & _)]; [now left|right; now exists S]. }
    assert (entry_way (A ++ P) = true) as W.
    { destruct A as [|c b]; [congruence|]. cbn [hd] in N91. cbn [app entry_way]. change (c :: b ++ P) with ((c :: b) ++ P).
      replace (c =? 91) with false by lia. replace (count_char 58 ((c :: b) ++ P) >=? 2) with false by lia. reflexivity. }
    rewrite W. cbn [negb]. rewrite <- (asks_plain4 y g p A P N58 HP).
    unfold asks_address. cbv zeta. replace (count_char 58 (A ++ P) >=? 2) with false by lia.
    destruct A as [|c b] eqn:EA; [congruence|]. cbn [app hd] in *.
    replace (c =? 58) with false by (symmetry; apply Z.eqb_neq; intros ->; apply N58; now left).
    replace (c =? 91) with false by lia. cbn [orb]. rewrite (find_char_none 93) by exact N93.
    destruct (negb (allow p ALLOW_PORT) && negb (allow p ALLOW_REQUIRED_PORT)) eqn:AL; [|reflexivity].
    destruct HP as [->|(S & -> & NS & PA)].
    + rewrite app_nil_r. now rewrite (find_char_none 58).
    + destruct (ports_allow p PA) as [_ X]. congruence.
  - assert (entry_way ([91] ++ A ++ [93] ++ P) = false) as W by reflexivity. rewrite W. cbn [negb].
    rewrite <- (asks_brackets6 y g p A P (count_char 58 ([91] ++ A ++ [93] ++ P)) N93 HP).
    unfold asks_address. cbv zeta. cbn [app Z.eqb Pos.eqb orb].
    destruct (_ >=? 2); reflexivity.
  - pose proof (proj1 (two_colons_count _) T) as C2. assert (entry_way A = false) as W.
    { unfold entry_way. destruct A as [|c b]; [unfold count_char in C2; cbn in C2; lia|].
      replace (count_char 58 (c :: b) >=? 2) with true by lia. apply andb_false_r. }
    rewrite W. cbn [negb skipn]. rewrite <- (asks_bare6 y g p A T N91).
    unfold asks_address. cbv zeta. now replace (count_char 58 A >=? 2) with true by lia.
Qed.
Lemma asks_one_host y g p A P six : one_host p A -> asks_address_range_port y g A P six p = asks_address_port A P six p.
Proof.
  intros H. unfold asks_address_range_port.
  replace (if allow p ALLOW_ADDRESS_RANGE then find_char 45 A else None) with (@None nat); [reflexivity|].
  destruct (allow p ALLOW_ADDRESS_RANGE) eqn:AR; [|reflexivity].
  destruct H as [N|N]; [|apply allow_of in N; congruence]. symmetry. now apply find_char_none.
Qed.
Lemma asks_lookup p A P S given st pr six : allow p ALLOW_ADDRESS_LOOKUP = true -> A <> [] -> ~ In 0 A ->
  service_of p P S given -> hints (parser_get_protocol p) st pr ->
  asks_address_port A (skipn 1 P) six p = [mk_question A S false st pr].
Proof.
  intros L NE N0 HS HH. apply hints_are in HH. destruct HH as [-> ->]. unfold parser_get_protocol.
  unfold asks_address_port. cbv zeta. replace (match A with [] => true | _ => false end) with false by (destruct A; congruence).
  destruct HS as [S NS NS0|D P HP R DP PD|P HP R DP].
  - cbn [skipn]. destruct S as [|d S]; [congruence|]. cbn [negb andb]. rewrite L.
    now rewrite (c_str_id A N0), (c_str_id _ NS0).
  - apply allow_of in R. replace (skipn 1 P) with (@nil Z) by (destruct HP as [-> | ->]; reflexivity). rewrite R. cbn [negb andb].
    unfold get_default_port in *. replace (f_default_port p =? -1) with false by lia. cbn [negb]. rewrite L.
    assert (0 <= f_default_port p) as R0.
    { destruct PD as ((NN & F & <-) & _). pose proof (fold_digits_ge D 0 ltac:(lia) F). unfold decimal_value. lia. }
    assert (to_string_int (f_default_port p) = D) as ->.
    { rewrite to_string_dec by exact R0. apply (plain_unique _ _ (f_default_port p)); [now apply PropText.plain_dec_string|exact PD]. }
    assert (D <> []) as ND by (destruct PD as ((NN & _) & _); exact NN).
    replace (match D with [] => lit "0" | _ => D end) with D by (destruct D; congruence).
    assert (~ In 0 D) as D0. { destruct PD as ((_ & F & _) & _). intros X. rewrite forallb_forall in F. specialize (F _ X). discriminate. }
    now rewrite (c_str_id A N0), (c_str_id D D0).
  - apply allow_of in R. replace (skipn 1 P) with (@nil Z) by (destruct HP as [-> | ->]; reflexivity). rewrite R. cbn [negb andb].
    unfold get_default_port in *. rewrite DP. cbn [Z.eqb Pos.eqb negb]. rewrite L. now rewrite (c_str_id A N0).
Qed.
Lemma asks_no_masks g v4 l : forall p, f_default_mask4 p = [] -> f_default_mask6 p = [] -> asks_masks g [] v4 l p = [].
Proof.
  induction l as [|am l IH]; intros p E4 E6; [reflexivity|]. cbn [asks_masks]. cbv zeta.
  assert (effective_mask p [] v4 = []) as -> by (unfold effective_mask; rewrite E4, E6; destruct v4; reflexivity).
  cbn [asks_mask]. unfold then_asks. cbn [app]. destruct (parse_mask g [] (get_from am) (v4 && is_ipv4 (get_from am)) p) as [p1 [a|x| |]] eqn:R; try reflexivity.
  destruct (parse_mask_config _ _ _ _ _ _ _ R) as [_ _ _ _ M4 M6 _ _]. apply IH; congruence.
Qed.
(* One host: exactly one question, about the host as it is written, and the
   port as it is written, or the default port, or 0. *)
Theorem C155_one_question y g p A P s S given st pr : takes_names p -> host_entry p A P s -> one_host p A -> ~ In 0 A -> trimmed s -> ~ In 47 s ->
  service_of p P S given -> hints (parser_get_protocol p) st pr ->
  asks_parse y g s p = [mk_question A S false st pr].
Proof.
  intros [NS NC U LK MK] HE H1 N0 T N47 HS HH. apply allow_of in LK.
  assert (A <> []) as NE.
  { destruct HE as [X Y NE _ _ _ _|X Y NE _ _|X TC _]; auto. intros ->. destruct TC as (a & b & c & TC). destruct a; discriminate. }
  assert (forall mask, asks_address y g s mask p = [mk_question A S false st pr]) as AA.
  { intros mask. rewrite (asks_entry y g p A P s mask HE), asks_one_host by exact H1. eapply asks_lookup; eassumption. }
  unfold asks_parse. rewrite (nobody_separators p NS).
  assert (comment_chars p = []) as ->.
  { destruct (comment_chars p) as [|c l] eqn:E; [reflexivity|]. destruct (NC c). apply mem_comments. rewrite E. unfold mem. cbn [existsb]. now rewrite Z.eqb_refl. }
  rewrite trimmed_single by exact T. unfold asks_cidr. cbv zeta. rewrite trimmed_trim by exact T.
  destruct (allow p ALLOW_MASK) eqn:AM; [|apply AA]. destruct MK as [M|[E4 E6]]; [apply allow_of in M; congruence|].
  rewrite find_char_none by exact N47. unfold then_asks. rewrite AA. cbn [app]. f_equal.
  destruct (parse_address y g s [] p) as [p1 [[l v4]|x| |]] eqn:R; try reflexivity. cbn [fst snd].
  destruct (parse_address_config _ _ _ _ _ _ _ R) as [_ _ _ _ M4 M6 _ _]. apply asks_no_masks; unfold get_default_mask4, get_default_mask6 in *; congruence.
Qed.
(* A comment asks nothing: unless only blanks are before it and the parser
   takes one entry. *)
Theorem C155_comments_partial y g s t p : nobody (separator p) -> up_to (starts_comment p) s t ->
  t = [] \/ Exists (fun c => ~ blank c) t -> asks_parse y g s p = asks_parse y g t p.
Proof.
  intros NS UP H. unfold asks_parse. rewrite (nobody_separators p NS). now rewrite (single_entry_comment p s t UP H).
Qed.
Definition commented : parser := PropParser.with_allow parser_new ALLOW_COMMENT_HASH true.
Theorem C155_comments_refuted : exists y g s t p, nobody (separator p) /\ up_to (starts_comment p) s t /\ Forall blank t
  /\ asks_parse y g t p <> asks_parse y g s p
  /\ exists q, In q (asks_parse y g s p) /\ q_node q = lit "#secret".
Proof.
  exists AddrProofs4.ref_sys, PropParser.no_answer, (lit " #secret"), (lit " "), commented.
  split; [intros c [[H _]|[[H _]|[H _]]]; discriminate|].
  split. { split; [constructor; [|constructor]; intros [[_ H]|[H _]]; discriminate|]. right. exists 35, (lit "secret"). split; [reflexivity|]. left. now split. }
  split; [constructor; [now left|constructor]|]. split; [vm_compute; discriminate|]. eexists. split; [vm_compute; left; reflexivity|reflexivity].
Qed.

Lemma split_more seps a c b : mem c seps = true ->
  split_at seps (a ++ c :: b) = (fst (split_at seps a), snd (split_at seps a) ++ c :: b).
Proof.
  intros M. induction a as [|x a IH]; cbn [app split_at]; [now rewrite M|]. destruct (mem x seps); [reflexivity|]. rewrite IH.
  destruct (split_at seps a). reflexivity.
Qed.
Lemma loop_fuel y g seps nl : forall n f1 f2 s p, (length s <= n)%nat -> (length s <= f1)%nat -> (length s <= f2)%nat ->
  asks_loop y g f1 seps [] nl s p = asks_loop y g f2 seps [] nl s p.
Proof.
  induction n as [|n IH]; intros f1 f2 s p LN L1 L2; destruct s as [|x s]; try (destruct f1, f2; reflexivity); [cbn [length] in LN; lia|].
  destruct f1 as [|f1], f2 as [|f2]; try (cbn [length] in *; lia). cbn [asks_loop].
  pose proof (split_at_app seps (x :: s)) as E. destruct (split_at seps (x :: s)) as [w t]. cbn [fst snd] in E.
  assert (length w + length t = S (length s))%nat as LE by (apply (f_equal (@length Z)) in E; rewrite app_length in E; exact E). cbn [length] in *.
  assert (forall q, asks_loop y g f1 seps [] nl (skipn 1 t) q = asks_loop y g f2 seps [] nl (skipn 1 t) q) as NX.
  { intros q. apply IH; rewrite skipn_length; destruct t; cbn [length] in *; try lia. all: destruct w; cbn [length] in *; lia. }
  destruct w as [|w0 w]; [apply NX|]. apply then_ext; auto.
Qed.
Lemma loop_turn y g seps nl c b : mem c seps = true -> forall n f1 f2 f3 a p p1 l, (length a <= n)%nat ->
  (length (a ++ c :: b) <= f1)%nat -> (length a <= f2)%nat -> (length b <= f3)%nat ->
  parse_loop y g f2 seps [] nl a p = (p1, Ok l) ->
  asks_loop y g f1 seps [] nl (a ++ c :: b) p = asks_loop y g f2 seps [] nl a p ++ asks_loop y g f3 seps [] nl b p1.
Proof.
  intros M. induction n as [|n IH]; intros f1 f2 f3 a p p1 l LN L1 L2 L3 R.
  all: destruct a as [|x a];
    [assert (p1 = p) as -> by (destruct f2; cbn in R; unfold ret in R; congruence);
     replace (asks_loop y g f2 seps [] nl [] p) with (@nil question) by (destruct f2; reflexivity);
     cbn [app length] in *; destruct f1 as [|f1]; [lia|]; cbn [asks_loop split_at]; rewrite M; cbn [skipn];
     apply (loop_fuel y g seps nl (length b)); lia|].
  { cbn [length] in LN. lia. }
  change ((x :: a) ++ c :: b) with (x :: (a ++ c :: b)) in *.
  destruct f1 as [|f1], f2 as [|f2]; try (cbn [length] in *; lia). cbn [asks_loop parse_loop] in *.
  change (x :: (a ++ c :: b)) with ((x :: a) ++ c :: b). rewrite (split_more seps (x :: a) c b M).
  pose proof (split_at_app seps (x :: a)) as E. destruct (split_at seps (x :: a)) as [w t]. cbn [fst snd] in *.
  assert (length w + length t = S (length a))%nat as LE by (apply (f_equal (@length Z)) in E; rewrite app_length in E; exact E).
  cbn [length] in *. rewrite app_length in L1. cbn [length] in L1.
  assert (forall q q1 l1, parse_loop y g f2 seps [] nl (skipn 1 t) q = (q1, Ok l1) ->
    asks_loop y g f1 seps [] nl (skipn 1 (t ++ c :: b)) q = asks_loop y g f2 seps [] nl (skipn 1 t) q ++ asks_loop y g f3 seps [] nl b q1) as NX.
  { intros q q1 l1 R1. destruct t as [|d t].
    - cbn [app skipn] in *. assert (q1 = q) as -> by (destruct f2; cbn in R1; unfold ret in R1; congruence).
      replace (asks_loop y g f2 seps [] nl [] q) with (@nil question) by (destruct f2; reflexivity). cbn [app].
      apply (loop_fuel y g seps nl (length b)); lia.
    - cbn [app skipn length] in *. eapply IH; [| | |exact L3|exact R1]; rewrite ?app_length; cbn [length]; lia. }
  destruct w as [|w0 w]; [eapply NX, R|]. unfold then_asks. rewrite <- app_assoc. f_equal.
  unfold bind in R. destruct (parse_cidr y g (w0 :: w) p) as [p2 [a2|e| |]]; try discriminate.
  destruct (parse_loop y g f2 seps [] nl (skipn 1 t) p2) as [p3 [a3|e| |]] eqn:R3; try discriminate.
  injection R as <- _. eapply NX, R3.
Qed.
(* The entries are asked about in their order: after a separator, the
   questions are those for the rest of the string. *)
Theorem C155_in_turn y g a c b p p1 l : separator p c -> nobody (starts_comment p) -> parse y g a p = (p1, Ok l) ->
  asks_parse y g (a ++ c :: b) p = asks_parse y g a p ++ asks_parse y g b p1.
Proof.
  intros Sc NC R.
  assert (exists l0, parse_entries y g a p = (p1, Ok l0)) as [l0 R0].
  { unfold parse, bind in R. destruct (parse_entries y g a p) as [p2 [l0|e| |]]; try discriminate. exists l0. unfold ask, lift in R.
    destruct (arrange (f_sort p2) l0); congruence. }
  pose proof (entries_config y g a p) as C. rewrite R0 in C. cbn [fst] in C. destruct C as [F _ _ _ _ _ _ _].
  assert (separators p1 = separators p) as ES by (unfold separators, allow; now rewrite F).
  assert (comment_chars p = []) as EC.
  { destruct (comment_chars p) as [|x r] eqn:E; [reflexivity|]. destruct (NC x). apply mem_comments. rewrite E. unfold mem. cbn [existsb]. now rewrite Z.eqb_refl. }
  assert (comment_chars p1 = []) as EC1 by (unfold comment_chars, allow in *; now rewrite F).
  assert (allow p1 ALLOW_MULTI_ADDRESSES_NEWLINES = allow p ALLOW_MULTI_ADDRESSES_NEWLINES) as EN by (unfold allow; now rewrite F).
  apply mem_separators in Sc. unfold asks_parse. rewrite ES, EC, EC1, EN. unfold parse_entries in R0. rewrite !bind_ask in R0. rewrite EC in R0.
  destruct (separators p) as [|s0 seps]; [discriminate|]. rewrite bind_allowed in R0.
  apply (loop_turn y g (s0 :: seps) _ c b Sc (length a) _ _ _ a p p1 l0); try lia. exact R0.
Qed.

Definition listed : parser := PropParser.with_allow (PropParser.with_allow (PropParser.with_allow parser_new
  ALLOW_MULTI_ADDRESSES_COMMAS true) ALLOW_ADDRESS_MASK true) ALLOW_MASK true.
(* cases: two names, a mask and an address which is not there *)
Example C155_witness :
  -1 <= get_default_port listed
  /\ asks_parse AddrProofs4.ref_sys PropValidator.one_host (lit "a.b:http,10.0.0.1/255.0.0.0") listed =
     [mk_question (lit "a.b") (lit "http") false 0 0; mk_question (lit "10.0.0.1") (lit "0") false 0 0;
      mk_question (lit "255.0.0.0") (lit "80") true SOCK_STREAM IPPROTO_TCP]
  /\ asks_parse AddrProofs4.ref_sys PropParser.no_answer (lit ":80") parser_new = [mk_question (lit "0.0.0.0") (lit "80") false 0 0]
  /\ asks_parse AddrProofs4.ref_sys PropParser.no_answer (lit "a-b:80") (PropParser.with_allow parser_new ALLOW_ADDRESS_RANGE true)
     = [mk_question (lit "a") (lit "80") false 0 0]
  /\ separator listed 44 /\ nobody (starts_comment listed)
  /\ (exists l, parse AddrProofs4.ref_sys PropValidator.one_host (lit "a.b:http") listed = (listed, Ok l))
  /\ get_allow PropParser.numeric ALLOW_ADDRESS_LOOKUP = Ok false /\ get_allow PropParser.numeric ALLOW_MASK = Ok false
  /\ nobody (separator commented) /\ up_to (starts_comment commented) (lit "a #b") (lit "a ")
  /\ asks_parse AddrProofs4.ref_sys PropParser.no_answer (lit "a #b") commented = [mk_question (lit "a") (lit "0") false 0 0]
  /\ takes_names parser_new /\ host_entry parser_new (lit "localhost") (lit ":80") (lit "localhost:80")
  /\ service_of parser_new (lit ":80") (lit "80") true /\ hints (parser_get_protocol parser_new) 0 0.
Proof.
  split; [discriminate|]. split; [vm_compute; reflexivity|]. split; [vm_compute; reflexivity|]. split; [vm_compute; reflexivity|].
  split; [left; now split|]. split; [intros c [[H _]|[H _]]; discriminate|]. split; [eexists; vm_compute; reflexivity|].
  split; [reflexivity|]. split; [reflexivity|]. split; [intros c [[H _]|[[H _]|[H _]]]; discriminate|].
  split. { split; [repeat constructor; intros [[_ H]|[H _]]; discriminate|]. right. exists 35, (lit "b"). split; [reflexivity|]. left. now split. }
  split; [vm_compute; reflexivity|]. destruct PropParser8.C116_case as (_ & T & H & _). split; [exact T|]. split; [exact H|].
  split; [constructor; [discriminate|]; intros [X|[X|[]]]; discriminate|]. constructor; discriminate.
Qed.
Print Assumptions C155_questions.
Print Assumptions C155_nothing.
Print Assumptions C155_only_these_answers.
Print Assumptions C155_one_question.
Print Assumptions C155_comments_partial.
Print Assumptions C155_comments_refuted.
Print Assumptions C155_in_turn.
