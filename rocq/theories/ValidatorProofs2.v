(* More lemmas about the validator: what is logged, and no exceptions. *)
From Coq Require Import ZifyBool ZifyNat.
From Verif Require Import Base Addr Spec Range SpecRange Inet SpecText AddrText Parser SpecParser SpecParser2 Validator SpecValidator.
From Verif Require AddrProofs AddrProofs2 AddrProofs4 ParserProofs ParserProofs2 ParserProofs3 ParserProofs5 ParserProofs7 RouteProofs
  ValidatorProofs PropAddr PropText PropParser PropParser2 PropParser4.
Import AddrProofs AddrProofs4 ParserProofs ParserProofs2 ParserProofs3 ParserProofs5 ParserProofs7 RouteProofs ValidatorProofs PropParser PropParser2 PropParser4.
Local Open Scope Z_scope.

(* ---------- flags, in words ---------- *)
Lemma has_value_in values v : has_value values v = true <-> In v values.
Proof.
  unfold has_value. rewrite existsb_exists. split.
  - intros (x & I & E). apply str_eqb_true in E. now subst.
  - intros I. exists v. split; [exact I|]. now apply str_eqb_true.
Qed.
Lemma single_true values f : single values f = true <-> exists v, values = [v] /\ f v = true.
Proof.
  unfold single. destruct values as [|v [|v' l]]; split; try discriminate.
  - intros (v & E & _). discriminate.
  - intros H. eauto.
  - intros (w & E & H). now injection E as ->.
  - intros (w & E & _). discriminate.
Qed.
Lemma not_eqb v w : negb (str_eqb v w) = true <-> v <> w.
Proof.
  rewrite negb_true_iff. split.
  - intros H ->. now rewrite (proj2 (str_eqb_true w w) eq_refl) in H.
  - intros H. destruct (str_eqb v w) eqn:E; [|reflexivity]. now apply str_eqb_true in E.
Qed.
Lemma keyword_word k w : keyword k w <-> word k = Some w.
Proof.
  split.
  - intros []; reflexivity.
  - unfold word. repeat match goal with |- (if ?k =? ?n then _ else _) = _ -> _ => destruct (Z.eqb_spec k n) as [->|] end;
      intros [= <-]; constructor.
Qed.
Lemma word_in k w values : word k = Some w -> existsb (is_word k) values = true <-> In w values.
Proof.
  intros E. unfold is_word. rewrite E, <- has_value_in. unfold has_value.
  assert (forall v, str_eqb v w = str_eqb w v) as S.
  { intros v. destruct (str_eqb v w) eqn:A, (str_eqb w v) eqn:B; auto; [apply str_eqb_true in A|apply str_eqb_true in B]; subst;
      rewrite (proj2 (str_eqb_true _ _) eq_refl) in *; discriminate. }
  induction values as [|v l IH]; cbn [existsb]; [reflexivity|]. now rewrite S, !orb_true_iff, IH.
Qed.
Definition configured (split : str -> list str) (data : list str) (k : Z) : bool :=
  match last_values split (group k) data with Some vs => flag_value vs k | None => allow parser_new k end.
Lemma configured_on split data A P M C k : 0 <= k < 13 ->
  last_values split (lit "address") data = A -> last_values split (lit "port") data = P ->
  last_values split (lit "mask") data = M -> last_values split (lit "comment") data = C ->
  configured split data k = true <-> turned_on A P M C k.
Proof.
  intros K HA HP HM HC. unfold configured.
  assert (forall w, word k = Some w -> k <= 6 -> k <> 0 -> (k <> 5 \/ A <> None) ->
    match last_values split (group k) data with Some vs => flag_value vs k | None => allow parser_new k end = true
    <-> turned_on A P M C k) as W.
  { intros w E L N0 N5. assert (group k = lit "address") as -> by (unfold group; now replace (k <=? 6) with true by lia).
    rewrite HA. split.
    - destruct A as [vs|].
      + unfold flag_value. replace (k <=? 6) with true by lia. replace (k =? 0) with false by lia. cbn [orb].
        rewrite andb_true_iff, negb_true_iff. intros [X Y]. apply (on_keyword _ _ _ _ vs w); [reflexivity| | |].
        * intros I. apply has_value_in in I. congruence.
        * now apply keyword_word.
        * now apply (word_in k w).
      + destruct N5 as [N5|N5]; [|congruence].
        assert (k = 1 \/ k = 2 \/ k = 3 \/ k = 4 \/ k = 6) as D by lia. intros T.
        repeat (destruct D as [->|D]; [discriminate|]). subst. discriminate.
    - intros T. inversion T; subst; try (cbv in N0; lia); try discriminate; try congruence.
      + destruct N5 as [N5|N5]; [cbv in N5; lia|congruence].
      + rewrite H. unfold flag_value. replace (k <=? 6) with true by lia. replace (k =? 0) with false by lia. cbn [orb].
        rewrite andb_true_iff, negb_true_iff. split.
        * destruct (has_value values (lit "no")) eqn:E1; [|reflexivity]. now apply has_value_in in E1.
        * apply keyword_word in H1. now apply (word_in k w0). }
  assert (k = 0 \/ k = 1 \/ k = 2 \/ k = 3 \/ k = 4 \/ k = 5 \/ k = 6 \/ k = 7 \/ k = 8 \/ k = 9 \/ k = 10 \/ k = 11 \/ k = 12) as D by lia.
  destruct D as [->|D].
  { change (group 0) with (lit "address"). rewrite HA. destruct A as [vs|]; split; try (intros; now constructor).
    - intros E. unfold flag_value in E. cbn [Z.leb Z.compare Z.eqb orb] in E. rewrite andb_true_r, negb_true_iff in E.
      apply (on_address _ _ _ _ vs); [reflexivity|]. intros I. apply has_value_in in I. congruence.
    - intros T. inversion T; subst; try discriminate; try congruence.
      + unfold flag_value. cbn [Z.leb Z.compare Z.eqb orb]. rewrite andb_true_r, negb_true_iff.
        destruct (has_value vs (lit "no")) eqn:E; [|reflexivity]. apply has_value_in in E. congruence.
      + match goal with H : keyword _ _ |- _ => inversion H end. }
  destruct D as [->|D]; [eapply W; [reflexivity|lia|lia|left; lia]|].
  destruct D as [->|D]; [eapply W; [reflexivity|lia|lia|left; lia]|].
  destruct D as [->|D]; [eapply W; [reflexivity|lia|lia|left; lia]|].
  destruct D as [->|D]; [eapply W; [reflexivity|lia|lia|left; lia]|].
  destruct D as [->|D].
  { destruct A as [vs|]; [eapply W; [reflexivity|lia|lia|right; discriminate]|].
    change (group 5) with (lit "address"). rewrite HA. split; intros _; [now apply on_lookup_by_default|reflexivity]. }
  destruct D as [->|D]; [eapply W; [reflexivity|lia|lia|left; lia]|]. clear W.
  assert (forall k values w, k > 6 -> keyword k w -> In w values -> False) as NK.
  { intros k0 values w H Hk _. destruct Hk; cbv in H; discriminate. }
  repeat (destruct D as [->|D] || subst k).
  - change (group 7) with (lit "port"). rewrite HP. destruct P as [vs|].
    + change (flag_value vs 7) with (single vs (fun v => negb (str_eqb v (lit "no")))). rewrite single_true. split.
      * intros (v & -> & N). apply not_eqb in N. now apply (on_port _ _ _ _ v).
      * intros T. inversion T; subst; try discriminate; [exfalso; eapply (NK 7); eauto; lia|].
        injection H as ->. eexists. split; [reflexivity|]. now apply not_eqb.
    + split; [intros _; now apply on_port_by_default|]. intros _. reflexivity.
  - change (group 8) with (lit "port"). rewrite HP. destruct P as [vs|].
    + change (flag_value vs 8) with (single vs (fun v => str_eqb v (lit "required"))). rewrite single_true. split.
      * intros (v & -> & N). apply str_eqb_true in N. subst v. now apply on_port_required.
      * intros T. inversion T; subst; try discriminate; [exfalso; eapply (NK 8); eauto; lia|].
        injection H as ->. eexists. split; [reflexivity|]. now apply str_eqb_true.
    + split; [discriminate|]. intros T. inversion T; subst; try discriminate. exfalso; eapply (NK 8); eauto; lia.
  - change (group 9) with (lit "mask"). rewrite HM. destruct M as [vs|].
    + change (flag_value vs 9) with (single vs (fun v => negb (str_eqb v (lit "no")))). rewrite single_true. split.
      * intros (v & -> & N). apply not_eqb in N. now apply (on_mask _ _ _ _ v).
      * intros T. inversion T; subst; try discriminate; [exfalso; eapply (NK 9); eauto; lia|].
        injection H as ->. eexists. split; [reflexivity|]. now apply not_eqb.
    + split; [discriminate|]. intros T. inversion T; subst; try discriminate. exfalso; eapply (NK 9); eauto; lia.
  - change (group 10) with (lit "mask"). rewrite HM. destruct M as [vs|].
    + change (flag_value vs 10) with (single vs (fun v => str_eqb v (lit "address"))). rewrite single_true. split.
      * intros (v & -> & N). apply str_eqb_true in N. subst v. now apply on_mask_address.
      * intros T. inversion T; subst; try discriminate; [exfalso; eapply (NK 10); eauto; lia|].
        injection H as ->. eexists. split; [reflexivity|]. now apply str_eqb_true.
    + split; [discriminate|]. intros T. inversion T; subst; try discriminate. exfalso; eapply (NK 10); eauto; lia.
  - change (group 11) with (lit "comment"). rewrite HC. destruct C as [vs|].
    + change (flag_value vs 11) with (single vs (fun v => str_eqb v (lit "yes") || str_eqb v (lit "all") || str_eqb v (lit "hash"))).
      rewrite single_true. split.
      * intros (v & -> & N). rewrite !orb_true_iff, !str_eqb_true in N. apply (on_hash _ _ _ _ v); [reflexivity|tauto].
      * intros T. inversion T; subst; try discriminate; [exfalso; eapply (NK 11); eauto; lia|].
        injection H as ->. eexists. split; [reflexivity|]. rewrite !orb_true_iff, !str_eqb_true. tauto.
    + split; [discriminate|]. intros T. inversion T; subst; try discriminate. exfalso; eapply (NK 11); eauto; lia.
  - change (group 12) with (lit "comment"). rewrite HC. destruct C as [vs|].
    + change (flag_value vs 12) with (single vs (fun v => str_eqb v (lit "yes") || str_eqb v (lit "all") || str_eqb v (lit "semicolon"))).
      rewrite single_true. split.
      * intros (v & -> & N). rewrite !orb_true_iff, !str_eqb_true in N. apply (on_semicolon _ _ _ _ v); [reflexivity|tauto].
      * intros T. inversion T; subst; try discriminate; [exfalso; eapply (NK 12); eauto; lia|].
        injection H as ->. eexists. split; [reflexivity|]. rewrite !orb_true_iff, !str_eqb_true. tauto.
    + split; [discriminate|]. intros T. inversion T; subst; try discriminate. exfalso; eapply (NK 12); eauto; lia.
Qed.

(* ---------- what is logged ---------- *)
Definition logs (s s' : setup) (ok : Prop) : Prop := exists l, s_log s' = s_log s ++ l /\ (l = [] <-> ok).
Lemma logs_none s s' (ok : Prop) : s_log s' = s_log s -> ok -> logs s s' ok.
Proof. intros E O. exists []. rewrite app_nil_r. tauto. Qed.
Lemma logs_one s s' m (ok : Prop) : s_log s' = s_log s ++ [m] -> ~ ok -> logs s s' ok.
Proof. intros E O. exists [m]. split; [exact E|]. split; [discriminate|tauto]. Qed.
Lemma logs_trans s s1 s2 (P Q : Prop) : logs s s1 P -> logs s1 s2 Q -> logs s s2 (P /\ Q).
Proof.
  intros (l1 & E1 & H1) (l2 & E2 & H2). exists (l1 ++ l2). rewrite E2, E1, <- app_assoc. split; [reflexivity|].
  rewrite <- H1, <- H2. split; [apply app_eq_nil|]. now intros [-> ->].
Qed.
Lemma logs_iff s s' (P Q : Prop) : (P <-> Q) -> logs s s' P -> logs s s' Q.
Proof. intros H (l & E & K). exists l. rewrite <- H. now split. Qed.

Definition good_word (values : list str) (v : str) : Prop :=
  (exists flag, keyword flag v) \/ (v = lit "yes" /\ ~ In (lit "required") values).
Lemma no_keyword v : str_eqb v (lit "commas") = false -> str_eqb v (lit "lookup") = false -> str_eqb v (lit "newlines") = false ->
  str_eqb v (lit "range") = false -> str_eqb v (lit "required") = false -> str_eqb v (lit "spaces") = false ->
  forall flag, ~ keyword flag v.
Proof. intros E1 E2 E3 E4 E5 E6 flag H. inversion H; subst; discriminate. Qed.
Lemma address_value_logs values v s : logs s (address_value values v s) (good_word values v).
Proof.
  unfold address_value.
  destruct (str_eqb v (lit "commas")) eqn:E1; [apply str_eqb_true in E1; subst v; apply logs_none; [reflexivity|left; eexists; constructor]|].
  destruct (str_eqb v (lit "lookup")) eqn:E2; [apply str_eqb_true in E2; subst v; apply logs_none; [reflexivity|left; eexists; constructor]|].
  destruct (str_eqb v (lit "newlines")) eqn:E3; [apply str_eqb_true in E3; subst v; apply logs_none; [reflexivity|left; eexists; constructor]|].
  destruct (str_eqb v (lit "range")) eqn:E4; [apply str_eqb_true in E4; subst v; apply logs_none; [reflexivity|left; eexists; constructor]|].
  destruct (str_eqb v (lit "required")) eqn:E5; [apply str_eqb_true in E5; subst v; apply logs_none; [reflexivity|left; eexists; constructor]|].
  destruct (str_eqb v (lit "spaces")) eqn:E6; [apply str_eqb_true in E6; subst v; apply logs_none; [reflexivity|left; eexists; constructor]|].
  pose proof (no_keyword v E1 E2 E3 E4 E5 E6) as N.
  destruct (str_eqb v (lit "yes")) eqn:E7.
  - apply str_eqb_true in E7. destruct (has_value values (lit "required")) eqn:R.
    + eapply logs_one; [reflexivity|]. apply has_value_in in R. intros [[f F]|[_ F]]; [now apply (N f)|auto].
    + apply logs_none; [reflexivity|]. right. split; [exact E7|]. intros I. apply has_value_in in I. congruence.
  - eapply logs_one; [reflexivity|]. intros [[f F]|[F _]]; [now apply (N f)|]. apply str_eqb_true in F. congruence.
Qed.
Lemma address_values_logs values l : forall s,
  logs s (fold_left (fun s v => address_value values v s) l s) (forall v, In v l -> good_word values v).
Proof.
  induction l as [|v l IH]; intros s; cbn [fold_left]; [apply logs_none; [reflexivity|now intros v []]|].
  eapply logs_iff; [|exact (logs_trans _ _ _ _ _ (address_value_logs values v s) (IH _))]. split.
  - intros [A B] w [<-|I]; auto.
  - intros H. split; [apply H; now left|]. intros w I. apply H. now right.
Qed.
Definition address_ok (values : list str) : Prop :=
  values = [lit "no"]
  \/ (forall v, In v values -> v = lit "yes" \/ exists flag, keyword flag v)
     /\ ~ (In (lit "yes") values /\ In (lit "required") values).
Lemma no_is_no_keyword flag : ~ keyword flag (lit "no").
Proof. intros H. inversion H. Qed.
Lemma address_option_logs values s : logs s (address_option values s) (address_ok values).
Proof.
  unfold address_option. destruct (has_value values (lit "no")) eqn:N.
  - apply has_value_in in N.
    assert (forall m s1, s_log s1 = s_log s -> logs s (match values with [_] => s1 | _ => log m s1 end) (address_ok values)) as G.
    { intros m s1 E. destruct values as [|v [|v' l]]; [destruct N| |].
      - apply logs_none; [exact E|]. left. destruct N as [->|[]]. reflexivity.
      - eapply logs_one; [unfold log; cbn [s_log]; rewrite E; reflexivity|]. intros [H|[H _]]; [discriminate|].
        destruct (H _ N) as [X|[f X]]; [discriminate|now apply no_is_no_keyword in X]. }
    apply G. reflexivity.
  - match goal with |- context [fold_left ?f values ?x] => set (s1 := x) end.
    eapply logs_iff; [|exact (address_values_logs values values s1)]. unfold good_word. split.
    + intros H. right. split.
      * intros v I. destruct (H v I) as [X|[X _]]; auto.
      * intros [I1 I2]. destruct (H _ I1) as [[f F]|[_ X]]; [inversion F|auto].
    + intros [->|[H1 H2]]; [discriminate|]. intros v I. destruct (H1 v I) as [->|X]; [right|now left].
      split; [reflexivity|]. intros J. now apply H2.
Qed.
Lemma one_of_single v words : one_of [v] words <-> In v words.
Proof. split; [intros (w & [= ->] & H); exact H|intros H; now exists v]. Qed.
Lemma one_of_other values words : (forall v, values <> [v]) -> ~ one_of values words.
Proof. intros H (v & E & _). now apply (H v). Qed.
Ltac alone := match goal with
  | |- logs _ _ (one_of [] _) => eapply logs_one; [reflexivity|apply one_of_other; discriminate]
  | |- logs _ _ (one_of (_ :: _ :: _) _) => eapply logs_one; [reflexivity|apply one_of_other; discriminate]
  end.
Ltac known v w := let E := fresh "E" in destruct (str_eqb v w) eqn:E;
  [apply str_eqb_true in E; subst v; apply logs_none; [reflexivity|cbn [In]; tauto]|].
Lemma not_listed v words : forallb (fun w => negb (str_eqb v w)) words = true -> ~ In v words.
Proof.
  intros H I. rewrite forallb_forall in H. specialize (H v I). now rewrite (proj2 (str_eqb_true v v) eq_refl) in H.
Qed.
Lemma comment_option_logs values s : logs s (comment_option values s)
  (one_of values [lit "yes"; lit "all"; lit "hash"; lit "semicolon"; lit "no"]).
Proof.
  unfold comment_option. destruct values as [|v [|v' l]]; try alone. eapply logs_iff; [symmetry; apply one_of_single|].
  destruct (str_eqb v (lit "yes")) eqn:E1; cbn [orb]; [apply str_eqb_true in E1; subst v; apply logs_none; [reflexivity|cbn [In]; tauto]|].
  known v (lit "all"). known v (lit "hash"). known v (lit "semicolon").
  destruct (str_eqb v (lit "no")) eqn:E5; cbn [negb]; [apply str_eqb_true in E5; subst v; apply logs_none; [reflexivity|cbn [In]; tauto]|].
  eapply logs_one; [reflexivity|]. apply not_listed. cbn [forallb]. now rewrite E1, E, E0, E2, E5.
Qed.
Lemma mask_option_logs values s : logs s (mask_option values s) (one_of values [lit "yes"; lit "no"; lit "address"]).
Proof.
  unfold mask_option. destruct values as [|v [|v' l]]; try alone. eapply logs_iff; [symmetry; apply one_of_single|].
  destruct (str_eqb v (lit "no")) eqn:E1; cbn [negb]; [apply str_eqb_true in E1; subst v; apply logs_none; [reflexivity|cbn [In]; tauto]|].
  known v (lit "address").
  destruct (str_eqb v (lit "yes")) eqn:E5; cbn [negb]; [apply str_eqb_true in E5; subst v; apply logs_none; [reflexivity|cbn [In]; tauto]|].
  eapply logs_one; [reflexivity|]. apply not_listed. cbn [forallb]. now rewrite E1, E, E5.
Qed.
Lemma port_option_logs values s : logs s (port_option values s) (one_of values [lit "yes"; lit "no"; lit "required"]).
Proof.
  unfold port_option. destruct values as [|v [|v' l]]; try alone. eapply logs_iff; [symmetry; apply one_of_single|].
  destruct (str_eqb v (lit "no")) eqn:E1; cbn [negb]; [apply str_eqb_true in E1; subst v; apply logs_none; [reflexivity|cbn [In]; tauto]|].
  destruct (str_eqb v (lit "yes")) eqn:E5; cbn [negb]; [apply str_eqb_true in E5; subst v; apply logs_none; [reflexivity|cbn [In]; tauto]|].
  known v (lit "required").
  eapply logs_one; [reflexivity|]. apply not_listed. cbn [forallb]. now rewrite E1, E, E5.
Qed.

(* ---------- the defaults ---------- *)
Lemma default_address_ok p t : hd 0 t <> 91 \/ back t = 93 -> snd (set_default_address p t) = Ok tt.
Proof.
  intros H. unfold set_default_address. destruct t as [|c t]; [reflexivity|]. cbn [hd] in H. destruct (c =? 91) eqn:E.
  - destruct H as [H|H]; [lia|]. rewrite H. reflexivity.
  - destruct (find_char _ _); reflexivity.
Qed.
Lemma bracket_text y a : addr_wf a -> exists t, to_ipv4or6_string y a STRING_IP_BRACKET_ADDRESS = Ok t
  /\ (is_ipv4 a = true -> t = inet_ntop4 (skipn 12 (s6 a)))
  /\ (is_ipv4 a = false -> t = lit "[" ++ inet_ntop6 (s6 a) ++ lit "]").
Proof.
  intros W. unfold to_ipv4or6_string. destruct (is_ipv4 a) eqn:I.
  - exists (inet_ntop4 (skipn 12 (s6 a))). split; [|split; [reflexivity|discriminate]].
    unfold to_ipv4_string. change (shows_address STRING_IP_BRACKET_ADDRESS) with true. rewrite I. cbn [negb].
    change (has STRING_IP_BRACKET_ADDRESS STRING_IP_DEFAULT_AS_ASTERISK) with false. cbn [andb rbind].
    change (port_text y a STRING_IP_BRACKET_ADDRESS) with (Ok (A:=str) []). cbn [rbind].
    change (mask_text4 a STRING_IP_BRACKET_ADDRESS) with (Ok (A:=str) []). cbn [rbind app]. now rewrite app_nil_r.
  - destruct (PropText.C21_round_trip y a W) as (s & E1 & E2 & _).
    { intros E. assert (is_ipv4 a = true) by (apply AddrProofs2.is_ipv4_value; [exact W|]; unfold is_v4_value; rewrite E; unfold v4_base; lia). congruence. }
    rewrite PropText.text6_address_only in E1; [|exact W|].
    + injection E1 as <-. eexists. split; [exact E2|]. split; [discriminate|reflexivity].
    + intros E. assert (is_ipv4 a = true) by (apply AddrProofs2.is_ipv4_value; [exact W|]; unfold is_v4_value; rewrite E; unfold v4_base; lia). congruence.
Qed.
Lemma reader_eq : fst (parser_set_protocol (set_flag ALLOW_MASK true parser_new) IPPROTO_TCP) = default_reader.
Proof. reflexivity. Qed.
Lemma default_value_logs y g param s s' : default_value y g param s = (s', Ok tt) ->
  logs s s' (exists a, reads_default y g param a).
Proof.
  unfold default_value. rewrite reader_eq. unfold reads_default.
  destruct (parse y g param default_reader) as [q [l|e| |]]; try discriminate.
  assert (forall m, (forall r, l = [r] -> has_from r && negb (has_to r) = true -> False) ->
    (log m s, Ok tt) = (s', Ok tt) ->
    logs s s' (exists a q0 r, (q, Ok l) = (q0, Ok [r]) /\ has_from r = true /\ has_to r = false /\ get_from r = a)) as B.
  { intros m N [= <-]. eapply logs_one; [reflexivity|]. intros (a & q0 & r & [= _ E] & F & T & _). apply (N r E). now rewrite F, T. }
  destruct l as [|r [|r' l]]; [apply B; discriminate| |apply B; discriminate].
  destruct (has_from r && negb (has_to r)) eqn:HF; [|apply B; intros x [= <-]; congruence]. clear B.
  assert (forall p, logs s (mk_setup p (s_log s)) (exists a q0 r0, (q, Ok [r]) = (q0, Ok [r0]) /\ has_from r0 = true /\ has_to r0 = false /\ get_from r0 = a)) as G.
  { intros p. apply logs_none; [reflexivity|]. apply andb_true_iff in HF. destruct HF as [F T]. apply negb_true_iff in T.
    exists (get_from r), q, r. repeat split; assumption. }
  match goal with |- context [let '(p, r1) := ?m in _] => destruct m as [p1 [[]|e| |]] end; try discriminate.
  match goal with |- context [let '(p, r2) := ?m in _] => destruct m as [p2 [[]|e| |]] end; try discriminate.
  match goal with |- context [let '(p, r3) := ?m in _] => destruct m as [p3 [[]|e| |]] end; try discriminate.
  intros [= <-]. apply G.
Qed.
Lemma default_values_logs y g l : forall s s', default_values y g l s = (s', Ok tt) ->
  logs s s' (forall v, In v l -> exists a, reads_default y g v a).
Proof.
  induction l as [|v l IH]; intros s s'; cbn [default_values].
  - intros [= <-]. apply logs_none; [reflexivity|now intros v []].
  - destruct (default_value y g v s) as [s1 [[]|e| |]] eqn:E; try discriminate. intros H.
    eapply logs_iff; [|exact (logs_trans _ _ _ _ _ (default_value_logs _ _ _ _ _ E) (IH _ _ H))]. split.
    + intros [A B] w [<-|I]; auto.
    + intros K. split; [apply K; now left|]. intros w I. apply K. now right.
Qed.
Definition defaults_ok (y : sys) (g : resolver) (values : list str) : Prop :=
  values = [lit "yes"] \/ forall v, In v values -> exists a, reads_default y g v a.
Lemma default_option_logs y g values s s' : default_option y g values s = (s', Ok tt) -> logs s s' (defaults_ok y g values).
Proof.
  unfold default_option, defaults_ok.
  assert (values <> [lit "yes"] -> default_values y g values s = (s', Ok tt) ->
    logs s s' (values = [lit "yes"] \/ forall v, In v values -> exists a, reads_default y g v a)) as G.
  { intros N H. eapply logs_iff; [|exact (default_values_logs _ _ _ _ _ H)]. tauto. }
  destruct values as [|v [|v' l]]; [apply G; discriminate| |apply G; discriminate].
  destruct (str_eqb v (lit "yes")) eqn:E.
  - intros [= <-]. apply str_eqb_true in E. subst v. apply logs_none; [reflexivity|now left].
  - apply G. intros [= ->]. rewrite (proj2 (str_eqb_true _ _) eq_refl) in E. discriminate.
Qed.
Lemma option_step_logs split y g p s s' : option_step split y g p s = (s', Ok tt) ->
  logs s s' (forall n vs, an_option split p n vs -> understood y g n vs).
Proof.
  unfold option_step. intros H.
  assert (p <> [] -> logs s s' (understood y g (fst (name_and_values split p)) (snd (name_and_values split p))) ->
    logs s s' (forall n vs, an_option split p n vs -> understood y g n vs)) as G.
  { intros N. apply logs_iff. split.
    - intros U n vs A. apply name_and_values_spec in A. destruct A as [_ E]. now rewrite E in U.
    - intros U. apply U. apply name_and_values_spec. split; [exact N|]. now destruct (name_and_values split p). }
  destruct p as [|c p].
  { injection H as <-. apply logs_none; [reflexivity|]. intros n vs A. apply name_and_values_spec in A. now destruct A. }
  apply G; [discriminate|]. clear G. destruct (name_and_values split (c :: p)) as [n vs]. cbn [fst snd].
  unfold understood. fold (address_ok vs). fold (defaults_ok y g vs).
  assert (forall (A B C D E : Prop), (n = lit "address" /\ A) \/ (n = lit "comment" /\ B) \/ ((n = lit "default" \/ n = lit "defaults") /\ C)
    \/ (n = lit "mask" /\ D) \/ (n = lit "port" /\ E) ->
    (str_eqb n (lit "address") = true /\ A) \/ (str_eqb n (lit "comment") = true /\ B)
    \/ (str_eqb n (lit "default") || str_eqb n (lit "defaults") = true /\ C)
    \/ (str_eqb n (lit "mask") = true /\ D) \/ (str_eqb n (lit "port") = true /\ E)) as U.
  { intros. rewrite orb_true_iff, !str_eqb_true. tauto. }
  destruct (str_eqb n (lit "address")) eqn:E1.
  { injection H as <-. apply str_eqb_true in E1. subst n. eapply logs_iff; [|apply address_option_logs]. split; [now left|].
    intros [[_ X]|[[X _]|[[[X|X] _]|[[X _]|[X _]]]]]; [exact X|discriminate..]. }
  destruct (str_eqb n (lit "comment")) eqn:E2.
  { injection H as <-. apply str_eqb_true in E2. subst n. eapply logs_iff; [|apply comment_option_logs]. split; [now right; left|].
    intros [[X _]|[[_ X]|[[[X|X] _]|[[X _]|[X _]]]]]; try exact X; discriminate. }
  destruct (str_eqb n (lit "default") || str_eqb n (lit "defaults")) eqn:E3.
  { eapply logs_iff; [|exact (default_option_logs _ _ _ _ _ H)]. split.
    - intros X. right. right. left. split; [|exact X]. rewrite orb_true_iff, !str_eqb_true in E3. exact E3.
    - intros X. apply U in X. rewrite orb_true_iff, !str_eqb_true in E3.
      destruct X as [[X _]|[[X _]|[[_ X]|[[X _]|[X _]]]]]; try discriminate; try exact X;
        apply str_eqb_true in X; destruct E3 as [E3|E3]; rewrite E3 in X; discriminate. }
  destruct (str_eqb n (lit "mask")) eqn:E4.
  { injection H as <-. apply str_eqb_true in E4. subst n. eapply logs_iff; [|apply mask_option_logs]. split; [intros X; do 3 right; left; now split|].
    intros [[X _]|[[X _]|[[[X|X] _]|[[_ X]|[X _]]]]]; try exact X; discriminate. }
  destruct (str_eqb n (lit "port")) eqn:E5.
  { injection H as <-. apply str_eqb_true in E5. subst n. eapply logs_iff; [|apply port_option_logs]. split; [intros X; do 4 right; now split|].
    intros [[X _]|[[X _]|[[[X|X] _]|[[X _]|[_ X]]]]]; try exact X; discriminate. }
  injection H as <-. eapply logs_one; [reflexivity|]. intros X. apply U in X.
  destruct X as [[X _]|[[X _]|[[X _]|[[X _]|[X _]]]]]; discriminate.
Qed.
Lemma options_logs split y g data : forall s s', options split y g data s = (s', Ok tt) ->
  logs s s' (forall p n vs, In p data -> an_option split p n vs -> understood y g n vs).
Proof.
  induction data as [|p data IH]; intros s s'; cbn [options].
  - intros [= <-]. apply logs_none; [reflexivity|now intros p n vs []].
  - destruct (option_step split y g p s) as [s1 [[]|e| |]] eqn:E; try discriminate. intros H.
    eapply logs_iff; [|exact (logs_trans _ _ _ _ _ (option_step_logs _ _ _ _ _ _ E) (IH _ _ H))]. split.
    + intros [A B] q n vs [<-|I]; eauto.
    + intros K. split; [intros n vs; apply K; now left|]. intros q n vs I. apply K. now right.
Qed.

(* ---------- no exception, and what the defaults become ---------- *)
Lemma decimal_dec n : 0 <= n -> decimal (dec_string n) n.
Proof. intros H. exact (proj1 (PropText.plain_dec_string n H)). Qed.
Lemma decimal_hd s v : decimal s v -> s <> [] /\ forall c, In c s -> 48 <= c <= 57.
Proof.
  intros (N & D & _). split; [exact N|]. intros c I. rewrite forallb_forall in D. specialize (D c I). unfold is_digit in D. lia.
Qed.
Lemma last_in {A} (l : list A) d : l <> [] -> In (last l d) l.
Proof.
  induction l as [|x l IH]; [congruence|]. intros _. destruct l as [|z l]; [now left|]. right. apply IH. discriminate.
Qed.
Lemma default_port_ok y p n : converts_decimals y -> 0 <= n <= 65535 ->
  set_default_port_str y p (dec_string n) = (with_default_port p n, Ok tt).
Proof.
  intros C H. pose proof (decimal_dec n ltac:(lia)) as D. unfold set_default_port_str.
  destruct (dec_string n) as [|c t] eqn:E; [now destruct D|]. rewrite (C _ _ D) by lia.
  unfold set_default_port, s32. replace ((n + 2 ^ 31) mod 2 ^ 32) with (n + 2 ^ 31) by (symmetry; apply Z.mod_small; lia).
  replace (n + 2 ^ 31 - 2 ^ 31) with n by lia. now replace ((n <? -1) || (n >? 65535)) with false by lia.
Qed.
Lemma default_mask_ok y p n : converts_decimals y -> 0 <= n <= 128 ->
  snd (set_default_mask y p (to_string_int n)) = Ok tt
  /\ f_default_address4 (fst (set_default_mask y p (to_string_int n))) = f_default_address4 p
  /\ f_default_address6 (fst (set_default_mask y p (to_string_int n))) = f_default_address6 p
  /\ f_default_port (fst (set_default_mask y p (to_string_int n))) = f_default_port p.
Proof.
  intros C H. unfold to_string_int. replace (n <? 0) with false by lia. pose proof (decimal_dec n ltac:(lia)) as D.
  destruct (decimal_hd _ _ D) as [NE F]. unfold set_default_mask. destruct (dec_string n) as [|c t] eqn:E; [congruence|].
  assert (c =? 91 = false) as -> by (specialize (F c (or_introl eq_refl)); lia).
  assert (back (c :: t) =? 93 = false) as ->.
  { unfold back. specialize (F _ (last_in (c :: t) 0 ltac:(discriminate))). lia. }
  cbn [andb orb]. rewrite find_char_none by (intros I; specialize (F _ I); lia). rewrite (C _ _ D) by lia.
  replace ((n <? 0) || (n >? 128)) with false by lia. destruct (n >? 32); repeat split.
Qed.
Lemma default_mask6_ok y p n : snd (set_default_mask y p (lit "[" ++ n ++ lit "]")) = Ok tt
  /\ f_default_address4 (fst (set_default_mask y p (lit "[" ++ n ++ lit "]"))) = f_default_address4 p
  /\ f_default_address6 (fst (set_default_mask y p (lit "[" ++ n ++ lit "]"))) = f_default_address6 p
  /\ f_default_port (fst (set_default_mask y p (lit "[" ++ n ++ lit "]"))) = f_default_port p.
Proof.
  unfold set_default_mask. change (lit "[" ++ n ++ lit "]") with (91 :: n ++ [93]).
  assert (back (91 :: n ++ [93]) = 93) as E by (unfold back; change (91 :: n ++ [93]) with ((91 :: n) ++ [93]); apply last_last).
  rewrite E. repeat split.
Qed.
(* What a default read as the address a changes. *)
Record takes_defaults (a : addr) (p q : parser) : Prop := mk_takes_defaults {
  td_address4 : f_default_address4 q =
    if match snd (get_network_type a) with NETWORK_TYPE_ANY => false | _ => is_ipv4 a end
    then inet_ntop4 (skipn 12 (s6 a)) else f_default_address4 p;
  td_address6 : f_default_address6 q =
    if match snd (get_network_type a) with NETWORK_TYPE_ANY => false | _ => negb (is_ipv4 a) end
    then inet_ntop6 (s6 a) else f_default_address6 p;
  td_port : f_default_port q = if get_port a =? 0 then f_default_port p else get_port a
}.
Lemma inner_brackets t : inner (91 :: t ++ [93]) = t.
Proof.
  unfold inner. cbn [skipn length]. rewrite app_length. cbn [length].
  replace (S (length t + 1) - 2)%nat with (length t + 0)%nat by lia.
  now rewrite firstn_app_2, firstn_O, app_nil_r.
Qed.
Lemma ntop4_head a : addr_wf a -> is_ipv4 a = true ->
  hd 0 (inet_ntop4 (skipn 12 (s6 a))) <> 91 /\ find_char 58 (inet_ntop4 (skipn 12 (s6 a))) = None
  /\ inet_ntop4 (skipn 12 (s6 a)) <> [].
Proof.
  intros W I. destruct (PropText.C20_dotted_round_trip ref_sys a W (proj1 (AddrProofs2.is_ipv4_value a W) I)) as (s & E & _ & D & _).
  rewrite PropText.text4_address_only, I in E. assert (inet_ntop4 (skipn 12 (s6 a)) = s) as -> by congruence.
  assert (forall c, In c s -> 46 <= c <= 57) as B.
  { destruct D as (p & q & r & t & sp & sq & sr & st & _ & _ & _ & _ & _ & Dp & Dq & Dr & Dt & ->).
    intros c. rewrite !in_app_iff. destruct Dp as [Dp _], Dq as [Dq _], Dr as [Dr _], Dt as [Dt _].
    apply decimal_hd in Dp, Dq, Dr, Dt. destruct Dp as [_ Dp], Dq as [_ Dq], Dr as [_ Dr], Dt as [_ Dt].
    change (lit ".") with [46]. cbn [In]. intros J. repeat match type of J with _ \/ _ => destruct J as [J|J] end;
      try lia; try (specialize (Dp _ J); lia);
      try (specialize (Dq _ J); lia); try (specialize (Dr _ J); lia); try (specialize (Dt _ J); lia); contradiction. }
  assert (s <> []) as N.
  { destruct D as (p & q & r & t & sp & sq & sr & st & _ & _ & _ & _ & _ & Dp & _ & _ & _ & ->).
    destruct Dp as [[N _] _]. destruct sp; [congruence|discriminate]. }
  split; [|split; [|exact N]].
  - destruct s as [|c s]; [congruence|]. cbn [hd]. specialize (B c (or_introl eq_refl)). lia.
  - apply find_char_none. intros J. specialize (B _ J). lia.
Qed.
Lemma set_address4 p t : hd 0 t <> 91 -> find_char 58 t = None -> t <> [] ->
  set_default_address p t = (with_default_address4 p t, Ok tt).
Proof.
  intros H1 H2 H3. unfold set_default_address. destruct t as [|c u]; [congruence|]. cbn [hd] in H1.
  replace (c =? 91) with false by lia. now rewrite H2.
Qed.
Lemma set_address6 p t : set_default_address p (lit "[" ++ t ++ lit "]") = (with_default_address6 p t, Ok tt).
Proof.
  unfold set_default_address. change (lit "[" ++ t ++ lit "]") with (91 :: t ++ [93]).
  change (91 =? 91) with true. cbv iota.
  assert (back (91 :: t ++ [93]) = 93) as ->.
  { unfold back. change (91 :: t ++ [93]) with ((91 :: t) ++ [93]). apply last_last. }
  change (negb (93 =? 93)) with false. cbv iota. now rewrite inner_brackets.
Qed.
Lemma set_text y a p : addr_wf a -> exists p1, match to_ipv4or6_string y a STRING_IP_BRACKET_ADDRESS with
             | Ok t => set_default_address p t
             | Throw e => (p, Throw e) | UB => (p, UB) | OutOfFuel => (p, OutOfFuel) end = (p1, Ok tt)
      /\ f_default_port p1 = f_default_port p
      /\ f_default_address4 p1 = (if is_ipv4 a then inet_ntop4 (skipn 12 (s6 a)) else f_default_address4 p)
      /\ f_default_address6 p1 = (if negb (is_ipv4 a) then inet_ntop6 (s6 a) else f_default_address6 p).
Proof.
  intros Wa. destruct (bracket_text y a Wa) as (t & -> & T4 & T6).
  pose proof (ntop4_head a Wa) as H.
  generalize dependent (inet_ntop4 (skipn 12 (s6 a))). generalize dependent (inet_ntop6 (s6 a)). intros t6 T6 t4 T4 H.
  destruct (is_ipv4 a); cbn [negb].
  - rewrite T4 by reflexivity. destruct (H eq_refl) as (H1 & H2 & H3). rewrite set_address4 by assumption.
    eexists. split; [reflexivity|]. split; [reflexivity|]. split; reflexivity.
  - rewrite T6 by reflexivity. rewrite set_address6. eexists. split; [reflexivity|]. split; [reflexivity|]. split; reflexivity.
Qed.
Lemma default_value_ok y g param s : converts_decimals y -> resolver_ok g -> known_protocols g ->
  exists s', default_value y g param s = (s', Ok tt)
    /\ forall a, reads_default y g param a -> takes_defaults a (s_parser s) (s_parser s').
Proof.
  intros C R K. unfold default_value. rewrite reader_eq.
  destruct (C73_no_exception y g param default_reader R (or_intror K)) as [l El].
  { right. right. left. reflexivity. }
  { left. reflexivity. }
  unfold reads_default. destruct (parse y g param default_reader) as [q r0] eqn:EP. cbn [snd] in El. subst r0.
  pose proof (C43_defined_ranges _ _ _ _ _ _ R EP) as WF.
  assert (forall m, (forall r, l = [r] -> has_from r && negb (has_to r) = true -> False) ->
    exists s', (log m s, Ok tt) = (s', Ok tt) /\ forall a,
      (exists q0 r, (q, Ok l) = (q0, Ok [r]) /\ has_from r = true /\ has_to r = false /\ get_from r = a) ->
      takes_defaults a (s_parser s) (s_parser s')) as B.
  { intros m N. eexists. split; [reflexivity|]. intros a (q0 & r & [= _ E] & F & T & _). elim (N r E). now rewrite F, T. }
  destruct l as [|r [|r' l]]; [apply B; discriminate| |apply B; discriminate].
  destruct (has_from r && negb (has_to r)) eqn:HF; [|apply B; intros x [= <-]; congruence]. clear B.
  apply andb_true_iff in HF. destruct HF as [HF HT]. apply negb_true_iff in HT.
  inversion WF as [|? ? (_ & W & _) _]; subst. destruct (W HF) as [Wa Pa]. clear W WF.
  set (a := get_from r) in *. set (p := s_parser s).
  assert (exists p1, (match snd (get_network_type a) with
      | NETWORK_TYPE_ANY => (p, Ok tt)
      | _ => match to_ipv4or6_string y a STRING_IP_BRACKET_ADDRESS with
             | Ok t => set_default_address p t
             | Throw e => (p, Throw e) | UB => (p, UB) | OutOfFuel => (p, OutOfFuel) end
      end) = (p1, Ok tt) /\ f_default_port p1 = f_default_port p
      /\ f_default_address4 p1 = (if match snd (get_network_type a) with NETWORK_TYPE_ANY => false | _ => is_ipv4 a end
           then inet_ntop4 (skipn 12 (s6 a)) else f_default_address4 p)
      /\ f_default_address6 p1 = (if match snd (get_network_type a) with NETWORK_TYPE_ANY => false | _ => negb (is_ipv4 a) end
           then inet_ntop6 (s6 a) else f_default_address6 p)) as (p1 & E1 & D1 & A1 & B1).
  { pose proof (set_text y a p Wa) as S.
    destruct (snd (get_network_type a)); first [exact S | exists p; split; [reflexivity|]; split; [reflexivity|]; split; reflexivity]. }
  rewrite E1. clear E1.
  assert (exists p2, (if negb (get_port a =? 0) then set_default_port_str y p1 (get_str_port a) else (p1, Ok tt)) = (p2, Ok tt)
    /\ f_default_port p2 = (if get_port a =? 0 then f_default_port p else get_port a)
    /\ f_default_address4 p2 = f_default_address4 p1 /\ f_default_address6 p2 = f_default_address6 p1) as (p2 & E2 & D2 & A2 & B2).
  { destruct (get_port a =? 0) eqn:Z0; cbn [negb].
    - exists p1. repeat split; assumption.
    - unfold get_str_port. rewrite default_port_ok by (auto; lia). eexists. repeat split. }
  rewrite E2. clear E2. cbv zeta.
  pose proof (proj2 (proj2 (PropAddr.C09_mask_size_characterisation a Wa))) as MS.
  assert (exists p3, (if negb (get_mask_size a =? -1) && negb (get_mask_size a =? 128)
     then if is_ipv4 a then set_default_mask y p2 (to_string_int (get_mask_size a))
          else set_default_mask y p2 (lit "[" ++ to_string_int (get_mask_size a) ++ lit "]")
     else (p2, Ok tt)) = (p3, Ok tt) /\ f_default_port p3 = f_default_port p2
     /\ f_default_address4 p3 = f_default_address4 p2 /\ f_default_address6 p3 = f_default_address6 p2) as (p3 & E3 & D3 & A3 & B3).
  { destruct (negb (get_mask_size a =? -1) && negb (get_mask_size a =? 128)) eqn:M.
    - destruct (is_ipv4 a).
      + destruct (default_mask_ok y p2 (get_mask_size a) C ltac:(lia)) as (X1 & X2 & X3 & X4).
        destruct (set_default_mask y p2 (to_string_int (get_mask_size a))) as [p3 r3]. cbn [fst snd] in *. subst r3. exists p3. auto.
      + destruct (default_mask6_ok y p2 (to_string_int (get_mask_size a))) as (X1 & X2 & X3 & X4).
        destruct (set_default_mask y p2 _) as [p3 r3]. cbn [fst snd] in *. subst r3. exists p3. auto.
    - exists p2. auto. }
  rewrite E3. eexists. split; [reflexivity|]. cbn [s_parser]. intros a' (q0 & r1 & [= <- <-] & _ & _ & <-). fold a.
  constructor.
  - now rewrite A3, A2, A1.
  - now rewrite B3, B2, B1.
  - now rewrite D3, D2.
Qed.
Lemma default_values_ok y g l : converts_decimals y -> resolver_ok g -> known_protocols g ->
  forall s, exists s', default_values y g l s = (s', Ok tt).
Proof.
  intros C R K. induction l as [|v l IH]; intros s; cbn [default_values]; [eauto|].
  destruct (default_value_ok y g v s C R K) as (s1 & E & _). rewrite E. apply IH.
Qed.
Lemma default_option_ok y g l s : converts_decimals y -> resolver_ok g -> known_protocols g ->
  exists s', default_option y g l s = (s', Ok tt).
Proof.
  intros C R K. unfold default_option. destruct l as [|v [|v' l]]; try now apply default_values_ok.
  destruct (str_eqb v (lit "yes")); [eauto|now apply default_values_ok].
Qed.
Lemma options_ok split y g data : converts_decimals y -> resolver_ok g -> known_protocols g ->
  forall s, exists s', options split y g data s = (s', Ok tt).
Proof.
  intros C R K. induction data as [|p data IH]; intros s; cbn [options]; [eauto|].
  assert (exists s1, option_step split y g p s = (s1, Ok tt)) as [s1 E].
  { unfold option_step. destruct p as [|c p]; [eauto|]. destruct (name_and_values split (c :: p)) as [n vs].
    destruct (str_eqb n (lit "address")); [eauto|]. destruct (str_eqb n (lit "comment")); [eauto|].
    destruct (_ || _); [now apply default_option_ok|].
    destruct (str_eqb n (lit "mask")); [eauto|]. destruct (str_eqb n (lit "port")); eauto. }
  rewrite E. apply IH.
Qed.

(* The other options leave the defaults alone. *)
Record same_defaults (p q : parser) : Prop := mk_same_defaults {
  sd_address4 : f_default_address4 q = f_default_address4 p;
  sd_address6 : f_default_address6 q = f_default_address6 p;
  sd_mask4 : f_default_mask4 q = f_default_mask4 p;
  sd_mask6 : f_default_mask6 q = f_default_mask6 p;
  sd_port : f_default_port q = f_default_port p
}.
Lemma sd_refl p : same_defaults p p. Proof. now constructor. Qed.
Lemma sd_trans p q r : same_defaults p q -> same_defaults q r -> same_defaults p r.
Proof. intros [] []. constructor; congruence. Qed.
Lemma sd_flag f b p : same_defaults p (set_flag f b p).
Proof. unfold set_flag, set_allow. destruct (_ || _); [apply sd_refl|]. now constructor. Qed.
Definition sd (s s' : setup) : Prop := same_defaults (s_parser s) (s_parser s').
Lemma sd_change f b s s' : sd s s' -> sd s (change (set_flag f b) s').
Proof. intros H. eapply sd_trans; [exact H|]. apply sd_flag. Qed.
Lemma sd_log m s s' : sd s s' -> sd s (log m s'). Proof. auto. Qed.
Lemma sd_same s : sd s s. Proof. apply sd_refl. Qed.
Ltac sds := repeat first [apply sd_same | assumption | apply sd_change | apply sd_log].
Lemma sd_address_values values l : forall s s', sd s s' -> sd s (fold_left (fun s v => address_value values v s) l s').
Proof.
  induction l as [|v l IH]; intros s s' H; cbn [fold_left]; [exact H|]. apply IH. unfold address_value.
  repeat match goal with |- context [if ?b then _ else _] => destruct b end; sds.
Qed.
Lemma sd_address values s : sd s (address_option values s).
Proof.
  unfold address_option. destruct (has_value values (lit "no")); [destruct values as [|v [|v' l]]; sds|].
  apply sd_address_values. sds.
Qed.
Lemma sd_comment values s : sd s (comment_option values s).
Proof.
  unfold comment_option. destruct values as [|v [|v' l]]; try (sds; fail).
  repeat match goal with |- context [if ?b then _ else _] => destruct b end; sds.
Qed.
Lemma sd_mask values s : sd s (mask_option values s).
Proof.
  unfold mask_option. destruct values as [|v [|v' l]]; try (sds; fail).
  repeat match goal with |- context [if ?b then _ else _] => destruct b end; sds.
Qed.
Lemma sd_port_option values s : sd s (port_option values s).
Proof.
  unfold port_option. destruct values as [|v [|v' l]]; try (sds; fail).
  repeat match goal with |- context [if ?b then _ else _] => destruct b end; sds.
Qed.
Lemma no_default_cons split p data : no_default split (p :: data) ->
  no_default split [p] /\ no_default split data.
Proof.
  intros [A B]. repeat split; intros q vs I; try (apply A; cbn in *; tauto); apply B; cbn in *; tauto.
Qed.
Lemma sd_step split y g p s s' : no_default split [p] -> option_step split y g p s = (s', Ok tt) -> sd s s'.
Proof.
  intros [N1 N2] H. unfold option_step in H. destruct p as [|c p]; [injection H as <-; apply sd_same|].
  destruct (name_and_values split (c :: p)) as [n vs] eqn:E.
  destruct (str_eqb n (lit "address")); [injection H as <-; apply sd_address|].
  destruct (str_eqb n (lit "comment")); [injection H as <-; apply sd_comment|].
  destruct (str_eqb n (lit "default") || str_eqb n (lit "defaults")) eqn:D.
  { exfalso. rewrite orb_true_iff, !str_eqb_true in D. destruct D as [->| ->].
    - apply (N1 (c :: p) vs (or_introl eq_refl)). apply name_and_values_spec. now split.
    - apply (N2 (c :: p) vs (or_introl eq_refl)). apply name_and_values_spec. now split. }
  destruct (str_eqb n (lit "mask")); [injection H as <-; apply sd_mask|].
  destruct (str_eqb n (lit "port")); injection H as <-; [apply sd_port_option|apply sd_refl].
Qed.
Lemma sd_options split y g data : no_default split data -> forall s s', options split y g data s = (s', Ok tt) -> sd s s'.
Proof.
  induction data as [|p data IH]; intros N s s'; cbn [options]; [intros [= <-]; apply sd_same|].
  apply no_default_cons in N. destruct N as [N1 N2].
  destruct (option_step split y g p s) as [s1 [[]|e| |]] eqn:E; try discriminate. intros H.
  eapply sd_trans; [exact (sd_step _ _ _ _ _ _ N1 E)|]. eapply IH; eassumption.
Qed.
Lemma options_app split y g a b : forall s s', options split y g (a ++ b) s = (s', Ok tt) ->
  exists s1, options split y g a s = (s1, Ok tt) /\ options split y g b s1 = (s', Ok tt).
Proof.
  induction a as [|p a IH]; intros s s'; cbn [options app]; [eauto|].
  destruct (option_step split y g p s) as [s1 [[]|e| |]]; try discriminate. apply IH.
Qed.
(* A default option which is followed by no other one. *)
Lemma last_default split y g before p after param a s s' nm :
  converts_decimals y -> resolver_ok g -> known_protocols g ->
  nm = lit "default" \/ nm = lit "defaults" -> an_option split p nm [param] -> no_default split after ->
  reads_default y g param a -> param <> lit "yes" ->
  options split y g (before ++ p :: after) s = (s', Ok tt) ->
  exists q, takes_defaults a q (s_parser s').
Proof.
  intros C R K Hn AO N RD NY H. apply options_app in H. destruct H as (s1 & _ & H). cbn [options] in H.
  destruct (option_step split y g p s1) as [s2 [[]|e| |]] eqn:E; try discriminate.
  pose proof (sd_options _ _ _ _ N _ _ H) as [S1 S2 _ _ S5].
  apply name_and_values_spec in AO. destruct AO as [NE EN]. unfold option_step in E.
  destruct p as [|c p]; [congruence|]. rewrite EN in E.
  assert (default_option y g [param] s1 = (s2, Ok tt)) as D.
  { destruct Hn as [-> | ->]; exact E. }
  unfold default_option in D. destruct (str_eqb param (lit "yes")) eqn:Y; [now apply str_eqb_true in Y|].
  cbn [default_values] in D. destruct (default_value_ok y g param s1 C R K) as (s3 & E3 & T). rewrite E3 in D. injection D as ->.
  destruct (T a RD) as [T1 T2 T3]. exists (s_parser s1). constructor; congruence.
Qed.

(* ---------- validate() ---------- *)
Lemma flat_nil ms : flat ms = [] <-> ms = [].
Proof.
  split; [|now intros ->]. destruct ms as [|m ms]; [reflexivity|]. unfold flat. cbn [map concat]. intros H.
  apply app_eq_nil in H. destruct H as [H _]. apply app_eq_nil in H. destruct H. discriminate.
Qed.
Lemma validate_run y g v p value : same_config (f_parser v) p -> f_error p = [] -> f_error_count p = 0 ->
  snd (validate y g v value) = verdict (parse y g value p)
  /\ (snd (validate y g v value) = Ok false ->
      last_error (fst (validate y g v value)) = error_messages (fst (parse y g value p)))
  /\ same_config (f_parser (fst (validate y g v value))) p.
Proof.
  intros S E0 C0.
  assert (same_config (clear_errors (f_parser v)) p) as S1 by (destruct S; constructor; assumption).
  destruct (both_parse _ _ y g g value S1 (or_introl eq_refl)) as (ms & r & E1 & E2).
  specialize (E1 [] 0). specialize (E2 (f_error p) (f_error_count p)). rewrite with_errors_id in E2.
  change (with_errors (clear_errors (f_parser v)) [] 0) with (clear_errors (f_parser v)) in E1.
  unfold validate. rewrite E1, E2, E0, C0. unfold verdict.
  change (error_count (with_errors p ?a ?b)) with b. change (error_messages (with_errors p ?a ?b)) with a.
  assert (forall e, same_config (f_parser (mk_validator (with_errors (clear_errors (f_parser v)) ([] ++ flat ms) (0 + Z.of_nat (length ms))) e)) p) as SC.
  { intros e. destruct S1. constructor; assumption. }
  destruct r as [l|e| |]; cbn [fst snd].
  - unfold has_errors. cbn [with_errors f_error app]. destruct (flat ms) as [|c t] eqn:F.
    + apply flat_nil in F. subst ms. cbn [snd fst length]. repeat split; try discriminate; apply SC.
    + cbn [snd fst]. destruct ms as [|m ms]; [discriminate|]. repeat split; try apply SC.
  - repeat split; try discriminate; apply SC.
  - repeat split; try discriminate; apply SC.
  - repeat split; try discriminate; apply SC.
Qed.
Lemma validated_config v w p : validated v w -> same_config (f_parser v) p -> f_error p = [] -> f_error_count p = 0 ->
  same_config (f_parser w) p.
Proof.
  intros H S E C. induction H as [|w y g value H IH]; [exact S|]. now apply (validate_run y g w p value IH E C).
Qed.

(* "default" by itself removes the defaults. *)
Lemma last_default_cleared split y g before p after s s' nm :
  nm = lit "default" \/ nm = lit "defaults" -> an_option split p nm [lit "yes"] -> no_default split after ->
  options split y g (before ++ p :: after) s = (s', Ok tt) ->
  same_defaults parser_new (s_parser s').
Proof.
  intros Hn AO N H. apply options_app in H. destruct H as (s1 & _ & H). cbn [options] in H.
  destruct (option_step split y g p s1) as [s2 [[]|e| |]] eqn:E; try discriminate.
  eapply sd_trans; [|exact (sd_options _ _ _ _ N _ _ H)].
  apply name_and_values_spec in AO. destruct AO as [NE EN]. unfold option_step in E.
  destruct p as [|c p]; [congruence|]. rewrite EN in E.
  assert (default_option y g [lit "yes"] s1 = (s2, Ok tt)) as D.
  { destruct Hn as [-> | ->]; exact E. }
  unfold default_option in D. injection D as <-. constructor; reflexivity.
Qed.
