(* Property C156: when the validator and string_to_addr() ask the resolver. *)
From Coq Require Import ZifyBool ZifyNat.
From Verif Require Import Base Addr Spec Range SpecRange Inet SpecText AddrText Parser SpecParser SpecParser2 SpecParser4 Validator SpecValidator
  Lookups LookupsUse.
From Verif Require Import ParserProofs ParserProofs2 ParserProofs3 ParserProofs5 ParserProofs7 ParserProofs12 ParserProofs13 ValidatorProofs ValidatorProofs2
  LookupProofs PropLookups.
From Verif Require RouteProofs AddrProofs4 PropText PropParser PropParser2 PropParser8 PropValidator.
Local Open Scope Z_scope.

(* ---------- the validator ---------- *)
Lemma clear_allow p k : allow (clear_errors p) k = allow p k. Proof. reflexivity. Qed.
Lemma validated_allow split y g data v lg A P M C w k : construct split y g data = Ok (v, lg) -> options_given split data A P M C ->
  validated v w -> 0 <= k < 13 -> allow (f_parser w) k = true <-> turned_on A P M C k.
Proof.
  intros H O V K. rewrite <- (PropValidator.construct_flags _ _ _ _ _ _ _ _ _ _ H O k K).
  destruct (PropValidator.construct_tidy _ _ _ _ _ _ H) as [_ _ _ _ [E0 C0]].
  pose proof (validated_config v w (f_parser v) V (same_config_refl _) E0 C0) as [F _ _ _ _ _ _ _]. unfold allow. now rewrite F.
Qed.
(* With neither lookups nor masks like addresses turned on, validate() asks
   nothing, so that the verdict is the same with any resolver. *)
Theorem C156_validate : forall split y0 g0 data v log A P M C w y g value,
  construct split y0 g0 data = Ok (v, log) -> options_given split data A P M C -> validated v w ->
  ~ turned_on A P M C ALLOW_ADDRESS_LOOKUP -> ~ turned_on A P M C ALLOW_MASK \/ ~ turned_on A P M C ALLOW_ADDRESS_MASK ->
  asks_validate y g w value = [] /\ forall g', validate y g' w value = validate y g w value.
Proof.
  intros split y0 g0 data v lg A P M C w y g value H O V NL NM.
  assert (asks_validate y g w value = []) as E.
  { apply C155_nothing.
    - change (Ok (allow (f_parser w) ALLOW_ADDRESS_LOOKUP) = Ok false). f_equal. apply not_true_is_false. intros X. apply NL.
      eapply validated_allow; eauto. unfold ALLOW_ADDRESS_LOOKUP. lia.
    - destruct NM as [NM|NM]; [left|right].
      + change (Ok (allow (f_parser w) ALLOW_MASK) = Ok false). f_equal. apply not_true_is_false. intros X. apply NM.
        eapply validated_allow; eauto. unfold ALLOW_MASK. lia.
      + change (Ok (allow (f_parser w) ALLOW_ADDRESS_MASK) = Ok false). f_equal. apply not_true_is_false. intros X. apply NM.
        eapply validated_allow; eauto. unfold ALLOW_ADDRESS_MASK. lia. }
  split; [exact E|]. intros g'. unfold validate. unfold asks_validate in E.
  destruct (C155_only_these_answers y g g' value (clear_errors (f_parser w))) as [-> _]; [|reflexivity].
  rewrite E. intros q [].
Qed.
Lemma split_none set s : Forall (fun c => mem c set = false) s -> split_at set s = (s, []).
Proof. induction 1 as [|c s H F IH]; [reflexivity|]. cbn [split_at]. now rewrite H, IH. Qed.
Definition plain_char (c : Z) : Prop := c = 97 \/ c = 58 \/ c = 49.
Lemma asks_plain y g p s q : s <> [] -> Forall plain_char s -> trimmed s -> In q (asks_cidr y g s p) -> In q (asks_parse y g s p).
Proof.
  intros NE F T I.
  assert (Forall (fun c => mem c (separators p) = false) s) as FS.
  { eapply Forall_impl; [|exact F]. cbv beta. intros c PC. apply not_true_is_false. rewrite mem_separators. unfold separator, plain_char in *. lia. }
  assert (Forall (fun c => mem c (comment_chars p) = false) s) as FC.
  { eapply Forall_impl; [|exact F]. cbv beta. intros c PC. apply not_true_is_false. rewrite mem_comments. unfold starts_comment, plain_char in *. lia. }
  unfold asks_parse. destruct (separators p) as [|x seps] eqn:ES.
  - replace (single_entry (comment_chars p) s) with s; [exact I|]. symmetry. rewrite <- (trimmed_single s T) at 2.
    unfold single_entry. cbv zeta. destruct (comment_chars p) as [|d com]; [reflexivity|].
    assert (Forall (fun c => mem c (d :: com) = false) (skipn (length s - length (trim_left s)) s)) as FK.
    { rewrite <- (firstn_skipn (length s - length (trim_left s)) s) in FC. now apply Forall_app in FC. }
    rewrite (split_none _ _ FK). cbn [fst]. rewrite skipn_length.
    replace (length s - length (trim_left s) + (length s - (length s - length (trim_left s))))%nat with (length s) by lia. reflexivity.
  - destruct s as [|c s]; [congruence|]. cbn [length asks_loop]. rewrite (split_none _ _ FS).
    match goal with |- context [let (_, _) := ?z in _] => replace z with (c :: s, @nil Z) end.
    + apply in_then. now left.
    + destruct (comment_chars p) as [|d com]; [reflexivity|]. now rewrite (split_none _ _ FC).
Qed.
Lemma asks_some A ps six p : allow p ALLOW_ADDRESS_LOOKUP = true -> A <> [] -> ~ In 0 A -> ps <> [] \/ allow p ALLOW_REQUIRED_PORT = false ->
  exists q, In q (asks_address_port A ps six p) /\ q_node q = A /\ q_numeric q = false.
Proof.
  intros L NE N0 H. unfold asks_address_port. cbv zeta.
  replace (match A with [] => true | _ => false end) with false by (destruct A; congruence). rewrite L. cbn [andb].
  replace (negb match ps with [] => false | _ => true end && allow p ALLOW_REQUIRED_PORT) with false
    by (symmetry; apply andb_false_iff; destruct H as [H|H]; [left; destruct ps; [congruence|reflexivity]|now right]).
  eexists. split; [left; reflexivity|]. cbn [q_node q_numeric]. split; [now apply ParserProofs9.c_str_id|reflexivity].
Qed.
(* Otherwise there are values which are looked up. *)
Theorem C156_lookups : forall split y0 g0 data v log A P M C w y g,
  construct split y0 g0 data = Ok (v, log) -> options_given split data A P M C -> validated v w ->
  turned_on A P M C ALLOW_ADDRESS_LOOKUP ->
  exists value q, In q (asks_validate y g w value) /\ q_node q = lit "a" /\ q_numeric q = false.
Proof.
  intros split y0 g0 data v lg A P M C w y g H O V L.
  assert (allow (clear_errors (f_parser w)) ALLOW_ADDRESS_LOOKUP = true) as AL.
  { rewrite clear_allow. eapply validated_allow; eauto. unfold ALLOW_ADDRESS_LOOKUP. lia. }
  unfold asks_validate. generalize dependent (clear_errors (f_parser w)). intros p AL.
  assert (exists P s, host_entry p (lit "a") P s /\ (skipn 1 P <> [] \/ allow p ALLOW_REQUIRED_PORT = false) /\ s <> [] /\ Forall plain_char s /\ trimmed s /\ ~ In 47 s)
    as (P1 & s & HE & HS & NE & PC & T & N47).
  { destruct (allow p ALLOW_PORT || allow p ALLOW_REQUIRED_PORT) eqn:AP.
    - assert (ports_allowed p) as PA.
      { apply orb_true_iff in AP. destruct AP as [AP|AP]; [left; change (Ok (allow p ALLOW_PORT) = Ok true)
          |right; change (Ok (allow p ALLOW_REQUIRED_PORT) = Ok true)]; now f_equal. }
      exists (lit ":1"), (lit "a:1"). split.
      { apply (host_plain p (lit "a") (lit ":1")); [discriminate|discriminate| | |].
        - intros [X|[]]; discriminate.
        - intros [X|[X|[X|[]]]]; discriminate.
        - right. exists (lit "1"). split; [reflexivity|]. split; [|exact PA]. intros [X|[]]; discriminate. }
      split; [left; discriminate|]. split; [discriminate|].
      split; [repeat constructor; unfold plain_char; lia|]. split; [now apply PropParser2.trimmed_lit|]. intros [X|[X|[X|[]]]]; discriminate.
    - apply orb_false_iff in AP. destruct AP as [_ AP].
      exists [], (lit "a"). split.
      { rewrite <- (app_nil_r (lit "a")) at 2. apply (host_plain p (lit "a") []); [discriminate|discriminate| | |now left].
        - intros [X|[]]; discriminate.
        - intros [X|[]]; discriminate. }
      split; [now right|]. split; [discriminate|]. split; [repeat constructor; unfold plain_char; lia|].
      split; [now apply PropParser2.trimmed_lit|]. intros [X|[]]; discriminate. }
  destruct (asks_some (lit "a") (skipn 1 P1) (negb (entry_way s)) p AL) as (q & I & E1 & E2); [discriminate|intros [X|[]]; discriminate|exact HS|].
  exists s, q. split; [|now split]. apply asks_plain; [exact NE|exact PC|exact T|].
  assert (one_host p (lit "a")) as OH by (left; intros [X|[]]; discriminate).
  unfold asks_cidr. cbv zeta. rewrite trimmed_trim by exact T. rewrite find_char_none by exact N47.
  destruct (allow p ALLOW_MASK); [apply in_then; left|]; rewrite (asks_entry y g p (lit "a") P1 s [] HE), asks_one_host by exact OH; exact I.
Qed.

(* ---------- the constructor ---------- *)
Lemma default_values_asked y g values q : forall s, In q (asks_default_values y g values s) ->
  exists param, In param values /\ In q (asks_default_value y g param).
Proof.
  induction values as [|v values IH]; intros s; [intros []|]. cbn [asks_default_values]. rewrite in_app_iff. intros [I|I].
  - exists v. split; [now left|exact I].
  - destruct (default_value y g v s) as [s1 [[]|e| |]]; try destruct I. destruct (IH _ I) as (param & J & K). exists param. split; [now right|exact K].
Qed.
Lemma options_asked split y g q data : forall s, In q (asks_options split y g data s) ->
  exists p name values param, In p data /\ an_option split p name values /\ default_name name /\ values <> [lit "yes"]
    /\ In param values /\ In q (asks_default_value y g param).
Proof.
  induction data as [|p data IH]; intros s; [intros []|]. cbn [asks_options]. rewrite in_app_iff. intros [I|I].
  - unfold asks_option_step in I. destruct p as [|c p]; [destruct I|]. destruct (name_and_values split (c :: p)) as [n vs] eqn:E.
    destruct (str_eqb n (lit "default") || str_eqb n (lit "defaults")) eqn:D; [|destruct I].
    assert (values_asked : vs <> [lit "yes"] /\ exists param, In param vs /\ In q (asks_default_value y g param)).
    { unfold asks_default_option in I. destruct vs as [|v [|v2 vs]].
      - destruct I.
      - destruct (str_eqb v (lit "yes")) eqn:Y; [destruct I|]. split; [|eapply default_values_asked, I].
        intros X. injection X as ->. discriminate.
      - split; [discriminate|]. eapply default_values_asked, I. }
    destruct values_asked as (NY & param & J & K). exists (c :: p), n, vs, param. split; [now left|]. split; [apply name_and_values_spec; now split|].
    split; [|now split]. apply orb_true_iff in D. unfold default_name. destruct D as [D|D]; apply RouteProofs.str_eqb_true in D; auto.
  - destruct (option_step split y g p s) as [s1 [[]|e| |]]; try destruct I. destruct (IH _ I) as (p1 & n & vs & param & J & K).
    exists p1, n, vs, param. split; [now right|exact K].
Qed.
(* Only the values of default=... are asked about when a validator is made. *)
Theorem C156_constructor : forall split y g data q, In q (asks_construct split y g data) ->
  exists p name values param, In p data /\ an_option split p name values /\ default_name name /\ values <> [lit "yes"]
    /\ In param values /\ name_question default_reader param q.
Proof.
  intros split y g data q I. destruct (options_asked _ _ _ _ _ _ I) as (p & n & vs & param & H1 & H2 & H3 & H4 & H5 & H6).
  exists p, n, vs, param. do 5 (split; [assumption|]).
  destruct (C155_questions y g param default_reader q ltac:(discriminate) H6) as [N|[M1 M2 M3 M4 M5]]; [exact N|]. discriminate.
Qed.
Theorem C156_no_default : forall split y g data, 
  (forall p name values, In p data -> an_option split p name values -> default_name name -> values = [lit "yes"]) ->
  asks_construct split y g data = [].
Proof.
  intros split y g data H. destruct (asks_construct split y g data) as [|q l] eqn:E; [reflexivity|exfalso].
  destruct (C156_constructor split y g data q) as (p & n & vs & param & H1 & H2 & H3 & H4 & _); [rewrite E; now left|].
  apply H4. eapply H; eassumption.
Qed.
(* It is not so that a validator without "lookup" asks nothing: the default
   address is looked up, and a validator without address=... looks names up. *)
Theorem C156_no_lookup_refuted :
  (exists y g v, construct PropValidator.words y g [lit "address=yes"; lit "default=example:80"] = Ok (v, [])
     /\ options_given PropValidator.words [lit "address=yes"; lit "default=example:80"] (Some [lit "yes"]) None None None
     /\ ~ turned_on (Some [lit "yes"]) None None None ALLOW_ADDRESS_LOOKUP
     /\ In (mk_question (lit "example") (lit "80") false SOCK_STREAM IPPROTO_TCP)
          (asks_construct PropValidator.words y g [lit "address=yes"; lit "default=example:80"]))
  /\ (exists y g v, construct PropValidator.words y g [] = Ok (v, [])
     /\ In (mk_question (lit "example") (lit "80") false 0 0) (asks_validate y g v (lit "example:80"))).
Proof.
  split.
  - eexists AddrProofs4.ref_sys, PropValidator.one_host, _. split; [vm_compute; reflexivity|].
    split. { split.
      - apply (lo_some _ _ [] (lit "address=yes") [lit "default=example:80"]); [now apply PropValidator.option_is|now apply PropValidator.option_not].
      - split; [|split]; constructor; now apply PropValidator.option_not. }
    split. { intros X. inversion X; subst; try discriminate.
      match goal with H : keyword _ _, E : Some _ = Some _ |- _ => injection E as <-; inversion H; subst end.
      match goal with H : In _ _ |- _ => destruct H as [H|[]]; discriminate end. }
    vm_compute. now left.
  - eexists AddrProofs4.ref_sys, PropParser.no_answer, _. split; [vm_compute; reflexivity|]. vm_compute. now left.
Qed.

(* ---------- string_to_addr() ---------- *)
(* One host: exactly one question; mask, default address and what is done with
   the answer do not matter. *)
Theorem C156_string_to_addr : forall y g s D port protocol mask n A P S st pr,
  host_entry parser_new A P s -> ~ In 0 A -> trimmed s -> ~ In 47 s ->
  snd (set_default_address parser_new D) = Ok tt -> -1 <= port <= 65535 ->
  (protocol = [] /\ n = -1) \/ (protocol <> [] /\ getprotobyname y protocol = Found n) -> hints n st pr ->
  (P = 58 :: S /\ S <> [] /\ ~ In 0 S) \/ ((P = [] \/ P = [58]) /\ (port = -1 /\ S = lit "0" \/ port <> -1 /\ plain_decimal S port)) ->
  asks_string_to_addr y g s D port protocol mask = [mk_question A S false st pr].
Proof.
  intros y g s D port protocol mask n A P S st pr HE N0 T N47 HD RP HN HH HS.
  unfold asks_string_to_addr. cbv zeta.
  assert (exists p, match D with [] => Ok parser_new | _ => let '(p', r) := set_default_address parser_new D in let! _ := r in Ok p' end = Ok p
    /\ f_flags p = f_flags parser_new /\ f_sort p = SORT_NO /\ f_default_mask4 p = [] /\ f_default_mask6 p = [] /\ p_protocol p = -1 /\ f_default_port p = -1)
    as (p1 & -> & F1 & O1 & A1 & B1 & C1 & D1).
  { destruct D as [|c d]; [exists parser_new; now repeat split|]. unfold set_default_address in *.
    destruct (c =? 91); [destruct (negb _); [discriminate|]|destruct (find_char 58 (c :: d))]; eexists; (split; [reflexivity|now repeat split]). }
  cbn [rbind].
  assert (exists p, (if negb (port =? -1) then let '(p', r) := set_default_port p1 port in let! _ := r in Ok p' else Ok p1) = Ok p
    /\ f_flags p = f_flags parser_new /\ f_sort p = SORT_NO /\ f_default_mask4 p = [] /\ f_default_mask6 p = [] /\ p_protocol p = -1 /\ f_default_port p = port)
    as (p2 & -> & F2 & O2 & A2 & B2 & C2 & D2).
  { destruct (port =? -1) eqn:E; cbn [negb]; [exists p1; repeat split; try assumption; lia|]. unfold set_default_port.
    replace ((port <? -1) || (port >? 65535)) with false by lia. cbn [rbind]. eexists. split; [reflexivity|]. now repeat split. }
  cbn [rbind].
  assert (exists p, match protocol with [] => Ok p2 | _ => let '(p', r) := parser_set_protocol_str y p2 protocol in let! _ := r in Ok p' end = Ok p
    /\ f_flags p = f_flags parser_new /\ f_sort p = SORT_NO /\ f_default_mask4 p = [] /\ f_default_mask6 p = [] /\ p_protocol p = n /\ f_default_port p = port)
    as (p3 & -> & F3 & O3 & A3 & B3 & C3 & D3).
  { destruct HN as [[-> ->]|[NP HN]]; [exists p2; now repeat split|]. destruct protocol as [|c d]; [congruence|].
    unfold parser_set_protocol_str. rewrite HN. cbn [rbind]. eexists. split; [reflexivity|]. now repeat split. }
  set (p4 := fst (set_allow p3 ALLOW_MASK mask)).
  assert (forall k, 0 <= k < 16 -> k <> ALLOW_MASK -> get_allow p4 k = get_allow parser_new k) as FL.
  { intros k K NK. unfold get_allow. destruct (_ || _); [reflexivity|]. f_equal. unfold p4, set_allow, allow. cbn [fst snd].
    unfold ALLOW_MASK in *. cbn [Z.ltb Z.geb Z.compare orb fst ALLOW_max].
    assert (k = 0 \/ k = 1 \/ k = 2 \/ k = 3 \/ k = 4 \/ k = 5 \/ k = 6 \/ k = 7 \/ k = 8 \/ k = 9 \/ k = 10 \/ k = 11 \/ k = 12 \/ k = 13 \/ k = 14 \/ k = 15) as KK by lia.
    cbn [f_flags with_flags]. rewrite F3. repeat (destruct KK as [->|KK]; [try (destruct mask; reflexivity); lia|]). subst k. destruct mask; reflexivity. }
  assert (ports_allowed p4) as PA by (left; rewrite FL; [reflexivity|unfold ALLOW_PORT; lia|discriminate]).
  assert (host_entry p4 A P s) as HE4.
  { destruct HE as [A P NE N91 N58 N93 HP|A P NE N93 HP|A T2 N91].
    - apply host_plain; auto. destruct HP as [HP|(S1 & HP & NS & _)]; [now left|right; exists S1; auto].
    - apply host_brackets; auto. destruct HP as [HP|(S1 & HP & _)]; [now left|right; exists S1; auto].
    - now apply host_bare. }
  assert (exists given, service_of p4 P S given) as [given SO].
  { assert (get_allow p4 ALLOW_REQUIRED_PORT = Ok false) as RQ by (rewrite FL; [reflexivity|unfold ALLOW_REQUIRED_PORT; lia|discriminate]).
    assert (get_default_port p4 = port) as DP by exact D3.
    destruct HS as [(-> & NS & NS0)|(HP & [[E ->]|[E PD]])].
    - exists true. now constructor.
    - exists false. apply service_zero; [exact HP|exact RQ|congruence].
    - exists false. apply service_default; [exact HP|exact RQ|congruence|now rewrite DP]. }
  eapply C155_one_question; [|exact HE4| |exact N0|exact T|exact N47|exact SO|].
  - constructor.
    + intros c [[X _]|[[X _]|[X _]]]; rewrite FL in X; try discriminate; unfold ALLOW_MULTI_ADDRESSES_COMMAS, ALLOW_MULTI_ADDRESSES_SPACES, ALLOW_MULTI_ADDRESSES_NEWLINES; lia.
    + intros c [[X _]|[X _]]; rewrite FL in X; try discriminate; unfold ALLOW_COMMENT_HASH, ALLOW_COMMENT_SEMICOLON; lia.
    + unfold unsorted. change (f_sort p4) with (f_sort p3). rewrite O3. reflexivity.
    + rewrite FL; [reflexivity|unfold ALLOW_ADDRESS_LOOKUP; lia|discriminate].
    + right. now split.
  - right. rewrite FL; [reflexivity|unfold ALLOW_ADDRESS_RANGE; lia|discriminate].
  - change (parser_get_protocol p4) with (p_protocol p3). now rewrite C3.
Qed.

(* ---------- nothing else matters ---------- *)
Lemma same_app g g' a b : same_answers g g' (a ++ b) -> same_answers g g' a /\ same_answers g g' b.
Proof. intros H. split; intros q I; apply H, in_or_app; auto. Qed.
Lemma default_value_same y g g' param s : same_answers g g' (asks_default_value y g param) -> default_value y g' param s = default_value y g param s.
Proof. intros H. unfold default_value. destruct (dep_parse y g g' _ _ H) as [-> _]. reflexivity. Qed.
Lemma default_values_same y g g' values : forall s, same_answers g g' (asks_default_values y g values s) ->
  default_values y g' values s = default_values y g values s.
Proof.
  induction values as [|v values IH]; intros s H; [reflexivity|]. cbn [asks_default_values default_values] in *. apply same_app in H. destruct H as [H1 H2].
  rewrite (default_value_same _ _ _ _ _ H1). destruct (default_value y g v s) as [s1 [[]|e| |]]; auto.
Qed.
Lemma option_step_same split y g g' p s : same_answers g g' (asks_option_step split y g p s) -> option_step split y g' p s = option_step split y g p s.
Proof.
  unfold asks_option_step, option_step. destruct p as [|c p]; [reflexivity|]. destruct (name_and_values split (c :: p)) as [n vs]. intros H.
  destruct (str_eqb n (lit "address")); [reflexivity|]. destruct (str_eqb n (lit "comment")); [reflexivity|].
  destruct (_ || _); [|reflexivity]. unfold asks_default_option, default_option in *. destruct vs as [|v [|v2 vs]]; try (now apply default_values_same).
  destruct (str_eqb v (lit "yes")); [reflexivity|now apply default_values_same].
Qed.
Lemma options_same split y g g' data : forall s, same_answers g g' (asks_options split y g data s) -> options split y g' data s = options split y g data s.
Proof.
  induction data as [|p data IH]; intros s H; [reflexivity|]. cbn [asks_options options] in *. apply same_app in H. destruct H as [H1 H2].
  rewrite (option_step_same _ _ _ _ _ _ H1). destruct (option_step split y g p s) as [s1 [[]|e| |]]; auto.
Qed.
(* The constructor, validate() and string_to_addr() give the same with another
   resolver which has the same answers to these questions. *)
Theorem C156_only_these_answers : forall y g g',
  (forall split data, same_answers g g' (asks_construct split y g data) -> construct split y g' data = construct split y g data)
  /\ (forall v value, same_answers g g' (asks_validate y g v value) -> validate y g' v value = validate y g v value)
  /\ (forall a D port protocol mask, same_answers g g' (asks_string_to_addr y g a D port protocol mask) ->
       string_to_addr y g' a D port protocol mask = string_to_addr y g a D port protocol mask).
Proof.
  intros y g g'. split; [|split].
  - intros split data H. unfold construct. now rewrite (options_same _ _ _ _ _ _ H).
  - intros v value H. unfold validate. destruct (dep_parse y g g' _ _ H) as [-> _]. reflexivity.
  - intros a D port protocol mask H. unfold asks_string_to_addr, string_to_addr in *. cbv zeta in *.
    destruct (match D with [] => _ | _ => _ end) as [p1|e| |]; cbn [rbind] in *; try reflexivity.
    destruct (if negb (port =? -1) then _ else _) as [p2|e| |]; cbn [rbind] in *; try reflexivity.
    destruct (match protocol with [] => Ok p2 | _ => _ end) as [p3|e| |]; cbn [rbind] in *; try reflexivity.
    destruct (dep_parse y g g' _ _ H) as [-> _]. reflexivity.
Qed.
Example C156_witness : exists v w,
  construct PropValidator.words AddrProofs4.ref_sys PropParser.no_answer [lit "address=required commas"; lit "mask=yes"] = Ok (v, [])
  /\ options_given PropValidator.words [lit "address=required commas"; lit "mask=yes"] (Some [lit "required"; lit "commas"]) None (Some [lit "yes"]) None
  /\ validated v w /\ w <> v
  /\ ~ turned_on (Some [lit "required"; lit "commas"]) None (Some [lit "yes"]) None ALLOW_ADDRESS_LOOKUP
  /\ ~ turned_on (Some [lit "required"; lit "commas"]) None (Some [lit "yes"]) None ALLOW_ADDRESS_MASK
  /\ turned_on (Some [lit "lookup"]) None None None ALLOW_ADDRESS_LOOKUP
  /\ asks_string_to_addr AddrProofs4.ref_sys PropParser.no_answer (lit "example") (lit "[::1]") 443 (lit "udp") true
     = [mk_question (lit "example") (lit "443") false SOCK_DGRAM IPPROTO_UDP]
  /\ host_entry parser_new (lit "localhost") (lit ":80") (lit "localhost:80") /\ trimmed (lit "localhost:80").
Proof.
  eexists _, _. split; [vm_compute; reflexivity|].
  split. { split; [|split; [|split]].
    - apply (lo_some _ _ [] (lit "address=required commas") [lit "mask=yes"]); [now apply PropValidator.option_is|now apply PropValidator.option_not].
    - constructor; now apply PropValidator.option_not.
    - apply (lo_some _ _ [lit "address=required commas"] (lit "mask=yes") []); [now apply PropValidator.option_is|now apply PropValidator.option_not].
    - constructor; now apply PropValidator.option_not. }
  split; [eapply (one_more _ _ AddrProofs4.ref_sys PropParser.no_answer (lit "300.0.0.1")), no_call|].
  split; [intros E; apply (f_equal last_error) in E; revert E; vm_compute; discriminate|].
  split. { intros X. inversion X; subst; try discriminate.
    match goal with H : keyword _ _, E : Some _ = Some _ |- _ => injection E as <-; inversion H; subst end.
    match goal with H : In _ _ |- _ => destruct H as [H|[H|[]]]; discriminate end. }
  split. { intros X. inversion X; subst; try discriminate.
    match goal with H : keyword _ _ |- _ => inversion H end. }
  split. { apply (on_keyword _ _ _ _ [lit "lookup"] (lit "lookup")); [reflexivity|intros [X|[]]; discriminate|constructor|now left]. }
  split; [vm_compute; reflexivity|]. destruct PropParser8.C116_case as (_ & _ & H & _ & T & _). now split.
Qed.
Print Assumptions C156_validate.
Print Assumptions C156_lookups.
Print Assumptions C156_constructor.
Print Assumptions C156_no_default.
Print Assumptions C156_no_lookup_refuted.
Print Assumptions C156_string_to_addr.
Print Assumptions C156_only_these_answers.
