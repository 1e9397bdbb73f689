(* Properties of validator_address: the verdict, the options. *)
From Coq Require Import ZifyBool ZifyNat.
From Verif Require Import Base Addr Spec Range SpecRange Inet SpecText AddrText Parser SpecParser SpecParser2 Validator SpecValidator.
From Verif Require AddrProofs4 ParserProofs ParserProofs7 ParserProofs9 ParserProofs10 RouteProofs ValidatorProofs ValidatorProofs2
  PropParser PropParser2 PropParser4 PropParser5.
Import AddrProofs4 ParserProofs ParserProofs7 ParserProofs9 ParserProofs10 RouteProofs ValidatorProofs ValidatorProofs2 PropParser PropParser2 PropParser4 PropParser5.
Local Open Scope Z_scope.

(* A splitter for the examples: the words between the spaces. *)
Fixpoint words_from (w : str) (s : str) : list str :=
  match s with
  | [] => match w with [] => [] | _ => [w] end
  | c :: s => if c =? 32 then match w with [] => words_from [] s | _ => w :: words_from [] s end
              else words_from (w ++ [c]) s
  end.
Definition words (s : str) : list str := words_from [] s.
(* A getaddrinfo() for numbers. *)
Definition port_number (service : str) : Z :=
  match convert_string ref_sys service with Some n => bswap16 (n mod 65536) | None => 0 end.
Definition host_numbers : resolver := fun node service numeric_host socktype protocol =>
  match inet_pton4 node with
  | Some q => GAI_list [mk_ai AF_INET SIZEOF_IN 6 (mk_in AF_INET (port_number service) (load32 q 0)) init_in6]
  | None =>
      match inet_pton6 node with
      | Some q => GAI_list [mk_ai AF_INET6 SIZEOF_IN6 6 (mk_in AF_INET 0 0) (mk_in6 AF_INET6 (port_number service) 0 q 0)]
      | None => GAI_error (lit "Name or service not known")
      end
  end.
(* Which option is meant. *)
Lemma option_is p n vs : nonempty_str p = true -> name_and_values words p = (n, vs) -> an_option words p n vs.
Proof. intros NE E. apply name_and_values_spec. split; [now destruct p|exact E]. Qed.
Lemma option_not n l : forallb (fun p => negb (str_eqb (fst (name_and_values words p)) n)) l = true ->
  not_given words n l.
Proof.
  intros H p vs I O. apply name_and_values_spec in O. destruct O as [_ E].
  rewrite forallb_forall in H. specialize (H p I). rewrite E in H. cbn [fst] in H.
  assert (str_eqb n n = true) as X by now apply str_eqb_true. rewrite X in H. discriminate.
Qed.

Lemma construct_setup split y g data v lg : construct split y g data = Ok (v, lg) ->
  exists s, options split y g data (mk_setup parser_new []) = (s, Ok tt)
    /\ f_parser v = s_parser s /\ lg = s_log s.
Proof.
  unfold construct. destruct (options _ _ _ _ _) as [s [[]|e| |]]; try discriminate. intros [= <- <-].
  exists s. repeat split.
Qed.
Lemma construct_tidy split y g data v lg : construct split y g data = Ok (v, lg) -> tidy (f_parser v).
Proof.
  intros H. destruct (construct_setup _ _ _ _ _ _ H) as (s & E & -> & _).
  exact (proj1 (options_flag _ _ _ _ _ _ E new_tidy)).
Qed.

(* ---------- C63 ---------- *)
Theorem C63_verdict : forall split y g data v log,
  construct split y g data = Ok (v, log) -> acts_as v (f_parser v).
Proof.
  intros split y g data v lg H w y2 g2 value V.
  destruct (construct_tidy _ _ _ _ _ _ H) as [_ _ _ _ [E0 C0]].
  assert (same_config (f_parser v) (f_parser v)) as S by now constructor.
  pose proof (validated_config v w (f_parser v) V S E0 C0) as Sw.
  destruct (validate_run y2 g2 w (f_parser v) value Sw E0 C0) as (A & B & _). now split.
Qed.
Print Assumptions C63_verdict.
Example C63_witness : exists v w,
  construct words ref_sys no_answer [lit "address=required commas"; lit "port=no"] = Ok (v, [])
  /\ validated v w /\ w <> v
  /\ snd (validate ref_sys no_answer w (lit "10.0.0.1,10.0.0.2")) = Ok true
  /\ snd (validate ref_sys no_answer w (lit "10.0.0.1:80")) = Ok false.
Proof.
  eexists _, _. split; [vm_compute; reflexivity|].
  split; [eapply (one_more _ _ ref_sys no_answer (lit "300.0.0.1")), no_call|].
  split; [intros E; apply (f_equal last_error) in E; revert E; vm_compute; discriminate|].
  split; vm_compute; reflexivity.
Qed.

(* ---------- C94 ---------- *)
Lemma construct_flags split y g data v lg A P M C : construct split y g data = Ok (v, lg) ->
  options_given split data A P M C ->
  forall k, 0 <= k < 13 -> allow (f_parser v) k = true <-> turned_on A P M C k.
Proof.
  intros H (HA & HP & HM & HC) k K. destruct (construct_setup _ _ _ _ _ _ H) as (s & E & -> & _).
  apply last_option_spec in HA, HP, HM, HC.
  rewrite <- (configured_on split data A P M C k K HA HP HM HC).
  destruct (options_flag _ _ _ _ _ _ E new_tidy) as (_ & F & _).
  change (allow (s_parser s) k) with (flag s k). rewrite F by exact K. reflexivity.
Qed.
Theorem C94_options : forall split y g data v log A P M C,
  construct split y g data = Ok (v, log) -> options_given split data A P M C ->
  exists p, acts_as v p
    /\ (forall flag, 0 <= flag < 13 -> get_allow p flag = Ok true <-> turned_on A P M C flag)
    /\ (forall flag, 13 <= flag < 16 -> get_allow p flag = Ok false)
    /\ get_sort_order p = SORT_NO /\ parser_get_protocol p = -1
    /\ error_count p = 0 /\ error_messages p = [].
Proof.
  intros split y g data v lg A P M C H O. exists (f_parser v).
  split; [exact (C63_verdict _ _ _ _ _ _ H)|].
  destruct (construct_tidy _ _ _ _ _ _ H) as [_ _ S PR [E0 C0]].
  split. { intros k K. rewrite allow_get by lia. now apply (construct_flags _ _ _ _ _ _ _ _ _ _ H O). }
  split; [|now repeat split].
  intros k K. apply allow_get; [lia|]. destruct (construct_setup _ _ _ _ _ _ H) as (s & E & -> & _).
  destruct (options_flag _ _ _ _ _ _ E new_tidy) as (_ & _ & F). apply F; [exact K|].
  assert (k = 13 \/ k = 14 \/ k = 15) as [->|[->| ->]] by lia; reflexivity.
Qed.
Print Assumptions C94_options.

Definition some_options : list str :=
  [lit "port=no"; lit "address=lookup"; lit "address=required commas"; lit "comment=hash"; lit "port=required"].
Lemma some_given : options_given words some_options (Some [lit "required"; lit "commas"]) (Some [lit "required"])
  None (Some [lit "hash"]).
Proof.
  split; [|split; [|split]].
  - apply (lo_some words (lit "address") [lit "port=no"; lit "address=lookup"] (lit "address=required commas")
      [lit "comment=hash"; lit "port=required"]); [now apply option_is|now apply option_not].
  - apply (lo_some words (lit "port") [lit "port=no"; lit "address=lookup"; lit "address=required commas"; lit "comment=hash"]
      (lit "port=required") []); [now apply option_is|now apply option_not].
  - apply lo_none. now apply option_not.
  - apply (lo_some words (lit "comment") [lit "port=no"; lit "address=lookup"; lit "address=required commas"] (lit "comment=hash")
      [lit "port=required"]); [now apply option_is|now apply option_not].
Qed.
Example C94_witness : (exists v, construct words ref_sys no_answer some_options = Ok (v, []))
  /\ options_given words some_options (Some [lit "required"; lit "commas"]) (Some [lit "required"]) None (Some [lit "hash"])
  /\ turned_on (Some [lit "required"; lit "commas"]) (Some [lit "required"]) None (Some [lit "hash"]) ALLOW_MULTI_ADDRESSES_COMMAS
  /\ ~ turned_on (Some [lit "required"; lit "commas"]) (Some [lit "required"]) None (Some [lit "hash"]) ALLOW_ADDRESS_LOOKUP.
Proof.
  split; [eexists; vm_compute; reflexivity|]. split; [exact some_given|]. split.
  - eapply on_keyword; [reflexivity| |constructor|right; left; reflexivity]. intros [X|[X|[]]]; discriminate.
  - intros T. inversion T; try discriminate. subst.
    match goal with K : keyword _ _ |- _ => inversion K; subst end.
    match goal with K : Some _ = Some _ |- _ => injection K as <- end.
    match goal with K : In (lit "lookup") _ |- _ => destruct K as [X|[X|[]]]; discriminate end.
Qed.

(* ---------- C95 ---------- *)
Lemma acts_says v p y g value b : acts_as v p -> verdict (parse y g value p) = Ok b -> says v y g value b.
Proof. intros A E w V. destruct (A w y g value V) as [-> _]. exact E. Qed.
Lemma flag_off split y g data v lg A P M C k : construct split y g data = Ok (v, lg) ->
  options_given split data A P M C -> ~ turned_on A P M C k -> 0 <= k < 13 -> get_allow (f_parser v) k = Ok false.
Proof.
  intros H O N K. apply allow_get; [lia|]. apply not_true_is_false. intros X. apply N.
  now apply (construct_flags _ _ _ _ _ _ _ _ _ _ H O k K).
Qed.
Lemma flag_on split y g data v lg A P M C k : construct split y g data = Ok (v, lg) ->
  options_given split data A P M C -> turned_on A P M C k -> 0 <= k < 13 -> get_allow (f_parser v) k = Ok true.
Proof. intros H O N K. apply allow_get; [lia|]. now apply (construct_flags _ _ _ _ _ _ _ _ _ _ H O k K). Qed.
Ltac small := split; reflexivity || discriminate.
Lemma one_value split y g data v lg A P M C : construct split y g data = Ok (v, lg) ->
  options_given split data A P M C -> single_values (turned_on A P M C) ->
  nobody (separator (f_parser v)) /\ nobody (starts_comment (f_parser v)).
Proof.
  intros H O (N1 & N2 & N3 & N4 & N5).
  pose proof (flag_off _ _ _ _ _ _ _ _ _ _ _ H O N1 ltac:(small)) as F1.
  pose proof (flag_off _ _ _ _ _ _ _ _ _ _ _ H O N2 ltac:(small)) as F2.
  pose proof (flag_off _ _ _ _ _ _ _ _ _ _ _ H O N3 ltac:(small)) as F3.
  pose proof (flag_off _ _ _ _ _ _ _ _ _ _ _ H O N4 ltac:(small)) as F4.
  pose proof (flag_off _ _ _ _ _ _ _ _ _ _ _ H O N5 ltac:(small)) as F5.
  split.
  - intros c [[X _]|[[X _]|[X _]]]; congruence.
  - intros c [[X _]|[X _]]; congruence.
Qed.
Lemma construct_numbers split y g data v lg A P M C : construct split y g data = Ok (v, lg) ->
  options_given split data A P M C -> single_values (turned_on A P M C) ->
  ~ turned_on A P M C ALLOW_ADDRESS_LOOKUP -> ~ turned_on A P M C ALLOW_MASK ->
  takes_numbers (f_parser v).
Proof.
  intros H O SV L N. destruct (one_value _ _ _ _ _ _ _ _ _ _ H O SV) as [S1 S2].
  pose proof (flag_off _ _ _ _ _ _ _ _ _ _ _ H O L ltac:(small)) as FL.
  pose proof (flag_off _ _ _ _ _ _ _ _ _ _ _ H O N ltac:(small)) as FN.
  destruct (construct_tidy _ _ _ _ _ _ H) as [_ _ S PR _].
  constructor; [exact S1|exact S2| |exact FL|now left|now left].
  unfold unsorted. now rewrite S.
Qed.
Lemma construct_defaults split y g data v lg : construct split y g data = Ok (v, lg) -> no_default split data ->
  same_defaults parser_new (f_parser v).
Proof.
  intros H N. destruct (construct_setup _ _ _ _ _ _ H) as (s & E & -> & _).
  exact (sd_options _ _ _ _ N _ _ E).
Qed.

(* Numeric addresses are accepted. *)
Theorem C95_numeric_accepted : forall split y0 g0 data v log A P M C y g host port value n,
  construct split y0 g0 data = Ok (v, log) -> options_given split data A P M C -> no_default split data ->
  single_values (turned_on A P M C) ->
  ~ turned_on A P M C ALLOW_ADDRESS_LOOKUP -> ~ turned_on A P M C ALLOW_MASK ->
  converts_decimals y -> denotes host n -> port_after (turned_on A P M C) port -> written host port value ->
  says v y g value true.
Proof.
  intros split y0 g0 data v lg A P M C y g host port value n H O ND SV L N CD D HP HW.
  pose proof (construct_numbers _ _ _ _ _ _ _ _ _ _ H O SV L N) as TN.
  assert (exists k given, port_part (f_parser v) port k given) as (k & gv & PP).
  { destruct HP as [NR|D' n' ON DN LN].
    - exists 0, false. constructor; [now apply (flag_off _ _ _ _ _ _ _ _ _ _ _ H O NR ltac:(small))|].
      destruct (construct_defaults _ _ _ _ _ _ H ND) as [_ _ _ _ E]. exact E.
    - exists n', true. constructor; [exact DN|exact LN|]. left. now apply (flag_on _ _ _ _ _ _ _ _ _ _ _ H O ON ltac:(small)). }
  destruct (C76_one_address y g (f_parser v) host n port k gv value CD TN D PP HW) as (r & E & _).
  apply (acts_says v (f_parser v)); [exact (C63_verdict _ _ _ _ _ _ H)|]. rewrite E. cbn [verdict].
  destruct (construct_tidy _ _ _ _ _ _ H) as [_ _ _ _ [_ C0]]. unfold error_count. now rewrite C0.
Qed.
Print Assumptions C95_numeric_accepted.

Lemma reported v p y g value : acts_as v p -> error_count p = 0 ->
  (exists p', parse y g value p = (p', Ok []) /\ error_count p < error_count p') -> says v y g value false.
Proof.
  intros A E0 (p' & E & L). apply (acts_says v p); [exact A|]. rewrite E. cbn [verdict].
  replace (error_count p' =? 0) with false; [reflexivity|]. symmetry. apply Z.eqb_neq. lia.
Qed.
(* What is not numeric is refused. *)
Theorem C95_not_numeric_refused : forall split y0 g0 data v log A P M C y g host port value,
  construct split y0 g0 data = Ok (v, log) -> options_given split data A P M C ->
  single_values (turned_on A P M C) ->
  ~ turned_on A P M C ALLOW_ADDRESS_LOOKUP -> ~ turned_on A P M C ALLOW_MASK -> ~ turned_on A P M C ALLOW_ADDRESS_RANGE ->
  host <> [] -> (forall n, ~ denotes host n) -> ~ In 0 host ->
  (* host, host:port, [host] followed by anything, or host with two colons *)
  (value = host ++ port /\ ~ In 58 host /\ hd 0 host <> 91 /\ (port = [] \/ exists D, port = 58 :: D /\ ~ In 58 D))
  \/ (value = [91] ++ host ++ [93] ++ port /\ ~ In 93 host)
  \/ (value = host /\ two_colons host /\ hd 0 host <> 91) ->
  trimmed value -> ~ In 47 value ->
  says v y g value false.
Proof.
  intros split y0 g0 data v lg A P M C y g host port value H O SV L N NR NE ND N0 W T N47.
  pose proof (construct_numbers _ _ _ _ _ _ _ _ _ _ H O SV L N) as TN.
  pose proof (flag_off _ _ _ _ _ _ _ _ _ _ _ H O NR ltac:(small)) as FR.
  apply (reported v (f_parser v)); [exact (C63_verdict _ _ _ _ _ _ H)| |].
  - exact (proj2 (t_error _ (construct_tidy _ _ _ _ _ _ H))).
  - exact (C76_rejected y g (f_parser v) host port value TN NE ND N0 (or_intror FR) W T N47).
Qed.
Print Assumptions C95_not_numeric_refused.

(* port=no, port=required. *)
Theorem C95_port_refused : forall split y0 g0 data v log A P M C y g host port value,
  construct split y0 g0 data = Ok (v, log) -> options_given split data A P M C ->
  single_values (turned_on A P M C) -> ~ turned_on A P M C ALLOW_ADDRESS_LOOKUP -> ~ turned_on A P M C ALLOW_MASK ->
  P = Some [lit "no"] ->
  (host <> [] /\ hd 0 host <> 91 /\ ~ In 58 host) \/ (exists x, host = [91] ++ x ++ [93] /\ ~ In 93 x) ->
  port <> [] -> ~ In 58 port -> value = host ++ [58] ++ port -> trimmed value -> ~ In 47 value ->
  says v y g value false.
Proof.
  intros split y0 g0 data v lg A P M C y g host port value H O SV L N EP HH NP N58 E T N47.
  destruct (one_value _ _ _ _ _ _ _ _ _ _ H O SV) as [S1 S2].
  assert (~ turned_on A P M C ALLOW_PORT) as N1.
  { subst P. intros X. inversion X; subst; try discriminate; [|congruence].
    match goal with K : keyword _ _ |- _ => inversion K end. }
  assert (~ turned_on A P M C ALLOW_REQUIRED_PORT) as N2.
  { subst P. intros X. inversion X; subst; try discriminate.
    match goal with K : keyword _ _ |- _ => inversion K end. }
  apply (reported v (f_parser v)); [exact (C63_verdict _ _ _ _ _ _ H)| |].
  - exact (proj2 (t_error _ (construct_tidy _ _ _ _ _ _ H))).
  - apply (C44_forbidden_port_rejected y g (f_parser v) host port value S1 S2); try assumption;
      try (eapply flag_off; [exact H|exact O|assumption|small]).
    subst value. split; [exact N47|]. split; [exact T|now left].
Qed.
Print Assumptions C95_port_refused.
Theorem C95_port_missing : forall split y0 g0 data v log A P M C y g value,
  construct split y0 g0 data = Ok (v, log) -> options_given split data A P M C ->
  single_values (turned_on A P M C) -> P = Some [lit "required"] ->
  ~ In 58 value \/ (hd 0 value <> 91 /\ exists x z t, value = x ++ 58 :: z ++ 58 :: t)
    \/ (exists x, value = [91] ++ x ++ [93] /\ ~ In 93 x) ->
  trimmed value -> ~ In 47 value ->
  says v y g value false.
Proof.
  intros split y0 g0 data v lg A P M C y g value H O SV EP HV T N47.
  destruct (one_value _ _ _ _ _ _ _ _ _ _ H O SV) as [S1 S2].
  apply (reported v (f_parser v)); [exact (C63_verdict _ _ _ _ _ _ H)| |].
  - exact (proj2 (t_error _ (construct_tidy _ _ _ _ _ _ H))).
  - apply (C44_missing_port_rejected y g (f_parser v) value value S1 S2); [|exact HV|].
    + eapply flag_on; [exact H|exact O|now apply on_port_required|small].
    + split; [exact N47|]. split; [exact T|now left].
Qed.
Print Assumptions C95_port_missing.

Definition numbers_only : list str := [lit "address=yes"; lit "port=required"].
Definition no_ports : list str := [lit "address=required"; lit "port=no"; lit "mask=no"].
Lemma numbers_given : options_given words numbers_only (Some [lit "yes"]) (Some [lit "required"]) None None.
Proof.
  split; [|split; [|split]].
  - apply (lo_some words (lit "address") [] (lit "address=yes") [lit "port=required"]); [now apply option_is|now apply option_not].
  - apply (lo_some words (lit "port") [lit "address=yes"] (lit "port=required") []); [now apply option_is|now apply option_not].
  - apply lo_none. now apply option_not.
  - apply lo_none. now apply option_not.
Qed.
Lemma no_ports_given : options_given words no_ports (Some [lit "required"]) (Some [lit "no"]) (Some [lit "no"]) None.
Proof.
  split; [|split; [|split]].
  - apply (lo_some words (lit "address") [] (lit "address=required") [lit "port=no"; lit "mask=no"]); [now apply option_is|now apply option_not].
  - apply (lo_some words (lit "port") [lit "address=required"] (lit "port=no") [lit "mask=no"]); [now apply option_is|now apply option_not].
  - apply (lo_some words (lit "mask") [lit "address=required"; lit "port=no"] (lit "mask=no") []); [now apply option_is|now apply option_not].
  - apply lo_none. now apply option_not.
Qed.
Ltac off := let T := fresh in intros T; inversion T; subst; try discriminate; try congruence;
  repeat match goal with
  | K : keyword _ _ |- _ => inversion K; subst; clear K
  | K : Some _ = Some _ |- _ => injection K; intros; subst; clear K
  | K : In _ [_] |- _ => destruct K as [K|[]]; discriminate
  end; try congruence.
Example C95_witness :
  (exists v, construct words ref_sys no_answer numbers_only = Ok (v, []))
  /\ (let on := turned_on (Some [lit "yes"]) (Some [lit "required"]) None None in
      single_values on /\ ~ on ALLOW_ADDRESS_LOOKUP /\ ~ on ALLOW_MASK /\ ~ on ALLOW_ADDRESS_RANGE
      /\ port_after on (lit ":8080"))
  /\ no_default words numbers_only
  /\ (exists n, denotes (lit "fe80::1") n) /\ written (lit "fe80::1") (lit ":8080") (lit "[fe80::1]:8080")
  /\ (forall n, ~ denotes (lit "localhost") n) /\ trimmed (lit "localhost:80") /\ ~ In 47 (lit "localhost:80").
Proof.
  split; [eexists; vm_compute; reflexivity|]. split.
  { cbv zeta. split; [repeat split; off|]. split; [off|]. split; [off|]. split; [off|].
    apply (after_port _ (lit "8080") 8080); [|now repeat split|lia].
    apply (on_port _ _ _ _ (lit "required")); [reflexivity|discriminate]. }
  split; [split; now apply option_not|].
  split; [eexists; now apply denotes_lit|]. split; [apply (written_brackets (lit "fe80::1"))|].
  split. { intros n D. apply denotes_chars in D as [_ D]. discriminate. }
  split; [now apply trimmed_lit|now apply not_in].
Qed.
Example C95_port_witness :
  (exists v, construct words ref_sys no_answer no_ports = Ok (v, [])
     /\ snd (validate ref_sys no_answer v (lit "10.1.2.3")) = Ok true
     /\ snd (validate ref_sys no_answer v (lit "10.1.2.3:80")) = Ok false)
  /\ options_given words no_ports (Some [lit "required"]) (Some [lit "no"]) (Some [lit "no"]) None
  /\ (let on := turned_on (Some [lit "required"]) (Some [lit "no"]) (Some [lit "no"]) None in
      single_values on /\ ~ on ALLOW_ADDRESS_LOOKUP /\ ~ on ALLOW_MASK)
  /\ (exists v, construct words ref_sys no_answer numbers_only = Ok (v, [])
     /\ snd (validate ref_sys no_answer v (lit "10.1.2.3")) = Ok false
     /\ snd (validate ref_sys no_answer v (lit "10.1.2.3:80")) = Ok true).
Proof.
  split; [eexists; split; [vm_compute; reflexivity|split; vm_compute; reflexivity]|].
  split; [exact no_ports_given|]. split.
  { cbv zeta. split; [repeat split; off|]. split; off. }
  eexists; split; [vm_compute; reflexivity|split; vm_compute; reflexivity].
Qed.
(* With address=no an address is accepted nevertheless. *)
Theorem C95_address_no_refuted : exists v,
  construct words ref_sys no_answer [lit "address=no"] = Ok (v, [])
  /\ says v ref_sys no_answer (lit "127.0.0.1") true.
Proof.
  eexists. split; [vm_compute; reflexivity|].
  eapply acts_says; [eapply (C63_verdict words ref_sys no_answer [lit "address=no"]); vm_compute; reflexivity|].
  vm_compute. reflexivity.
Qed.
Print Assumptions C95_address_no_refuted.
(* With address=required a default address does not replace an empty one. *)
Theorem C95_required_default_refuted : exists v a,
  construct words ref_sys host_numbers [lit "address=required"; lit "default=10.0.0.1"] = Ok (v, [])
  /\ reads_default ref_sys host_numbers (lit "10.0.0.1") a /\ value a = v4_base + 167772161
  /\ says v ref_sys host_numbers (lit ":80") false.
Proof.
  eexists _, _. split; [vm_compute; reflexivity|].
  split. { eexists _, _. split; [vm_compute; reflexivity|]. repeat split. }
  split; [vm_compute; reflexivity|].
  eapply acts_says; [eapply (C63_verdict words ref_sys host_numbers [lit "address=required"; lit "default=10.0.0.1"]); vm_compute; reflexivity|].
  vm_compute. reflexivity.
Qed.
Print Assumptions C95_required_default_refuted.

(* ---------- C96 ---------- *)
Theorem C96_construct : forall split y g data,
  converts_decimals y -> resolver_ok g -> known_protocols g ->
  exists v log, construct split y g data = Ok (v, log).
Proof.
  intros split y g data C R K. unfold construct. destruct (options_ok split y g data C R K (mk_setup parser_new [])) as [s ->].
  eauto.
Qed.
Print Assumptions C96_construct.
Theorem C96_validate : forall split y0 g0 data v log w y g value,
  construct split y0 g0 data = Ok (v, log) -> validated v w -> resolver_ok g -> known_protocols g ->
  exists b, snd (validate y g w value) = Ok b.
Proof.
  intros split y0 g0 data v lg w y g value H V R K.
  destruct (C63_verdict _ _ _ _ _ _ H w y g value V) as [-> _].
  destruct (construct_tidy _ _ _ _ _ _ H) as [_ _ S PR _].
  destruct (C73_no_exception y g value (f_parser v) R (or_intror K)) as [l E].
  - left. exact PR.
  - left. unfold get_sort_order. now rewrite S.
  - destruct (parse y g value (f_parser v)) as [q r]. cbn [snd] in E. subst r. cbn [verdict]. eauto.
Qed.
Print Assumptions C96_validate.
Example C96_witness : converts_decimals ref_sys /\ resolver_ok one_name /\ known_protocols one_name
  /\ (exists v log, construct words ref_sys one_name [lit "default=localhost 10.0.0.1"; lit "bad=1"; lit "address=lookup"] = Ok (v, log)
        /\ length log = 3%nat
        /\ snd (validate ref_sys one_name v (lit "[some.host")) = Ok false).
Proof.
  split; [apply ref_sys_converts|]. split; [apply one_name_ok|].
  split; [exact (proj1 (proj2 (proj2 (proj2 (proj2 (proj2 (proj2 C73_witness)))))))|].
  eexists _, _. split; [vm_compute; reflexivity|]. split; vm_compute; reflexivity.
Qed.

(* ---------- C97 ---------- *)
Theorem C97_default_partial : forall split y g before p after name param a v log,
  converts_decimals y -> resolver_ok g -> known_protocols g ->
  default_name name -> an_option split p name [param] -> no_default split after ->
  param <> lit "yes" -> reads_default y g param a ->
  construct split y g (before ++ p :: after) = Ok (v, log) ->
  exists q, acts_as v q
    /\ (snd (get_network_type a) <> NETWORK_TYPE_ANY -> is_ipv4 a = true -> denotes (get_default_address4 q) (value a))
    /\ (snd (get_network_type a) <> NETWORK_TYPE_ANY -> is_ipv4 a = false -> denotes (get_default_address6 q) (value a))
    /\ (get_port a <> 0 -> get_default_port q = get_port a).
Proof.
  intros split y g before p after nm param a v lg C R K Hn AO N NY RD H. exists (f_parser v).
  split; [exact (C63_verdict _ _ _ _ _ _ H)|].
  destruct (construct_setup _ _ _ _ _ _ H) as (s & E & -> & _).
  destruct (last_default split y g before p after param a _ _ nm C R K Hn AO N RD NY E) as [q [T1 T2 T3]].
  assert (addr_wf a) as W.
  { destruct RD as (q0 & r & EP & F & _ & <-). pose proof (C43_defined_ranges _ _ _ _ _ _ R EP) as WF.
    inversion WF as [|? ? (_ & X & _) _]. now apply X. }
  unfold get_default_address4, get_default_address6, get_default_port. rewrite T1, T2, T3.
  pose proof (ntop_denotes6 a W) as D6. pose proof (fun I => proj1 (ntop_denotes4 y a W I)) as D4.
  generalize dependent (inet_ntop4 (skipn 12 (s6 a))). generalize dependent (inet_ntop6 (s6 a)). intros t6 _ D6 t4 _ D4.
  split; [|split].
  - intros ND I. rewrite I. destruct (snd (get_network_type a)); first [congruence | exact (D4 I)].
  - intros ND I. rewrite I. destruct (snd (get_network_type a)); first [congruence | exact D6].
  - intros NP. apply Z.eqb_neq in NP. now rewrite NP.
Qed.
Print Assumptions C97_default_partial.
Theorem C97_no_default : forall split y g data v log,
  construct split y g data = Ok (v, log) ->
  no_default split data
  \/ (exists before p after name, data = before ++ p :: after /\ default_name name
        /\ an_option split p name [lit "yes"] /\ no_default split after) ->
  exists q, acts_as v q
    /\ get_default_address4 q = [] /\ get_default_address6 q = []
    /\ get_default_mask4 q = [] /\ get_default_mask6 q = [] /\ get_default_port q = -1.
Proof.
  intros split y g data v lg H N. exists (f_parser v). split; [exact (C63_verdict _ _ _ _ _ _ H)|].
  assert (same_defaults parser_new (f_parser v)) as [A B C D E].
  { destruct N as [N|(before & p & after & nm & -> & Hn & AO & N)]; [exact (construct_defaults _ _ _ _ _ _ H N)|].
    destruct (construct_setup _ _ _ _ _ _ H) as (s & E & -> & _).
    exact (last_default_cleared _ _ _ _ _ _ _ _ _ Hn AO N E). }
  repeat split; assumption.
Qed.
Print Assumptions C97_no_default.

Definition one_host : resolver := fun _ _ _ _ _ =>
  GAI_list [mk_ai AF_INET SIZEOF_IN 6 (mk_in AF_INET (bswap16 80) (load32 [10; 0; 0; 1] 0)) init_in6].
Lemma one_host_ok : resolver_ok one_host.
Proof.
  intros node service n t q l E. unfold one_host in E. injection E as <-. split; [discriminate|].
  repeat constructor; cbn; try discriminate; try lia.
Qed.
Lemma one_host_known : known_protocols one_host.
Proof.
  intros node service n t q l E. unfold one_host in E. injection E as <-.
  constructor; [right; left; reflexivity|constructor].
Qed.
Definition with_default : list str := [lit "default=1.2.3.4"; lit "default=local:80"; lit "address=spaces"].
Example C97_witness : converts_decimals ref_sys /\ resolver_ok one_host /\ known_protocols one_host
  /\ an_option words (lit "default=local:80") (lit "default") [lit "local:80"]
  /\ no_default words [lit "address=spaces"]
  /\ (exists a, reads_default ref_sys one_host (lit "local:80") a /\ snd (get_network_type a) <> NETWORK_TYPE_ANY
        /\ is_ipv4 a = true /\ get_port a = 80)
  /\ (exists v, construct words ref_sys one_host with_default = Ok (v, [])
        /\ get_default_address4 (f_parser v) = lit "10.0.0.1" /\ get_default_port (f_parser v) = 80)
  /\ (exists v, construct words ref_sys one_host (with_default ++ [lit "defaults"]) = Ok (v, [])
        /\ get_default_address4 (f_parser v) = [] /\ get_default_port (f_parser v) = -1).
Proof.
  split; [apply ref_sys_converts|]. split; [apply one_host_ok|]. split; [apply one_host_known|].
  split; [now apply option_is|]. split; [split; now apply option_not|].
  split. { eexists. split; [eexists _, _; split; [vm_compute; reflexivity|repeat split]|].
    split; [vm_compute; discriminate|]. split; vm_compute; reflexivity. }
  split; (eexists; split; [vm_compute; reflexivity|split; vm_compute; reflexivity]).
Qed.
(* The mask of an IPv4 default becomes the default mask of the IPv6
   addresses. *)
Theorem C97_ipv4_mask_refuted : exists v a,
  construct words ref_sys one_host [lit "mask=yes"; lit "default=10.0.0.1/8"] = Ok (v, [])
  /\ reads_default ref_sys one_host (lit "10.0.0.1/8") a
  /\ is_ipv4 a = true /\ num (f_mask a) = 2 ^ 128 - 2 ^ 24
  /\ get_default_mask4 (f_parser v) = [] /\ get_default_mask6 (f_parser v) = lit "104".
Proof.
  eexists _, _. split; [vm_compute; reflexivity|].
  split. { eexists _, _. split; [vm_compute; reflexivity|]. repeat split. }
  repeat split; vm_compute; reflexivity.
Qed.
Print Assumptions C97_ipv4_mask_refuted.

(* ---------- C98 ---------- *)
Theorem C98_log : forall split y g data v log,
  construct split y g data = Ok (v, log) ->
  log = [] <-> (forall p name values, In p data -> an_option split p name values -> understood y g name values).
Proof.
  intros split y g data v lg H. destruct (construct_setup _ _ _ _ _ _ H) as (s & E & _ & ->).
  destruct (options_logs _ _ _ _ _ _ E) as (l & EL & K). cbn [s_log app] in EL. rewrite EL. exact K.
Qed.
Print Assumptions C98_log.
Example C98_witness :
  (exists v m, construct words ref_sys one_host [lit "port"; lit "mask=none"; lit "comment=hash"] = Ok (v, [m]))
  /\ (exists v, construct words ref_sys one_host (some_options ++ with_default) = Ok (v, []))
  /\ ~ understood ref_sys one_host (lit "mask") [lit "none"].
Proof.
  split; [eexists _, _; vm_compute; reflexivity|]. split; [eexists; vm_compute; reflexivity|].
  intros [[E _]|[[E _]|[[E _]|[[_ E]|[E _]]]]]; try discriminate; [destruct E; discriminate|].
  destruct E as (v & [= <-] & [X|[X|[X|[]]]]); discriminate.
Qed.

(* ---------- C99 ---------- *)
Lemma same_config_sym p q : same_config p q -> same_config q p.
Proof. intros []. constructor; congruence. Qed.
Lemma same_config_trans p q r : same_config p q -> same_config q r -> same_config p r.
Proof. intros [] []. constructor; congruence. Qed.
Lemma verdict_true y g value p : error_count p = 0 -> (forall v, exists l, snd (parse y g v p) = Ok l) ->
  verdict (parse y g value p) = Ok true <-> error_count (fst (parse y g value p)) = 0.
Proof.
  intros E0 H. destruct (H value) as [l E]. destruct (parse y g value p) as [q r]. cbn [snd fst] in *. subst r. cbn [verdict].
  split; [intros [= K]; now apply Z.eqb_eq|]. intros ->. reflexivity.
Qed.
Lemma list_count y g p ps : error_count p = 0 -> (forall v, exists l, snd (parse y g v p) = Ok l) ->
  forall q, same_config q p ->
    error_count q <= error_count (fst (one_after_the_other (parse y g) ps q))
    /\ (exists l, snd (one_after_the_other (parse y g) ps q) = Ok l)
    /\ (error_count (fst (one_after_the_other (parse y g) ps q)) = error_count q
        <-> forall piece, In piece ps -> verdict (parse y g piece p) = Ok true).
Proof.
  intros E0 H. induction ps as [|s ps IH]; intros q S.
  - cbn [one_after_the_other fst snd]. split; [lia|]. split; [eauto|]. split; [now intros _ piece []|reflexivity].
  - rewrite ParserProofs3.one_cons.
    destruct (C51_same_again y g s q p S) as (ES & ad & n & _ & _ & N1 & N2).
    pose proof (C51_configuration_unchanged y g s q) as S1.
    destruct (parse y g s q) as [q1 r1] eqn:E1. cbn [fst snd] in *.
    destruct (C42_log_grows y g s q q1 r1 E1) as (n' & _ & G1 & G2 & _).
    destruct (H s) as [l El]. rewrite <- ES in El. subst r1.
    destruct (IH q1 (same_config_trans _ _ _ S1 S)) as (I1 & [l2 I2] & I3).
    destruct (one_after_the_other (parse y g) ps q1) as [q2 r2]. cbn [fst snd] in *. subst r2. rewrite El. cbn [fst snd].
    split; [lia|]. split; [eauto|]. split.
    + intros K piece [<-|I]; [|apply I3; [lia|exact I]]. apply verdict_true; [exact E0|exact H|]. lia.
    + intros K. assert (n = 0) as -> .
      { pose proof (proj1 (verdict_true y g s p E0 H) (K s (or_introl eq_refl))). lia. }
      rewrite <- (Z.add_0_r (error_count q)), <- N1. apply I3. intros piece I. apply K. now right.
Qed.
Theorem C99_list : forall split y0 g0 data v log A P M C y g value ps,
  construct split y0 g0 data = Ok (v, log) -> options_given split data A P M C ->
  resolver_ok g -> known_protocols g ->
  (exists c, list_separator (turned_on A P M C) c) ->
  ~ turned_on A P M C ALLOW_COMMENT_HASH -> ~ turned_on A P M C ALLOW_COMMENT_SEMICOLON ->
  pieces (list_separator (turned_on A P M C)) value ps ->
  says v y g value true <-> (forall piece, In piece ps -> says v y g piece true).
Proof.
  intros split y0 g0 data v lg A P M C y g value ps H O R K [c0 LS] NH NS HP.
  pose proof (C63_verdict _ _ _ _ _ _ H) as AA. pose proof (construct_tidy _ _ _ _ _ _ H) as [_ _ S PR [_ E0]].
  assert (forall x, says v y g x true <-> verdict (parse y g x (f_parser v)) = Ok true) as SV.
  { intros x. split.
    - intros X. destruct (AA v y g x (no_call v)) as [<- _]. apply X, no_call.
    - now apply acts_says. }
  assert (forall x, exists l, snd (parse y g x (f_parser v)) = Ok l) as NX.
  { intros x. apply C73_no_exception; [exact R|now right|now left|left]. unfold get_sort_order. now rewrite S. }
  assert (forall k, 0 <= k < 13 -> get_allow (f_parser v) k = Ok true <-> turned_on A P M C k) as FL.
  { intros k Hk. rewrite allow_get by lia. now apply (construct_flags _ _ _ _ _ _ _ _ _ _ H O). }
  assert (forall c, separator (f_parser v) c <-> list_separator (turned_on A P M C) c) as SP.
  { intros c. unfold separator, list_separator. rewrite !FL by small. reflexivity. }
  assert (nobody (starts_comment (f_parser v))) as NC.
  { intros c [[X _]|[X _]]; apply FL in X; try small; contradiction. }
  assert (parse y g value (f_parser v) = one_after_the_other (parse y g) ps (f_parser v)) as EP.
  { apply C40_pieces; [unfold unsorted; now rewrite S|exists c0; now apply SP|exact NC|].
    eapply ParserProofs3.pieces_ext; [|exact HP]. intros c. symmetry. apply SP. }
  rewrite SV, verdict_true by assumption. rewrite EP.
  assert (same_config (f_parser v) (f_parser v)) as SC by now constructor.
  destruct (list_count y g (f_parser v) ps E0 NX (f_parser v) SC) as (_ & _ & L).
  change (error_count (f_parser v)) with (f_error_count (f_parser v)) in L. rewrite E0 in L. split.
  - intros X piece I. apply SV. revert piece I. now apply L.
  - intros X. apply L. intros piece I. apply SV. now apply X.
Qed.
Print Assumptions C99_list.
Definition lists : list str := [lit "address=commas spaces"; lit "port=no"].
Lemma lists_given : options_given words lists (Some [lit "commas"; lit "spaces"]) (Some [lit "no"]) None None.
Proof.
  split; [|split; [|split]].
  - apply (lo_some words (lit "address") [] (lit "address=commas spaces") [lit "port=no"]); [now apply option_is|now apply option_not].
  - apply (lo_some words (lit "port") [lit "address=commas spaces"] (lit "port=no") []); [now apply option_is|now apply option_not].
  - apply lo_none. now apply option_not.
  - apply lo_none. now apply option_not.
Qed.
Example C99_witness : resolver_ok one_host /\ known_protocols one_host
  /\ options_given words lists (Some [lit "commas"; lit "spaces"]) (Some [lit "no"]) None None
  /\ list_separator (turned_on (Some [lit "commas"; lit "spaces"]) (Some [lit "no"]) None None) 44
  /\ ~ turned_on (Some [lit "commas"; lit "spaces"]) (Some [lit "no"]) None None ALLOW_COMMENT_HASH
  /\ ~ turned_on (Some [lit "commas"; lit "spaces"]) (Some [lit "no"]) None None ALLOW_COMMENT_SEMICOLON
  /\ pieces (list_separator (turned_on (Some [lit "commas"; lit "spaces"]) (Some [lit "no"]) None None))
       (lit ",10.0.0.1,10.0.0.x") [lit "10.0.0.1"; lit "10.0.0.x"]
  /\ (exists v, construct words ref_sys one_host lists = Ok (v, [])
        /\ snd (validate ref_sys one_host v (lit ",10.0.0.1,10.0.0.x")) = Ok false
        /\ snd (validate ref_sys one_host v (lit ",10.0.0.1,10.0.0.3")) = Ok true).
Proof.
  assert (~ In (lit "no") [lit "commas"; lit "spaces"]) as NN by (intros [X|[X|[]]]; discriminate).
  assert (list_separator (turned_on (Some [lit "commas"; lit "spaces"]) (Some [lit "no"]) None None) 44) as S.
  { left. split; [|reflexivity]. eapply on_keyword; [reflexivity|exact NN|constructor|now left]. }
  split; [apply one_host_ok|]. split; [apply one_host_known|]. split; [exact lists_given|]. split; [exact S|].
  split; [off|]. split; [off|].
  assert (forall s, forallb (fun c => negb ((c =? 44) || (c =? 32) || (c =? 10))) s = true ->
    Forall (fun c => ~ list_separator (turned_on (Some [lit "commas"; lit "spaces"]) (Some [lit "no"]) None None) c) s) as F.
  { intros s E. apply Forall_forall. intros c I. rewrite forallb_forall in E. specialize (E c I).
    intros [[_ ->]|[[_ ->]|[_ ->]]]; discriminate. }
  split.
  - apply (pieces_one _ (lit ",") (lit "10.0.0.1") (lit ",10.0.0.x")); [now constructor|discriminate|now apply F| |].
    { right. eexists _, _. split; [reflexivity|exact S]. }
    apply (pieces_one _ (lit ",") (lit "10.0.0.x") []); [now constructor|discriminate|now apply F|now left|]. constructor. constructor.
  - eexists. split; [vm_compute; reflexivity|split; vm_compute; reflexivity].
Qed.
