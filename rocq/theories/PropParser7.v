(* Properties C113, C114, C115: the settings of the parser and its log. *)
From Coq Require Import ZifyBool ZifyNat.
From Verif Require Import Base Addr Spec Range SpecRange Inet SpecText Parser SpecParser SpecParser3.
From Verif Require AddrProofs AddrProofs4 ParserProofs ParserProofs2 ParserProofs3 ParserProofs5 ParserProofs7 ParserProofs11 ValidatorProofs
  PropParser PropParser2.
Import AddrProofs AddrProofs4 ParserProofs ParserProofs2 ParserProofs3 ParserProofs5 ParserProofs7 ParserProofs11 ValidatorProofs PropParser PropParser2.
Local Open Scope Z_scope.

(* ---------- what each setter does ---------- *)
Lemma opens_hd s : opens s <-> s <> [] /\ hd 0 s = 91.
Proof.
  split; [intros (t & ->); split; [discriminate|reflexivity]|]. intros [N H]. destruct s as [|c t]; [congruence|].
  cbn [hd] in H. subst c. now exists t.
Qed.
Lemma closes_back s : closes s <-> s <> [] /\ back s = 93.
Proof.
  split.
  - intros (t & ->). split; [destruct t; discriminate|]. unfold back. now rewrite last_last.
  - intros [N H]. destruct (exists_last N) as (t & c & ->). unfold back in H. rewrite last_last in H. subst c. now exists t.
Qed.
Lemma both_brackets s : opens s -> closes s -> in_brackets s (inner s).
Proof.
  intros (t & ->) (u & E). destruct u as [|c u]; [discriminate|]. cbn [app] in E. injection E as <- ->.
  change (91 :: u ++ [93]) with ([91] ++ u ++ [93]). rewrite inner_brackets. reflexivity.
Qed.
Lemma brackets_opens s t : in_brackets s t -> opens s.
Proof. intros ->. now exists (t ++ [93]). Qed.
Lemma brackets_closes s t : in_brackets s t -> closes s.
Proof. intros ->. exists (91 :: t). reflexivity. Qed.
Lemma brackets_inner s t : in_brackets s t -> t = inner s.
Proof. intros ->. now rewrite inner_brackets. Qed.
Lemma find_char_in c s : In c s -> exists n, find_char c s = Some n.
Proof. intros H. destruct (find_char c s) as [n|] eqn:E; [now exists n|]. now apply find_char_none_in in E. Qed.

Lemma set_address_some p s : s <> [] -> set_default_address p s =
  if hd 0 s =? 91 then
    if negb (back s =? 93) then (p, Throw E_invalid_argument) else (with_default_address6 p (inner s), Ok tt)
  else match find_char 58 s with
       | Some _ => (with_default_address6 p s, Ok tt)
       | None => (with_default_address4 p s, Ok tt)
       end.
Proof. destruct s; [congruence|reflexivity]. Qed.
Lemma set_mask_some y p s : s <> [] -> set_default_mask y p s =
  if (hd 0 s =? 91) && (back s =? 93) then (with_default_mask6 p (inner s), Ok tt)
  else if (hd 0 s =? 91) || (back s =? 93) then (p, Throw E_invalid_argument)
  else match find_char 58 s with
       | Some _ => (with_default_mask6 p s, Ok tt)
       | None =>
           match convert_string y s with
           | Some m =>
               if (m <? 0) || (m >? 128) then (p, Throw E_invalid_argument)
               else if m >? 32 then (with_default_mask6 p s, Ok tt)
               else (with_default_mask4 p s, Ok tt)
           | None => (with_default_mask4 p s, Ok tt)
           end
       end.
Proof. destruct s; [congruence|reflexivity]. Qed.

Lemma address_cases p s :
  (s = [] /\ set_default_address p s = (with_default_address6 (with_default_address4 p []) [], Ok tt))
  \/ (in_brackets s (inner s) /\ set_default_address p s = (with_default_address6 p (inner s), Ok tt))
  \/ (opens s /\ ~ closes s /\ set_default_address p s = (p, Throw E_invalid_argument))
  \/ (~ opens s /\ In 58 s /\ set_default_address p s = (with_default_address6 p s, Ok tt))
  \/ (s <> [] /\ ~ opens s /\ ~ In 58 s /\ set_default_address p s = (with_default_address4 p s, Ok tt)).
Proof.
  assert (s = [] \/ s <> []) as [->|NE] by (destruct s; [now left|now right]); [now left|]. right.
  rewrite set_address_some by exact NE. destruct (hd 0 s =? 91) eqn:C.
  - apply Z.eqb_eq in C. assert (opens s) as O by (apply opens_hd; now split).
    destruct (back s =? 93) eqn:B; cbn [negb].
    + left. split; [|reflexivity]. apply both_brackets; [exact O|]. apply closes_back. split; [exact NE|lia].
    + right. left. split; [exact O|]. split; [|reflexivity]. rewrite closes_back. intros [_ X]. lia.
  - right. right. assert (~ opens s) as O by (rewrite opens_hd; intros [_ X]; lia).
    destruct (in_dec Z.eq_dec 58 s) as [I|I].
    + left. split; [exact O|]. split; [exact I|]. now destruct (find_char_in _ _ I) as [n ->].
    + right. split; [exact NE|]. split; [exact O|]. split; [exact I|]. now rewrite find_char_none.
Qed.
Lemma mask_cases y p s :
  (s = [] /\ set_default_mask y p s = (with_default_mask6 (with_default_mask4 p []) [], Ok tt))
  \/ (in_brackets s (inner s) /\ set_default_mask y p s = (with_default_mask6 p (inner s), Ok tt))
  \/ (s <> [] /\ (opens s <-> ~ closes s) /\ set_default_mask y p s = (p, Throw E_invalid_argument))
  \/ (plain s /\ In 58 s /\ set_default_mask y p s = (with_default_mask6 p s, Ok tt))
  \/ (plain s /\ ~ In 58 s /\ convert_string y s = None /\ set_default_mask y p s = (with_default_mask4 p s, Ok tt))
  \/ (exists n, plain s /\ ~ In 58 s /\ convert_string y s = Some n /\
       ((0 <= n <= 32 /\ set_default_mask y p s = (with_default_mask4 p s, Ok tt))
        \/ (32 < n <= 128 /\ set_default_mask y p s = (with_default_mask6 p s, Ok tt))
        \/ ((n < 0 \/ n > 128) /\ set_default_mask y p s = (p, Throw E_invalid_argument)))).
Proof.
  assert (s = [] \/ s <> []) as [->|NE] by (destruct s; [now left|now right]); [now left|]. right.
  rewrite set_mask_some by exact NE.
  assert (hd 0 s =? 91 = true <-> opens s) as O by (rewrite opens_hd, Z.eqb_eq; tauto).
  assert (back s =? 93 = true <-> closes s) as K by (rewrite closes_back, Z.eqb_eq; tauto).
  destruct (hd 0 s =? 91), (back s =? 93); cbn [andb orb].
  - left. split; [|reflexivity]. apply both_brackets; tauto.
  - right. left. split; [exact NE|]. split; [|reflexivity]. intuition congruence.
  - right. left. split; [exact NE|]. split; [|reflexivity]. intuition congruence.
  - right. right. assert (plain s) as P by (split; [exact NE|]; intuition congruence).
    destruct (in_dec Z.eq_dec 58 s) as [I|I].
    + left. split; [exact P|]. split; [exact I|]. now destruct (find_char_in _ _ I) as [n ->].
    + right. rewrite find_char_none by exact I. destruct (convert_string y s) as [n|] eqn:C.
      2:{ left. auto. }
      right. exists n. split; [exact P|]. split; [exact I|]. split; [reflexivity|].
      destruct (_ || _) eqn:B; [right; right; split; [lia|reflexivity]|].
      destruct (n >? 32) eqn:B2; [right; left|left]; (split; [lia|reflexivity]).
Qed.
Lemma sort_cases p n :
  (Z.testbit n 0 = true /\ Z.testbit n 1 = true /\ set_sort_order p n = (p, Throw E_invalid_argument))
  \/ ((Z.testbit n 0 = false \/ Z.testbit n 1 = false) /\ set_sort_order p n = (with_sort p n, Ok tt)).
Proof.
  destruct (C38_accepted_or_rejected p n) as [H1 H2].
  destruct (Z.testbit n 0) eqn:B0, (Z.testbit n 1) eqn:B1; [left; auto| | |]; right;
    (split; [tauto|]; destruct H2 as (K & _); [tauto|]; unfold set_sort_order in *; destruct (_ =? _); [discriminate|reflexivity]).
Qed.
Lemma port_cases p n :
  ((n < -1 \/ n > 65535) /\ set_default_port p n = (p, Throw E_invalid_argument))
  \/ (-1 <= n <= 65535 /\ set_default_port p n = (with_default_port p n, Ok tt)).
Proof.
  unfold set_default_port. destruct (_ || _) eqn:E; [left|right]; (split; [lia|reflexivity]).
Qed.
Lemma port_str_cases y p s :
  (s = [] /\ set_default_port_str y p s = (with_default_port p (-1), Ok tt))
  \/ (s <> [] /\ convert_string y s = None /\ set_default_port_str y p s = (p, Throw E_invalid_argument))
  \/ (s <> [] /\ exists v, convert_string y s = Some v
      /\ (((s32 v < -1 \/ s32 v > 65535) /\ set_default_port_str y p s = (p, Throw E_invalid_argument))
          \/ (-1 <= s32 v <= 65535 /\ set_default_port_str y p s = (with_default_port p (s32 v), Ok tt)))).
Proof.
  unfold set_default_port_str. destruct s as [|c s]; [left; split; reflexivity|]. right.
  destruct (convert_string y (c :: s)) as [v|]; [right|left; split; [discriminate|now split]].
  split; [discriminate|]. exists v. split; [reflexivity|]. apply port_cases.
Qed.
Lemma protocol_cases p n :
  ((n = IPPROTO_IP \/ n = IPPROTO_TCP \/ n = IPPROTO_UDP) /\ parser_set_protocol p n = (with_parser_protocol p n, Ok tt))
  \/ (~ (n = IPPROTO_IP \/ n = IPPROTO_TCP \/ n = IPPROTO_UDP) /\ parser_set_protocol p n = (p, Throw E_invalid_argument)).
Proof. unfold parser_set_protocol. destruct (_ || _) eqn:E; [left|right]; (split; [lia|reflexivity]). Qed.
Lemma protocol_str_cases y p s :
  (exists n, getprotobyname y s = Found n /\ parser_set_protocol_str y p s = (with_parser_protocol p n, Ok tt))
  \/ ((forall n, getprotobyname y s <> Found n) /\ parser_set_protocol_str y p s = (p, Throw E_invalid_argument)).
Proof.
  unfold parser_set_protocol_str. destruct (getprotobyname y s) as [n| |]; [left; now exists n| |];
    right; split; (discriminate || reflexivity).
Qed.
Lemma flag_cases p flag b :
  (0 <= flag < ALLOW_max /\ exists fl, set_allow p flag b = (with_flags p fl, Ok tt))
  \/ (~ 0 <= flag < ALLOW_max /\ set_allow p flag b = (p, Throw E_invalid_argument)).
Proof.
  unfold set_allow. destruct (_ || _) eqn:E; [right|left].
  - split; [lia|reflexivity].
  - split; [lia|]. eexists. reflexivity.
Qed.

(* ---------- C113 ---------- *)
(* A setting which each call either gives or leaves alone. *)
Lemma latest_run {V} (gives : parser_op -> V -> Prop) (get : parser -> V) y g :
  (forall p op, gives op (get (parser_step y g p op))
    \/ ((forall w, ~ gives op w) /\ get (parser_step y g p op) = get p)) ->
  forall ops, latest gives (get parser_new) ops (get (parser_run y g ops)).
Proof.
  intros H. induction ops as [|op ops IH]; [constructor|]. cbn [parser_run].
  destruct (H (parser_run y g ops) op) as [K|[K ->]]; [now apply latest_now|now apply latest_before].
Qed.
Ltac use_brackets := repeat match goal with
  | H : in_brackets ?s ?t |- _ => pose proof (brackets_opens _ _ H); pose proof (brackets_closes _ _ H);
      pose proof (brackets_inner _ _ H); clear H
  | H : plain _ |- _ => destruct H as (? & ? & ?)
  | H : ?a = Some _, K : ?a = Some _ |- _ => rewrite H in K; injection K as ?; subst
  | H : opens [] |- _ => destruct H as [? H]; discriminate
  end.
Ltac nothing := let w := fresh in let X := fresh in intros w X; inversion X; subst; use_brackets; solve [congruence|tauto|lia|intuition congruence].
Ltac unrelated := right; split; [nothing|reflexivity].
Ltac given := left;
  cbn [get_sort_order parser_get_protocol get_default_port get_default_address4 get_default_address6
    get_default_mask4 get_default_mask6 f_sort p_protocol f_default_port f_default_address4 f_default_address6
    f_default_mask4 f_default_mask6 with_sort with_parser_protocol with_default_port with_default_address4
    with_default_address6 with_default_mask4 with_default_mask6];
  econstructor; (eassumption || reflexivity || lia).
Ltac settle := first [unrelated | given].
Ltac parsing := right; split; [nothing|]; match goal with |- context[parse ?y ?g ?s ?p] => 
  destruct (parse_config y g s p) end;
  unfold get_sort_order, parser_get_protocol, get_default_port, get_default_address4, get_default_address6,
    get_default_mask4, get_default_mask6; cbn [fst]; assumption.
Ltac op_cases y p :=
  match goal with
  | |- context[set_allow p ?f ?b] => destruct (flag_cases p f b) as [(? & ? & E)|[? E]]
  | |- context[set_sort_order p ?n] => destruct (sort_cases p n) as [(? & ? & E)|[? E]]
  | |- context[set_default_address p ?s] =>
      destruct (address_cases p s) as [[? E]|[[? E]|[(? & ? & E)|[(? & ? & E)|(? & ? & ? & E)]]]]
  | |- context[set_default_port p ?n] => destruct (port_cases p n) as [[? E]|[? E]]
  | |- context[set_default_port_str y p ?s] =>
      destruct (port_str_cases y p s) as [[? E]|[(? & ? & E)|(? & ? & ? & [[? E]|[? E]])]]
  | |- context[set_default_mask y p ?s] =>
      destruct (mask_cases y p s) as [[? E]|[[? E]|[(? & ? & E)|[(? & ? & E)|[(? & ? & ? & E)|
        (? & ? & ? & ? & [[? E]|[[? E]|[? E]]])]]]]]
  | |- context[parser_set_protocol p ?n] => destruct (protocol_cases p n) as [[? E]|[? E]]
  | |- context[parser_set_protocol_str y p ?s] => destruct (protocol_str_cases y p s) as [(? & ? & E)|[? E]]
  end; match goal with X : ?x = (_, _) |- context[?x] => rewrite X; clear X end; cbn [fst]; subst.
Ltac setting_step y p op :=
  destruct op; cbn [parser_step]; first [parsing | op_cases y p | idtac]; settle.

Lemma step_sort y g p op : gives_sort op (get_sort_order (parser_step y g p op))
  \/ ((forall w, ~ gives_sort op w) /\ get_sort_order (parser_step y g p op) = get_sort_order p).
Proof. setting_step y p op. Qed.
Lemma step_protocol y g p op : gives_protocol y op (parser_get_protocol (parser_step y g p op))
  \/ ((forall w, ~ gives_protocol y op w) /\ parser_get_protocol (parser_step y g p op) = parser_get_protocol p).
Proof. setting_step y p op. Qed.
Lemma step_port y g p op : gives_port y op (get_default_port (parser_step y g p op))
  \/ ((forall w, ~ gives_port y op w) /\ get_default_port (parser_step y g p op) = get_default_port p).
Proof. setting_step y p op. Qed.
Lemma step_address4 y g p op : gives_address4 op (get_default_address4 (parser_step y g p op))
  \/ ((forall w, ~ gives_address4 op w) /\ get_default_address4 (parser_step y g p op) = get_default_address4 p).
Proof. setting_step y p op. Qed.
Lemma step_address6 y g p op : gives_address6 op (get_default_address6 (parser_step y g p op))
  \/ ((forall w, ~ gives_address6 op w) /\ get_default_address6 (parser_step y g p op) = get_default_address6 p).
Proof. setting_step y p op. Qed.
Lemma step_mask4 y g p op : gives_mask4 y op (get_default_mask4 (parser_step y g p op))
  \/ ((forall w, ~ gives_mask4 y op w) /\ get_default_mask4 (parser_step y g p op) = get_default_mask4 p).
Proof. setting_step y p op. Qed.
Lemma step_mask6 y g p op : gives_mask6 y op (get_default_mask6 (parser_step y g p op))
  \/ ((forall w, ~ gives_mask6 y op w) /\ get_default_mask6 (parser_step y g p op) = get_default_mask6 p).
Proof. setting_step y p op. Qed.

(* Each setting is the one of the latest call which gave it, whatever else was
   called: a getter returns what the caller set. *)
Theorem C113_latest : forall y g ops, let p := parser_run y g ops in
  latest gives_sort SORT_NO ops (get_sort_order p)
  /\ latest (gives_protocol y) (-1) ops (parser_get_protocol p)
  /\ latest (gives_port y) (-1) ops (get_default_port p)
  /\ latest gives_address4 [] ops (get_default_address4 p)
  /\ latest gives_address6 [] ops (get_default_address6 p)
  /\ latest (gives_mask4 y) [] ops (get_default_mask4 p)
  /\ latest (gives_mask6 y) [] ops (get_default_mask6 p).
Proof.
  intros y g ops p. subst p. repeat apply conj.
  - apply (latest_run _ get_sort_order). apply step_sort.
  - apply (latest_run _ parser_get_protocol). apply step_protocol.
  - apply (latest_run _ get_default_port). apply step_port.
  - apply (latest_run _ get_default_address4). apply step_address4.
  - apply (latest_run _ get_default_address6). apply step_address6.
  - apply (latest_run _ get_default_mask4). apply step_mask4.
  - apply (latest_run _ get_default_mask6). apply step_mask6.
Qed.
Print Assumptions C113_latest.

Lemma latest_one {V} (gives : parser_op -> V -> Prop) init :
  (forall op v w, gives op v -> gives op w -> v = w) ->
  forall ops v w, latest gives init ops v -> latest gives init ops w -> v = w.
Proof.
  intros F. induction ops as [|op ops IH]; intros v w H K; inversion H; inversion K; subst; try congruence.
  - eapply F; eassumption.
  - exfalso. eapply H6. eassumption.
  - exfalso. eapply H2. eassumption.
  - now apply IH.
Qed.
Ltac functional := intros op v w H K; inversion H; subst; inversion K; subst; use_brackets; try congruence; try tauto; try lia.
(* The calls determine the settings. *)
Theorem C113_one_value : forall y ops,
  (forall v w, latest gives_sort SORT_NO ops v -> latest gives_sort SORT_NO ops w -> v = w)
  /\ (forall v w, latest (gives_protocol y) (-1) ops v -> latest (gives_protocol y) (-1) ops w -> v = w)
  /\ (forall v w, latest (gives_port y) (-1) ops v -> latest (gives_port y) (-1) ops w -> v = w)
  /\ (forall v w, latest gives_address4 [] ops v -> latest gives_address4 [] ops w -> v = w)
  /\ (forall v w, latest gives_address6 [] ops v -> latest gives_address6 [] ops w -> v = w)
  /\ (forall v w, latest (gives_mask4 y) [] ops v -> latest (gives_mask4 y) [] ops w -> v = w)
  /\ (forall v w, latest (gives_mask6 y) [] ops v -> latest (gives_mask6 y) [] ops w -> v = w).
Proof. intros y ops. repeat apply conj; apply latest_one; functional. Qed.
Print Assumptions C113_one_value.

(* A rejected mask in between does not change anything. *)
Example C113_witness :
  let ops := [P_set_protocol 99; P_clear_errors; P_set_default_mask (lit "129"); P_set_default_mask (lit "64");
              P_set_default_address (lit "[::1]"); P_set_default_address (lit "10.0.0.1"); P_set_default_port 80;
              P_set_protocol IPPROTO_UDP; P_set_default_mask (lit "24"); P_set_sort_order 6] in
  let p := parser_run ref_sys no_answer ops in
  get_sort_order p = 6 /\ parser_get_protocol p = IPPROTO_UDP /\ get_default_port p = 80
  /\ get_default_address4 p = lit "10.0.0.1" /\ get_default_address6 p = lit "::1"
  /\ get_default_mask4 p = lit "24" /\ get_default_mask6 p = lit "64".
Proof. vm_compute. repeat split. Qed.

(* ---------- C114 ---------- *)
(* A value is accepted, or it is refused with invalid_argument and nothing
   changes; which of the two does not depend on the state. *)
Ltac not_good := let G := fresh in intros G; inversion G; subst; try lia;
  match goal with X : _ |- _ => inversion X; subst; use_brackets; solve [congruence|tauto|lia|intuition congruence] end.
Ltac good := first
  [ eapply good_flag; eassumption | eapply good_emit | eapply good_clear | eapply good_parse
  | eapply good_sort; econstructor; (eassumption || reflexivity || lia)
  | eapply good_protocol; econstructor; (eassumption || reflexivity || lia)
  | eapply good_port; econstructor; (eassumption || reflexivity || lia)
  | eapply good_address4; econstructor; (eassumption || reflexivity || lia)
  | eapply good_address6; econstructor; (eassumption || reflexivity || lia)
  | eapply good_mask4; econstructor; (eassumption || reflexivity || lia)
  | eapply good_mask6; econstructor; (eassumption || reflexivity || lia) ].
Lemma accepted_or_refused y g p op : (good_value y op /\ outcome y p op = Ok tt)
  \/ (~ good_value y op /\ outcome y p op = Throw E_invalid_argument /\ parser_step y g p op = p).
Proof.
  destruct op; cbn [outcome parser_step]; first [op_cases y p | idtac]; cbn [snd];
    first [left; split; [good|reflexivity] | right; split; [not_good|split; reflexivity]].
Qed.
Theorem C114_accepted_or_refused : forall y g p op,
  (good_value y op -> outcome y p op = Ok tt)
  /\ (~ good_value y op -> outcome y p op = Throw E_invalid_argument /\ parser_step y g p op = p).
Proof. intros y g p op. destruct (accepted_or_refused y g p op); tauto. Qed.
Print Assumptions C114_accepted_or_refused.

Example C114_witness :
  good_value ref_sys (P_set_protocol IPPROTO_UDP) /\ ~ good_value ref_sys (P_set_protocol 99)
  /\ good_value ref_sys (P_set_default_mask (lit "128")) /\ ~ good_value ref_sys (P_set_default_mask (lit "129"))
  /\ ~ good_value ref_sys (P_set_default_address (lit "[::1")).
Proof.
  assert (forall op, outcome ref_sys parser_new op = Ok tt -> good_value ref_sys op) as Y.
  { intros op H. destruct (accepted_or_refused ref_sys no_answer parser_new op) as [[G _]|(_ & K & _)]; [exact G|congruence]. }
  assert (forall op, outcome ref_sys parser_new op = Throw E_invalid_argument -> ~ good_value ref_sys op) as N.
  { intros op H. destruct (accepted_or_refused ref_sys no_answer parser_new op) as [[_ K]|[G _]]; [congruence|exact G]. }
  repeat apply conj; (apply Y || apply N); vm_compute; reflexivity.
Qed.

(* ---------- C115 ---------- *)
Lemma clear_errors_config p : same_config p (clear_errors p).
Proof. constructor; reflexivity. Qed.
(* The operations which leave the log alone. *)
Lemma step_log y g p op : op <> P_clear_errors -> (forall s, op <> P_emit_error s) -> (forall s, op <> P_parse s) ->
  f_error (parser_step y g p op) = f_error p /\ f_error_count (parser_step y g p op) = f_error_count p.
Proof.
  intros N1 N2 N3. destruct op; cbn [parser_step]; try congruence; first [op_cases y p | idtac]; now split.
Qed.

(* The log is the messages since it was last cleared, one per line, and the
   count is their number. *)
Theorem C115_log : forall y g ops,
  (exists l, log_after y g ops l)
  /\ forall l, log_after y g ops l ->
     error_messages (parser_run y g ops) = text_of l
     /\ error_count (parser_run y g ops) = Z.of_nat (length l)
     /\ (has_errors (parser_run y g ops) = true <-> l <> []).
Proof.
  intros y g ops. split.
  - induction ops as [|op ops [l IH]]; [exists []; constructor|].
    assert (op = P_clear_errors \/ (exists s, op = P_emit_error s) \/ (exists s, op = P_parse s)
      \/ (op <> P_clear_errors /\ (forall s, op <> P_emit_error s) /\ forall s, op <> P_parse s)) as C.
    { destruct op; try (right; right; right; repeat split; discriminate); eauto. }
    destruct C as [->|[[s ->]|[[s ->]|(N1 & N2 & N3)]]].
    + exists []. constructor.
    + exists (l ++ [s]). now constructor.
    + destruct (parse_appends y g s (clear_errors (parser_run y g ops))) as [ms E].
      exists (l ++ ms). apply log_parsed; [exact IH| |]; rewrite E; reflexivity.
    + exists l. now constructor.
  - intros l H.
    assert (error_messages (parser_run y g ops) = text_of l /\ error_count (parser_run y g ops) = Z.of_nat (length l)) as [A B].
    { unfold error_messages, error_count. induction H as [|ops|s ops l H [IH1 IH2]|s ops l ms H [IH1 IH2] T N|op ops l N1 N2 N3 H [IH1 IH2]];
        cbn [parser_run].
      - split; reflexivity.
      - split; reflexivity.
      - cbn [parser_step]. unfold emit_error. cbn [with_errors f_error f_error_count]. rewrite IH1, IH2. unfold text_of.
        rewrite map_app, concat_app, app_length. cbn [map concat length]. rewrite app_nil_r. split; [now rewrite ?app_assoc|lia].
      - cbn [parser_step]. set (p := parser_run y g ops) in *.
        destruct (C51_same_again y g s p (clear_errors p) (clear_errors_config p)) as (_ & added & n & E1 & E2 & E3 & E4).
        change (error_messages (clear_errors p)) with (@nil Z) in E2. change (error_count (clear_errors p)) with 0 in E4.
        cbn [app] in E2. rewrite E2 in T. subst added. rewrite E4 in N. unfold error_messages, error_count in E1, E3.
        rewrite E1, E3, IH1, IH2. unfold text_of. rewrite map_app, concat_app, app_length. split; [reflexivity|lia].
      - destruct (step_log y g (parser_run y g ops) op N1 N2 N3) as [-> ->]. now split. }
    split; [exact A|]. split; [exact B|]. unfold has_errors, error_messages in *. rewrite A. unfold text_of.
    destruct l as [|[|c m] l]; cbn [map concat app]; split; intros; (discriminate || congruence || reflexivity).
Qed.
Print Assumptions C115_log.

Example C115_witness :
  let ops := [P_parse (lit "10.0.0.1:99999"); P_emit_error (lit "mine"); P_clear_errors; P_emit_error (lit "old")] in
  let p := parser_run ref_sys no_answer ops in
  error_count p = 2 /\ exists rest, error_messages p = lit "mine" ++ [10] ++ rest /\ rest <> [].
Proof. vm_compute. split; [reflexivity|]. eexists. split; [reflexivity|discriminate]. Qed.
