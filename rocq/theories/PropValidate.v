(* Properties C107-C112: validate-ip. *)
From Coq Require Import Lia ZifyBool ZifyNat.
From Verif Require Import Base Addr Spec SpecText SpecRange Inet AddrText Range Parser SpecParser SpecParser2 TableTools ValidateTool SpecTools SpecValidate.
From Verif Require AddrProofs4 ParserProofs ParserProofs2 ParserProofs3 ParserProofs6 ParserProofs8 PropParser PropParser2 PropParser4 PropParser5 PropValidator PropText AddrProofs2 ParserProofs7 ToolsProofs ValidateProofs.
Import PropParser2 ParserProofs6 ParserProofs ParserProofs2 ParserProofs3 ParserProofs8 ValidateProofs.
Local Open Scope Z_scope.

(* what the options make of a fresh parser *)
Lemma validates_base y g o ps p : validates y g o ps p ->
  validate_setup y o parser_new = (p, Ok tt) /\ (f_error p = [] /\ f_error_count p = 0)
  /\ f_sort p = SORT_NO /\ (allow p ALLOW_MASK = vo_mask o) /\ allow p ALLOW_ADDRESS_MASK = false
  /\ allow p ALLOW_ADDRESS_RANGE = false /\ protocol_ok (p_protocol p)
  /\ f_default_mask4 p = lit "255.255.255.255" /\ f_default_mask6 p = lit "FF:FF:FF:FF:FF:FF:FF:FF"
  /\ comment_chars p = [] /\ separators p = (if vo_list o then [44; 32] else []).
Proof.
  intros [R K RP GO RE SU]. destruct (setup_ok y o ps GO RP) as (n & PN & G & E).
  destruct (PropParser.reachable_run _ _ _ RE) as (ops & X).
  pose proof (PropParser.run_flags y g ops) as L. rewrite <- X in L.
  rewrite (set_up_unique y o ps p n G L SU).
  split; [exact E|]. split; [split; reflexivity|]. split; [reflexivity|]. split; [reflexivity|]. split; [reflexivity|].
  split; [reflexivity|]. split; [exact PN|]. split; [reflexivity|]. split; [reflexivity|]. split; [reflexivity|].
  destruct o as [ca ad da dp li ma po pr qu]. destruct li; reflexivity.
Qed.
Lemma validates_calm y g o ps p : validates y g o ps p -> forall s, exists l, snd (parse y g s p) = Ok l.
Proof.
  intros V s. destruct (validates_base _ _ _ _ _ V) as (_ & _ & SO & _ & _ & _ & PO & _).
  apply PropParser4.C73_no_exception; [apply V|right; apply V|now right|]. left. unfold get_sort_order. rewrite SO. reflexivity.
Qed.
(* everything found is one address *)
Lemma validates_found y g o ps p s l : validates y g o ps p -> snd (parse y g s p) = Ok l ->
  Forall (fun r => only r /\ addr_wf (get_from r)) l.
Proof.
  intros V E. destruct (validates_base _ _ _ _ _ V) as (_ & _ & SO & _ & _ & AR & _).
  destruct (parse y g s p) as [p' r] eqn:EP. cbn [snd] in E. subst r.
  pose proof (parse_only y g s p p' l AR ltac:(rewrite SO; reflexivity) EP) as F1.
  pose proof (PropParser2.C43_defined_ranges y g s p p' l (va_resolver _ _ _ _ _ V) EP) as F2.
  rewrite Forall_forall in *. intros r I. specialize (F1 r I). specialize (F2 r I). split; [exact F1|].
  destruct F2 as (_ & F2 & _). apply F2. apply F1.
Qed.
Lemma ones_printable r : ones r -> printable r.
Proof. intros [H _] _. unfold mask_value, get_from. rewrite H. vm_compute. discriminate. Qed.
Lemma validates_printable y g o ps p inputs : validates y g o ps p -> all_printable y g o p inputs -> vo_canonicalize o = true ->
  forall s l, In s inputs -> accepted y g p s -> snd (parse y g s p) = Ok l -> Forall printable l.
Proof.
  intros V AP C s l I A E. destruct (vo_mask o) eqn:M; [now apply (AP C M s)|].
  destruct (validates_base _ _ _ _ _ V) as (_ & _ & SO & AM & _). rewrite M in AM.
  destruct (parse y g s p) as [p' r] eqn:EP. cbn [snd] in E. subst r.
  eapply Forall_impl; [exact ones_printable|]. eapply parse_ones; [exact AM|exact EP].
Qed.
Lemma dec_accepted y g p s : {accepted y g p s} + {~ accepted y g p s}.
Proof. apply Z.eq_dec. Qed.
Lemma lines_exist y g o p : forall inputs, (forall s, In s inputs -> exists ls, prints y g o p s ls /\ lines_of y g o p s ls) ->
  exists lss, Forall2 (prints y g o p) inputs lss /\ Forall2 (lines_of y g o p) inputs lss.
Proof.
  induction inputs as [|s inputs IH]; intros H; [exists []; split; constructor|].
  destruct (H s (or_introl eq_refl)) as (ls & H1 & H2). destruct IH as (lss & K1 & K2); [intros; apply H; now right|].
  exists (ls :: lss). split; constructor; assumption.
Qed.
Lemma found_lines y l : Forall (fun r => only r /\ addr_wf (get_from r)) l -> Forall printable l ->
  exists ls, Forall2 (fun r t => canonical_line y r = Ok (t ++ [10])) l ls /\ Forall2 line_of l ls.
Proof.
  induction 1 as [|r l [O W] F IH]; intros P; [exists []; split; constructor|].
  inversion P as [|? ? P1 P2]; subst. destruct (range_line y r O W P1) as (t & T1 & T2). destruct (IH P2) as (ls & K1 & K2).
  exists (t :: ls). split; constructor; assumption.
Qed.
Lemma validates_run y g what o ps p inputs : validates y g o ps p -> all_printable y g o p inputs ->
  exists lss st, Forall2 (lines_of y g o p) inputs lss
    /\ validate_ip y g what o inputs = mk_run (lines (concat lss)) (concat (map (message_of y g o p) inputs)) (Ok st)
    /\ (exists c, validate_run y g o inputs [] [] 0 = (lines (concat lss), concat (map (message_of y g o p) inputs), c, Ok tt))
    /\ (st = 0 /\ Forall (accepted y g p) inputs \/ st = 1 /\ ~ Forall (accepted y g p) inputs).
Proof.
  intros V AP. destruct (validates_base _ _ _ _ _ V) as (SET & CLEAN & _). pose proof (validates_calm _ _ _ _ _ V) as CALM.
  assert (PR : exists lss, Forall2 (prints y g o p) inputs lss /\ Forall2 (lines_of y g o p) inputs lss).
  { apply lines_exist. intros s I. destruct (log_of y g p CLEAN CALM s) as [L1 _]. unfold prints, lines_of.
    destruct (vo_canonicalize o) eqn:C; [|exists []; split; [reflexivity|right; split; [now left|reflexivity]]].
    destruct (has_errors (fst (parse y g s p))) eqn:HE; cbn [andb negb].
    - exists []. split; [reflexivity|right; split; [right; now apply L1|reflexivity]].
    - assert (A : accepted y g p s). { destruct (dec_accepted y g p s) as [A|A]; [exact A|]. apply L1 in A. discriminate. }
      destruct (CALM s) as (l & E).
      destruct (found_lines y l (validates_found _ _ _ _ _ _ _ V E) (validates_printable _ _ _ _ _ _ V AP C s l I A E)) as (ls & K1 & K2).
      exists ls. split; [exists l; split; assumption|left; split; [reflexivity|]; split; [exact A|]; exists l; split; assumption]. }
  destruct PR as (lss & P1 & P2).
  destruct (run_ok y g o p SET CLEAN CALM inputs lss [] [] 0 P1 ltac:(lia)) as (c & E & C0 & CZ).
  exists lss, (if negb (c =? 0) then 1 else 0). split; [exact P2|]. split.
  - unfold validate_ip. rewrite E. reflexivity.
  - split; [exists c; exact E|]. destruct (c =? 0) eqn:X; cbn [negb]; [left|right]; (split; [reflexivity|]); [apply CZ; lia|]. intros Y. assert (c = 0) by (apply CZ; auto). lia.
Qed.

(* ---------- C107 ---------- *)
Theorem C107_status_partial : forall y g what o ps p inputs, validates y g o ps p -> all_printable y g o p inputs ->
  (status (validate_ip y g what o inputs) = Ok 0 <-> Forall (accepted y g p) inputs)
  /\ (status (validate_ip y g what o inputs) = Ok 1 <-> Exists (fun s => ~ accepted y g p s) inputs).
Proof.
  intros y g what o ps p inputs V AP. destruct (validates_run y g what o ps p inputs V AP) as (lss & st & _ & E & _ & K).
  rewrite E. cbn [status].
  assert (X : ~ Forall (accepted y g p) inputs <-> Exists (fun s => ~ accepted y g p s) inputs).
  { split.
    - intros N. apply neg_Forall_Exists_neg in N; [exact N|]. intros s. apply dec_accepted.
    - intros X F. rewrite Exists_exists in X. rewrite Forall_forall in F. destruct X as (s & I & N). now apply N, F. }
  rewrite <- X. destruct K as [[-> F]|[-> F]]; (split; split; intros Y; try assumption; try reflexivity; try discriminate; try tauto).
Qed.
Print Assumptions C107_status_partial.
(* Without arguments the options do not matter. *)
Theorem C107_no_arguments : forall y g what o, validate_ip y g what o [] = mk_run [] [] (Ok 0).
Proof. reflexivity. Qed.
Print Assumptions C107_no_arguments.
(* setters *)
Definition settles (m : M unit) : Prop := forall p, exists q, m p = (q, Ok tt) \/ exists e, m p = (q, Throw e).
Definition throws (m : M unit) (p : parser) : Prop := exists q e, m p = (q, Throw e).
Lemma settles_bind m f : settles m -> settles f -> settles (bind m (fun _ => f)).
Proof.
  intros H1 H2 p. destruct (H1 p) as (q & [E|(e & E)]); unfold bind; rewrite E; [apply H2|]. exists q. right. now exists e.
Qed.
Lemma throws_here m f p : throws m p -> throws (bind m (fun _ => f)) p.
Proof. intros (q & e & E). exists q, e. unfold bind. now rewrite E. Qed.
Lemma throws_later m f p : settles m -> (forall q, throws f q) -> throws (bind m (fun _ => f)) p.
Proof.
  intros H1 H2. destruct (H1 p) as (q & [E|(e & E)]); [|apply throws_here; now exists q, e].
  destruct (H2 q) as (q2 & e & E2). exists q2, e. unfold bind. now rewrite E.
Qed.
Lemma settles_address s : settles (fun p => set_default_address p s).
Proof.
  intros p. unfold set_default_address. destruct s as [|c s]; [eexists; left; reflexivity|].
  destruct (c =? 91); [destruct (negb (back (c :: s) =? 93)); [eexists; right; eexists; reflexivity|eexists; left; reflexivity]|].
  destruct (find_char 58 (c :: s)); eexists; left; reflexivity.
Qed.
Lemma settles_addresses s : settles (validate_addresses s).
Proof.
  unfold validate_addresses. do 2 (apply settles_bind; [apply settles_address|]).
  destruct (find_char 44 s); [apply settles_bind|]; apply settles_address.
Qed.
Lemma settles_port n : settles (fun p => set_default_port p n).
Proof. intros p. unfold set_default_port. destruct (_ || _); eexists; [right; eexists|left]; reflexivity. Qed.
Lemma settles_mask y s : settles (fun p => set_default_mask y p s).
Proof.
  intros p. unfold set_default_mask.
  repeat match goal with
  | |- context [match ?x with _ => _ end] => destruct x
  end; eexists; solve [left; reflexivity|right; eexists; reflexivity].
Qed.
Lemma settles_protocol y s : settles (fun p => parser_set_protocol_str y p s).
Proof. intros p. unfold parser_set_protocol_str. destruct (getprotobyname y s); eexists; solve [left; reflexivity|right; eexists; reflexivity]. Qed.
Lemma settles_allow b flag : settles (allow_when b flag).
Proof.
  unfold allow_when. destruct b; [|intros p; exists p; left; reflexivity]. intros p. unfold set_allow.
  repeat match goal with
  | |- context [if ?x then _ else _] => destruct x
  end; eexists; solve [left; reflexivity|right; eexists; reflexivity].
Qed.
Lemma settles_setup y o : settles (validate_setup y o).
Proof.
  unfold validate_setup. apply settles_bind; [apply settles_addresses|]. apply settles_bind; [apply settles_port|].
  do 2 (apply settles_bind; [apply settles_mask|]). apply settles_bind; [apply settles_protocol|].
  do 6 (apply settles_bind; [apply settles_allow|]). apply settles_allow.
Qed.
Lemma printing_calm y a : addr_wf a -> (exists s, to_ipv4or6_string y a STRING_IP_ALL = Ok s)
  \/ exists e, to_ipv4or6_string y a STRING_IP_ALL = Throw e.
Proof.
  intros W. destruct (PropText.C65_when_printing_fails y a STRING_IP_ALL W) as (K6 & _ & K4 & KT).
  { unfold asks. vm_compute. intros X. now apply X. }
  unfold to_ipv4or6_string. destruct (is_ipv4 a) eqn:I; [|left; exact K6].
  assert (V : is_v4_value (value a)).
  { rewrite AddrProofs2.is_ipv4_bool in I by exact W. unfold is_v4_value, v4_base in *. lia. }
  destruct (Z_lt_le_dec (mask_value a) (prefix_mask 96)) as [L|L].
  - right. exists E_unexpected_mask. apply KT; [intros _; exact V| |exact L].
    unfold PropText.mask_wanted, asks. split; [vm_compute; discriminate|]. intros [X _]. apply X. vm_compute. reflexivity.
  - left. apply K4; [intros _; exact V|]. intros _. exact L.
Qed.
Lemma lines_calm y : forall l o, Forall (fun r => (has_from r = true \/ has_to r = true)
    /\ (has_from r = true -> addr_wf (get_from r) /\ 0 <= get_port (get_from r) <= 65535)
    /\ (has_to r = true -> addr_wf (get_to r) /\ 0 <= get_port (get_to r) <= 65535)) l ->
  exists o', canonical_lines y l o = (o', Ok tt) \/ exists e, canonical_lines y l o = (o', Throw e).
Proof.
  intros l o F. revert o. induction F as [|r l (D & F1 & F2) F IH]; intros o; cbn [canonical_lines]; [exists o; now left|].
  assert (K : (exists s, canonical_line y r = Ok s) \/ exists e, canonical_line y r = Throw e).
  { unfold canonical_line. change (is_range r) with (has_from r && has_to r). destruct (has_from r) eqn:HF.
    - destruct (F1 eq_refl) as [W1 _]. destruct (printing_calm y _ W1) as [[s1 E1]|[e E1]].
      + destruct (has_to r) eqn:HT; cbn [andb]; rewrite E1; cbn [rbind]; [|left; eexists; reflexivity].
        destruct (F2 eq_refl) as [W2 _]. destruct (printing_calm y _ W2) as [[s2 E2]|[e E2]]; rewrite E2; cbn [rbind];
          [left|right]; eexists; reflexivity.
      + right. exists e. destruct (has_to r); cbn [andb]; rewrite E1; reflexivity.
    - destruct D as [D|D]; [discriminate|]. rewrite D. cbn [andb]. destruct (F2 D) as [W2 _].
      destruct (printing_calm y _ W2) as [[s2 E2]|[e E2]]; rewrite E2; cbn [rbind]; [left|right]; eexists; reflexivity. }
  destruct K as [(s & E)|(e & E)]; rewrite E; [apply IH|]. exists o. right. now exists e.
Qed.
(* Whatever the options are, the tool ends with 0 or 1. *)
Theorem C107_ends : forall y g what o inputs, resolver_ok g ->
  status (validate_ip y g what o inputs) = Ok 0 \/ status (validate_ip y g what o inputs) = Ok 1.
Proof.
  intros y g what o inputs R.
  assert (K : forall inputs o0 e0 c0, exists o1 e1 c1, validate_run y g o inputs o0 e0 c0 = (o1, e1, c1, Ok tt)
    \/ exists x, validate_run y g o inputs o0 e0 c0 = (o1, e1, c1, Throw x)).
  { clear inputs. induction inputs as [|s inputs IH]; intros o0 e0 c0; cbn [validate_run]; [do 3 eexists; left; reflexivity|].
    destruct (settles_setup y o parser_new) as (p & [E|(x & E)]); rewrite E; [|do 3 eexists; right; eexists; reflexivity].
    destruct (wp_run p _ _ p (parse_made y g p s) (same_config_refl p)) as (ms & r & E2 & NF & K).
    destruct (K R) as [NU _]. destruct (parse y g s p) as [p' r'] eqn:EP. assert (r' = r) by congruence. subst r'.
    destruct r as [l|x| |]; [|do 3 eexists; right; eexists; reflexivity|congruence|congruence].
    destruct (has_errors p'); [apply IH|]. destruct (vo_canonicalize o); [|apply IH].
    destruct (lines_calm y l o0 (PropParser2.C43_defined_ranges y g s p p' l R EP)) as (o1 & [E3|(x & E3)]); rewrite E3; [apply IH|].
    do 3 eexists. right. eexists. reflexivity. }
  destruct (K inputs [] [] 0) as (o1 & e1 & c1 & [E|(x & E)]); unfold validate_ip; rewrite E; cbn [status]; [|now right].
  destruct (c1 =? 0); [now left|now right].
Qed.
Print Assumptions C107_ends.
(* Options the tool does not take, and at least one argument. *)
Theorem C107_bad_options : forall y g what o s inputs,
  (forall n, getprotobyname y (vo_protocol o) <> Found n)
  \/ (- 2 ^ 31 <= vo_default_port o < -1 \/ 65535 < vo_default_port o < 2 ^ 31)
  \/ (exists ps, default_parts (vo_default_address o) ps /\ Exists (fun a => hd 0 a = 91 /\ last a 0 <> 93) ps) ->
  exists e, validate_ip y g what o (s :: inputs) = mk_run [] (lit "error: an error occurred: " ++ what e ++ [10]) (Ok 1).
Proof.
  intros y g what o s inputs H.
  assert (K : throws (validate_setup y o) parser_new).
  { unfold validate_setup. destruct H as [H|[H|(ps & D & X)]].
    - apply throws_later; [apply settles_addresses|]. intros q1. apply throws_later; [apply settles_port|]. intros q2.
      do 2 (apply throws_later; [apply settles_mask|]; intros ?).
      apply throws_here. unfold throws, parser_set_protocol_str. destruct (getprotobyname y (vo_protocol o)) as [n| |].
      + now destruct (H n).
      + do 2 eexists; reflexivity.
      + do 2 eexists; reflexivity.
    - apply throws_later; [apply settles_addresses|]. intros q1. apply throws_here. unfold throws, set_default_port.
      replace (s32 (vo_default_port o)) with (vo_default_port o).
      + replace ((vo_default_port o <? -1) || (vo_default_port o >? 65535)) with true by lia. do 2 eexists; reflexivity.
      + unfold s32. change (2 ^ 31) with 2147483648 in *. change (2 ^ 32) with 4294967296. rewrite Z.mod_small by lia. lia.
    - apply throws_here.
      assert (T : forall a q, hd 0 a = 91 -> last a 0 <> 93 -> throws (fun p => set_default_address p a) q).
      { intros a q H1 H2. unfold throws, set_default_address. destruct a as [|c a]; [discriminate|]. cbn [hd] in H1. subst c.
        change (91 =? 91) with true. cbv iota. rewrite back_last. replace (last (91 :: a) 0 =? 93) with false by lia. do 2 eexists; reflexivity. }
      unfold validate_addresses. do 2 (apply throws_later; [apply settles_address|]; intros ?).
      destruct D as [[N ->]|(a & b & E & N & ->)].
      + rewrite ParserProofs7.find_char_none by exact N. inversion X as [? ? [X1 X2]|? ? X1]; subst; [now apply T|inversion X1].
      + rewrite E, ParserProofs7.find_char_first by exact N. rewrite firstn_app, firstn_all, Nat.sub_diag. cbn [firstn]. rewrite app_nil_r, skipn_part.
        inversion X as [? ? [X1 X2]|? ? X1]; subst; [now apply throws_here, T|].
        apply throws_later; [apply settles_address|]. intros ?. inversion X1 as [? ? [X3 X4]|? ? X3]; subst; [now apply T|inversion X3]. }
  destruct K as (q & e & E). exists e. unfold validate_ip. cbn [validate_run]. rewrite E. reflexivity.
Qed.
Print Assumptions C107_bad_options.

(* ---------- C108, C109 ---------- *)
Theorem C108_stdout_partial : forall y g what o ps p inputs, validates y g o ps p -> all_printable y g o p inputs ->
  exists lss, out (validate_ip y g what o inputs) = lines (concat lss) /\ Forall2 (lines_of y g o p) inputs lss.
Proof.
  intros y g what o ps p inputs V AP. destruct (validates_run y g what o ps p inputs V AP) as (lss & st & F & E & _).
  exists lss. rewrite E. split; [reflexivity|exact F].
Qed.
Print Assumptions C108_stdout_partial.
Theorem C109_stderr_partial : forall y g what o ps p inputs, validates y g o ps p -> all_printable y g o p inputs ->
  exists texts, err (validate_ip y g what o inputs) = concat texts /\ Forall2 (message_about y g o p) inputs texts.
Proof.
  intros y g what o ps p inputs V AP. destruct (validates_run y g what o ps p inputs V AP) as (lss & st & _ & E & _).
  destruct (validates_base _ _ _ _ _ V) as (SET & CLEAN & _). pose proof (validates_calm _ _ _ _ _ V) as CALM.
  exists (map (message_of y g o p) inputs). rewrite E. split; [reflexivity|]. clear E AP.
  induction inputs as [|s inputs IH]; cbn [map]; constructor; [|exact IH].
  destruct (log_of y g p CLEAN CALM s) as [L1 _]. unfold message_of, message_about.
  destruct (has_errors (fst (parse y g s p))) eqn:HE; cbn [andb].
  - destruct (vo_quiet o) eqn:Q; cbn [negb]; [right; split; [now left|reflexivity]|]. left. split; [reflexivity|].
    split; [now apply L1|]. unfold complaint, validate_message. exists (to_string_int (error_count (fst (parse y g s p)))).
    split; [apply ToolsProofs.to_string_integer|reflexivity].
  - right. split; [|reflexivity]. right. destruct (dec_accepted y g p s) as [A|A]; [exact A|]. apply L1 in A. discriminate.
Qed.
Print Assumptions C109_stderr_partial.
Lemma run_app y g o : forall a b o0 e0 c0, validate_run y g o (a ++ b) o0 e0 c0 =
  match validate_run y g o a o0 e0 c0 with
  | (o1, e1, c1, Ok _) => validate_run y g o b o1 e1 c1
  | other => other
  end.
Proof.
  induction a as [|s a IH]; intros b o0 e0 c0; cbn [validate_run app]; [reflexivity|].
  destruct (validate_setup y o parser_new) as [p [[]|x| |]]; try reflexivity.
  destruct (parse y g s p) as [p' [l|x| |]]; try reflexivity.
  destruct (has_errors p'); [apply IH|]. destruct (vo_canonicalize o); [|apply IH].
  destruct (canonical_lines y l o0) as [o1 [[]|x| |]]; try reflexivity. apply IH.
Qed.
Lemma canonical_stops y l1 ls r l2 o0 : Forall2 (fun r t => canonical_line y r = Ok (t ++ [10])) l1 ls ->
  canonical_line y r = Throw E_unexpected_mask ->
  canonical_lines y (l1 ++ r :: l2) o0 = (o0 ++ lines ls, Throw E_unexpected_mask).
Proof.
  intros F E. revert o0. induction F as [|a t l ls H F IH]; intros o0; cbn [canonical_lines app].
  - rewrite E. unfold lines. cbn. now rewrite app_nil_r.
  - rewrite H, IH. unfold lines. cbn [map concat]. now rewrite <- !app_assoc.
Qed.
(* --canonicalize --mask: the first range with an IPv4 address and a mask which
   is not one of IPv4 ends the run. *)
Theorem C108_abort : forall y g what o ps p before s after l1 r l2, validates y g o ps p ->
  all_printable y g o p before -> vo_canonicalize o = true ->
  accepted y g p s -> snd (parse y g s p) = Ok (l1 ++ r :: l2) -> Forall printable l1 -> ~ printable r ->
  exists lss ls texts,
    validate_ip y g what o (before ++ s :: after)
      = mk_run (lines (concat lss ++ ls))
          (concat texts ++ lit "error: an error occurred: " ++ what E_unexpected_mask ++ [10]) (Ok 1)
    /\ Forall2 (lines_of y g o p) before lss /\ Forall2 line_of l1 ls
    /\ Forall2 (message_about y g o p) before texts.
Proof.
  intros y g what o ps p before s after l1 r l2 V AP C A E F N.
  destruct (C109_stderr_partial y g what o ps p before V AP) as (texts & T1 & T2).
  destruct (validates_run y g what o ps p before V AP) as (lss & st & L & E1 & S1 & _). rewrite E1 in T1. cbn [err] in T1.
  pose proof (validates_found _ _ _ _ _ _ _ V E) as FF. apply Forall_app in FF as [F1 F2]. inversion F2 as [|? ? [O W] _]; subst.
  destruct (found_lines y l1 F1 F) as (ls & K1 & K2). pose proof (range_fails y r O W N) as KF.
  exists lss, ls, texts. split; [|split; [exact L|split; [exact K2|exact T2]]].
  destruct S1 as (c & S1). rewrite T1 in S1.
  unfold validate_ip. rewrite run_app, S1. cbn [validate_run].
  destruct (validates_base _ _ _ _ _ V) as (SET & CLEAN & _). pose proof (validates_calm _ _ _ _ _ V) as CALM. rewrite SET.
  destruct (log_of y g p CLEAN CALM s) as [L1 _]. destruct (parse y g s p) as [p' r'] eqn:EP. cbn [fst snd] in *. subst r'.
  destruct (has_errors p') eqn:HE; [exfalso; apply L1; [reflexivity|exact A]|]. rewrite C.
  rewrite (canonical_stops y l1 ls r l2 (lines (concat lss)) K1 KF).
  f_equal. unfold lines. now rewrite map_app, concat_app.
Qed.
Print Assumptions C108_abort.

(* ---------- C110 ---------- *)
(* --mask: no argument without a mask is taken. *)
Theorem C110_mask_refuses : forall y g o ps p s, validates y g o ps p -> vo_mask o = true ->
  ~ In 47 s -> (vo_list o = true -> exists c, In c s /\ c <> 44 /\ c <> 32) ->
  ~ accepted y g p s.
Proof.
  intros y g o ps p s V M N L A. destruct (validates_base _ _ _ _ _ V) as (_ & CLEAN & SO & AM & AA & _ & _ & D4 & D6 & NC & SP).
  rewrite M in AM.
  assert (X : f_error_count p < f_error_count (fst (parse y g s p))).
  { apply parse_refused; try assumption; [apply V|rewrite SO; reflexivity| |now apply (validates_calm y g o ps)].
    rewrite SP. destruct (vo_list o); [right|now left]. destruct (L eq_refl) as (c & I & C1 & C2). exists c. split; [exact I|].
    cbn. lia. }
  unfold accepted, error_count in A. destruct CLEAN as [_ CL]. lia.
Qed.
Print Assumptions C110_mask_refuses.

(* ---------- C111, C112 ---------- *)
Theorem C111_single_addresses : forall y g s p p' l, get_allow p ALLOW_ADDRESS_RANGE = Ok false ->
  Z.land (get_sort_order p) SORT_MERGE = 0 -> parse y g s p = (p', Ok l) ->
  Forall (fun r => has_from r = true /\ has_to r = false) l.
Proof. intros y g s p p' l A. allowed A. now apply parse_only. Qed.
Print Assumptions C111_single_addresses.
Theorem C112_full_masks : forall y g s p p' l, get_allow p ALLOW_MASK = Ok false -> parse y g s p = (p', Ok l) ->
  Forall (fun r => mask_value (get_from r) = LAST /\ mask_value (get_to r) = LAST) l.
Proof.
  intros y g s p p' l A E. allowed A. eapply Forall_impl; [|eapply parse_ones; [exact A|exact E]].
  intros r [H1 H2]. unfold mask_value, get_from, get_to. rewrite H1, H2. split; vm_compute; reflexivity.
Qed.
Print Assumptions C112_full_masks.

(* ---------- the hypotheses are met ---------- *)
Definition keeps (y : sys) (g : resolver) (m : M unit) : Prop := forall p, parser_reachable y g p -> parser_reachable y g (fst (m p)).
Lemma keeps_bind y g m f : keeps y g m -> keeps y g f -> keeps y g (bind m (fun _ => f)).
Proof.
  intros H1 H2 p R. unfold bind. specialize (H1 p R). destruct (m p) as [q [[]|e| |]]; cbn [fst] in *; auto.
Qed.
Lemma keeps_op y g op (m : M unit) : (forall p, fst (m p) = parser_step y g p op) -> keeps y g m.
Proof. intros H p R. rewrite H. now constructor. Qed.
(* There is such a parser for all options the tool takes. *)
Theorem C107_parser : forall y g o ps, resolver_ok g -> known_protocols g -> refuses_periods y -> good_options y o ps ->
  exists p, validates y g o ps p.
Proof.
  intros y g o ps R K RP GO. destruct (setup_ok y o ps GO RP) as (n & PN & G & E).
  exists (base_parser y o ps n). constructor; auto; [|now apply base_set_up].
  replace (base_parser y o ps n) with (fst (validate_setup y o parser_new)) by now rewrite E.
  assert (KA : forall s, keeps y g (fun p => set_default_address p s)).
  { intros s. apply (keeps_op y g (P_set_default_address s)). reflexivity. }
  assert (KM : forall s, keeps y g (fun p => set_default_mask y p s)).
  { intros s. apply (keeps_op y g (P_set_default_mask s)). reflexivity. }
  assert (KF : forall b f, keeps y g (allow_when b f)).
  { intros b f. unfold allow_when. destruct b; [apply (keeps_op y g (P_set_allow f true)); reflexivity|]. intros p H. exact H. }
  assert (KS : keeps y g (validate_setup y o)); [|apply KS; constructor].
  unfold validate_setup. apply keeps_bind.
  { unfold validate_addresses. do 2 (apply keeps_bind; [apply KA|]). destruct (find_char 44 (vo_default_address o)); [apply keeps_bind|]; apply KA. }
  apply keeps_bind; [apply (keeps_op y g (P_set_default_port (s32 (vo_default_port o)))); reflexivity|].
  do 2 (apply keeps_bind; [apply KM|]).
  apply keeps_bind; [apply (keeps_op y g (P_set_protocol_str (vo_protocol o))); reflexivity|].
  do 6 (apply keeps_bind; [apply KF|]). apply KF.
Qed.
Print Assumptions C107_parser.

Import AddrProofs4.
Lemma ref_refuses : refuses_periods ref_sys.
Proof.
  intros s I. cbn [convert_string ref_sys]. unfold ref_convert. destruct s as [|c r]; [reflexivity|].
  assert (X : forallb is_digit (c :: r) = false).
  { destruct (forallb is_digit (c :: r)) eqn:E; [|reflexivity]. rewrite forallb_forall in E. apply E in I. discriminate. }
  rewrite X. reflexivity.
Qed.
Lemma known_tcp : getprotobyname ref_sys (lit "tcp") = Found 6.
Proof. vm_compute. reflexivity. Qed.
Lemma default_good c a l m p q : good_options ref_sys (mk_validate_options c a (lit "127.0.0.1,::") 60000 l m p (lit "tcp") q) [lit "127.0.0.1"; lit "::"].
Proof.
  constructor.
  - right. exists (lit "127.0.0.1"), (lit "::"). split; [reflexivity|]. split; [|reflexivity]. vm_compute. intuition discriminate.
  - repeat constructor; discriminate.
  - cbn [vo_default_port]. lia.
  - exists 6. split; [exact known_tcp|]. right; left; reflexivity.
Qed.
Definition options (canonicalize mask list : bool) : validate_options :=
  mk_validate_options canonicalize false (lit "127.0.0.1,::") 60000 list mask false (lit "tcp") false.
Definition tool_parser (canonicalize mask list : bool) : parser :=
  base_parser ref_sys (options canonicalize mask list) [lit "127.0.0.1"; lit "::"] 6.
Lemma tool_validates g c m l : resolver_ok g -> known_protocols g ->
  validates ref_sys g (options c m l) [lit "127.0.0.1"; lit "::"] (tool_parser c m l).
Proof.
  intros R K. pose proof (default_good c false l m false false) as GO.
  destruct (C107_parser ref_sys g _ _ R K ref_refuses GO) as (p & V).
  destruct (PropParser.reachable_run _ _ _ (va_reachable _ _ _ _ _ V)) as (ops & X).
  pose proof (PropParser.run_flags ref_sys g ops) as L. rewrite <- X in L.
  replace (tool_parser c m l) with p; [exact V|].
  apply (set_up_unique ref_sys (options c m l) _ p 6 known_tcp L). apply V.
Qed.
Import PropValidator.
(* a getaddrinfo() which knows ::ffff:10.0.0.1 *)
Definition mapped_host : resolver := fun _ _ _ _ _ =>
  GAI_list [mk_ai AF_INET6 SIZEOF_IN6 6 (mk_in AF_INET 0 0) (mk_in6 AF_INET6 (bswap16 80) 0 [0;0;0;0;0;0;0;0;0;0;255;255;10;0;0;1] 0)].
Lemma mapped_ok : resolver_ok mapped_host.
Proof.
  intros node service n t q l E. unfold mapped_host in E. injection E as <-. split; [discriminate|].
  repeat constructor; cbn; try discriminate; try lia.
Qed.
Lemma mapped_known : known_protocols mapped_host.
Proof.
  intros node service n t q l E. unfold mapped_host in E. injection E as <-. constructor; [right; left; reflexivity|constructor].
Qed.
Definition some_what (e : exn) : str := lit "failed".
(* Arguments which the parser takes end the run with an error. *)
Theorem C107_status_refuted : exists y g what o ps p inputs, validates y g o ps p
  /\ Forall (accepted y g p) inputs /\ length inputs = 2%nat
  /\ validate_ip y g what o inputs = mk_run [] (lit "error: an error occurred: " ++ what E_unexpected_mask ++ [10]) (Ok 1).
Proof.
  exists ref_sys, mapped_host, some_what, (options true true false), [lit "127.0.0.1"; lit "::"], (tool_parser true true false),
    [lit "[::ffff:10.0.0.1]/64"; lit "[::1]/128"].
  split; [apply tool_validates; [apply mapped_ok|apply mapped_known]|].
  split; [repeat constructor; vm_compute; reflexivity|]. split; [reflexivity|]. vm_compute. reflexivity.
Qed.
Print Assumptions C107_status_refuted.
(* The port of the command line is a long, the one of the parser an int. *)
Theorem C107_port_refuted : exists y g what o s, resolver_ok g /\ 65535 < vo_default_port o
  /\ validate_ip y g what o [s] = mk_run (lit "10.0.0.1:80/32" ++ [10]) [] (Ok 0).
Proof.
  exists ref_sys, one_host, some_what,
    (mk_validate_options true false (lit "127.0.0.1,::") (2 ^ 32 + 80) false false false (lit "tcp") false), (lit "10.0.0.1").
  split; [apply one_host_ok|]. split; vm_compute; reflexivity.
Qed.
Print Assumptions C107_port_refuted.
(* --mask does not only allow a mask. *)
Theorem C110_mask_allowed_refuted : exists y g o o' ps p p' s, validates y g o ps p /\ validates y g o' ps p'
  /\ vo_mask o = false /\ o' = mk_validate_options (vo_canonicalize o) (vo_address o) (vo_default_address o) (vo_default_port o)
       (vo_list o) true (vo_port o) (vo_protocol o) (vo_quiet o)
  /\ s = lit "10.0.0.1" /\ accepted y g p s /\ ~ accepted y g p' s.
Proof.
  exists ref_sys, one_host, (options false false false), (options false true false), [lit "127.0.0.1"; lit "::"],
    (tool_parser false false false), (tool_parser false true false), (lit "10.0.0.1").
  split; [apply tool_validates; [apply one_host_ok|apply one_host_known]|].
  split; [apply tool_validates; [apply one_host_ok|apply one_host_known]|].
  split; [reflexivity|]. split; [reflexivity|]. split; [reflexivity|]. split; vm_compute; [reflexivity|discriminate].
Qed.
Print Assumptions C110_mask_allowed_refuted.

Example C107_witness :
  validates ref_sys one_host (options true false true) [lit "127.0.0.1"; lit "::"] (tool_parser true false true)
  /\ all_printable ref_sys one_host (options true false true) (tool_parser true false true) [lit "10.0.0.1,10.0.0.1"; lit "10.0.0.1:x y:"]
  /\ validate_ip ref_sys one_host some_what (options true false true) [lit "10.0.0.1,10.0.0.1"; lit "[1"] =
     mk_run (lit "10.0.0.1:80/32" ++ [10] ++ lit "10.0.0.1:80/32" ++ [10])
       (lit "address ""[1"" generated 1 error: IPv6 is missing the ']' ([1)." ++ [10;10]) (Ok 1)
  /\ validate_ip ref_sys one_host some_what (options false true false) [lit "10.0.0.1"; lit "10.0.0.1/16"] =
     mk_run [] (lit "address ""10.0.0.1"" generated 1 error: Address like mask not allowed (/255.255.255.255), try with a simple number instead." ++ [10;10]) (Ok 1).
Proof.
  split; [apply tool_validates; [apply one_host_ok|apply one_host_known]|].
  split; [intros _ X; discriminate|]. split; vm_compute; reflexivity.
Qed.
Example C107_bad_witness : getprotobyname ref_sys (lit "ospf") = NoEntry
  /\ validate_ip ref_sys one_host some_what (mk_validate_options true false (lit "127.0.0.1,::") 60000 false false false (lit "ospf") false) [lit "::1"]
     = mk_run [] (lit "error: an error occurred: failed" ++ [10]) (Ok 1)
  /\ validate_ip ref_sys one_host some_what (mk_validate_options true false (lit "127.0.0.1,::") 65536 false false false (lit "tcp") false) [lit "::1"]
     = mk_run [] (lit "error: an error occurred: failed" ++ [10]) (Ok 1).
Proof. split; [|split]; vm_compute; reflexivity. Qed.
Example C108_abort_witness :
  validates ref_sys mapped_host (options true true true) [lit "127.0.0.1"; lit "::"] (tool_parser true true true)
  /\ accepted ref_sys mapped_host (tool_parser true true true) (lit "[::1]/128 [::1]/64")
  /\ (exists r r2, snd (parse ref_sys mapped_host (lit "[::1]/128 [::1]/64") (tool_parser true true true)) = Ok ([r] ++ r2 :: [])
        /\ printable r /\ ~ printable r2)
  /\ out (validate_ip ref_sys mapped_host some_what (options true true true) [lit "[::1]/120 "; lit "[::1]/128 [::1]/64"; lit "[::1]/124"])
     = lit "10.0.0.1:80/24" ++ [10] ++ lit "10.0.0.1:80/32" ++ [10].
Proof.
  split; [apply tool_validates; [apply mapped_ok|apply mapped_known]|]. split; [vm_compute; reflexivity|].
  split; [|vm_compute; reflexivity].
  do 2 eexists. split; [vm_compute; reflexivity|]. unfold printable.
  split; [intros _; vm_compute; discriminate|]. vm_compute. intros X. apply X; [split; [discriminate|reflexivity]|reflexivity].
Qed.
Example C111_witness :
  get_allow (tool_parser false true true) ALLOW_ADDRESS_RANGE = Ok false
  /\ (exists r1 r2, parse ref_sys one_host (lit "10.0.0.1/3,x/4") (tool_parser false true true) = (tool_parser false true true, Ok [r1; r2]))
  /\ get_allow (tool_parser false false true) ALLOW_MASK = Ok false
  /\ (exists r1 r2, parse ref_sys one_host (lit "10.0.0.1,x:3") (tool_parser false false true) = (tool_parser false false true, Ok [r1; r2])).
Proof. repeat split; do 2 eexists; vm_compute; reflexivity. Qed.

(* Without options: single addresses without mask, 127.0.0.1, :: and port 60000
   for what is missing, TCP, and nothing but the complaints is printed. *)
Theorem C107_defaults : forall y g what inputs, resolver_ok g -> known_protocols g -> refuses_periods y ->
  getprotobyname y (lit "tcp") = Found IPPROTO_TCP ->
  exists p, (forall flag, 0 <= flag < ALLOW_max ->
       get_allow p flag = Ok ((flag =? ALLOW_ADDRESS) || (flag =? ALLOW_ADDRESS_LOOKUP) || (flag =? ALLOW_PORT)))
    /\ get_sort_order p = SORT_NO /\ parser_get_protocol p = IPPROTO_TCP /\ get_default_port p = 60000
    /\ get_default_address4 p = lit "127.0.0.1" /\ get_default_address6 p = lit "::"
    /\ out (validate_ip y g what validate_defaults inputs) = []
    /\ (status (validate_ip y g what validate_defaults inputs) = Ok 0 <-> Forall (accepted y g p) inputs)
    /\ (err (validate_ip y g what validate_defaults inputs) = [] <-> Forall (accepted y g p) inputs).
Proof.
  intros y g what inputs R K RP TCP.
  assert (GO : good_options y validate_defaults [lit "127.0.0.1"; lit "::"]).
  { constructor.
    - right. exists (lit "127.0.0.1"), (lit "::"). split; [reflexivity|]. split; [|reflexivity]. vm_compute. intuition discriminate.
    - repeat constructor; discriminate.
    - cbn [vo_default_port validate_defaults]. lia.
    - exists 6. split; [exact TCP|]. right; left; reflexivity. }
  destruct (C107_parser y g _ _ R K RP GO) as (p & V). pose proof (va_set_up _ _ _ _ _ V) as [A S D4 D6 M4 M6 PT PR _ _].
  assert (AP : all_printable y g validate_defaults p inputs) by (intros X; discriminate).
  exists p. split; [|split; [exact S|split; [|split; [exact PT|split; [exact D4|split; [exact D6|]]]]]].
  - intros flag F. rewrite A by exact F. cbn. f_equal. now rewrite orb_false_r, !orb_assoc.
  - assert (Found IPPROTO_TCP = Found (parser_get_protocol p)) as X by (rewrite <- TCP; exact PR). now injection X.
  - split; [|split; [apply (C107_status_partial y g what _ _ _ _ V AP)|]].
    + destruct (C108_stdout_partial y g what _ _ _ _ V AP) as (lss & E & F). rewrite E. clear E. induction F as [|s ls ss lss H F IH]; [reflexivity|].
      destruct H as [[X _]|[_ ->]]; [discriminate|]. apply IH. intros X; discriminate.
    + destruct (C109_stderr_partial y g what _ _ _ _ V AP) as (texts & E & F). rewrite E. clear E AP. induction F as [|s t ss texts H F IH]; [split; auto|].
      cbn [concat]. destruct H as [(_ & N & d & _ & E)|[[X|N] ->]]; [| discriminate |].
      * split; [|intros X; inversion X; tauto]. rewrite E. intros X. apply app_eq_nil in X as [X _]. discriminate.
      * cbn [app]. rewrite IH. split; intros X; [now constructor|now inversion X].
Qed.
Print Assumptions C107_defaults.
Example C107_defaults_witness : getprotobyname ref_sys (lit "tcp") = Found IPPROTO_TCP
  /\ validate_ip ref_sys one_host some_what validate_defaults [lit "10.0.0.1"; lit ""; lit ":80"] = mk_run [] [] (Ok 0)
  /\ status (validate_ip ref_sys one_host some_what validate_defaults [lit "10.0.0.1"; lit "[1"]) = Ok 1.
Proof. split; [|split]; vm_compute; reflexivity. Qed.
