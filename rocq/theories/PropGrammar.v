(* Properties C125 and C126: validator_address and validate-ip accept exactly
   the texts of the grammar. *)
From Coq Require Import ZifyBool ZifyNat.
From Verif Require Import Base Addr Spec Range SpecRange Inet SpecText AddrText Parser SpecParser SpecParser2 SpecParser4 SpecLanguage
  Validator SpecValidator TableTools ValidateTool SpecTools SpecValidate.
From Verif Require AddrProofs4 InetProofs TextProofs ParserProofs ParserProofs3 ParserProofs9 ParserProofs10 ToolsProofs ValidatorProofs ValidatorProofs2
  PropText PropParser PropParser2 PropParser4 PropParser5 PropParser9 PropParser10 PropParser11 PropValidator PropValidate.
Import AddrProofs4 ParserProofs ParserProofs3 ParserProofs9 ParserProofs10 ValidatorProofs ValidatorProofs2
  PropParser PropParser2 PropParser4 PropParser5 PropParser9 PropParser10 PropParser11 PropValidator.
Local Open Scope Z_scope.

(* ---------- the defaults of a validator ---------- *)
Record nice (p : parser) : Prop := mk_nice {
  n_port : -1 <= f_default_port p <= 65535;
  n_4 : ~ In 0 (f_default_address4 p); n_6 : ~ In 0 (f_default_address6 p);
  n_m4 : ~ In 0 (f_default_mask4 p); n_m6 : ~ In 0 (f_default_mask6 p) }.
Lemma nice_same p q : same_defaults p q -> nice p -> nice q.
Proof. intros [] []. split; congruence. Qed.
Lemma nice_address p t q : ~ In 0 t -> set_default_address p t = (q, Ok tt) -> nice p -> nice q.
Proof.
  intros N E []. revert E. unfold set_default_address. destruct t as [|c t]; [intros [= <-]; split; auto; now intros []|].
  destruct (c =? 91); [destruct (negb _); [discriminate|]|destruct (find_char _ _)]; intros [= <-]; split; auto.
  cbn [f_default_address6 with_default_address6]. intros I. now apply N, inner_in.
Qed.
Lemma nice_port p n q : set_default_port p n = (q, Ok tt) -> nice p -> nice q.
Proof.
  intros E []. revert E. unfold set_default_port. destruct (_ || _) eqn:X; [discriminate|]. intros [= <-]. split; auto.
  cbn [f_default_port with_default_port]. lia.
Qed.
Lemma nice_port_str y p s q : set_default_port_str y p s = (q, Ok tt) -> nice p -> nice q.
Proof. unfold set_default_port_str. destruct s; [apply nice_port|]. destruct (convert_string _ _); [apply nice_port|discriminate]. Qed.
Lemma nice_mask y p t q : ~ In 0 t -> set_default_mask y p t = (q, Ok tt) -> nice p -> nice q.
Proof.
  intros N E []. revert E. unfold set_default_mask. destruct t as [|c t]; [intros [= <-]; split; auto; now intros []|].
  destruct (_ && _).
  { intros [= <-]. split; auto. cbn [f_default_mask6 with_default_mask6]. intros I. now apply N, inner_in. }
  destruct (_ || _); [discriminate|]. destruct (find_char _ _); [intros [= <-]; split; auto|].
  destruct (convert_string _ _) as [m|]; [|intros [= <-]; split; auto].
  destruct (_ || _); [discriminate|]. destruct (m >? 32); intros [= <-]; split; auto.
Qed.
Lemma int_no_nul n : ~ In 0 (to_string_int n).
Proof.
  assert (forall m, 0 <= m -> ~ In 0 (dec_string m)) as G.
  { intros m H. destruct (InetProofs.dec_string_spec m H) as (_ & A & _). eapply PropText.chars_no_nul; [|exact A]. reflexivity. }
  unfold to_string_int. destruct (n <? 0) eqn:E; [|apply G; lia]. intros [X|X]; [discriminate|]. revert X. apply G. lia.
Qed.
Lemma text_no_nul y a t : addr_wf a -> to_ipv4or6_string y a STRING_IP_BRACKET_ADDRESS = Ok t -> ~ In 0 t.
Proof.
  intros W E. destruct (bracket_text y a W) as (t2 & E2 & T4 & T6). rewrite E2 in E. injection E as <-. clear E2.
  destruct (is_ipv4 a) eqn:F4.
  - rewrite (T4 eq_refl). destruct (denotes_chars _ _ (proj1 (ntop_denotes4 y a W F4))) as [_ C].
    revert C. generalize (inet_ntop4 (skipn 12 (s6 a))). intros u C. now apply (PropText.chars_no_nul TextProofs.ip_text_char).
  - rewrite (T6 eq_refl). destruct (denotes_chars _ _ (ntop_denotes6 a W)) as [_ C].
    revert C. generalize (inet_ntop6 (s6 a)). intros u C I. apply in_app_or in I. destruct I as [[X|[]]|I]; [discriminate|].
    apply in_app_or in I. destruct I as [I|[X|[]]]; [|discriminate]. now apply (PropText.chars_no_nul TextProofs.ip_text_char) in C.
Qed.
Lemma nice_default y g v s s' : resolver_ok g -> default_value y g v s = (s', Ok tt) -> nice (s_parser s) -> nice (s_parser s').
Proof.
  intros R E H. unfold default_value in E. destruct (parse y g v _) as [q r0] eqn:EP. destruct r0 as [l|e| |]; try discriminate.
  pose proof (C43_defined_ranges _ _ _ _ _ _ R EP) as WF.
  destruct l as [|r [|r' l]]; [injection E as <-; exact H| |injection E as <-; exact H].
  destruct (has_from r && negb (has_to r)) eqn:HF; [|injection E as <-; exact H].
  apply andb_true_iff in HF. destruct HF as [HF _]. inversion WF as [|? ? (_ & W & _) _]; subst. destruct (W HF) as [Wa _].
  cbv zeta in E.
  match type of E with context [let '(p, r1) := ?X in _] => remember X as X1 eqn:HX end. destruct X1 as [p1 r1].
  destruct r1 as [[]|e| |]; try discriminate.
  assert (nice p1) as H1.
  { destruct (to_ipv4or6_string y (get_from r) STRING_IP_BRACKET_ADDRESS) as [t|e| |] eqn:T.
    2-4: destruct (snd (get_network_type (get_from r))); try discriminate; injection HX as ->; exact H.
    destruct (snd (get_network_type (get_from r))); try (injection HX as ->; exact H);
      (eapply nice_address; [exact (text_no_nul y _ t Wa T)|symmetry; exact HX|exact H]). }
  match type of E with context [let '(p, r2) := ?X in _] => remember X as X2 eqn:HX2 end. destruct X2 as [p2 r2].
  destruct r2 as [[]|e| |]; try discriminate.
  assert (nice p2) as H2.
  { destruct (negb (get_port (get_from r) =? 0)); [|injection HX2 as ->; exact H1]. eapply nice_port_str; [symmetry; exact HX2|exact H1]. }
  match type of E with context [let '(p, r3) := ?X in _] => remember X as X3 eqn:HX3 end. destruct X3 as [p3 r3].
  destruct r3 as [[]|e| |]; try discriminate. injection E as <-. cbn [s_parser].
  destruct (negb (get_mask_size (get_from r) =? -1) && _); [|injection HX3 as ->; exact H2].
  destruct (is_ipv4 (get_from r)); (eapply nice_mask; [|symmetry; exact HX3|exact H2]); [apply int_no_nul|].
  intros I. apply in_app_or in I. destruct I as [[X|[]]|I]; [discriminate|]. apply in_app_or in I.
  destruct I as [I|[X|[]]]; [now apply int_no_nul in I|discriminate].
Qed.
Lemma nice_defaults y g l : resolver_ok g -> forall s s', default_values y g l s = (s', Ok tt) -> nice (s_parser s) -> nice (s_parser s').
Proof.
  intros R. induction l as [|v l IH]; intros s s'; cbn [default_values]; [now intros [= <-]|].
  destruct (default_value y g v s) as [s1 [[]|e| |]] eqn:E; try discriminate. intros H N. eapply IH; [exact H|]. eapply nice_default; eassumption.
Qed.
Lemma nice_step split y g p s s' : resolver_ok g -> option_step split y g p s = (s', Ok tt) -> nice (s_parser s) -> nice (s_parser s').
Proof.
  intros R H N. unfold option_step in H. destruct p as [|c p]; [injection H as <-; exact N|].
  destruct (name_and_values split (c :: p)) as [n vs].
  destruct (str_eqb n (lit "address")); [injection H as <-; exact (nice_same _ _ (sd_address vs s) N)|].
  destruct (str_eqb n (lit "comment")); [injection H as <-; exact (nice_same _ _ (sd_comment vs s) N)|].
  destruct (str_eqb n (lit "default") || str_eqb n (lit "defaults")).
  { unfold default_option in H.
    destruct vs as [|v [|v' vs]]; try (eapply nice_defaults; eassumption).
    destruct (str_eqb v (lit "yes")); [|eapply nice_defaults; eassumption]. injection H as <-.
    cbn -[Z.le]. destruct N. split; cbn -[Z.le]; auto. lia. }
  destruct (str_eqb n (lit "mask")); [injection H as <-; exact (nice_same _ _ (sd_mask vs s) N)|].
  destruct (str_eqb n (lit "port")); injection H as <-; [exact (nice_same _ _ (sd_port_option vs s) N)|exact N].
Qed.
Lemma nice_options split y g data : resolver_ok g -> forall s s', options split y g data s = (s', Ok tt) -> nice (s_parser s) -> nice (s_parser s').
Proof.
  intros R. induction data as [|p data IH]; intros s s'; cbn [options]; [now intros [= <-]|].
  destruct (option_step split y g p s) as [s1 [[]|e| |]] eqn:E; try discriminate. intros H N. eapply IH; [exact H|]. eapply nice_step; eassumption.
Qed.
Lemma validator_takes split y g data v lg : resolver_ok g -> construct split y g data = Ok (v, lg) ->
  unsorted (f_parser v) /\ takes_entries (f_parser v) /\ error_count (f_parser v) = 0.
Proof.
  intros R H. destruct (construct_tidy _ _ _ _ _ _ H) as [_ _ S P [_ C]]. destruct (construct_setup _ _ _ _ _ _ H) as (s & E & EV & _).
  assert (nice (f_parser v)) as [NP N4 N6 M4 M6].
  { rewrite EV. eapply nice_options; [exact R|exact E|]. split; cbn; try (now intros []). lia. }
  split; [unfold unsorted; rewrite S; reflexivity|]. split; [|exact C]. split; [intros _; left; exact P|exact NP|auto].
Qed.

(* ---------- C125 ---------- *)
(* Whatever the options and whatever was validated before, a value is accepted
   exactly when each of its entries is of the grammar. *)
Theorem C125_validator : forall split y0 g0 data v log w y g value ts,
  construct split y0 g0 data = Ok (v, log) -> resolver_ok g0 -> validated v w ->
  converts_decimals y -> resolver_ok g -> known_protocols g -> ~ In 0 value -> entries_of (f_parser v) value ts ->
  exists b, snd (validate y g w value) = Ok b /\ (b = true <-> Forall (entry_accepted y g (f_parser v)) ts).
Proof.
  intros split y0 g0 data v lg w y g value ts H R0 V HC R K N0 ES. destruct (validator_takes _ _ _ _ _ _ R0 H) as (U & TE & EC).
  destruct (C63_verdict _ _ _ _ _ _ H w y g value V) as [E _]. rewrite E.
  destruct (C123_lists y g (f_parser v) value ts U TE HC R (fun _ => K) N0 ES) as (p2 & vs & EP & _).
  pose proof (C123_no_error y g (f_parser v) value ts p2 _ U TE HC R (fun _ => K) N0 ES EP) as X. rewrite EP. cbn [SpecValidator.verdict].
  exists (error_count p2 =? 0). split; [reflexivity|]. rewrite <- X, EC. apply Z.eqb_eq.
Qed.
Print Assumptions C125_validator.

(* ---------- C126 ---------- *)
Lemma validates_takes y g o ps p : validates y g o ps p -> ~ In 0 (vo_default_address o) ->
  unsorted p /\ takes_entries p.
Proof.
  intros V N. destruct V as [_ _ _ GO _ SU]. destruct GO as [PT _ PO _]. destruct SU as [SA SS S4 S6 SM4 SM6 SP _ _ _].
  assert (forall t c, In t ps -> In c t -> In c (vo_default_address o)) as IN.
  { intros t c I J. destruct PT as [[_ ->]|(a & b & -> & _ & ->)]; cbn [In] in I.
    - destruct I as [->|[]]. exact J.
    - apply in_or_app. destruct I as [->|[->|[]]]; [now left|right; now right]. }
  assert (forall l d, ~ In 0 d -> (forall t, In t l -> ~ In 0 t) -> ~ In 0 (last l d)) as LA.
  { induction l as [|t l IH]; intros d D F; [exact D|]. cbn [last]. destruct l; [apply F; now left|]. apply IH; [exact D|]. intros; apply F; now right. }
  split.
  - unfold unsorted. unfold get_sort_order in SS. rewrite SS. reflexivity.
  - split.
    + rewrite SA by (unfold ALLOW_ADDRESS_LOOKUP, ALLOW_max; lia). discriminate.
    + rewrite SP. exact PO.
    + rewrite S4, S6, SM4, SM6. split; [|split; [|split; now apply not_in]].
      * unfold default4. apply LA; [now apply not_in|]. intros t I Z. apply filter_In in I. apply N. apply (IN t); [apply I|exact Z].
      * unfold default6. apply LA; [now apply not_in|]. intros t I Z. apply in_map_iff in I. destruct I as (u & <- & I). apply filter_In in I.
        apply N. apply (IN u); [apply I|]. revert Z. unfold bare_part. destruct (hd 0 u =? 91); [|auto]. intros Z.
        assert (forall (l : str), In 0 (removelast l) -> In 0 l) as RL.
        { clear. induction l as [|c l IH]; [intros []|]. cbn [removelast]. destruct l; [intros []|]. intros [X|X]; [now left|right; auto]. }
        apply RL in Z. destruct u; [exact Z|now right].
Qed.
(* The exit status is 0 exactly when each entry of each argument is of the
   grammar. *)
Theorem C126_exit_status : forall y g what o ps p inputs tss,
  validates y g o ps p -> all_printable y g o p inputs -> converts_decimals y -> ~ In 0 (vo_default_address o) ->
  Forall2 (fun s ts => ~ In 0 s /\ entries_of p s ts) inputs tss ->
  (status (validate_ip y g what o inputs) = Ok 0 <-> Forall (entry_accepted y g p) (concat tss))
  /\ (status (validate_ip y g what o inputs) = Ok 1 <-> ~ Forall (entry_accepted y g p) (concat tss)).
Proof.
  intros y g what o ps p inputs tss V AP HC N F. destruct (validates_takes _ _ _ _ _ V N) as [U TE].
  assert (Forall (SpecValidate.accepted y g p) inputs <-> Forall (entry_accepted y g p) (concat tss)) as X.
  { clear AP. induction F as [|s ts inputs tss [N0 ES] F IH]; [split; constructor|]. cbn [concat]. rewrite Forall_app, <- IH.
    destruct (parse y g s p) as [p2 r] eqn:EP.
    pose proof (C123_no_error y g p s ts p2 r U TE HC (va_resolver _ _ _ _ _ V) (fun _ => va_known _ _ _ _ _ V) N0 ES EP) as X.
    rewrite (su_count _ _ _ _ (va_set_up _ _ _ _ _ V)) in X.
    assert (SpecValidate.accepted y g p s <-> error_count p2 = 0) as Y by (unfold SpecValidate.accepted; rewrite EP; reflexivity).
    rewrite Forall_cons_iff, Y, X. reflexivity. }
  destruct (PropValidate.C107_status_partial y g what o ps p inputs V AP) as [A B]. rewrite A, B, X. split; [reflexivity|].
  rewrite <- X. split.
  - intros E FA. rewrite Exists_exists in E. rewrite Forall_forall in FA. destruct E as (s & I & NA). now apply NA, FA.
  - intros NF. apply neg_Forall_Exists_neg in NF; [exact NF|]. intros s. apply PropValidate.dec_accepted.
Qed.
Print Assumptions C126_exit_status.

(* ---------- concrete cases ---------- *)
Lemma two_entries p a b : separators p = [44] -> comment_chars p = [] -> a <> [] -> b <> [] -> ~ In 44 a -> ~ In 44 b ->
  entries_of p (a ++ [44] ++ b) [a; b].
Proof.
  intros S C NA NB IA IB.
  assert (forall c, separator p c <-> c = 44) as SE.
  { intros c. rewrite <- mem_separators, S. unfold mem. cbn [existsb]. split; [intros H; lia|intros ->; reflexivity]. }
  assert (forall t, ~ In 44 t -> Forall (fun c => ~ separator p c) t) as NS.
  { intros t H. apply Forall_forall. intros c I X. apply SE in X. now subst. }
  assert (nobody (starts_comment p)) as NC by now apply no_comments.
  replace [a; b] with (filter nonempty_str [a; b]) by (destruct a, b; try congruence; reflexivity).
  apply (each_piece p _ [a; b]); [exists 44; now apply SE|now left| |].
  - apply (pieces_one _ [] a ([44] ++ b)); [constructor|exact NA|now apply NS| |].
    { right. exists 44, b. split; [reflexivity|now apply SE]. }
    replace ([44] ++ b) with ([44] ++ b ++ []) by now rewrite app_nil_r.
    apply (pieces_one _ [44] b []); [constructor; [now apply SE|constructor]|exact NB|now apply NS|now left|constructor; constructor].
  - constructor; [|constructor; [|constructor]]; (split; [|now left]); apply Forall_forall; intros c _; apply NC.
Qed.
Example C125_witness : exists v w ts,
  construct words ref_sys one_host [lit "address=commas lookup"; lit "port=required"; lit "default=10.0.0.1/8"] = Ok (v, [])
  /\ resolver_ok one_host /\ validated v w /\ w <> v /\ converts_decimals ref_sys /\ known_protocols one_host
  /\ entries_of (f_parser v) (lit "host:80, 10.0.0.1") ts /\ length ts = 2%nat
  /\ snd (validate ref_sys one_host w (lit "host:80, 10.0.0.1")) = Ok false
  /\ snd (validate ref_sys one_host w (lit "host:80,10.0.0.1:8")) = Ok true.
Proof.
  eexists _, _, _. split; [vm_compute; reflexivity|]. split; [apply one_host_ok|].
  split; [eapply (one_more _ _ ref_sys one_host (lit "300.0.0.1")), no_call|].
  split; [intros E; apply (f_equal last_error) in E; revert E; vm_compute; discriminate|].
  split; [apply ref_sys_converts|]. split; [apply one_host_known|].
  split. { change (lit "host:80, 10.0.0.1") with (lit "host:80" ++ [44] ++ lit " 10.0.0.1").
    apply two_entries; try reflexivity; try discriminate; now apply not_in. }
  split; [reflexivity|]. split; vm_compute; reflexivity.
Qed.
Example C126_witness : let o := PropValidate.options true false true in let p := PropValidate.tool_parser true false true in
  validates ref_sys one_host o [lit "127.0.0.1"; lit "::"] p
  /\ all_printable ref_sys one_host o p [lit "10.0.0.1"; lit "[1"] /\ converts_decimals ref_sys /\ ~ In 0 (vo_default_address o)
  /\ (exists tss, Forall2 (fun s ts => ~ In 0 s /\ entries_of p s ts) [lit "10.0.0.1"; lit "[1"] tss)
  /\ status (validate_ip ref_sys one_host PropValidate.some_what o [lit "10.0.0.1"; lit "[1"]) = Ok 1
  /\ status (validate_ip ref_sys one_host PropValidate.some_what o [lit "10.0.0.1"; lit "[::1]:8 x"]) = Ok 0.
Proof.
  cbv zeta. split; [apply PropValidate.tool_validates; [apply one_host_ok|apply one_host_known]|].
  split; [intros _ X; discriminate|]. split; [apply ref_sys_converts|]. split; [now apply not_in|].
  split. { destruct (C123_entries_exist (PropValidate.tool_parser true false true) (lit "10.0.0.1")) as [t1 E1].
    destruct (C123_entries_exist (PropValidate.tool_parser true false true) (lit "[1")) as [t2 E2].
    exists [t1; t2]. repeat constructor; try assumption; now apply not_in. }
  split; vm_compute; reflexivity.
Qed.
