(* Property C163: what validate-ip --canonicalize printed, given back to it. *)
From Coq Require Import Lia ZifyBool ZifyNat.
From Verif Require Import Base Addr Spec SpecText SpecRange Inet AddrText Range Parser SpecParser SpecParser2 SpecParser4 SpecLanguage SpecNumeric
  TableTools ValidateTool SpecTools SpecValidate.
From Verif Require AddrProofs4 TextProofs ParserProofs2 AllowProofs PropAllow PropNumeric PropValidator PropValidate AgainProofs.
Import AddrProofs4 PropNumeric AgainProofs.
Local Open Scope Z_scope.

Definition line (t : str) : Prop := ~ In 10 t.
Lemma texts_lines y g o ps p : validates y g o ps p -> forall ls, texts y ls -> Forall line ls.
Proof. intros V ls T. eapply Forall_impl; [|exact T]. intros t (a & H). exact (text_line y o t a H). Qed.

(* With --mask and TCP or UDP, the lines the tool printed for whatever it was
   given, given back to it one argument each, are printed again as they are:
   nothing is refused and nothing is added. *)
Theorem C163_again_partial : forall y g what o ps p inputs,
  validates y g o ps p -> ~ In 0 (vo_default_address o) -> converts_decimals y -> posix y g ->
  vo_canonicalize o = true -> vo_mask o = true ->
  getprotobyname y (vo_protocol o) = Found IPPROTO_TCP \/ getprotobyname y (vo_protocol o) = Found IPPROTO_UDP ->
  exists ls, out (validate_ip y g what o inputs) = lines ls /\ Forall line ls
    /\ validate_ip y g what o ls = mk_run (lines ls) [] (Ok 0).
Proof.
  intros y g what o ps p inputs V N0 HC PX CA M PR. destruct (out_lines y g o ps p V CA what inputs) as (ls & E & T).
  exists ls. split; [exact E|]. split; [exact (texts_lines _ _ _ _ _ V ls T)|].
  unfold validate_ip. rewrite (run_again y g o ps p V N0 HC CA PX M ls [] T). cbn [app].
  assert (times (parser_get_protocol p) = 1%nat) as ->.
  { rewrite (su_protocol _ _ _ _ (va_set_up _ _ _ _ _ V)) in PR. unfold times. destruct PR as [PR|PR]; injection PR as ->; reflexivity. }
  replace (flat_map (fun t => repeat t 1) ls) with ls; [reflexivity|]. clear. induction ls as [|t ls IH]; [reflexivity|]. cbn [flat_map repeat app]. cbn [flat_map repeat] in IH. now rewrite <- IH.
Qed.
Print Assumptions C163_again_partial.

(* With the protocol IP the system answers for TCP, UDP and IP: every line comes
   back three times. *)
Theorem C163_protocol_ip : forall y g what o ps p inputs,
  validates y g o ps p -> ~ In 0 (vo_default_address o) -> converts_decimals y -> posix y g ->
  vo_canonicalize o = true -> vo_mask o = true -> getprotobyname y (vo_protocol o) = Found IPPROTO_IP ->
  exists ls, out (validate_ip y g what o inputs) = lines ls /\ Forall line ls
    /\ validate_ip y g what o ls = mk_run (lines (flat_map (fun l => [l; l; l]) ls)) [] (Ok 0).
Proof.
  intros y g what o ps p inputs V N0 HC PX CA M PR. destruct (out_lines y g o ps p V CA what inputs) as (ls & E & T).
  exists ls. split; [exact E|]. split; [exact (texts_lines _ _ _ _ _ V ls T)|].
  unfold validate_ip. rewrite (run_again y g o ps p V N0 HC CA PX M ls [] T). cbn [app].
  assert (times (parser_get_protocol p) = 3%nat) as ->; [|reflexivity].
  rewrite (su_protocol _ _ _ _ (va_set_up _ _ _ _ _ V)) in PR. injection PR as ->. reflexivity.
Qed.
Print Assumptions C163_protocol_ip.

(* Without --mask the lines have a mask all the same, and none of them is taken
   back, as long as the system knows no host and no service with a slash. *)
Definition no_slashes (g : resolver) : Prop := forall host service numeric socktype protocol l,
  In 47 host \/ In 47 service -> g host service numeric socktype protocol <> GAI_list l.
Theorem C163_without_mask : forall y g what o ps p inputs,
  validates y g o ps p -> ~ In 0 (vo_default_address o) -> converts_decimals y -> no_slashes g ->
  vo_canonicalize o = true -> vo_mask o = false ->
  exists ls, out (validate_ip y g what o inputs) = lines ls /\ Forall line ls
    /\ out (validate_ip y g what o ls) = [] /\ (ls <> [] -> status (validate_ip y g what o ls) = Ok 1)
    /\ Forall (fun l => status (validate_ip y g what o [l]) = Ok 1) ls.
Proof.
  intros y g what o ps p inputs V N0 HC NS CA M. destruct (out_lines y g o ps p V CA what inputs) as (ls & E & T).
  exists ls. split; [exact E|]. split; [exact (texts_lines _ _ _ _ _ V ls T)|].
  assert (Forall (fun t => ~ SpecValidate.accepted y g p t) ls) as R
    by (eapply Forall_impl; [|exact T]; intros t (a & TX); exact (line_refused y g o ps p V N0 HC t a NS M TX)).
  assert (forall l, all_printable y g o p l) as AP by (intros l _ X; congruence). split; [|split].
  - destruct (PropValidate.C108_stdout_partial y g what o ps p ls V (AP ls)) as (lss & -> & F).
    replace (concat lss) with (@nil str); [reflexivity|]. clear - F R. induction F as [|t l ls lss H F IH]; [reflexivity|].
    inversion R as [|? ? N R2]; subst. cbn [concat]. rewrite <- IH by exact R2. destruct H as [(_ & A & _)|[_ ->]]; [contradiction|reflexivity].
  - intros NE. apply (PropValidate.C107_status_partial y g what o ps p ls V (AP ls)). destruct R; [contradiction|now left].
  - clear - R V AP. induction R as [|t l N R IH]; constructor; [|exact IH].
    apply (PropValidate.C107_status_partial y g what o ps p [t] V (AP [t])). now left.
Qed.
Print Assumptions C163_without_mask.

(* ---------- a system which knows the numbers only ---------- *)
Lemma numbers_ok : resolver_ok numbers_only /\ known_protocols numbers_only.
Proof.
  assert (forall n, 0 <= bswap16 n < 2 ^ 16) as B.
  { intros n. unfold bswap16. pose proof (Z.mod_pos_bound n 256). pose proof (Z.mod_pos_bound (n / 256) 256). lia. }
  assert (forall st, Forall protocol_ok (kinds_of st) /\ kinds_of st <> []) as K.
  { intros st. unfold kinds_of, protocol_ok. destruct (st =? SOCK_STREAM); [|destruct (st =? SOCK_DGRAM)]; (split; [|discriminate]);
      repeat first [apply Forall_nil|apply Forall_cons]; cbn; auto. }
  split; intros A t nu st pr l E; unfold numbers_only in E; destruct (convert_string ref_sys t) as [n|]; try discriminate; destruct (K st) as [K1 K2];
    destruct (inet_pton4 A) as [q|] eqn:E4; [|destruct (inet_pton6 A) as [q|] eqn:E6; [|discriminate]| |destruct (inet_pton6 A) as [q|] eqn:E6; [|discriminate]]; injection E as <-.
  - split; [now destruct (kinds_of st)|]. apply Forall_forall. intros ai I. apply in_map_iff in I. destruct I as (k & <- & _).
    split; intros X; [|discriminate X]. split; [|reflexivity]. apply TextProofs.pton4_iff in E4. destruct E4 as (LQ & FQ & _).
    destruct q as [|q0 [|q1 [|q2 [|q3 [|]]]]]; try discriminate LQ. rewrite !Forall_cons_iff in FQ. unfold is_byte in FQ.
    unfold entry_of4, sockaddr_in_ok. cbn [ai_in sin_family sin_port s_addr]. split; [cbv; split; [discriminate|reflexivity]|]. split; [apply B|].
    unfold load32, at_. cbn [nth Nat.mul Nat.add]. lia.
  - split; [now destruct (kinds_of st)|]. apply Forall_forall. intros ai I. apply in_map_iff in I. destruct I as (k & <- & _).
    split; intros X; [discriminate X|]. split; [|reflexivity]. apply ParserProofs2.pton6_bytes in E6.
    unfold entry_of6, sockaddr_in6_ok. cbn [ai_in6 sin6_family sin6_port sin6_flowinfo sin6_addr sin6_scope_id].
    split; [cbv; split; [discriminate|reflexivity]|]. split; [apply B|]. split; [lia|]. split; [exact E6|lia].
  - apply Forall_forall. intros ai I. apply in_map_iff in I. destruct I as (k & <- & I). rewrite Forall_forall in K1. exact (K1 k I).
  - apply Forall_forall. intros ai I. apply in_map_iff in I. destruct I as (k & <- & I). rewrite Forall_forall in K1. exact (K1 k I).
Qed.
Definition ip_sys : sys := mk_sys ref_convert (getservbyname ref_sys) (getservbyport ref_sys) (fun _ => Found IPPROTO_IP) (getprotobynumber ref_sys).

Theorem C163_protocol_ip_refuted : exists y g what o ps p inputs ls,
  validates y g o ps p /\ ~ In 0 (vo_default_address o) /\ converts_decimals y /\ posix y g /\ vo_canonicalize o = true /\ vo_mask o = true
  /\ out (validate_ip y g what o inputs) = lines ls /\ Forall line ls /\ length ls = 3%nat
  /\ out (validate_ip y g what o ls) <> lines ls.
Proof.
  set (o := mk_validate_options true false (lit "127.0.0.1,::") 60000 false true false (lit "ip") false).
  destruct numbers_ok as [R K].
  destruct (PropValidate.C107_parser ip_sys numbers_only o [lit "127.0.0.1"; lit "::"] R K) as (p & V).
  - exact PropValidate.ref_refuses.
  - destruct (PropValidate.default_good true false false true false false) as [G1 G2 G3 _]. split; [exact G1|exact G2|exact G3|].
    exists IPPROTO_IP. split; [reflexivity|]. left. reflexivity.
  - exists ip_sys, numbers_only, PropValidate.some_what, o, [lit "127.0.0.1"; lit "::"], p, [lit "10.1.2.3:80/24"],
      [lit "10.1.2.3:80/24"; lit "10.1.2.3:80/24"; lit "10.1.2.3:80/24"].
    split; [exact V|]. split; [vm_compute; intuition discriminate|]. split; [exact ref_sys_converts|].
    split; [destruct numbers_only_posix; constructor; assumption|]. split; [reflexivity|]. split; [reflexivity|]. split; [vm_compute; reflexivity|].
    split; [repeat constructor; vm_compute; intuition discriminate|]. split; [reflexivity|]. vm_compute. discriminate.
Qed.
Print Assumptions C163_protocol_ip_refuted.
Theorem C163_without_mask_refuted : exists y g what o ps p inputs ls,
  validates y g o ps p /\ ~ In 0 (vo_default_address o) /\ converts_decimals y /\ posix y g /\ vo_canonicalize o = true
  /\ out (validate_ip y g what o inputs) = lines ls /\ Forall line ls /\ length ls = 2%nat
  /\ out (validate_ip y g what o ls) <> lines ls /\ status (validate_ip y g what o ls) = Ok 1.
Proof.
  exists ref_sys, numbers_only, PropValidate.some_what, (PropValidate.options true false false), [lit "127.0.0.1"; lit "::"],
    (PropValidate.tool_parser true false false), [lit "10.1.2.3:80"; lit "[fe80::1]:443"], [lit "10.1.2.3:80/32"; lit "[fe80::1]:443/128"].
  destruct numbers_ok as [R K]. split; [now apply PropValidate.tool_validates|]. split; [vm_compute; intuition discriminate|].
  split; [exact ref_sys_converts|]. split; [exact numbers_only_posix|]. split; [reflexivity|]. split; [vm_compute; reflexivity|].
  split; [repeat constructor; vm_compute; intuition discriminate|]. split; [reflexivity|]. split; [vm_compute; discriminate|vm_compute; reflexivity].
Qed.
Print Assumptions C163_without_mask_refuted.

Example C163_witness :
  let o := PropValidate.options true true true in
  let inputs := [lit "10.1.2.3/24,[FE80:0::1]:443/064"; lit "10.0.0.1/33"; lit ":25/16"] in
  let ls := [lit "10.1.2.3:60000/24"; lit "[fe80::1]:443/64"; lit "127.0.0.1:25/16"] in
  validates ref_sys numbers_only o [lit "127.0.0.1"; lit "::"] (PropValidate.tool_parser true true true)
  /\ ~ In 0 (vo_default_address o) /\ converts_decimals ref_sys /\ posix ref_sys numbers_only
  /\ getprotobyname ref_sys (vo_protocol o) = Found IPPROTO_TCP
  /\ out (validate_ip ref_sys numbers_only PropValidate.some_what o inputs) = lines ls
  /\ validate_ip ref_sys numbers_only PropValidate.some_what o ls = mk_run (lines ls) [] (Ok 0).
Proof.
  cbv zeta. destruct numbers_ok as [R K]. split; [now apply PropValidate.tool_validates|]. split; [vm_compute; intuition discriminate|].
  split; [exact ref_sys_converts|]. split; [exact numbers_only_posix|]. split; [reflexivity|]. split; vm_compute; reflexivity.
Qed.
Example C163_without_mask_witness :
  validates ref_sys numbers_only (PropValidate.options true false false) [lit "127.0.0.1"; lit "::"] (PropValidate.tool_parser true false false)
  /\ ~ In 0 (vo_default_address (PropValidate.options true false false)) /\ converts_decimals ref_sys /\ no_slashes numbers_only
  /\ out (validate_ip ref_sys numbers_only PropValidate.some_what (PropValidate.options true false false) [lit "10.1.2.3"; lit "[::1]:8"])
     = lines [lit "10.1.2.3:60000/32"; lit "[::1]:8/128"].
Proof.
  destruct numbers_ok as [R K]. split; [now apply PropValidate.tool_validates|]. split; [vm_compute; intuition discriminate|].
  split; [exact ref_sys_converts|]. split; [|vm_compute; reflexivity].
  intros A t nu st pr l I E. unfold numbers_only in E. destruct (convert_string ref_sys t) as [n|] eqn:EC; [|discriminate].
  destruct I as [I|I]; [|exact (PropAllow.ref_no_slash t n EC I)].
  assert (exists q, inet_pton4 A = Some q \/ inet_pton6 A = Some q) as (q & Q).
  { destruct (inet_pton4 A) as [q|]; [eauto|]. destruct (inet_pton6 A) as [q|]; [eauto|discriminate]. }
  apply AllowProofs.pton_text in Q. destruct Q as [Q _]. apply Q in I. discriminate.
Qed.
