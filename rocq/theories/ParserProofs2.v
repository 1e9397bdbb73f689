(* What parse_address_port() returns, and with it everything parse()
   returns. *)
From Coq Require Import ZifyBool ZifyNat.
From Verif Require Import Base Addr Spec AddrProofs AddrProofs2 AddrProofs3 AddrProofs4
  Range SpecRange RangeProofs Inet InetProofs TextProofs Parser SpecParser ParserProofs.
Local Open Scope Z_scope.
Ltac Zify.zify_post_hook ::= Z.div_mod_to_equations.

(* ---------- inet_pton(AF_INET6) yields sixteen bytes ---------- *)

Lemma finish_bytes tp cp n v q : Forall is_byte tp -> (length tp <= 16)%nat ->
  pton6_finish tp cp n v = Some q -> bytes16 q.
Proof.
  intros F L. unfold pton6_finish.
  assert (forall t, Forall is_byte t -> (length t <= 16)%nat ->
    match cp with
    | Some c => if (length t =? 16)%nat then None
                else Some (firstn c t ++ repeat 0 (16 - length t) ++ skipn c t)
    | None => if (length t =? 16)%nat then Some t else None
    end = Some q -> bytes16 q) as H.
  { intros t Ft Lt. destruct cp as [c|].
    - destruct (length t =? 16)%nat eqn:E; [discriminate|]. intros X.
      assert (q = firstn c t ++ repeat 0 (16 - length t) ++ skipn c t) as -> by congruence. clear X.
      assert (firstn c t ++ skipn c t = t) as FS by apply firstn_skipn.
      assert (length (firstn c t) + length (skipn c t) = length t)%nat as LS by (rewrite <- app_length; congruence).
      rewrite <- FS in Ft. apply Forall_app in Ft. destruct Ft as [F1 F2].
      split; [rewrite !app_length, repeat_length; lia|].
      apply Forall_app. split; [exact F1|]. apply Forall_app. split; [|exact F2].
      apply Forall_forall. intros z Hz. apply repeat_spec in Hz. subst. split; lia.
    - destruct (length t =? 16)%nat eqn:E; [|discriminate]. intros X. inversion X; subst.
      split; [now apply Nat.eqb_eq|exact Ft]. }
  destruct (0 <? n)%nat; [|now apply H].
  destruct (16 <? length tp + 2)%nat eqn:E; [discriminate|]. apply H.
  - apply Forall_app. split; [exact F|]. repeat constructor; lia.
  - rewrite app_length. apply Nat.ltb_ge in E. cbn [length]. lia.
Qed.

Lemma pton6_loop_bytes s : forall cur tp cp n v q, Forall is_byte tp -> (length tp <= 16)%nat ->
  pton6_loop s cur tp cp n v = Some q -> bytes16 q.
Proof.
  induction s as [|ch r IH]; intros cur tp cp n v q F L; cbn [pton6_loop]; [now apply finish_bytes|].
  destruct (hex_digit ch) as [d|].
  - destruct (n =? 4)%nat; [discriminate|]. cbv zeta. destruct (0xFFFF <? v * 16 + d); [discriminate|].
    now apply IH.
  - destruct (ch =? 58).
    + destruct (n =? 0)%nat.
      * destruct cp; [discriminate|]. now apply IH.
      * destruct r; [discriminate|]. destruct (16 <? length tp + 2)%nat eqn:E; [discriminate|]. apply IH.
        -- apply Forall_app. split; [exact F|]. repeat constructor; lia.
        -- rewrite app_length. apply Nat.ltb_ge in E. cbn [length]. lia.
    + destruct ((ch =? 46) && (length tp + 4 <=? 16)%nat) eqn:E; [|discriminate].
      destruct (inet_pton4 cur) as [q4|] eqn:P4; [|discriminate].
      apply pton4_iff in P4. destruct P4 as (L4 & F4 & _).
      apply finish_bytes; [apply Forall_app; now split|]. rewrite app_length.
      apply andb_prop in E. destruct E as [_ E]. apply Nat.leb_le in E. lia.
Qed.

Lemma pton6_bytes s q : inet_pton6 s = Some q -> bytes16 q.
Proof.
  unfold inet_pton6. destruct s as [|c r]; [discriminate|].
  assert (forall t u, pton6_loop t u [] None 0 0 = Some q -> bytes16 q) as H.
  { intros t u. apply pton6_loop_bytes; [constructor|cbn; lia]. }
  destruct (c =? 58); [|apply H]. destruct r as [|d r]; [discriminate|].
  destruct (d =? 58); [apply H|discriminate].
Qed.

(* ---------- the objects built by the parser ---------- *)

Definition proto_of (proto : Z) : Z := if proto =? -1 then IPPROTO_TCP else proto.

Record built (a : addr) (v port : Z) (host : str) (proto : Z) (dp : bool) : Prop := mk_built {
  bd_wf : addr_wf a;
  bd_value : value a = v;
  bd_port : get_port a = port;
  bd_host : f_hostname a = host;
  bd_proto : f_protocol a = proto_of proto;
  bd_dp : f_port_defined a = dp;
  bd_mask : f_mask a = repeat 255 16;
  bd_mask_defined : f_mask_defined a = false
}.

Lemma finish_built a v port host proto dp : addr_wf a -> value a = v -> get_port a = port ->
  f_protocol a = IPPROTO_TCP -> f_mask a = repeat 255 16 -> f_mask_defined a = false ->
  (exists x, (let a := set_hostname a host in
     let! a := if negb (proto =? -1) then on (set_protocol a proto) else Ok a in
     Ok (set_from range_new (set_port_defined a dp))) = Throw x /\ ~ (proto = -1 \/ protocol_ok proto))
  \/ (proto = -1 \/ protocol_ok proto) /\ exists b, (let a := set_hostname a host in
     let! a := if negb (proto =? -1) then on (set_protocol a proto) else Ok a in
     Ok (set_from range_new (set_port_defined a dp))) = Ok (set_from range_new b)
     /\ built b v port host proto dp.
Proof.
  intros W V Pt Pr Mk Md. cbv zeta.
  assert (W1 : addr_wf (set_hostname a host)) by (destruct W; constructor; assumption).
  unfold proto_of. destruct (proto =? -1) eqn:E; cbn [negb rbind].
  - right. split; [left; lia|]. eexists. split; [reflexivity|].
    constructor; try assumption; try reflexivity.
    + destruct W; constructor; assumption.
    + unfold proto_of. now rewrite E.
  - unfold on, set_protocol.
    destruct ((proto =? IPPROTO_IP) || (proto =? IPPROTO_TCP) || (proto =? IPPROTO_UDP)) eqn:E1.
    + right. split; [right; unfold protocol_ok; lia|].
      destruct (negb (proto =? f_protocol (set_hostname a host))) eqn:E2; cbn [fst snd rbind];
        (eexists; split; [reflexivity|]); constructor; try assumption; try reflexivity.
      * destruct W; constructor; try assumption. cbn. unfold protocol_ok. lia.
      * cbn. unfold proto_of. now rewrite E.
      * destruct W; constructor; assumption.
      * cbn in *. unfold proto_of. rewrite E. lia.
    + left. cbn [fst snd rbind]. eexists. split; [reflexivity|].
      unfold protocol_ok. lia.
Qed.

Lemma range4_spec in4 host proto dp : sockaddr_in_ok in4 -> sin_family in4 = AF_INET ->
  (exists x, range4 in4 host proto dp = Throw x /\ ~ (proto = -1 \/ protocol_ok proto))
  \/ (proto = -1 \/ protocol_ok proto) /\ exists a, range4 in4 host proto dp = Ok (set_from range_new a)
     /\ built a (v4_base + bswap32 (s_addr in4)) (bswap16 (sin_port in4)) host proto dp.
Proof.
  intros H4 F. destruct (set_ipv4_spec addr_new in4 new_wf H4 F) as (b & E & W & V & _).
  unfold range4, on. rewrite E. cbn [fst snd rbind].
  assert (f_protocol b = IPPROTO_TCP /\ f_mask b = repeat 255 16 /\ f_mask_defined b = false
          /\ get_port b = bswap16 (sin_port in4)) as (B1 & B2 & B3 & B4).
  { unfold set_ipv4 in E. rewrite F, Z.eqb_refl in E. cbn [negb] in E. apply (f_equal fst) in E. cbn [fst] in E.
    rewrite <- E. repeat split. }
  now apply finish_built.
Qed.

Lemma range6_spec in6 host proto dp : sockaddr_in6_ok in6 -> sin6_family in6 = AF_INET6 ->
  (exists x, range6 in6 host proto dp = Throw x /\ ~ (proto = -1 \/ protocol_ok proto))
  \/ (proto = -1 \/ protocol_ok proto) /\ exists a, range6 in6 host proto dp = Ok (set_from range_new a)
     /\ built a (num (sin6_addr in6)) (bswap16 (sin6_port in6)) host proto dp.
Proof.
  intros H6 F. unfold range6, on, set_ipv6. rewrite F, Z.eqb_refl. cbn [negb fst snd rbind].
  apply finish_built; try reflexivity.
  destruct H6 as (H1 & H2 & H3 & H4 & H5). pose proof new_wf as []. constructor; try assumption.
Qed.

Lemma range4_not_fuel in4 host proto dp : range4 in4 host proto dp <> OutOfFuel.
Proof.
  unfold range4, on, set_ipv4, set_protocol. destruct (negb (sin_family in4 =? AF_INET)); [discriminate|].
  cbn [fst snd rbind]. destruct (negb (proto =? -1)); [|discriminate].
  destruct ((proto =? IPPROTO_IP) || (proto =? IPPROTO_TCP) || (proto =? IPPROTO_UDP)); [|discriminate].
  match goal with |- context [if ?b then _ else _] => destruct b end; discriminate.
Qed.
Lemma range6_not_fuel in6 host proto dp : range6 in6 host proto dp <> OutOfFuel.
Proof.
  unfold range6, on, set_ipv6, set_protocol. destruct (negb (sin6_family in6 =? AF_INET6)); [discriminate|].
  cbn [fst snd rbind]. destruct (negb (proto =? -1)); [|discriminate].
  destruct ((proto =? IPPROTO_IP) || (proto =? IPPROTO_TCP) || (proto =? IPPROTO_UDP)); [|discriminate].
  match goal with |- context [if ?b then _ else _] => destruct b end; discriminate.
Qed.

(* ---------- parse_address_port ---------- *)

(* What is known of each address of a result, by configuration. *)
Record made (y : sys) (p0 : parser) (a : addr) : Prop := mk_made {
  md_required : allow p0 ALLOW_REQUIRED_PORT = true -> f_port_defined a = true;
  md_forbidden : allow p0 ALLOW_ADDRESS_LOOKUP = false -> allow p0 ALLOW_PORT = false ->
    allow p0 ALLOW_REQUIRED_PORT = false -> f_port_defined a = false /\ get_port a = 0;
  md_default : allow p0 ALLOW_ADDRESS_LOOKUP = false -> f_port_defined a = false ->
    if f_default_port p0 =? -1 then get_port a = 0
    else convert_string y (to_string_int (f_default_port p0)) = Some (get_port a);
  md_protocol : allow p0 ALLOW_ADDRESS_LOOKUP = false ->
    get_protocol a = proto_of (p_protocol p0)
}.

Lemma built_wf a v port host proto dp : built a v port host proto dp -> range_wf (set_from range_new a).
Proof. intros H. split; [apply H|apply new_wf]. Qed.

Section Port.
Variables (y : sys) (g : resolver) (p0 : parser).
Let G := resolver_ok g.
Let OKf := OKfrom (made y p0) G.

Lemma OKf_fail msg : OKf (Ok []) [msg].
Proof.
  split; [discriminate|]. intros _. split; [discriminate|]. intros l E. inversion E; subst.
  split; [constructor|]. cbn. lia.
Qed.

Lemma use_addrinfo_ok host dp : (allow p0 ALLOW_REQUIRED_PORT = true -> dp = true) ->
  allow p0 ALLOW_ADDRESS_LOOKUP = true ->
  forall l first, wp p0 (use_addrinfo l first host dp)
    (fun r ms => r <> OutOfFuel /\ (Forall addrinfo_ok l -> r <> UB /\
       forall l', r = Ok l' -> Forall (from_only (made y p0)) l'
         /\ (l <> [] -> first = true -> (1 <= length l' + length ms)%nat))).
Proof.
  intros Hdp HL.
  assert (forall a v port proto, built a v port host proto dp -> from_only (made y p0) (set_from range_new a)) as MK.
  { intros a v port proto B. split; [reflexivity|]. split; [reflexivity|]. split; [eapply built_wf; exact B|].
    destruct B. constructor; [|congruence|congruence|congruence].
    intros R. cbn. rewrite bd_dp0. now apply Hdp. }
  induction l as [|ai l IH]; intros first.
  - apply wp_ret. split; [discriminate|]. intros _. split; [discriminate|]. intros l' E. inversion E.
    split; [constructor|]. now intros [].
  - cbn [use_addrinfo].
    assert (forall r0, r0 <> OutOfFuel -> (Forall addrinfo_ok (ai :: l) -> r0 <> UB /\ forall r, r0 = Ok r -> from_only (made y p0) r) ->
      wp p0 (do! r <- lift r0 in do! rs <- use_addrinfo l first host dp in ret (r :: rs))
      (fun r ms => r <> OutOfFuel /\ (Forall addrinfo_ok (ai :: l) -> r <> UB /\
       forall l', r = Ok l' -> Forall (from_only (made y p0)) l'
         /\ (ai :: l <> [] -> first = true -> (1 <= length l' + length ms)%nat)))) as ADD.
    { intros r0 N0 H0. wbind. apply wp_lift. destruct r0 as [r|x| |].
      2:{ split; [discriminate|]. intros _. split; discriminate. }
      2:{ split; [discriminate|]. intros F. now destruct (proj1 (H0 F)). }
      2:{ now destruct N0. }
      wbind. eapply wp_conseq; [apply IH|]. intros r2 ms2 (N2 & H2). destruct r2 as [l2|x| |].
      2:{ split; [discriminate|]. intros _. split; discriminate. }
      2:{ split; [discriminate|]. intros F. inversion F; subst. now destruct (proj1 (H2 ltac:(assumption))). }
      2:{ now destruct N2. }
      apply wp_ret. split; [discriminate|]. intros F. split; [discriminate|]. intros l' E. inversion E; subst.
      split; [|intros _ _; cbn; lia]. constructor; [now apply H0|]. inversion F; subst. now apply H2. }
    assert (forall msg fi, wp p0 (do! _ <- emit msg in use_addrinfo l fi host dp)
      (fun r ms => r <> OutOfFuel /\ (Forall addrinfo_ok (ai :: l) -> r <> UB /\
       forall l', r = Ok l' -> Forall (from_only (made y p0)) l'
         /\ (ai :: l <> [] -> first = true -> (1 <= length l' + length ms)%nat)))) as ERR.
    { intros msg fi. wbind. apply wp_emit. eapply wp_conseq; [apply IH|]. intros r2 ms2 (N2 & H2).
      split; [exact N2|]. intros F. inversion F as [|? ? F1 F2]; subst. destruct (H2 F2) as [U K].
      split; [exact U|]. intros l' E. split; [now apply K|]. intros _ _. cbn. lia. }
    destruct (ai_family ai =? AF_INET) eqn:E4.
    { destruct (negb (ai_addrlen ai =? SIZEOF_IN)); [apply ERR|]. apply ADD; [apply range4_not_fuel|].
      intros F. inversion F as [|? ? F1 F2]; subst. destruct F1 as [F1 _]. destruct F1 as [F1 F3]; [lia|].
      destruct (range4_spec (ai_in ai) host (ai_protocol ai) dp F1 F3) as [(x & E & _)|(_ & a & E & B)]; rewrite E.
      - split; discriminate.
      - split; [discriminate|]. intros r X. inversion X; subst. eapply MK; exact B. }
    destruct (ai_family ai =? AF_INET6) eqn:E6.
    { destruct (negb (ai_addrlen ai =? SIZEOF_IN6)); [apply ERR|]. apply ADD; [apply range6_not_fuel|].
      intros F. inversion F as [|? ? F1 F2]; subst. destruct F1 as [_ F1]. destruct F1 as [F1 F3]; [lia|].
      destruct (range6_spec (ai_in6 ai) host (ai_protocol ai) dp F1 F3) as [(x & E & _)|(_ & a & E & B)]; rewrite E.
      - split; discriminate.
      - split; [discriminate|]. intros r X. inversion X; subst. eapply MK; exact B. }
    destruct first; [apply ERR|]. eapply wp_conseq; [apply IH|]. intros r2 ms2 (N2 & H2).
    split; [exact N2|]. intros F. inversion F as [|? ? F1 F2]; subst. destruct (H2 F2) as [U K].
    split; [exact U|]. intros l' E. split; [now apply K|]. intros _ X. discriminate X.
Qed.

Lemma load32_range q i : Forall is_byte q -> 0 <= load32 q i < 2 ^ 32.
Proof.
  intros F. assert (forall j, is_byte (at_ q j)) as A.
  { intros j. unfold at_. destruct (Nat.lt_ge_cases j (length q)) as [L|L].
    - rewrite Forall_forall in F. apply F, nth_In, L.
    - rewrite nth_overflow by exact L. split; lia. }
  unfold load32.
  pose proof (A (4 * i)%nat). pose proof (A (4 * i + 1)%nat). pose proof (A (4 * i + 2)%nat). pose proof (A (4 * i + 3)%nat).
  unfold is_byte in *. lia.
Qed.

Lemma numeric_address_ok address port dp : 0 <= port <= 65535 ->
  allow p0 ALLOW_ADDRESS_LOOKUP = false ->
  (allow p0 ALLOW_REQUIRED_PORT = true -> dp = true) ->
  (allow p0 ALLOW_PORT = false -> allow p0 ALLOW_REQUIRED_PORT = false -> dp = false /\ port = 0) ->
  (dp = false -> if f_default_port p0 =? -1 then port = 0
     else convert_string y (to_string_int (f_default_port p0)) = Some port) ->
  wp p0 (numeric_address address port dp) OKf.
Proof.
  intros Hp HL HR HN HD.
  assert (forall a v, built a v port address (p_protocol p0) dp -> from_only (made y p0) (set_from range_new a)) as MK.
  { intros a v B. split; [reflexivity|]. split; [reflexivity|]. split; [eapply built_wf; exact B|].
    destruct B. constructor; cbn; unfold get_protocol.
    - intros R. rewrite bd_dp0. now apply HR.
    - intros _ A1 A2. rewrite bd_dp0, bd_port0. now apply HN.
    - intros _ X. rewrite bd_port0. apply HD. congruence.
    - intros _. exact bd_proto0. }
  assert (forall r0 : res addr_range, (r0 <> UB /\ r0 <> OutOfFuel /\ forall r, r0 = Ok r -> from_only (made y p0) r) ->
    wp p0 (do! r <- lift r0 in ret [r]) OKf) as ADD.
  { intros r0 (N1 & N2 & H). wbind. apply wp_lift. destruct r0 as [r|x| |]; try (now destruct N1); try (now destruct N2).
    - apply wp_ret. split; [discriminate|]. intros _. split; [discriminate|]. intros l E. inversion E; subst.
      split; [|cbn; lia]. constructor; [now apply H|constructor].
    - split; [discriminate|]. intros _. split; discriminate. }
  assert (bswap16 (bswap16 port) = port) as BB by (apply bswap16_invol; lia).
  pose proof (bswap16_range port) as BR.
  unfold numeric_address. wask. destruct (inet_pton4 (c_str address)) as [q|] eqn:P4.
  - apply ADD. apply pton4_iff in P4. destruct P4 as (L4 & F4 & _).
    destruct (range4_spec (mk_in AF_INET (bswap16 port) (load32 q 0)) address (p_protocol p0) dp) as [(x & E & _)|(_ & a & E & B)].
    + split; [cbn; unfold AF_INET; lia|]. split; [exact BR|]. now apply load32_range.
    + reflexivity.
    + rewrite E. split; [discriminate|]. split; discriminate.
    + rewrite E. split; [discriminate|]. split; [discriminate|]. intros r X. inversion X; subst.
      cbn [sin_port] in B. rewrite BB in B. eapply MK; exact B.
  - destruct (inet_pton6 (c_str address)) as [q|] eqn:P6; [|apply wp_fail, OKf_fail].
    apply ADD. apply pton6_bytes in P6.
    destruct (range6_spec (mk_in6 AF_INET6 (bswap16 port) 0 q 0) address (p_protocol p0) dp) as [(x & E & _)|(_ & a & E & B)].
    + split; [cbn; unfold AF_INET6; lia|]. split; [exact BR|]. split; [cbn; lia|]. split; [exact P6|]. cbn; lia.
    + reflexivity.
    + rewrite E. split; [discriminate|]. split; discriminate.
    + rewrite E. split; [discriminate|]. split; [discriminate|]. intros r X. inversion X; subst.
      cbn [sin6_port] in B. rewrite BB in B. eapply MK; exact B.
Qed.

Lemma to_string_int_nonempty n : to_string_int n <> [].
Proof.
  unfold to_string_int. destruct (n <? 0) eqn:E; [discriminate|].
  destruct (dec_string_spec n) as (N & _); [lia|exact N].
Qed.

Lemma address_port_ok address port_str ipv6 : wp p0 (parse_address_port y g address port_str ipv6) OKf.
Proof.
  unfold parse_address_port. cbv zeta. wallow.
  set (dp := match port_str with [] => false | _ => true end).
  destruct (negb dp && allow p0 ALLOW_REQUIRED_PORT) eqn:RQ; [apply wp_fail, OKf_fail|]. wask.
  set (ps := if negb dp && negb (f_default_port p0 =? -1) then to_string_int (f_default_port p0) else port_str).
  wallow. destruct ((match address with [] => true | _ => false end) && allow p0 ALLOW_REQUIRED_ADDRESS);
    [apply wp_fail, OKf_fail|]. wask.
  set (ad := if match address with [] => true | _ => false end then default_address p0 ipv6 else address).
  assert (allow p0 ALLOW_REQUIRED_PORT = true -> dp = true) as HR.
  { intros R. rewrite R in RQ. destruct dp; [reflexivity|discriminate]. }
  wallow. destruct (allow p0 ALLOW_ADDRESS_LOOKUP) eqn:HL.
  - wask. match goal with |- wp _ (match ?x with _ => _ end) _ => destruct x as [text|l] eqn:X end;
      [apply wp_fail, OKf_fail|].
    eapply wp_conseq; [apply use_addrinfo_ok; assumption|]. intros r ms (N & H). split; [exact N|]. intros HG.
    destruct (HG _ _ _ _ _ _ X) as [NE F]. destruct (H F) as [U K]. split; [exact U|]. intros l' E.
    destruct (K l' E) as [K1 K2]. split; [exact K1|]. now apply K2.
  - wallow. destruct (allow p0 ALLOW_REQUIRED_PORT || match ps with [] => false | _ => true end) eqn:PS.
    + destruct (convert_string y ps) as [port|] eqn:CV; [|apply wp_fail, OKf_fail].
      destruct ((port <? 0) || (port >? 65535)) eqn:RG; [apply wp_fail, OKf_fail|].
      destruct (negb (allow p0 ALLOW_PORT) && negb (allow p0 ALLOW_REQUIRED_PORT)) eqn:AL; [apply wp_fail, OKf_fail|].
      apply numeric_address_ok; try assumption; [lia| |].
      * intros A1 A2. rewrite A1, A2 in AL. discriminate.
      * intros D. rewrite D in *. destruct (f_default_port p0 =? -1) eqn:DF.
        -- exfalso. unfold ps in *. cbn [negb andb] in *. unfold dp in D. destruct port_str; [|discriminate D].
           cbn in PS. rewrite orb_false_r in PS. specialize (HR PS). discriminate.
        -- unfold ps in CV. rewrite D in CV. exact CV.
    + apply orb_false_iff in PS. destruct PS as [PS1 PS2].
      apply numeric_address_ok; try assumption; [lia| |].
      * intros _ _. split; [|reflexivity]. unfold ps, dp in *. destruct port_str; [reflexivity|]. cbn in PS2. discriminate PS2.
      * intros D. unfold ps in PS2. rewrite D in PS2. destruct (f_default_port p0 =? -1); [reflexivity|].
        exfalso. cbn [negb andb] in PS2. pose proof (to_string_int_nonempty (f_default_port p0)) as NE.
        destruct (to_string_int (f_default_port p0)); [now apply NE|discriminate PS2].
Qed.

Lemma made_mask a m : made y p0 a -> bytes16 m -> made y p0 (set_mask a m).
Proof. intros [] _. constructor; assumption. Qed.

(* one entry *)
Lemma cidr_made in_ : wp p0 (parse_cidr y g in_) (fun r ms => OK p0 (made y p0) G r ms
  /\ (allow p0 ALLOW_MASK = true -> ms <> [] -> forall l, r = Ok l -> l = [])).
Proof. apply cidr_ok; [apply address_port_ok | apply made_mask | exact (fun H => H)]. Qed.
(* all entries *)
Lemma entries_made in_ : wp p0 (parse_entries y g in_) (fun r _ => OKall (made y p0) G r).
Proof. apply entries_ok; [apply address_port_ok | apply made_mask | exact (fun H => H)]. Qed.
End Port.

(* ---------- arrange ---------- *)

Lemma insert_forall {A} (lt : A -> A -> bool) (P : A -> Prop) x l : P x -> Forall P l -> Forall P (insert lt x l).
Proof.
  intros Hx F. induction F as [|z l Hz F IH]; cbn [insert]; [now constructor|].
  destruct (lt z x); constructor; auto.
Qed.
Lemma stable_sort_forall {A} (lt : A -> A -> bool) (P : A -> Prop) l : Forall P l -> Forall P (stable_sort lt l).
Proof. intros F. unfold stable_sort. induction F; cbn [fold_right]; auto using insert_forall. Qed.

Lemma set_mask_count_shape a n b o : set_mask_count a n = (b, o) ->
  (o = Ok tt /\ 0 <= n <= 128 /\ b = set_mask a (mask_count_bytes 16 n)) \/ (exists x, o = Throw x).
Proof.
  unfold set_mask_count. destruct ((n <? (if is_ipv4 a then 96 else 0)) || (n >? 128)) eqn:E; intros X;
    pose proof (f_equal fst X) as X1; pose proof (f_equal snd X) as X2; cbn [fst snd] in X1, X2; subst b o; clear X.
  - right. eauto.
  - left. split; [reflexivity|]. split; [destruct (is_ipv4 a); lia|]. reflexivity.
Qed.

Lemma mask_bytes16 n : 0 <= n <= 128 -> bytes16 (mask_count_bytes 16 n).
Proof. intros H. now apply mask_count_bytes_spec. Qed.

Lemma union_ends (P : addr -> Prop) l r : (forall a m, P a -> bytes16 m -> P (set_mask a m)) ->
  ends P l -> ends P r ->
  (exists x, union_if_possible l r = Throw x)
  \/ exists u, union_if_possible l r = Ok u /\ (is_defined u = true -> ends P u).
Proof.
  intros HM (D1 & [W1 W2] & F1 & T1) (D2 & [W3 W4] & F2 & T2).
  unfold union_if_possible.
  destruct (negb (is_defined l) && negb (is_defined r)).
  { right. eexists. split; [reflexivity|]. discriminate. }
  cbv zeta.
  match goal with |- context [if ?b then _ else Ok range_new] => destruct b end.
  2:{ right. eexists. split; [reflexivity|]. discriminate. }
  assert (forall r, defined r -> addr_wf (f_from r) -> addr_wf (f_to r) ->
    (f_has_from r = true -> P (f_from r)) -> (f_has_to r = true -> P (f_to r)) ->
    (P (eff_from r) /\ addr_wf (eff_from r)) /\ (P (eff_to r) /\ addr_wf (eff_to r))) as EFF.
  { clear. intros r D Wf Wt F T. unfold eff_from, eff_to, defined in *.
    destruct (f_has_from r), (f_has_to r); destruct D; try discriminate; auto. }
  destruct (EFF l D1 W1 W2 F1 T1) as [[A1 A2] [A3 A4]]. destruct (EFF r D2 W3 W4 F2 T2) as [[B1 B2] [B3 B4]].
  set (from := if lt_ (eff_from l) (eff_from r) then eff_from l else eff_from r).
  set (to := if gt_ (eff_to l) (eff_to r) then eff_to l else eff_to r).
  assert (P from /\ addr_wf from) as [C1 C2] by (unfold from; destruct (lt_ _ _); auto).
  assert (P to /\ addr_wf to) as [C3 C4] by (unfold to; destruct (gt_ _ _); auto).
  destruct (set_mask_count from _) as [from1 o1] eqn:S1. apply set_mask_count_shape in S1.
  destruct S1 as [(-> & R1 & ->)|[x ->]]; [|left; eexists; reflexivity]. cbn [rbind].
  destruct (set_mask_count to _) as [to1 o2] eqn:S2. apply set_mask_count_shape in S2.
  destruct S2 as [(-> & R2 & ->)|[x ->]]; [|left; eexists; reflexivity]. cbn [rbind].
  apply mask_bytes16 in R1, R2. right.
  match goal with |- context [if ?b then _ else _] => destruct b end;
    (eexists; split; [reflexivity|]); intros _.
  - split; [left; reflexivity|]. split; [split; apply set_mask_wf; assumption|].
    split; intros _; apply HM; assumption.
  - split; [left; reflexivity|]. split; [split; [apply set_mask_wf; assumption|apply new_wf]|].
    split; [intros _; apply HM; assumption|discriminate].
Qed.

Lemma merge_from_ends (P : addr -> Prop) : (forall a m, P a -> bytes16 m -> P (set_mask a m)) ->
  forall rest cur, ends P cur -> Forall (ends P) rest ->
  (exists x, merge_from cur rest = Throw x)
  \/ exists l, merge_from cur rest = Ok l /\ Forall (ends P) l.
Proof.
  intros HM. induction rest as [|n rest IH]; intros cur C F; cbn [merge_from].
  - right. eexists. split; [reflexivity|]. now constructor.
  - inversion F as [|? ? F1 F2]; subst.
    destruct (union_ends P cur n HM C F1) as [[x E]|(u & E & D)]; rewrite E; cbn [rbind]; [left; eauto|].
    destruct (is_defined u && negb (is_empty u)) eqn:X.
    + apply IH; [|exact F2]. apply D. now apply andb_prop in X.
    + destruct (IH n F1 F2) as [[x E2]|(l & E2 & Fl)]; rewrite E2; cbn [rbind]; [left; eauto|].
      right. eexists. split; [reflexivity|]. now constructor.
Qed.

Lemma arrange_ends (P : addr -> Prop) sort l : (forall a m, P a -> bytes16 m -> P (set_mask a m)) ->
  Forall (ends P) l ->
  (exists x, arrange sort l = Throw x) \/ exists l', arrange sort l = Ok l' /\ Forall (ends P) l'.
Proof.
  intros HM F. unfold arrange.
  set (l1 := if negb (Z.land sort (Z.lor SORT_FULL SORT_MERGE) =? 0) then stable_sort range_lt l else l).
  assert (Forall (ends P) l1) as F1 by (unfold l1; destruct (negb _); auto using stable_sort_forall).
  assert ((exists x, (if negb (Z.land sort SORT_MERGE =? 0) then merge_all l1 else Ok l1) = Throw x)
          \/ exists l2, (if negb (Z.land sort SORT_MERGE =? 0) then merge_all l1 else Ok l1) = Ok l2
             /\ Forall (ends P) l2) as [[x E]|(l2 & E & F2)].
  { destruct (negb (Z.land sort SORT_MERGE =? 0)); [|right; eauto]. unfold merge_all.
    destruct l1; [right; eauto|]. inversion F1; subst. now apply merge_from_ends. }
  - rewrite E. left. eexists. reflexivity.
  - rewrite E. cbn [rbind]. right.
    destruct (negb (Z.land sort SORT_IPV4_FIRST =? 0)); [|destruct (negb (Z.land sort SORT_IPV6_FIRST =? 0))];
      (eexists; split; [reflexivity|]); auto using stable_sort_forall.
Qed.

Lemma union_total l r : (exists x, union_if_possible l r = Throw x) \/ exists u, union_if_possible l r = Ok u.
Proof.
  unfold union_if_possible. destruct (negb (is_defined l) && negb (is_defined r)); [right; eauto|]. cbv zeta.
  match goal with |- context [if ?b then _ else Ok range_new] => destruct b end; [|right; eauto].
  match goal with |- context [set_mask_count ?a ?n] => destruct (set_mask_count a n) as [from1 o1] eqn:S1 end.
  apply set_mask_count_shape in S1. destruct S1 as [(-> & _)|[x ->]]; [|left; eexists; reflexivity]. cbn [rbind].
  match goal with |- context [set_mask_count ?a ?n] => destruct (set_mask_count a n) as [to1 o2] eqn:S2 end.
  apply set_mask_count_shape in S2. destruct S2 as [(-> & _)|[x ->]]; [|left; eexists; reflexivity]. cbn [rbind].
  match goal with |- context [if ?b then _ else _] => destruct b end; right; eauto.
Qed.
Lemma merge_from_total : forall rest cur,
  (exists x, merge_from cur rest = Throw x) \/ exists l, merge_from cur rest = Ok l.
Proof.
  induction rest as [|n rest IH]; intros cur; cbn [merge_from]; [right; eauto|].
  destruct (union_total cur n) as [[x E]|[u E]]; rewrite E; cbn [rbind]; [left; eauto|].
  destruct (is_defined u && negb (is_empty u)); [apply IH|].
  destruct (IH n) as [[x E2]|[l E2]]; rewrite E2; cbn [rbind]; [left; eauto|right; eauto].
Qed.
Lemma arrange_total sort l : (exists x, arrange sort l = Throw x) \/ exists l', arrange sort l = Ok l'.
Proof.
  unfold arrange. cbv zeta.
  set (l1 := if negb (Z.land sort (Z.lor SORT_FULL SORT_MERGE) =? 0) then stable_sort range_lt l else l).
  assert ((exists x, (if negb (Z.land sort SORT_MERGE =? 0) then merge_all l1 else Ok l1) = Throw x)
          \/ exists l2, (if negb (Z.land sort SORT_MERGE =? 0) then merge_all l1 else Ok l1) = Ok l2) as [[x E]|[l2 E]].
  { destruct (negb (Z.land sort SORT_MERGE =? 0)); [|right; eauto]. unfold merge_all.
    destruct l1; [right; eauto|]. apply merge_from_total. }
  - rewrite E. left. eexists. reflexivity.
  - rewrite E. cbn [rbind]. right.
    destruct (negb (Z.land sort SORT_IPV4_FIRST =? 0)); [|destruct (negb (Z.land sort SORT_IPV6_FIRST =? 0))]; eauto.
Qed.

Lemma parse_made y g p0 in_ : wp p0 (parse y g in_) (fun r _ =>
  r <> OutOfFuel /\ (resolver_ok g -> r <> UB /\ forall l, r = Ok l -> Forall (ends (made y p0)) l)).
Proof.
  unfold parse. wbind. eapply wp_conseq; [apply entries_made|]. cbv beta. intros r ms (N & H).
  destruct r as [l|x| |].
  2:{ split; [discriminate|]. intros _. split; discriminate. }
  2:{ split; [discriminate|]. intros HG. now destruct (proj1 (H HG)). }
  2:{ now destruct N. }
  wask. apply wp_lift. split.
  - destruct (arrange_total (f_sort p0) l) as [[x E]|[l' E]]; rewrite E; discriminate.
  - intros HG. destruct (H HG) as [_ H']. specialize (H' l eq_refl).
    destruct (arrange_ends (made y p0) (f_sort p0) l (made_mask y p0) H') as [[x E]|(l' & E & F)]; rewrite E.
    + split; discriminate.
    + split; [discriminate|]. intros l2 X. inversion X; subst. exact F.
Qed.
