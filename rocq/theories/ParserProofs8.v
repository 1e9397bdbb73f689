(* Configurations for which parse() never throws, and entries which are a
   single address. *)
From Coq Require Import ZifyBool ZifyNat.
From Verif Require Import Base Addr Spec Range SpecRange Inet Parser SpecParser SpecParser2
  AddrProofs3 ParserProofs ParserProofs2 ParserProofs3 ParserProofs4 ParserProofs5 ParserProofs6 ParserProofs7.
From Verif Require Export DottedProofs.
Local Open Scope Z_scope.

Definition calm {A} (r : res A) : Prop := forall x, r <> Throw x.
Lemma calm_ok {A} (a : A) : calm (Ok a). Proof. intros x. discriminate. Qed.
Lemma calm_ub {A} : calm (@UB A). Proof. intros x. discriminate. Qed.
Lemma calm_fuel {A} : calm (@OutOfFuel A). Proof. intros x. discriminate. Qed.
#[local] Hint Resolve calm_ok calm_ub calm_fuel : core.

(* ---------- no exception ---------- *)
Section Calm.
Variables (y : sys) (g : resolver) (p0 : parser).
Hypothesis Hlookup : allow p0 ALLOW_ADDRESS_LOOKUP = false \/ (resolver_ok g /\ known_protocols g).
Hypothesis Hproto : p_protocol p0 = -1 \/ protocol_ok (p_protocol p0).

Definition quiet {A} (m : M A) : Prop := wp p0 m (fun r _ => calm r).
Lemma quiet_bind {A B} (m : M A) (f : A -> M B) : quiet m -> (forall a, quiet (f a)) -> quiet (bind m f).
Proof.
  intros H1 H2. apply wp_bind. eapply wp_conseq; [exact H1|]. cbv beta. intros r ms C.
  destruct r as [a|x| |]; [|now destruct (C x)|auto|auto]. eapply wp_conseq; [apply H2|]. auto.
Qed.
Lemma quiet_ret {A} (a : A) : quiet (ret a). Proof. apply wp_ret. auto. Qed.
Lemma quiet_lift {A} (r : res A) : calm r -> quiet (lift r). Proof. intros H. apply wp_lift. exact H. Qed.
Lemma quiet_emit msg : quiet (emit msg). Proof. apply wp_emit. auto. Qed.
Lemma quiet_ask {A} (f : parser -> A) : (forall e c, f (with_errors p0 e c) = f p0) -> quiet (ask f).
Proof. intros H. apply wp_ask; auto. Qed.
Lemma quiet_allowed flag : quiet (allowed flag). Proof. apply wp_allowed. auto. Qed.
Lemma quiet_fail {A} msg : quiet (@fail A msg). Proof. apply wp_fail. auto. Qed.

Ltac qstep := apply quiet_bind; [first [apply quiet_allowed | apply quiet_emit | apply quiet_ask; reflexivity]|intros ?].

Lemma finish_calm a host dp :
  calm (let a := set_hostname a host in
   let! a := if negb (p_protocol p0 =? -1) then on (set_protocol a (p_protocol p0)) else Ok a in
   Ok (set_from range_new (set_port_defined a dp))).
Proof.
  cbv zeta. destruct Hproto as [E|E]; [rewrite E; cbn [Z.eqb negb rbind Z.opp Pos.eqb]; auto|].
  destruct (negb _); cbn [rbind]; [|auto]. unfold on, set_protocol.
  replace ((p_protocol p0 =? IPPROTO_IP) || (p_protocol p0 =? IPPROTO_TCP) || (p_protocol p0 =? IPPROTO_UDP)) with true.
  - match goal with |- context [if ?b then _ else _] => destruct b end; cbn [fst snd rbind]; auto.
  - symmetry. destruct E as [->|[->| ->]]; reflexivity.
Qed.
Definition proto_known (r : addr_range) : Prop := protocol_ok (get_protocol (get_from r)).
Definition few (r : res (list addr_range)) : Prop :=
  calm r /\ forall l, r = Ok l -> (length l <= 1)%nat \/ Forall proto_known l.
Lemma few_fail msg : wp p0 (fail msg) (fun r _ => few r).
Proof. apply wp_fail. split; [auto|]. intros l E. assert (l = []) as -> by congruence. cbn [length]. lia. Qed.
Lemma single_few (r : res addr_range) : calm r -> wp p0 (do! a <- lift r in ret [a]) (fun r _ => few r).
Proof.
  intros C. wbind. apply wp_lift. destruct r as [a|x| |]; [|now destruct (C x)|split; [auto|discriminate]..].
  apply wp_ret. split; [auto|]. intros l E. assert (l = [a]) as -> by congruence. cbn [length]. lia.
Qed.
Lemma numeric_few address port dp : wp p0 (numeric_address address port dp) (fun r _ => few r).
Proof.
  unfold numeric_address. wask. destruct (inet_pton4 _) as [q|]; [|destruct (inet_pton6 _) as [q|]; [|apply few_fail]].
  - apply single_few. apply finish_calm.
  - apply single_few. apply finish_calm.
Qed.
(* The answers of a lookup. *)
Lemma set_protocol_known a proto : protocol_ok proto ->
  exists b, set_protocol a proto = (b, Ok tt) /\ get_protocol b = proto.
Proof.
  intros P. unfold set_protocol.
  replace ((proto =? IPPROTO_IP) || (proto =? IPPROTO_TCP) || (proto =? IPPROTO_UDP)) with true
    by (destruct P as [->|[->| ->]]; reflexivity).
  destruct (negb (proto =? f_protocol a)) eqn:E; eexists; (split; [reflexivity|]); [reflexivity|].
  unfold get_protocol. lia.
Qed.
Lemma range_known (r : addr * res unit) host proto dp : snd r = Ok tt -> protocol_ok proto ->
  exists x, (let! a := on r in
   let a := set_hostname a host in
   let! a := if negb (proto =? -1) then on (set_protocol a proto) else Ok a in
   Ok (set_from range_new (set_port_defined a dp))) = Ok x /\ proto_known x.
Proof.
  intros E P. unfold on at 1. rewrite E. cbn [rbind]. cbv zeta.
  replace (negb (proto =? -1)) with true by (destruct P as [->|[->| ->]]; reflexivity).
  destruct (set_protocol_known (set_hostname (fst r) host) proto P) as (b & Eb & G).
  rewrite Eb. unfold on. cbn [fst snd rbind]. eexists. split; [reflexivity|].
  unfold proto_known. replace (get_protocol _) with (get_protocol b) by reflexivity. now rewrite G.
Qed.
Lemma known_cons r (m : M (list addr_range)) : proto_known r ->
  wp p0 m (fun r _ => calm r /\ forall l, r = Ok l -> Forall proto_known l) ->
  wp p0 (do! rs <- m in ret (r :: rs)) (fun r _ => calm r /\ forall l, r = Ok l -> Forall proto_known l).
Proof.
  intros K W. wbind. eapply wp_conseq; [exact W|]. cbv beta. intros q ms [C F].
  destruct q as [l|x| |]; [|now destruct (C x)|split; [auto|discriminate]..].
  apply wp_ret. split; [auto|]. intros l' E. assert (l' = r :: l) as -> by congruence. constructor; auto.
Qed.
Lemma use_addrinfo_known host dp : forall l first, Forall addrinfo_ok l ->
  Forall (fun ai => protocol_ok (ai_protocol ai)) l ->
  wp p0 (use_addrinfo l first host dp) (fun r _ => calm r /\ forall l, r = Ok l -> Forall proto_known l).
Proof.
  induction l as [|ai l IH]; intros first A P; cbn [use_addrinfo].
  { apply wp_ret. split; [auto|]. intros l E. assert (l = []) as -> by congruence. constructor. }
  inversion A as [|? ? A1 A2]; subst. inversion P as [|? ? P1 P2]; subst.
  destruct (ai_family ai =? AF_INET) eqn:F4; [|destruct (ai_family ai =? AF_INET6) eqn:F6].
  - destruct (negb _); [(wbind; apply wp_emit; cbv beta iota); now apply IH|].
    destruct (proj1 A1 ltac:(lia)) as [_ F]. wbind. apply wp_lift.
    destruct (range_known (set_ipv4 addr_new (ai_in ai)) host (ai_protocol ai) dp) as (x & Ex & Kx); [|exact P1|].
    { unfold set_ipv4. rewrite F. reflexivity. }
    change (range4 (ai_in ai) host (ai_protocol ai) dp = Ok x) in Ex. rewrite Ex. apply known_cons; [exact Kx|]. now apply IH.
  - destruct (negb _); [(wbind; apply wp_emit; cbv beta iota); now apply IH|].
    destruct (proj2 A1 ltac:(lia)) as [_ F]. wbind. apply wp_lift.
    destruct (range_known (set_ipv6 addr_new (ai_in6 ai)) host (ai_protocol ai) dp) as (x & Ex & Kx); [|exact P1|].
    { unfold set_ipv6. rewrite F. reflexivity. }
    change (range6 (ai_in6 ai) host (ai_protocol ai) dp = Ok x) in Ex. rewrite Ex. apply known_cons; [exact Kx|]. now apply IH.
  - destruct first; [(wbind; apply wp_emit; cbv beta iota)|]; now apply IH.
Qed.
Lemma address_port_few address port_str ipv6 :
  wp p0 (parse_address_port y g address port_str ipv6) (fun r _ => few r).
Proof.
  unfold parse_address_port. wallow. destruct (negb _ && _); [apply few_fail|]. wask. wallow.
  destruct (_ && _); [apply few_fail|]. wask. wallow.
  destruct (allow p0 ALLOW_ADDRESS_LOOKUP) eqn:HL.
  { destruct Hlookup as [H|[R K]]; [discriminate|]. wask.
    match goal with |- context [g ?a ?b ?c ?d ?e] => destruct (g a b c d e) as [t|l] eqn:EG end; [apply few_fail|].
    eapply wp_conseq; [apply use_addrinfo_known; [exact (proj2 (R _ _ _ _ _ _ EG))|exact (K _ _ _ _ _ _ EG)]|].
    intros r ms [C F]. split; [exact C|]. intros l' E. right. now apply F. }
  wallow.
  destruct (_ || _); [|apply numeric_few]. destruct (convert_string _ _) as [port|]; [|apply few_fail].
  destruct (_ || _); [apply few_fail|]. destruct (_ && _); [apply few_fail|apply numeric_few].
Qed.
Lemma address_port_quiet address port_str ipv6 : quiet (parse_address_port y g address port_str ipv6).
Proof. eapply wp_conseq; [apply address_port_few|]. intros r ms [C _]. exact C. Qed.
Lemma drop_duplicates_calm first : protocol_ok (get_protocol first) -> forall l, calm (drop_duplicates first l).
Proof.
  intros P. induction l as [|r l IH]; cbn [drop_duplicates]; [auto|].
  destruct (set_protocol_known (get_from r) _ P) as (b & Eb & _). rewrite Eb. unfold on. cbn [fst snd rbind].
  destruct (ne_ first b); auto.
Qed.
Lemma range_end_quiet text port_str msg ipv6 : quiet (range_end y g text port_str msg ipv6).
Proof.
  unfold range_end. destruct text as [|c text]; [apply quiet_ret|]. apply quiet_bind.
  - unfold parse_address_port_ignore_duplicates. unfold quiet. wbind. eapply wp_conseq; [apply address_port_few|].
    cbv beta. intros r ms [C L]. destruct r as [l|x| |]; [|now destruct (C x)|auto|auto].
    specialize (L l eq_refl). destruct l as [|r l]; [apply quiet_ret|].
    assert (calm (drop_duplicates (get_from r) l)) as CD.
    { destruct L as [L|L]; [destruct l; [cbn [drop_duplicates]; auto|cbn [length] in L; lia]|].
      inversion L; subst. now apply drop_duplicates_calm. }
    apply quiet_bind; [now apply quiet_lift|]. intros ?. apply quiet_ret.
  - intros [|r [|r' l]]; [apply quiet_ret|apply quiet_ret|]. qstep. apply quiet_ret.
Qed.
Lemma range_port_quiet addresses port_str ipv6 : quiet (parse_address_range_port y g addresses port_str ipv6).
Proof.
  unfold parse_address_range_port. qstep.
  destruct (if a then find_char 45 addresses else None) as [p|]; [|apply address_port_quiet].
  match goal with |- quiet (if ?b then _ else _) => destruct b end; [apply quiet_fail|].
  apply quiet_bind; [apply range_end_quiet|]. intros [fr|]; [|apply quiet_ret].
  apply quiet_bind; [apply range_end_quiet|]. intros [tr|]; [|apply quiet_ret].
  destruct fr as [f|], (option_map swap_from_to tr) as [t|]; [|apply quiet_ret|apply quiet_ret|apply quiet_lift; auto].
  qstep. destruct (_ || _); apply quiet_ret.
Qed.
Lemma address4_quiet in_ : quiet (parse_address4 y g in_).
Proof.
  unfold parse_address4. qstep. qstep. destruct (find_char 58 in_); [|apply range_port_quiet].
  destruct (_ || _); [apply range_port_quiet|apply quiet_fail].
Qed.
Lemma count_found c s : count_char c s = 1 -> find_char c s <> None.
Proof. intros H E. apply find_char_count in E. unfold count_char in *. lia. Qed.
Lemma address6_quiet in_ : quiet (parse_address6 y g in_ (count_char 58 in_)).
Proof.
  unfold parse_address6. qstep. qstep. destruct (match in_ with c :: _ => c =? 91 | [] => false end).
  - destruct (find_char 93 in_); [|apply quiet_fail]. destruct (skipn _ in_); [apply range_port_quiet|].
    destruct (negb _); [apply quiet_fail|]. destruct (_ && _); [apply quiet_fail|apply range_port_quiet].
  - destruct (count_char 58 in_ =? 1) eqn:E; [|apply range_port_quiet].
    destruct (find_char 58 in_) eqn:F; [apply range_port_quiet|]. now apply count_found in F; [|lia].
Qed.
Lemma address_quiet in_ mask : quiet (parse_address y g in_ mask).
Proof.
  unfold parse_address.
  assert (quiet (do! l <- parse_address6 y g in_ (count_char 58 in_) in ret (l, false))) as S6.
  { apply quiet_bind; [apply address6_quiet|]. intros l. apply quiet_ret. }
  assert (quiet (do! l <- parse_address4 y g in_ in ret (l, true))) as S4.
  { apply quiet_bind; [apply address4_quiet|]. intros l. apply quiet_ret. }
  destruct (_ >=? 2); [exact S6|].
  destruct in_ as [|c0 in_]; [|destruct (c0 =? 58)].
  1, 2: destruct mask as [|c mask];
    [qstep; qstep; repeat match goal with |- quiet (match ?x with _ => _ end) => destruct x end; auto
    |destruct (c =? 91); [exact S6|]; destruct (_ >? 32); auto].
  destruct (_ || _); [exact S6|]. qstep. qstep. destruct (_ && _); [|exact S4].
  destruct (find_char 58 _); [|exact S4].
  match goal with |- quiet (if ?b then _ else _) => destruct b end; auto.
Qed.
Lemma mask_quiet mask cidr ipv4 : quiet (parse_mask g mask cidr ipv4).
Proof.
  unfold parse_mask. destruct mask as [|c0 mask]; [apply quiet_ret|].
  destruct (mask_number _ 0) as [n|]; [|qstep; apply quiet_ret].
  destruct (negb (n =? -1)).
  { destruct (_ && _); [qstep; apply quiet_ret|]. destruct (_ && _); [qstep; apply quiet_ret|].
    destruct (mask_bits_loop _ _ _); [apply quiet_ret|apply quiet_lift; auto]. }
  qstep. destruct (negb a); [qstep; apply quiet_ret|].
  destruct (_ && _); [qstep; apply quiet_ret|]. destruct (_ && _); [qstep; apply quiet_ret|].
  destruct (_ && _); [qstep; apply quiet_ret|]. destruct (_ && _); [apply quiet_ret|].
  match goal with |- context [g ?a ?b ?c ?d ?e] => destruct (g a b c d e) as [t|[|ai l]] end;
    [qstep; apply quiet_ret|apply quiet_lift; auto|].
  destruct ipv4; (destruct (negb _); [qstep; apply quiet_ret|]); (destruct (negb _); [qstep|]; apply quiet_ret).
Qed.
Lemma masks_quiet mask ipv4 l : quiet (apply_masks g mask ipv4 l).
Proof.
  induction l as [|am l IH]; cbn [apply_masks]; [apply quiet_ret|]. qstep.
  apply quiet_bind; [apply mask_quiet|]. intros ?. apply quiet_bind; [apply IH|]. intros ?. apply quiet_ret.
Qed.
Lemma cidr_quiet s : quiet (parse_cidr y g s).
Proof.
  destruct (allow p0 ALLOW_MASK) eqn:AM.
  - destruct (split_mask (trim_string s)) as [address mask] eqn:E.
    apply (cidr_with_mask y g p0 s address mask _ AM E). unfold masked.
    assert (quiet (do! am <- parse_address y g address mask in
                   let '(addr_mask, ipv4) := am in apply_masks g mask ipv4 addr_mask)) as Q.
    { apply quiet_bind; [apply address_quiet|]. intros [l b]. apply masks_quiet. }
    eapply wp_conseq; [exact Q|]. intros r ms C x H. destruct r as [l|e| |], ms; cbn [after] in H; try discriminate; now apply (C x).
  - apply (cidr_without_mask y g p0 s _ AM). apply quiet_bind; [apply address_quiet|]. intros ?. apply quiet_ret.
Qed.
Lemma loop_quiet seps comments newlines : forall fuel rest, quiet (parse_loop y g fuel seps comments newlines rest).
Proof.
  induction fuel as [|k IH]; intros rest; cbn [parse_loop]; (destruct rest as [|c rest]; [apply quiet_ret|]); [apply quiet_lift; auto|].
  destruct (split_at seps (c :: rest)) as [piece tail]. destruct piece as [|c1 piece]; [apply IH|].
  match goal with |- quiet (let (_, _) := ?x in _) => destruct x as [text tail'] end.
  apply quiet_bind; [destruct text; [apply quiet_ret|apply cidr_quiet]|]. intros ?.
  apply quiet_bind; [apply IH|]. intros ?. apply quiet_ret.
Qed.
Lemma entries_quiet s : quiet (parse_entries y g s).
Proof.
  unfold parse_entries. qstep. qstep. destruct a; [apply cidr_quiet|]. qstep. apply loop_quiet.
Qed.
End Calm.

Lemma parse_calm y g s p : allow p ALLOW_ADDRESS_LOOKUP = false \/ known_protocols g ->
  p_protocol p = -1 \/ protocol_ok (p_protocol p) -> resolver_ok g ->
  Z.land (f_sort p) SORT_MERGE = 0 \/ allow p ALLOW_MASK = false -> calm (snd (parse y g s p)).
Proof.
  intros L P R O. assert (allow p ALLOW_ADDRESS_LOOKUP = false \/ (resolver_ok g /\ known_protocols g)) as L' by tauto.
  destruct (wp_run p _ _ p (entries_quiet y g p L' P s) (same_config_refl p)) as (ms & r & E & C).
  unfold parse, bind, ask, lift. rewrite E. destruct r as [l|x| |]; [|now destruct (C x)|apply calm_ub|apply calm_fuel].
  cbn [snd f_sort with_errors]. destruct O as [O|O].
  - destruct (wp_run p _ _ p (entries_made y g p s) (same_config_refl p)) as (ms' & r' & E' & _ & K).
    assert (r' = Ok l) as -> by congruence. destruct (K R) as [_ K'].
    rewrite arrange_sorted; [apply calm_ok| |exact O]. apply (ends_good (made y p)). now apply K'.
  - destruct (arrange_ones (f_sort p) l) as [l' ->]; [|apply calm_ok]. eapply entries_ones; eassumption.
Qed.

(* ---------- no range syntax: only "from" ---------- *)
Definition only (r : addr_range) : Prop := f_has_from r = true /\ f_has_to r = false.
Definition onlyl := Forall only.
Lemma only_single r : only r -> onlyl [r].
Proof. intros H. constructor; [exact H|constructor]. Qed.
Lemma finish_only a host proto dp r :
  (let a := set_hostname a host in
   let! a := if negb (proto =? -1) then on (set_protocol a proto) else Ok a in
   Ok (set_from range_new (set_port_defined a dp))) = Ok r -> only r.
Proof.
  cbv zeta. destruct (if negb (proto =? -1) then _ else _) as [b|x| |]; cbn [rbind]; try discriminate.
  intros E. assert (r = set_from range_new (set_port_defined b dp)) as -> by congruence. now split.
Qed.
Lemma range4_only in4 host proto dp r : range4 in4 host proto dp = Ok r -> only r.
Proof. unfold range4. destruct (on _) as [b|x| |]; cbn [rbind]; try discriminate. apply finish_only. Qed.
Lemma range6_only in6 host proto dp r : range6 in6 host proto dp = Ok r -> only r.
Proof. unfold range6. destruct (on _) as [b|x| |]; cbn [rbind]; try discriminate. apply finish_only. Qed.
Lemma use_addrinfo_only host dp : forall l first, yields (use_addrinfo l first host dp) onlyl.
Proof.
  induction l as [|ai l IH]; intros first; cbn [use_addrinfo]; [apply yields_ret; constructor|].
  assert (forall r0, (forall r, r0 = Ok r -> only r) ->
    yields (do! r <- lift r0 in do! rs <- use_addrinfo l first host dp in ret (r :: rs)) onlyl) as ADD.
  { intros r0 H0. eapply yields_bind; [apply yields_lift, H0|]. intros r Hr.
    eapply yields_bind; [apply IH|]. intros rs Hrs. apply yields_ret. now constructor. }
  destruct (ai_family ai =? AF_INET).
  { destruct (negb _); [skip; apply IH|]. apply ADD. intros r. apply range4_only. }
  destruct (ai_family ai =? AF_INET6).
  { destruct (negb _); [skip; apply IH|]. apply ADD. intros r. apply range6_only. }
  destruct first; [skip|]; apply IH.
Qed.
Lemma numeric_only address port dp : yields (numeric_address address port dp) onlyl.
Proof.
  unfold numeric_address. skip. destruct (inet_pton4 _); [|destruct (inet_pton6 _); [|apply yields_fail]].
  - eapply yields_bind; [apply yields_lift; intros r; apply range4_only|]. intros r Hr. apply yields_ret. now apply only_single.
  - eapply yields_bind; [apply yields_lift; intros r; apply range6_only|]. intros r Hr. apply yields_ret. now apply only_single.
Qed.
Lemma address_port_only y g address port_str ipv6 : yields (parse_address_port y g address port_str ipv6) onlyl.
Proof.
  unfold parse_address_port. skip. destruct (_ && _); [apply yields_fail|]. skip. skip.
  destruct (_ && _); [apply yields_fail|]. skip. skip. destruct a3.
  - skip. match goal with |- yields (match ?x with _ => _ end) _ => destruct x end; [apply yields_fail|apply use_addrinfo_only].
  - skip. destruct (_ || _); [|apply numeric_only]. destruct (convert_string _ _); [|apply yields_fail].
    destruct (_ || _); [apply yields_fail|]. destruct (_ && _); [apply yields_fail|apply numeric_only].
Qed.

(* results on the parsers which share the configuration of p0 *)
Definition gives {A} (p0 : parser) (m : M A) (Q : A -> Prop) : Prop :=
  wp p0 m (fun r _ => forall a, r = Ok a -> Q a).
Section Only.
Variables (y : sys) (g : resolver) (p0 : parser).
Hypothesis Hrange : allow p0 ALLOW_ADDRESS_RANGE = false.

Lemma gives_bind {A B} (m : M A) (f : A -> M B) R Q : gives p0 m R -> (forall a, R a -> gives p0 (f a) Q) ->
  gives p0 (bind m f) Q.
Proof.
  intros H1 H2. apply wp_bind. eapply wp_conseq; [exact H1|]. cbv beta. intros r ms C.
  destruct r as [a|x| |]; try discriminate. eapply wp_conseq; [apply H2, C; reflexivity|]. auto.
Qed.
Lemma gives_ret {A} (a : A) (Q : A -> Prop) : Q a -> gives p0 (ret a) Q.
Proof. intros H. apply wp_ret. congruence. Qed.
Lemma gives_lift {A} (r : res A) (Q : A -> Prop) : (forall a, r = Ok a -> Q a) -> gives p0 (lift r) Q.
Proof. intros H. apply wp_lift. exact H. Qed.
Lemma gives_fail {A} msg (P : A -> Prop) : gives p0 (fail msg) (Forall P).
Proof. apply wp_fail. intros a E. assert (a = []) as -> by congruence. constructor. Qed.
Ltac gskip := eapply (gives_bind _ _ (fun _ => True)); [first [apply wp_allowed | apply wp_emit | apply wp_ask; [reflexivity|]]; trivial|intros ? _].
Lemma address_port_gives address port_str ipv6 : gives p0 (parse_address_port y g address port_str ipv6) onlyl.
Proof.
  destruct (address_port_ok y g p0 address port_str ipv6) as (ms & r & E & _). exists ms, r. split; [exact E|].
  intros a ->. eapply (address_port_only y g address port_str ipv6 (with_errors p0 [] 0)). apply E.
Qed.
Lemma range_port_gives addresses port_str ipv6 : gives p0 (parse_address_range_port y g addresses port_str ipv6) onlyl.
Proof. unfold parse_address_range_port. unfold gives. wallow. rewrite Hrange. apply address_port_gives. Qed.
Lemma address4_gives in_ : gives p0 (parse_address4 y g in_) onlyl.
Proof.
  unfold parse_address4. gskip. gskip. destruct (find_char 58 in_); [|apply range_port_gives].
  destruct (_ || _); [apply range_port_gives|apply gives_fail].
Qed.
Lemma address6_gives in_ colons : gives p0 (parse_address6 y g in_ colons) onlyl.
Proof.
  unfold parse_address6. gskip. gskip. destruct (match in_ with c :: _ => c =? 91 | [] => false end).
  - destruct (find_char 93 in_); [|apply gives_fail]. destruct (skipn _ in_); [apply range_port_gives|].
    destruct (negb _); [apply gives_fail|]. destruct (_ && _); [apply gives_fail|apply range_port_gives].
  - destruct (colons =? 1); [|apply range_port_gives].
    destruct (find_char 58 in_); [apply range_port_gives|]. apply gives_lift. discriminate.
Qed.
Lemma address_gives in_ mask : gives p0 (parse_address y g in_ mask) (fun x => onlyl (fst x)).
Proof.
  unfold parse_address.
  assert (gives p0 (do! l <- parse_address6 y g in_ (count_char 58 in_) in ret (l, false)) (fun x => onlyl (fst x))) as S6.
  { eapply gives_bind; [apply address6_gives|]. intros l Hl. now apply gives_ret. }
  assert (gives p0 (do! l <- parse_address4 y g in_ in ret (l, true)) (fun x => onlyl (fst x))) as S4.
  { eapply gives_bind; [apply address4_gives|]. intros l Hl. now apply gives_ret. }
  destruct (_ >=? 2); [exact S6|].
  destruct in_ as [|c0 in_]; [|destruct (c0 =? 58)].
  1, 2: destruct mask as [|c mask];
    [gskip; gskip; repeat match goal with |- gives _ (match ?x with _ => _ end) _ => destruct x end; auto
    |destruct (c =? 91); [exact S6|]; destruct (_ >? 32); auto].
  destruct (_ || _); [exact S6|]. gskip. gskip. destruct (_ && _); [|exact S4].
  destruct (find_char 58 _); [|exact S4].
  match goal with |- gives _ (if ?b then _ else _) _ => destruct b end; auto.
Qed.
Lemma masks_only mask ipv4 : forall l, onlyl l -> yields (apply_masks g mask ipv4 l) onlyl.
Proof.
  induction l as [|am l IH]; intros O; cbn [apply_masks]; [apply yields_ret; constructor|]. inversion O; subst.
  skip. skip. eapply yields_bind; [now apply IH|]. intros rest Hr. apply yields_ret. constructor; assumption.
Qed.
Lemma cidr_gives s : gives p0 (parse_cidr y g s) onlyl.
Proof.
  destruct (allow p0 ALLOW_MASK) eqn:AM.
  - destruct (split_mask (trim_string s)) as [address mask] eqn:E.
    apply (cidr_with_mask y g p0 s address mask _ AM E).
    assert (gives p0 (masked y g address mask) onlyl) as Q.
    { assert (both p0 p0 (masked y g address mask) (masked y g address mask)) as (ms & r & Em & _).
      { apply both_bind; [apply both_address; auto|]. intros [l b]. apply both_apply_masks; auto. }
      exists ms, r. split; [exact Em|].
      intros l ->. destruct (address_gives address mask) as (ms1 & r1 & E1 & K1).
      specialize (Em [] 0). specialize (E1 [] 0). unfold masked, bind in Em. rewrite E1 in Em.
      destruct r1 as [[l1 b]|x| |]; try discriminate. eapply masks_only; [|exact Em]. exact (K1 _ eq_refl). }
    eapply wp_conseq; [exact Q|]. intros r ms C a H.
    destruct r as [l|e| |], ms; cbn [after] in H; try discriminate; [auto|].
    assert (a = []) as -> by congruence. constructor.
  - apply (cidr_without_mask y g p0 s _ AM). eapply gives_bind; [apply address_gives|]. intros x Hx. now apply gives_ret.
Qed.
End Only.

(* ---------- decimal masks ---------- *)

Lemma c_str_digits D : forallb is_digit D = true -> c_str D = D.
Proof.
  induction D as [|c D IH]; intros H; [reflexivity|]. cbn [forallb] in H. apply andb_true_iff in H. destruct H as [H1 H2].
  cbn [c_str]. unfold is_digit in H1. replace (c =? 0) with false by lia. now rewrite IH.
Qed.
Lemma mask_number_spec D : forall n, 0 <= n <= 10000 -> forallb is_digit D = true ->
  mask_number D n = (let v := fold_left (fun v c => v * 10 + (c - 48)) D n in if v >? 10000 then None else Some v).
Proof.
  induction D as [|c D IH]; intros n N H; cbn [mask_number fold_left]; cbv zeta.
  - replace (n >? 10000) with false by lia. reflexivity.
  - cbn [forallb] in H. apply andb_true_iff in H. destruct H as [H1 H2]. unfold is_digit in H1. rewrite H1.
    replace (n * 10 + (c - 48)) with (n * 10 + c - 48) by lia. destruct (n * 10 + c - 48 >? 10000) eqn:E.
    + pose proof (fold_digits_ge D (n * 10 + c - 48) ltac:(lia) H2) as G.
      destruct (_ >? 10000) eqn:E2 at 1; [reflexivity|]. lia.
    + rewrite IH by (assumption || lia). reflexivity.
Qed.

Definition bits_ok (k : nat) : bool :=
  match mask_bits_loop 15 (Z.of_nat k) (repeat 255 16) with
  | Some b => num b =? 2 ^ 128 - 2 ^ Z.of_nat k
  | None => false
  end.
Lemma bits_all : forallb bits_ok (seq 0 129) = true.
Proof. vm_compute. reflexivity. Qed.
Lemma mask_bits k : 0 <= k <= 128 -> exists b, mask_bits_loop 15 k (repeat 255 16) = Some b /\ num b = prefix_mask (128 - k).
Proof.
  intros H. pose proof bits_all as B. rewrite forallb_forall in B. specialize (B (Z.to_nat k)). unfold bits_ok in B.
  rewrite Z2Nat.id in B by lia. destruct (mask_bits_loop 15 k (repeat 255 16)) as [b|].
  - exists b. split; [reflexivity|]. unfold prefix_mask. replace (128 - (128 - k)) with k by lia.
    apply Z.eqb_eq, B, in_seq. lia.
  - discriminate B. apply in_seq. lia.
Qed.

Section Numeric.
Variables (g : resolver) (p0 : parser) (D : str) (n : Z).
Hypothesis HD : decimal D n.

Lemma numeric_mask cidr ipv4 : let lim := if ipv4 : bool then 32 else 128 in
  wp p0 (parse_mask g D cidr ipv4) (fun r ms =>
    (n <= lim -> ms = [] /\ exists m, r = Ok (set_mask cidr m) /\ num m = prefix_mask (128 - lim + n))
    /\ (lim < n -> ms <> [] /\ r = Ok cidr)).
Proof.
  cbv zeta. destruct HD as (N & DD & V). destruct D as [|c0 D'] eqn:ED; [congruence|]. rewrite <- ED in *.
  unfold parse_mask. rewrite ED at 1. rewrite c_str_digits, mask_number_spec by (assumption || lia). cbv zeta.
  fold (decimal_value D). pose proof (fold_digits_ge D 0 ltac:(lia) DD) as G. fold (decimal_value D) in G. rewrite V in *.
  destruct (n >? 10000) eqn:E.
  { wbind. apply wp_emit. apply wp_ret. split; [destruct ipv4; lia|]. intros _. now split. }
  replace (n =? -1) with false by lia. cbn [negb].
  destruct (ipv4 && (n >? 32)) eqn:E4.
  { wbind. apply wp_emit. apply wp_ret. split; [destruct ipv4; cbn in E4; lia|]. intros _. now split. }
  destruct (negb ipv4 && (n >? 128)) eqn:E6.
  { wbind. apply wp_emit. apply wp_ret. split; [destruct ipv4; cbn in E6; lia|]. intros _. now split. }
  destruct (mask_bits ((if ipv4 then 32 else 128) - n)) as (b & Eb & Nb); [destruct ipv4; cbn [andb negb] in E4, E6; lia|].
  rewrite Eb. apply wp_ret. split; [|destruct ipv4; cbn [andb negb] in E4, E6; lia]. intros _. split; [reflexivity|]. exists b. split; [reflexivity|].
  rewrite Nb. f_equal. lia.
Qed.
Lemma effective_given p four : effective_mask p D four = D.
Proof. destruct HD as (N & _). destruct D; [congruence|reflexivity]. Qed.
Lemma numeric_masks four : forall l,
  wp p0 (apply_masks g D four l) (fun r ms => exists l2, r = Ok l2
    /\ (Forall (fun r => n <= limit four r) l -> ms = [] /\ Forall2 (fun r1 r2 => masked_by (128 - limit four r1 + n) r1 r2) l l2)
    /\ (Exists (fun r => limit four r < n) l -> ms <> [])).
Proof.
  induction l as [|am l IH]; cbn [apply_masks].
  { apply wp_ret. exists []. split; [reflexivity|]. split; [intros _; split; [reflexivity|constructor]|]. intros H. inversion H. }
  wbind. apply wp_ask; [intros e c; rewrite !effective_given; reflexivity|]. rewrite effective_given. cbv beta iota.
  wbind. eapply wp_conseq; [apply numeric_mask|]. cbv beta zeta. fold (limit four am).
  change (if four && is_ipv4 (get_from am) then 32 else 128) with (limit four am). intros r ms [H1 H2].
  destruct (Z_le_gt_dec n (limit four am)) as [L|L].
  - destruct (H1 L) as (-> & m & -> & Nm). clear H1 H2. wbind. eapply wp_conseq; [exact IH|]. cbv beta.
    intros r ms (l2 & -> & K1 & K2). apply wp_ret. eexists. split; [reflexivity|]. cbn [app]. rewrite app_nil_r. split.
    + intros F. inversion F; subst. destruct (K1 ltac:(assumption)) as [-> F2]. split; [reflexivity|].
      constructor; [|exact F2]. split; [reflexivity|]. split; [reflexivity|]. split; [reflexivity|]. exists m. split; [reflexivity|exact Nm].
    + intros X. apply K2. inversion X; subst; [lia|assumption].
  - destruct (H2 ltac:(lia)) as (NE & ->). wbind. eapply wp_conseq; [exact IH|]. cbv beta.
    intros r ms2 (l2 & -> & _). apply wp_ret. eexists. split; [reflexivity|]. split.
    + intros F. inversion F; subst. lia.
    + intros _ X. cbn [app] in X. apply app_eq_nil in X. destruct X as [X _]. exact (NE X).
Qed.
End Numeric.

(* ---------- the syntax of an entry ---------- *)
Lemma two_colons_count s : two_colons s <-> 2 <= count_char 58 s.
Proof.
  split.
  - intros (a & b & c & ->). rewrite count_char_app, count_char_cons, count_char_app, count_char_cons. unfold count_char. lia.
  - intros H. assert (In 58 s) as I.
    { destruct (in_dec Z.eq_dec 58 s) as [I|I]; [exact I|]. rewrite count_char_none in H by exact I. lia. }
    destruct (in_split _ _ I) as (a0 & b0 & E0).
    assert (forall s, In 58 s -> exists a b, s = a ++ 58 :: b /\ ~ In 58 a) as FS.
    { clear. induction s as [|x s IH]; intros I; [destruct I|]. destruct (Z.eq_dec x 58) as [->|N].
      - exists [], s. split; [reflexivity|auto].
      - destruct I as [|I]; [congruence|]. destruct (IH I) as (a & b & -> & Na). exists (x :: a), b. split; [reflexivity|].
        intros [|]; [congruence|tauto]. }
    destruct (FS s I) as (a & b & -> & Na). rewrite count_char_app, count_char_cons, (count_char_none 58 a) in H by exact Na.
    assert (In 58 b) as Ib.
    { destruct (in_dec Z.eq_dec 58 b) as [Ib|Ib]; [exact Ib|]. rewrite count_char_none in H by exact Ib. lia. }
    destruct (in_split _ _ Ib) as (x & z & ->). now exists a, x, z.
Qed.
Lemma address_mask_irrelevant y g s m m' : has_address s -> parse_address y g s m = parse_address y g s m'.
Proof.
  intros [N H]. unfold parse_address. destruct (count_char 58 s >=? 2) eqn:C; [reflexivity|].
  destruct H as [H|H]; [|apply two_colons_count in H; lia]. destruct s as [|c s]; [congruence|]. cbn [hd] in H.
  replace (c =? 58) with false by lia. reflexivity.
Qed.
Lemma address_syntax y g p s m four : has_address s -> syntax four p s ->
  exists ms r, (forall e c, parse_address y g s m (with_errors p e c)
                 = (with_errors p (e ++ flat ms) (c + Z.of_nat (length ms)), r))
    /\ (forall l b, r = Ok (l, b) -> b = four).
Proof.
  intros [N H] Y.
  assert (both p p (parse_address y g s m) (parse_address y g s m)) as (ms & r & E & _) by (apply both_address; auto).
  exists ms, r. split; [exact E|]. intros l b ->. specialize (E [] 0). destruct s as [|c s]; [congruence|]. cbn [hd] in H.
  rewrite two_colons_count in H. unfold parse_address in E.
  assert (forall q q' x, (do! l <- parse_address6 y g (c :: s) (count_char 58 (c :: s)) in ret (l, false)) q = (q', Ok x) -> snd x = false) as S6.
  { intros q q' x. unfold bind, ret. destruct (parse_address6 _ _ _ _ q) as [q1 [l1| | |]]; try discriminate. intros X.
    assert (x = (l1, false)) as -> by congruence. reflexivity. }
  assert (forall q q' x, (do! l <- parse_address4 y g (c :: s) in ret (l, true)) q = (q', Ok x) -> snd x = true) as S4.
  { intros q q' x. unfold bind, ret. destruct (parse_address4 _ _ _ q) as [q1 [l1| | |]]; try discriminate. intros X.
    assert (x = (l1, true)) as -> by congruence. reflexivity. }
  change b with (snd (l, b)). destruct four; cbn [syntax] in Y.
  - destruct Y as (Y1 & Y2 & Y3 & Y4). cbn [hd] in Y1. rewrite two_colons_count in Y3.
    replace (count_char 58 (c :: s) >=? 2) with false in E by lia.
    replace (c =? 58) with false in E by lia. replace (c =? 91) with false in E by lia. rewrite find_char_none in E by exact Y2. cbn [orb] in E.
    unfold bind at 1 in E. unfold allowed, ask in E. unfold bind at 1 in E.
    match type of E with (if ?b then _ else _) _ = _ => destruct b eqn:B end; [|eapply S4; exact E].
    rewrite find_char_none in E; [eapply S4; exact E|].
    destruct Y4 as [Y4|[Y4|Y4]]; [exact Y4| |]; exfalso; unfold get_allow, ALLOW_max in Y4; cbn [Z.ltb Z.compare orb Z.geb ALLOW_PORT ALLOW_REQUIRED_PORT] in Y4;
      apply andb_true_iff in B; destruct B as [B1 B2]; apply negb_true_iff in B1, B2.
    + change (allow (with_errors p [] 0) ALLOW_PORT) with (allow p ALLOW_PORT) in B1. cbn in Y4. congruence.
    + change (allow (with_errors p [] 0) ALLOW_REQUIRED_PORT) with (allow p ALLOW_REQUIRED_PORT) in B2. cbn in Y4. congruence.
  - destruct (count_char 58 (c :: s) >=? 2) eqn:C; [eapply S6; exact E|].
    destruct Y as [Y|Y]; [|rewrite two_colons_count in Y; lia]. cbn [hd] in Y. subst c. cbn [Z.eqb Pos.eqb orb] in E.
    eapply S6; exact E.
Qed.

(* ---------- an entry with and without its mask ---------- *)
Lemma with_errors_self p : with_errors p (f_error p) (f_error_count p) = p.
Proof. destruct p. reflexivity. Qed.
Lemma parse_wp y g T p Q : nobody (separator p) -> nobody (starts_comment p) -> unsorted p -> trimmed T ->
  wp p (parse_cidr y g T) Q ->
  exists ms r, parse y g T p = (with_errors p (f_error p ++ flat ms) (f_error_count p + Z.of_nat (length ms)), r) /\ Q r ms.
Proof.
  intros NS NC U T0 (ms & r & E & HQ). exists ms, r. split; [|exact HQ].
  rewrite (parse_single y g T p NS NC T0). specialize (E (f_error p) (f_error_count p)). rewrite with_errors_self in E.
  unfold bind. rewrite E. destruct r as [l|x| |]; try reflexivity. unfold ask, lift. cbn [f_sort with_errors].
  rewrite arrange_unsorted by exact U. reflexivity.
Qed.
Lemma no_masks g p four : f_default_mask4 p = [] -> f_default_mask6 p = [] -> forall l,
  wp p (apply_masks g [] four l) (fun r ms => r = Ok l /\ ms = []).
Proof.
  intros E4 E6. induction l as [|am l IH]; cbn [apply_masks]; [apply wp_ret; now split|].
  wbind. apply wp_ask; [reflexivity|].
  replace (effective_mask p [] four) with (@nil Z) by (cbn [effective_mask]; destruct four; now rewrite ?E4, ?E6).
  cbn [parse_mask]. wbind. apply wp_ret. wbind. eapply wp_conseq; [exact IH|]. cbv beta. intros r ms (-> & ->).
  apply wp_ret. split; [|reflexivity]. destruct am. reflexivity.
Qed.

(* the ranges are the same, except for the mask of their first address *)
Definition but_mask (r1 r2 : addr_range) : Prop :=
  f_has_from r2 = f_has_from r1 /\ f_has_to r2 = f_has_to r1 /\ f_to r2 = f_to r1
  /\ f_from r2 = with_mask (with_mask_defined (f_from r1) (f_mask_defined (f_from r2))) (f_mask (f_from r2)).
Lemma but_mask_self r a : a = f_from r \/ (exists m, a = set_mask (f_from r) m) ->
  but_mask r (mk_range (f_has_from r) (f_has_to r) a (f_to r)).
Proof.
  intros H. split; [reflexivity|]. split; [reflexivity|]. split; [reflexivity|]. cbn [f_from].
  destruct H as [->|(m & ->)]; [|reflexivity]. destruct (f_from r). reflexivity.
Qed.
Lemma mask_keeps g p m a b : wp p (parse_mask g m a b) (fun r _ => forall a2, r = Ok a2 -> a2 = a \/ exists x, a2 = set_mask a x).
Proof.
  assert (forall x : addr, x = a -> forall a2, Ok x = Ok a2 -> a2 = a \/ exists x, a2 = set_mask a x) as K1
    by (intros x -> a2 H; injection H as <-; now left).
  assert (forall msg, wp p (do! _ <- emit msg in ret a) (fun r _ => forall a2, r = Ok a2 -> a2 = a \/ exists x, a2 = set_mask a x)) as K2
    by (intros msg; wbind; apply wp_emit; apply wp_ret; now apply K1).
  assert (forall z, wp p (ret (set_mask a z)) (fun r _ => forall a2, r = Ok a2 -> a2 = a \/ exists x, a2 = set_mask a x)) as K3
    by (intros z; apply wp_ret; intros a2 H; injection H as <-; right; now exists z).
  assert (wp p (lift (@UB addr)) (fun r _ => forall a2, r = Ok a2 -> a2 = a \/ exists x, a2 = set_mask a x)) as K4
    by (exists [], UB; split; [|discriminate]; intros e c; unfold lift; cbn [flat map concat length]; rewrite app_nil_r, Z.add_0_r; reflexivity).
  unfold parse_mask. destruct m as [|c0 m]; [apply wp_ret; now apply K1|].
  destruct (mask_number _ _) as [n|]; [|apply K2]. destruct (negb (n =? -1)).
  - destruct (b && (n >? 32)); [apply K2|]. destruct (negb b && (n >? 128)); [apply K2|].
    destruct (mask_bits_loop _ _ _); [apply K3|apply K4].
  - wallow. destruct (negb _); [apply K2|]. destruct (b && _); [apply K2|]. destruct (negb b && negb (c0 =? 91)); [apply K2|].
    destruct (negb b && negb _); [apply K2|]. cbv zeta. destruct (negb b && _); [apply wp_ret; now apply K1|].
    destruct (g _ _ _ _ _) as [text|[|ai l]]; [apply K2|apply K4|]. destruct b.
    + destruct (negb _); [apply K2|]. destruct (negb _); [apply K2|apply K3].
    + destruct (negb _); [apply K2|]. destruct (negb _); [apply K2|apply K3].
Qed.
Lemma masks_keep g p m four : forall l,
  wp p (apply_masks g m four l) (fun r _ => forall l2, r = Ok l2 -> Forall2 but_mask l l2).
Proof.
  induction l as [|am l IH]; cbn [apply_masks]; [apply wp_ret; intros l2 H; injection H as <-; constructor|].
  wbind. apply wp_ask; [reflexivity|]. wbind. eapply wp_conseq; [apply mask_keeps|]. cbv beta. intros r ms H.
  destruct r as [a|x| |]; try discriminate. wbind. eapply wp_conseq; [exact IH|]. cbv beta. intros r ms2 H2.
  destruct r as [l2|x| |]; try discriminate. apply wp_ret. intros l3 E. injection E as <-.
  constructor; [|now apply H2]. apply but_mask_self. now apply H.
Qed.
Lemma but_mask_limit four r1 r2 : but_mask r1 r2 -> limit four r2 = limit four r1.
Proof. intros (_ & _ & _ & E). unfold limit, get_from. rewrite E. reflexivity. Qed.
Lemma but_mask_set r1 r2 m : but_mask r1 r2 -> set_mask (get_from r2) m = set_mask (get_from r1) m.
Proof. intros (_ & _ & _ & E). unfold get_from. rewrite E. reflexivity. Qed.

Section Entry.
Variables (y : sys) (g : resolver) (p : parser) (A : str) (four : bool).
Hypothesis NS : nobody (separator p).
Hypothesis NC : nobody (starts_comment p).
Hypothesis U : unsorted p.
Hypothesis AM : allow p ALLOW_MASK = true.
Hypothesis TA : trimmed A.
Hypothesis N47 : ~ In 47 A.
Hypothesis HA : has_address A.
Hypothesis Y : syntax four p A.

Lemma trimmed_mask D : D <> [] -> (forall c r, D = r ++ [c] -> ~ blank c) -> trimmed (A ++ 47 :: D).
Proof.
  intros N L. destruct TA as (T1 & T2 & T3). split; [destruct A; discriminate|]. split.
  - intros c r E. destruct A as [|a A']; [congruence|]. cbn [app] in E. injection E as <- _. now apply (T2 a A').
  - intros c r E. destruct (exists_last N) as (D' & d & ->). change (A ++ 47 :: D' ++ [d]) with (A ++ (47 :: D') ++ [d]) in E.
    rewrite app_assoc in E. apply app_inj_tail in E. destruct E as [_ <-]. now apply (L d D').
Qed.
Lemma entry_split m T : T = A /\ m = [] \/ trimmed T /\ T = A ++ 47 :: m ->
  trimmed T /\ split_mask (trim_string T) = (A, m).
Proof.
  intros [[-> ->]|[H ->]].
  - split; [exact TA|]. rewrite trimmed_trim by exact TA. now apply split_mask_none.
  - split; [exact H|]. rewrite trimmed_trim by exact H. now apply split_mask_some.
Qed.
(* the part which does not depend on the mask *)
Lemma entry_common : exists ms0 r0, forall m T Q,
  T = A /\ m = [] \/ trimmed T /\ T = A ++ 47 :: m ->
  match r0 with
  | Ok l => wp p (apply_masks g m four l) (fun r ms => Q (after r (ms0 ++ ms)) (ms0 ++ ms))
  | Throw x => Q (Throw x) ms0 | UB => Q UB ms0 | OutOfFuel => Q OutOfFuel ms0
  end ->
  exists ms r, parse y g T p = (with_errors p (f_error p ++ flat ms) (f_error_count p + Z.of_nat (length ms)), r) /\ Q r ms.
Proof.
  destruct (address_syntax y g p A [] four HA Y) as (ms0 & r0 & E & F).
  exists ms0, (match r0 with Ok x => Ok (fst x) | Throw x => Throw x | UB => UB | OutOfFuel => OutOfFuel end).
  intros m T Q HT HQ. destruct (entry_split m T HT) as [TT ES]. apply parse_wp; auto.
  apply (cidr_with_mask y g p T A m Q AM ES). unfold masked. wbind.
  exists ms0, r0. split; [intros e c; rewrite (address_mask_irrelevant y g A m [] HA); apply E|].
  destruct r0 as [[l b]|x| |]; cbn [fst after] in *; auto. rewrite (F l b eq_refl). exact HQ.
Qed.
(* what is read before the mask is applied *)
Lemma entry_before l1 : parse y g A p = (p, Ok l1) -> exists l0, Forall2 but_mask l0 l1
  /\ forall m T Q, T = A /\ m = [] \/ trimmed T /\ T = A ++ 47 :: m ->
    wp p (apply_masks g m four l0) (fun r ms => Q (after r ms) ms) ->
    exists ms r, parse y g T p = (with_errors p (f_error p ++ flat ms) (f_error_count p + Z.of_nat (length ms)), r) /\ Q r ms.
Proof.
  intros EA. destruct entry_common as (ms0 & r0 & C). destruct r0 as [l0|x| |].
  - destruct (C [] A (fun r ms => exists rest, ms = ms0 ++ rest /\ exists r1, r = after r1 ms /\ forall l2, r1 = Ok l2 -> Forall2 but_mask l0 l2))
      as (ms & r & E & rest & -> & r1 & -> & F); [now left| |].
    + eapply wp_conseq; [apply masks_keep|]. cbv beta. intros r ms H. exists ms. split; [reflexivity|]. now exists r.
    + rewrite EA in E. injection E as Ep El. destruct (ms0 ++ rest) as [|m0 ms] eqn:EM.
      * apply app_eq_nil in EM as [-> ->]. exists l0. split; [|exact C].
        apply F. cbn [after] in El. destruct r1; cbn in El; congruence.
      * exfalso. apply (f_equal f_error_count) in Ep. cbn [f_error_count with_errors length] in Ep. lia.
  - destruct (C [] A (fun r ms => r = Throw x)) as (ms & r & E & ->); auto; congruence.
  - destruct (C [] A (fun r ms => r = UB)) as (ms & r & E & ->); auto; congruence.
  - destruct (C [] A (fun r ms => r = OutOfFuel)) as (ms & r & E & ->); auto; congruence.
Qed.
Lemma entry_numeric D n l1 : decimal D n ->
  parse y g A p = (p, Ok l1) ->
  (Forall (fun r => n <= limit four r) l1 -> exists l2, parse y g (A ++ 47 :: D) p = (p, Ok l2)
     /\ Forall2 (fun r1 r2 => masked_by (128 - limit four r1 + n) r1 r2) l1 l2)
  /\ (Exists (fun r => limit four r < n) l1 -> exists p2, parse y g (A ++ 47 :: D) p = (p2, Ok [])
     /\ f_error_count p < f_error_count p2).
Proof.
  intros HD EA. destruct (entry_before l1 EA) as (l0 & BM & C).
  assert (trimmed (A ++ 47 :: D)) as TD.
  { destruct HD as (N & DD & _). apply trimmed_mask; [exact N|]. intros c r ->. rewrite forallb_app in DD. cbn in DD.
    unfold is_digit in DD. unfold blank. lia. }
  destruct (C D (A ++ 47 :: D) (fun r ms => exists l2, r = after (Ok l2) ms
    /\ (Forall (fun r => n <= limit four r) l0 -> ms = [] /\ Forall2 (fun r1 r2 => masked_by (128 - limit four r1 + n) r1 r2) l0 l2)
    /\ (Exists (fun r => limit four r < n) l0 -> ms <> []))) as (ms & r & E & l2 & -> & H1 & H2); [now right| |].
  { eapply wp_conseq; [apply (numeric_masks g p D n HD)|]. cbv beta. intros r ms (l2 & -> & H1 & H2). exists l2. now split. }
  rewrite E. split.
  - intros F. destruct H1 as [-> F2].
    { clear - F BM. induction BM as [|r1 r2 l l' B BM IH]; [constructor|]. inversion F; subst.
      constructor; [now rewrite <- (but_mask_limit four r1 r2 B)|now apply IH]. }
    exists l2. split; [cbn [flat map concat length after]; rewrite app_nil_r, Z.add_0_r, with_errors_self; reflexivity|].
    clear - F2 BM. revert l2 F2. induction BM as [|r1 r2 l l' B BM IH]; intros l2 F2; inversion F2; subst; constructor; [|now apply IH].
    rewrite (but_mask_limit four r1 r2 B). match goal with H : masked_by _ _ _ |- _ => destruct H as (M1 & M2 & M3 & m & M4 & M5) end.
    destruct B as (B1 & B2 & B3 & B4). split; [unfold has_from in *; congruence|]. split; [unfold has_to in *; congruence|].
    split; [unfold get_to in *; congruence|]. exists m. split; [|exact M5]. rewrite M4. symmetry. apply but_mask_set. now repeat split.
  - intros X. destruct ms as [|m0 ms].
    + exfalso. apply H2; [|reflexivity]. clear - X BM. induction BM as [|r1 r2 l l' B BM IH]; inversion X; subst.
      * constructor. now rewrite <- (but_mask_limit four r1 r2 B).
      * apply Exists_cons_tl. now apply IH.
    + eexists. split; [reflexivity|]. cbn [f_error_count with_errors length]. lia.
Qed.
(* the mask text which stands for a missing one *)
Lemma masks_same m l : effective_mask p [] four = m -> m <> [] -> forall Q,
  wp p (apply_masks g m four l) Q -> wp p (apply_masks g [] four l) Q.
Proof.
  intros E N. induction l as [|am l IH]; intros Q H; [exact H|].
  destruct H as (ms & r & HE & HQ). exists ms, r. split; [|exact HQ]. intros e c. rewrite <- HE. clear HE HQ.
  assert (forall q, (forall b, effective_mask q m b = m)) as EM by (intros q b; destruct m; [congruence|reflexivity]).
  assert (forall l' q, same_config q p -> apply_masks g [] four l' q = apply_masks g m four l' q) as G; [|apply G; repeat split].
  clear - E EM. induction l' as [|am l' IH]; intros q Hq; [reflexivity|]. cbn [apply_masks].
  unfold bind at 1 4. unfold ask. rewrite EM.
  replace (effective_mask q [] four) with m by (rewrite <- E; cbn [effective_mask]; now rewrite (sc_mask4 _ _ Hq), (sc_mask6 _ _ Hq)).
  assert (both q q (parse_mask g m (get_from am) (four && is_ipv4 (get_from am))) (parse_mask g m (get_from am) (four && is_ipv4 (get_from am))))
    as (ms & r & EE & _) by (apply both_mask; auto).
  specialize (EE (f_error q) (f_error_count q)). rewrite with_errors_self in EE. unfold bind. rewrite EE.
  destruct r as [a|x| |]; try reflexivity. rewrite IH; [reflexivity|]. destruct Hq. constructor; assumption.
Qed.
Lemma entry_default m : effective_mask p [] four = m -> m <> [] -> trimmed (A ++ 47 :: m) ->
  parse y g A p = parse y g (A ++ 47 :: m) p.
Proof.
  intros E N T. destruct entry_common as (ms0 & r0 & C).
  assert (forall Q, match r0 with
    | Ok l => wp p (apply_masks g m four l) (fun r ms => Q (after r (ms0 ++ ms)) (ms0 ++ ms))
    | Throw x => Q (Throw x) ms0 | UB => Q UB ms0 | OutOfFuel => Q OutOfFuel ms0
    end -> exists ms r, parse y g A p = (with_errors p (f_error p ++ flat ms) (f_error_count p + Z.of_nat (length ms)), r) /\ Q r ms) as C1.
  { intros Q H. apply (C [] A); [now left|]. destruct r0; auto. now apply (masks_same m). }
  assert (exists r1 ms1, forall Q : res (list addr_range) -> list str -> Prop, Q r1 ms1 -> match r0 with
    | Ok l => wp p (apply_masks g m four l) (fun r ms => Q (after r (ms0 ++ ms)) (ms0 ++ ms))
    | Throw x => Q (Throw x) ms0 | UB => Q UB ms0 | OutOfFuel => Q OutOfFuel ms0
    end) as (r1 & ms1 & K).
  { destruct r0 as [l|x| |].
    - assert (both p p (apply_masks g m four l) (apply_masks g m four l)) as (ms & r & EE & _) by (apply both_apply_masks; auto).
      exists (after r (ms0 ++ ms)), (ms0 ++ ms). intros Q H. exists ms, r. now split.
    - exists (Throw x), ms0. auto.
    - exists UB, ms0. auto.
    - exists OutOfFuel, ms0. auto. }
  destruct (C1 (fun r ms => r = r1 /\ ms = ms1)) as (ms & r & -> & -> & ->); [apply (K (fun r ms => r = r1 /\ ms = ms1)); now split|].
  destruct (C m (A ++ 47 :: m) (fun r ms => r = r1 /\ ms = ms1)) as (ms & r & -> & -> & ->); [now right|apply (K (fun r ms => r = r1 /\ ms = ms1)); now split|reflexivity].
Qed.
End Entry.
