(* The exceptions of the functions below parse(): whatever the settings and
   the answers of the resolver, only addr_invalid_argument. *)
From Coq Require Import ZifyBool ZifyNat.
From Verif Require Import Base Addr Spec Range SpecRange Inet Parser SpecParser SpecParser2
  AddrProofs3 ParserProofs ParserProofs2 ParserProofs3 ParserProofs4 ParserProofs5 ParserProofs6 ParserProofs7 ParserProofs8.
Local Open Scope Z_scope.

Definition calm {A} (r : res A) : Prop := forall x, r = Throw x -> x = E_invalid_argument.
Lemma calm_ok {A} (a : A) : calm (Ok a). Proof. intros x H. discriminate. Qed.
Lemma calm_ub {A} : calm (@UB A). Proof. intros x H. discriminate. Qed.
Lemma calm_fuel {A} : calm (@OutOfFuel A). Proof. intros x H. discriminate. Qed.
#[local] Hint Resolve calm_ok calm_ub calm_fuel : core.

Section Calm.
Variables (y : sys) (g : resolver) (p0 : parser).
Definition quiet {A} (m : M A) : Prop := wp p0 m (fun r _ => calm r).
Lemma quiet_bind {A B} (m : M A) (f : A -> M B) : quiet m -> (forall a, quiet (f a)) -> quiet (bind m f).
Proof.
  intros H1 H2. apply wp_bind. eapply wp_conseq; [exact H1|]. cbv beta. intros r ms C.
  destruct r as [a|x| |]; [|now (intros z E; injection E as <-; apply C)|auto|auto]. eapply wp_conseq; [apply H2|]. auto.
Qed.
Lemma quiet_ret {A} (a : A) : quiet (ret a). Proof. apply wp_ret. auto. Qed.
Lemma quiet_lift {A} (r : res A) : calm r -> quiet (lift r). Proof. intros H. apply wp_lift. exact H. Qed.
Lemma quiet_emit msg : quiet (emit msg). Proof. apply wp_emit. auto. Qed.
Lemma quiet_ask {A} (f : parser -> A) : (forall e c, f (with_errors p0 e c) = f p0) -> quiet (ask f).
Proof. intros H. apply wp_ask; auto. Qed.
Lemma quiet_allowed flag : quiet (allowed flag). Proof. apply wp_allowed. auto. Qed.
Lemma quiet_fail {A} msg : quiet (@fail A msg). Proof. apply wp_fail. auto. Qed.

Ltac qstep := apply quiet_bind; [first [apply quiet_allowed | apply quiet_emit | apply quiet_ask; reflexivity]|intros ?].

Lemma bind_calm {A B} (r : res A) (f : A -> res B) : calm r -> (forall a, calm (f a)) -> calm (rbind r f).
Proof. intros C F. destruct r as [a|x| |]; cbn [rbind]; auto. intros z E. injection E as <-. now apply C. Qed.
Lemma on_calm (r : addr * res unit) : calm (snd r) -> calm (on r).
Proof. intros C. unfold on. apply bind_calm; auto. Qed.
Lemma set_protocol_calm a n : calm (snd (set_protocol a n)).
Proof.
  unfold set_protocol. repeat match goal with |- context [if ?b then _ else _] => destruct b end; cbn [snd]; auto.
  intros x E. now injection E as <-.
Qed.
Lemma set_ipv4_calm a x : calm (snd (set_ipv4 a x)).
Proof. unfold set_ipv4. destruct (negb _); cbn [snd]; auto. intros z E. now injection E as <-. Qed.
Lemma set_ipv6_calm a x : calm (snd (set_ipv6 a x)).
Proof. unfold set_ipv6. destruct (negb _); cbn [snd]; auto. intros z E. now injection E as <-. Qed.
Lemma finish_calm a host proto dp :
  calm (let a := set_hostname a host in
   let! a := if negb (proto =? -1) then on (set_protocol a proto) else Ok a in
   Ok (set_from range_new (set_port_defined a dp))).
Proof. cbv zeta. apply bind_calm; [|auto]. destruct (negb _); [apply on_calm, set_protocol_calm|auto]. Qed.
Lemma single_quiet (r : res addr_range) : calm r -> quiet (do! a <- lift r in ret [a]).
Proof. intros C. apply quiet_bind; [now apply quiet_lift|]. intros ?. apply quiet_ret. Qed.
Lemma numeric_quiet address port dp : quiet (numeric_address address port dp).
Proof.
  unfold numeric_address. qstep. destruct (inet_pton4 _) as [q|]; [|destruct (inet_pton6 _) as [q|]; [|apply quiet_fail]].
  - apply single_quiet. apply bind_calm; [apply on_calm, set_ipv4_calm|intros ?; apply finish_calm].
  - apply single_quiet. apply bind_calm; [apply on_calm, set_ipv6_calm|intros ?; apply finish_calm].
Qed.
Lemma use_addrinfo_quiet host dp : forall l first, quiet (use_addrinfo l first host dp).
Proof.
  induction l as [|ai l IH]; intros first; cbn [use_addrinfo]; [apply quiet_ret|].
  destruct (ai_family ai =? AF_INET); [|destruct (ai_family ai =? AF_INET6)].
  - destruct (negb _); [qstep; apply IH|]. apply quiet_bind.
    + apply quiet_lift. unfold range4. apply bind_calm; [apply on_calm, set_ipv4_calm|intros ?; apply finish_calm].
    + intros r. apply quiet_bind; [apply IH|]. intros ?. apply quiet_ret.
  - destruct (negb _); [qstep; apply IH|]. apply quiet_bind.
    + apply quiet_lift. unfold range6. apply bind_calm; [apply on_calm, set_ipv6_calm|intros ?; apply finish_calm].
    + intros r. apply quiet_bind; [apply IH|]. intros ?. apply quiet_ret.
  - destruct first; [qstep|]; apply IH.
Qed.
Lemma address_port_quiet address port_str ipv6 : quiet (parse_address_port y g address port_str ipv6).
Proof.
  unfold parse_address_port. qstep. destruct (negb _ && _); [apply quiet_fail|]. qstep. qstep.
  destruct (_ && _); [apply quiet_fail|]. qstep. qstep.
  match goal with |- quiet (if ?b then _ else _) => destruct b end.
  { qstep. match goal with |- context [g ?a ?b ?c ?d ?e] => destruct (g a b c d e) as [t|l] end; [apply quiet_fail|].
    apply use_addrinfo_quiet. }
  qstep.
  destruct (_ || _); [|apply numeric_quiet]. destruct (convert_string _ _) as [port|]; [|apply quiet_fail].
  destruct (_ || _); [apply quiet_fail|]. destruct (_ && _); [apply quiet_fail|apply numeric_quiet].
Qed.
Lemma drop_duplicates_calm first : forall l, calm (drop_duplicates first l).
Proof.
  induction l as [|r l IH]; cbn [drop_duplicates]; [auto|]. apply bind_calm; [apply on_calm, set_protocol_calm|].
  intros b. destruct (ne_ first b); auto.
Qed.
Lemma range_end_quiet text port_str msg ipv6 : quiet (range_end y g text port_str msg ipv6).
Proof.
  unfold range_end. destruct text as [|c text]; [apply quiet_ret|]. apply quiet_bind.
  - unfold parse_address_port_ignore_duplicates. apply quiet_bind; [apply address_port_quiet|]. intros [|r l]; [apply quiet_ret|].
    apply quiet_bind; [apply quiet_lift, drop_duplicates_calm|]. intros ?. apply quiet_ret.
  - intros [|r [|r' l]]; [apply quiet_ret|apply quiet_ret|]. qstep. apply quiet_ret.
Qed.
Lemma range_port_quiet addresses port_str ipv6 : quiet (parse_address_range_port y g addresses port_str ipv6).
Proof.
  unfold parse_address_range_port. qstep.
  destruct (if a then find_char 45 addresses else None) as [p|]; [|apply address_port_quiet].
  match goal with |- quiet (if ?b then _ else _) => destruct b end; [apply quiet_fail|].
  apply quiet_bind; [apply range_end_quiet|]. intros [fr|]; [|apply quiet_ret].
  apply quiet_bind; [apply range_end_quiet|]. intros [tr|]; [|apply quiet_ret].
  destruct fr as [f|], (option_map swap_from_to tr) as [t|]; [|apply quiet_ret|apply quiet_ret|apply quiet_lift; auto].
  qstep. destruct (_ || _); apply quiet_ret.
Qed.
Lemma address4_quiet in_ : quiet (parse_address4 y g in_).
Proof.
  unfold parse_address4. qstep. qstep. destruct (find_char 58 in_); [|apply range_port_quiet].
  destruct (_ || _); [apply range_port_quiet|apply quiet_fail].
Qed.
Lemma count_found c s : count_char c s = 1 -> find_char c s <> None.
Proof. intros H E. apply find_char_count in E. unfold count_char in *. lia. Qed.
Lemma address6_quiet in_ : quiet (parse_address6 y g in_ (count_char 58 in_)).
Proof.
  unfold parse_address6. qstep. qstep. destruct (match in_ with c :: _ => c =? 91 | [] => false end).
  - destruct (find_char 93 in_); [|apply quiet_fail]. destruct (skipn _ in_); [apply range_port_quiet|].
    destruct (negb _); [apply quiet_fail|]. destruct (_ && _); [apply quiet_fail|apply range_port_quiet].
  - destruct (count_char 58 in_ =? 1) eqn:E; [|apply range_port_quiet].
    destruct (find_char 58 in_) eqn:F; [apply range_port_quiet|]. now apply count_found in F; [|lia].
Qed.
Lemma address_quiet in_ mask : quiet (parse_address y g in_ mask).
Proof.
  unfold parse_address.
  assert (quiet (do! l <- parse_address6 y g in_ (count_char 58 in_) in ret (l, false))) as S6.
  { apply quiet_bind; [apply address6_quiet|]. intros l. apply quiet_ret. }
  assert (quiet (do! l <- parse_address4 y g in_ in ret (l, true))) as S4.
  { apply quiet_bind; [apply address4_quiet|]. intros l. apply quiet_ret. }
  destruct (_ >=? 2); [exact S6|].
  destruct in_ as [|c0 in_]; [|destruct (c0 =? 58)].
  1, 2: destruct mask as [|c mask];
    [qstep; qstep; repeat match goal with |- quiet (match ?x with _ => _ end) => destruct x end; auto
    |destruct (c =? 91); [exact S6|]; destruct (_ >? 32); auto].
  destruct (_ || _); [exact S6|]. qstep. qstep. destruct (_ && _); [|exact S4].
  destruct (find_char 58 _); [|exact S4].
  match goal with |- quiet (if ?b then _ else _) => destruct b end; auto.
Qed.
Lemma mask_quiet mask cidr ipv4 : quiet (parse_mask g mask cidr ipv4).
Proof.
  unfold parse_mask. destruct mask as [|c0 mask]; [apply quiet_ret|].
  destruct (mask_number _ 0) as [n|]; [|qstep; apply quiet_ret].
  destruct (negb (n =? -1)).
  { destruct (_ && _); [qstep; apply quiet_ret|]. destruct (_ && _); [qstep; apply quiet_ret|].
    destruct (mask_bits_loop _ _ _); [apply quiet_ret|apply quiet_lift; auto]. }
  qstep. destruct (negb a); [qstep; apply quiet_ret|].
  destruct (_ && _); [qstep; apply quiet_ret|]. destruct (_ && _); [qstep; apply quiet_ret|].
  destruct (_ && _); [qstep; apply quiet_ret|]. destruct (_ && _); [apply quiet_ret|].
  match goal with |- context [g ?a ?b ?c ?d ?e] => destruct (g a b c d e) as [t|[|ai l]] end;
    [qstep; apply quiet_ret|apply quiet_lift; auto|].
  destruct ipv4; (destruct (negb _); [qstep; apply quiet_ret|]); (destruct (negb _); [qstep|]; apply quiet_ret).
Qed.
Lemma masks_quiet mask ipv4 l : quiet (apply_masks g mask ipv4 l).
Proof.
  induction l as [|am l IH]; cbn [apply_masks]; [apply quiet_ret|]. qstep.
  apply quiet_bind; [apply mask_quiet|]. intros ?. apply quiet_bind; [apply IH|]. intros ?. apply quiet_ret.
Qed.
Lemma cidr_quiet s : quiet (parse_cidr y g s).
Proof.
  destruct (allow p0 ALLOW_MASK) eqn:AM.
  - destruct (split_mask (trim_string s)) as [address mask] eqn:E.
    apply (cidr_with_mask y g p0 s address mask _ AM E). unfold masked.
    assert (quiet (do! am <- parse_address y g address mask in
                   let '(addr_mask, ipv4) := am in apply_masks g mask ipv4 addr_mask)) as Q.
    { apply quiet_bind; [apply address_quiet|]. intros [l b]. apply masks_quiet. }
    eapply wp_conseq; [exact Q|]. intros r ms C x H. destruct r as [l|e| |], ms; cbn [after] in H; try discriminate; apply (C x); congruence.
  - apply (cidr_without_mask y g p0 s _ AM). apply quiet_bind; [apply address_quiet|]. intros ?. apply quiet_ret.
Qed.
Lemma loop_quiet seps comments newlines : forall fuel rest, quiet (parse_loop y g fuel seps comments newlines rest).
Proof.
  induction fuel as [|k IH]; intros rest; cbn [parse_loop]; (destruct rest as [|c rest]; [apply quiet_ret|]); [apply quiet_lift; auto|].
  destruct (split_at seps (c :: rest)) as [piece tail]. destruct piece as [|c1 piece]; [apply IH|].
  match goal with |- quiet (let (_, _) := ?x in _) => destruct x as [text tail'] end.
  apply quiet_bind; [destruct text; [apply quiet_ret|apply cidr_quiet]|]. intros ?.
  apply quiet_bind; [apply IH|]. intros ?. apply quiet_ret.
Qed.
Lemma entries_quiet s : quiet (parse_entries y g s).
Proof.
  unfold parse_entries. qstep. qstep. destruct a; [apply cidr_quiet|]. qstep. apply loop_quiet.
Qed.
End Calm.
Lemma entries_throw y g s p p' x : parse_entries y g s p = (p', Throw x) -> x = E_invalid_argument.
Proof.
  intros E. destruct (wp_run p _ _ p (entries_quiet y g p s) (same_config_refl p)) as (ms & r & E' & C).
  apply C. congruence.
Qed.
