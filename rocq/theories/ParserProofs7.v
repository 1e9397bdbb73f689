(* One entry: how parse() reaches parse_address(), and entries which fail
   because of their port. *)
From Coq Require Import ZifyBool ZifyNat.
From Verif Require Import Base Addr Spec Range SpecRange Inet Parser SpecParser
  ParserProofs ParserProofs2 ParserProofs3 ParserProofs4 ParserProofs5 ParserProofs6.
Local Open Scope Z_scope.

(* ---------- an entry without outer blanks ---------- *)

Lemma trim_left_head s : (forall c r, s = c :: r -> ~ blank c) -> trim_left s = s.
Proof. destruct s as [|c r]; intros H; [reflexivity|]. apply trim_left_id. now apply (H c r). Qed.
Lemma trim_right s : (forall c r, s = r ++ [c] -> ~ blank c) -> rev (trim_left (rev s)) = s.
Proof.
  intros H. rewrite trim_left_head; [apply rev_involutive|]. intros c r E. apply (H c (rev r)).
  rewrite <- (rev_involutive s), E. reflexivity.
Qed.
Lemma trimmed_trim s : trimmed s -> trim_string s = s.
Proof. intros (_ & H1 & H2). unfold trim_string. rewrite (trim_left_head s H1). now apply trim_right. Qed.
Lemma trimmed_single s : trimmed s -> single_entry [] s = s.
Proof.
  intros (N & H1 & H2). destruct s as [|c t]; [congruence|].
  pose proof (single_entry_form [] [] c t [] (Forall_nil _) (H1 c t eq_refl)) as E. cbn [app] in E.
  rewrite app_nil_r in E. rewrite E; [now apply trim_right| |now left]. apply Forall_forall. intros d _. reflexivity.
Qed.
Lemma parse_single y g s p : nobody (separator p) -> nobody (starts_comment p) -> trimmed s ->
  parse y g s p = (do! l <- parse_cidr y g s in do! sort <- ask f_sort in lift (arrange sort l)) p.
Proof.
  intros N C T. apply nobody_separators in N. apply nobody_comments in C.
  unfold parse, bind at 1. rewrite entries_single, C, trimmed_single by assumption. reflexivity.
Qed.

(* ---------- masks ---------- *)

Definition split_mask (s : str) : str * str :=
  match find_char 47 s with
  | Some p => (firstn p s, skipn (p + 1) s)
  | None => (s, [])
  end.
Definition masked (y : sys) (g : resolver) (address mask : str) : M (list addr_range) :=
  do! am <- parse_address y g address mask in
  let '(addr_mask, ipv4) := am in apply_masks g mask ipv4 addr_mask.
Definition after (r : res (list addr_range)) (ms : list str) : res (list addr_range) :=
  match r, ms with
  | Ok l, _ :: _ => Ok []
  | _, _ => r
  end.
Lemma cidr_with_mask y g p0 in_ address mask Q : allow p0 ALLOW_MASK = true ->
  split_mask (trim_string in_) = (address, mask) ->
  wp p0 (masked y g address mask) (fun r ms => Q (after r ms) ms) -> wp p0 (parse_cidr y g in_) Q.
Proof.
  intros AM E0 H. unfold parse_cidr. cbv zeta. wallow. rewrite AM. unfold split_mask in E0.
  match goal with |- wp _ (let (_, _) := ?x in _) _ =>
    assert (x = (address, mask)) as -> by (destruct (find_char 47 (trim_string in_)); exact E0) end.
  destruct H as (ms & r & E & HQ). exists ms, (after r ms). split; [|exact HQ].
  intros e c. specialize (E e c). unfold masked in E. unfold bind, ask in *.
  destruct (parse_address y g address mask (with_errors p0 e c)) as [p1 r1].
  destruct r1 as [[l b]|x| |]; try (now inversion E; subst).
  destruct (apply_masks g mask b l p1) as [p2 r2]. inversion E; subst.
  destruct r as [l2|x| |]; try reflexivity.
  cbn [f_error_count with_errors ret after]. destruct ms as [|m ms]; cbn [length].
  - replace (c =? c + Z.of_nat 0) with true by lia. reflexivity.
  - replace (c =? c + Z.of_nat (S (length ms))) with false by lia. reflexivity.
Qed.
Lemma cidr_without_mask y g p0 in_ Q : allow p0 ALLOW_MASK = false ->
  wp p0 (do! am <- parse_address y g (trim_string in_) [] in ret (fst am)) Q -> wp p0 (parse_cidr y g in_) Q.
Proof. intros AM H. unfold parse_cidr. wallow. now rewrite AM. Qed.

Lemma find_char_none c s : ~ In c s -> find_char c s = None.
Proof.
  induction s as [|x s IH]; intros H; [reflexivity|]. cbn [find_char].
  replace (x =? c) with false by (symmetry; apply Z.eqb_neq; intros ->; apply H; now left).
  rewrite IH; [reflexivity|]. intros K. apply H. now right.
Qed.
Lemma find_char_first c a b : ~ In c a -> find_char c (a ++ c :: b) = Some (length a).
Proof.
  induction a as [|x a IH]; intros H; cbn [app find_char length]; [now rewrite Z.eqb_refl|].
  replace (x =? c) with false by (symmetry; apply Z.eqb_neq; intros ->; apply H; now left).
  rewrite IH; [reflexivity|]. intros K. apply H. now right.
Qed.
Lemma firstn_length_app {A} (a b : list A) : firstn (length a) (a ++ b) = a.
Proof. induction a as [|x a IH]; cbn [length firstn app]; [reflexivity|now rewrite IH]. Qed.
Lemma skipn_length_app {A} (a : list A) c b : skipn (length a + 1) (a ++ c :: b) = b.
Proof. induction a as [|x a IH]; [reflexivity|exact IH]. Qed.
Lemma split_mask_none s : ~ In 47 s -> split_mask s = (s, []).
Proof. intros H. unfold split_mask. now rewrite find_char_none. Qed.
Lemma split_mask_some a m : ~ In 47 a -> split_mask (a ++ 47 :: m) = (a, m).
Proof.
  intros H. unfold split_mask. rewrite find_char_first by assumption.
  now rewrite firstn_length_app, skipn_length_app.
Qed.

(* the number of colons *)
Lemma count_char_app c a b : count_char c (a ++ b) = count_char c a + count_char c b.
Proof. unfold count_char. rewrite filter_app, app_length. lia. Qed.
Lemma count_char_none c s : ~ In c s -> count_char c s = 0.
Proof. intros H. apply find_char_count. now apply find_char_none. Qed.
Lemma count_char_in c s : In c s -> 1 <= count_char c s.
Proof.
  intros H. apply in_split in H. destruct H as (a & b & ->). rewrite count_char_app.
  unfold count_char. cbn [filter]. rewrite Z.eqb_refl. cbn [length]. lia.
Qed.
Lemma count_char_cons c s : count_char c (c :: s) = 1 + count_char c s.
Proof. unfold count_char. cbn [filter]. rewrite Z.eqb_refl. cbn [length]. lia. Qed.

(* ---------- always an error ---------- *)

Definition fails (p0 : parser) (m : M (list addr_range)) : Prop :=
  wp p0 m (fun r ms => r = Ok [] /\ ms <> []).
Lemma fails_fail p0 msg : fails p0 (fail msg).
Proof. apply wp_fail. now split. Qed.

Section Fails.
Variables (y : sys) (g : resolver) (p0 : parser) (port_str : str).
Hypothesis Hport : forall address ipv6, fails p0 (parse_address_port y g address port_str ipv6).

Lemma range_end_fails text msg ipv6 : text <> [] ->
  wp p0 (range_end y g text port_str msg ipv6) (fun r ms => r = Ok None /\ ms <> []).
Proof.
  intros N. unfold range_end. destruct text as [|c text]; [congruence|]. wbind.
  unfold parse_address_port_ignore_duplicates. wbind. eapply wp_conseq; [apply Hport|].
  intros r ms (-> & NE). apply wp_ret. rewrite app_nil_r. apply wp_ret. rewrite app_nil_r. now split.
Qed.
Lemma range_port_fails addresses ipv6 : fails p0 (parse_address_range_port y g addresses port_str ipv6).
Proof.
  unfold parse_address_range_port. wallow.
  destruct (if allow p0 ALLOW_ADDRESS_RANGE then find_char 45 addresses else None) as [p|]; [|apply Hport].
  cbv zeta.
  match goal with |- wp _ (if ?b then _ else _) _ => destruct b eqn:E end; [apply fails_fail|].
  destruct (firstn p addresses) as [|c fr] eqn:F.
  - wbind. apply wp_ret. cbv iota beta. destruct (skipn (p + 1) addresses) as [|c to]; [discriminate|].
    wbind. eapply wp_conseq; [apply range_end_fails; discriminate|]. intros r ms (-> & NE).
    apply wp_ret. rewrite app_nil_r. now split.
  - wbind. eapply wp_conseq; [apply range_end_fails; discriminate|]. intros r ms (-> & NE).
    apply wp_ret. rewrite app_nil_r. now split.
Qed.
End Fails.

Lemma pair_fails p0 m (b : bool) : fails p0 m ->
  wp p0 (do! l <- m in ret (l, b)) (fun r ms => r = Ok ([], b) /\ ms <> []).
Proof.
  intros H. wbind. eapply wp_conseq; [exact H|]. intros r ms (-> & NE). apply wp_ret. rewrite app_nil_r. now split.
Qed.

Definition addr_fails (y : sys) (g : resolver) (p0 : parser) (s mask : str) : Prop :=
  wp p0 (parse_address y g s mask) (fun r ms => exists b, r = Ok ([], b) /\ ms <> []).
Lemma cidr_fails y g p0 in_ address mask :
  (allow p0 ALLOW_MASK = true /\ split_mask (trim_string in_) = (address, mask)
   \/ allow p0 ALLOW_MASK = false /\ trim_string in_ = address /\ mask = []) ->
  addr_fails y g p0 address mask -> fails p0 (parse_cidr y g in_).
Proof.
  intros [[AM E]|(AM & E & ->)] H.
  - apply (cidr_with_mask y g p0 in_ address mask); auto. unfold masked. wbind. eapply wp_conseq; [exact H|].
    intros r ms (b & -> & NE). cbn [apply_masks]. apply wp_ret. rewrite app_nil_r. split; [|exact NE].
    destruct ms; [congruence|reflexivity].
  - apply cidr_without_mask; auto. rewrite E. wbind. eapply wp_conseq; [exact H|].
    intros r ms (b & -> & NE). apply wp_ret. rewrite app_nil_r. now split.
Qed.

(* a port where none is allowed *)
Section NoPort.
Variables (y : sys) (g : resolver) (p0 : parser).
Hypothesis Hl : allow p0 ALLOW_ADDRESS_LOOKUP = false.
Hypothesis Hp : allow p0 ALLOW_PORT = false.
Hypothesis Hr : allow p0 ALLOW_REQUIRED_PORT = false.

Lemma address_port_no_port address port_str ipv6 : port_str <> [] ->
  fails p0 (parse_address_port y g address port_str ipv6).
Proof.
  intros N. unfold parse_address_port. destruct port_str as [|c port]; [congruence|]. cbv zeta.
  wallow. rewrite Hr. cbn [negb andb]. wask. wallow.
  match goal with |- wp _ (if ?b then _ else _) _ => destruct b end; [apply fails_fail|].
  wask. wallow. rewrite Hl. wallow. rewrite Hp. cbn [negb andb orb].
  destruct (convert_string _ _); [|apply fails_fail]. destruct (_ || _); apply fails_fail.
Qed.

(* 1.2.3.4:80, and anything else with one colon *)
Lemma address_no_port4 a port mask : a <> [] -> hd 0 a <> 91 -> ~ In 58 a -> ~ In 58 port -> port <> [] ->
  addr_fails y g p0 (a ++ 58 :: port) mask.
Proof.
  intros NE H91 H58 H58' NP. unfold addr_fails, parse_address. cbv zeta.
  assert (count_char 58 (a ++ 58 :: port) = 1) as C.
  { rewrite count_char_app, count_char_cons, !count_char_none by assumption. lia. }
  rewrite C. cbn [Z.geb Z.compare Pos.compare Pos.compare_cont].
  assert (forall address ipv6, fails p0 (parse_address_port y g address port ipv6)) as K.
  { intros. now apply address_port_no_port. }
  assert (wp p0 (do! l <- parse_address6 y g (a ++ 58 :: port) 1 in ret (l, false))
    (fun r ms => exists b, r = Ok ([], b) /\ ms <> [])) as S.
  { eapply wp_conseq; [apply pair_fails|intros r ms H; exists false; exact H].
    unfold parse_address6. wallow. wallow. destruct a as [|c a]; [congruence|]. cbn [app].
    cbn [hd] in H91. replace (c =? 91) with false by lia. cbn [Z.eqb Pos.eqb].
    change (c :: a ++ 58 :: port) with ((c :: a) ++ 58 :: port). rewrite find_char_first by assumption.
    rewrite skipn_length_app. now apply range_port_fails. }
  assert (wp p0 (do! l <- parse_address4 y g (a ++ 58 :: port) in ret (l, true))
    (fun r ms => exists b, r = Ok ([], b) /\ ms <> [])) as F.
  { eapply wp_conseq; [apply pair_fails|intros r ms H; exists true; exact H].
    unfold parse_address4. wallow. wallow. rewrite find_char_first, Hp, Hr by assumption. apply fails_fail. }
  destruct a as [|c a]; [congruence|]. cbn [app] in *. cbn [hd] in H91.
  replace (c =? 58) with false by (symmetry; apply Z.eqb_neq; intros ->; apply H58; now left).
  replace (c =? 91) with false by lia. cbn [orb].
  destruct (find_char 93 (c :: a ++ 58 :: port)); [exact S|].
  wallow. wallow. rewrite Hp, Hr. cbn [negb andb].
  change (c :: a ++ 58 :: port) with ((c :: a) ++ 58 :: port) at 1. rewrite find_char_first by assumption.
  destruct (match find_char 46 (c :: a ++ 58 :: port) with Some d => (length (c :: a) <? d)%nat | None => true end);
    [exact S|exact F].
Qed.

(* [::1]:80 *)
Lemma address_no_port6 a port mask : ~ In 93 a ->
  addr_fails y g p0 (91 :: a ++ 93 :: 58 :: port) mask.
Proof.
  intros H93. unfold addr_fails, parse_address. cbv zeta. set (s := 91 :: a ++ 93 :: 58 :: port).
  assert (forall n, wp p0 (do! l <- parse_address6 y g s n in ret (l, false))
    (fun r ms => exists b, r = Ok ([], b) /\ ms <> [])) as S.
  { intros n. eapply wp_conseq; [apply pair_fails|intros r ms H; exists false; exact H].
    unfold parse_address6. wallow. wallow. unfold s at 1. cbn [Z.eqb Pos.eqb].
    assert (find_char 93 s = Some (length (91 :: a))) as ->.
    { apply (find_char_first 93 (91 :: a)). intros [H|H]; [discriminate|auto]. }
    assert (skipn (length (91 :: a) + 1) s = 58 :: port) as -> by apply (skipn_length_app (91 :: a)).
    cbn [Z.eqb Pos.eqb negb]. rewrite Hp, Hr. apply fails_fail. }
  destruct (count_char 58 s >=? 2); [apply S|]. unfold s at 1. cbn [Z.eqb Pos.eqb orb]. apply S.
Qed.
End NoPort.

(* no port where one is required *)
Section PortRequired.
Variables (y : sys) (g : resolver) (p0 : parser).
Hypothesis Hr : allow p0 ALLOW_REQUIRED_PORT = true.

Lemma address_port_required address ipv6 : fails p0 (parse_address_port y g address [] ipv6).
Proof. unfold parse_address_port. cbv zeta. wallow. rewrite Hr. apply fails_fail. Qed.

Lemma address_required a mask :
  ~ In 58 a \/ (2 <= count_char 58 a /\ hd 0 a <> 91) \/ (exists x, a = 91 :: x ++ [93] /\ ~ In 93 x) ->
  addr_fails y g p0 a mask.
Proof.
  intros H. unfold addr_fails, parse_address. cbv zeta.
  assert (forall addresses ipv6, fails p0 (parse_address_range_port y g addresses [] ipv6)) as K.
  { intros. apply range_port_fails. intros. apply address_port_required. }
  assert (wp p0 (do! l <- parse_address6 y g a (count_char 58 a) in ret (l, false))
    (fun r ms => exists b, r = Ok ([], b) /\ ms <> [])) as S.
  { eapply wp_conseq; [apply pair_fails|intros r ms X; exists false; exact X].
    unfold parse_address6. wallow. wallow.
    destruct H as [H|[[H1 H2]|(x & -> & H)]].
    - assert (forall k, skipn k a <> [] -> forall c r, skipn k a = c :: r -> negb (c =? 58) = true) as NC.
      { intros k _ c r E. apply negb_true_iff, Z.eqb_neq. intros ->. apply H. rewrite <- (firstn_skipn k a), E.
        apply in_elt. }
      destruct (match a with c :: _ => c =? 91 | [] => false end).
      + destruct (find_char 93 a) as [p|]; [|apply fails_fail].
        destruct (skipn (p + 1) a) as [|c r] eqn:E; [apply K|].
        rewrite (NC (p + 1)%nat ltac:(congruence) c r E). apply fails_fail.
      + rewrite count_char_none by assumption. apply K.
    - replace (match a with c :: _ => c =? 91 | [] => false end) with false
        by (destruct a; [reflexivity|cbn [hd] in H2; lia]).
      replace (count_char 58 a =? 1) with false by lia. apply K.
    - cbn [app Z.eqb Pos.eqb]. change (91 :: x ++ [93]) with ((91 :: x) ++ 93 :: []).
      rewrite (find_char_first 93 (91 :: x)) by (intros [E|E]; [discriminate|auto]).
      rewrite skipn_length_app. apply K. }
  destruct (count_char 58 a >=? 2) eqn:C2; [exact S|].
  destruct H as [H|[[H1 H2]|(x & -> & H)]]; [|lia|cbn [Z.eqb Pos.eqb orb]; exact S].
  assert (wp p0 (do! l <- parse_address4 y g a in ret (l, true))
    (fun r ms => exists b, r = Ok ([], b) /\ ms <> [])) as F.
  { eapply wp_conseq; [apply pair_fails|intros r ms X; exists true; exact X].
    unfold parse_address4. wallow. wallow. rewrite find_char_none by assumption. apply K. }
  destruct a as [|c a].
  - destruct mask as [|m mask].
    + wask. wask. destruct (f_default_address4 p0), (f_default_address6 p0); auto.
    + destruct (m =? 91); [exact S|]. destruct (_ >? 32); auto.
  - replace (c =? 58) with false by (symmetry; apply Z.eqb_neq; intros ->; apply H; now left).
    match goal with |- wp _ (if ?b then _ else _) _ => destruct b end; [exact S|].
    wallow. wallow. rewrite Hr. cbn [negb]. rewrite andb_false_r. exact F.
Qed.
End PortRequired.

(* the parsed entry *)
Lemma single_fails y g s p : nobody (separator p) -> nobody (starts_comment p) -> trimmed s ->
  fails p (parse_cidr y g s) ->
  exists p', parse y g s p = (p', Ok []) /\ f_error_count p < f_error_count p'.
Proof.
  intros N C T H. destruct (wp_run p _ _ p H (same_config_refl p)) as (ms & r & E & -> & NE).
  rewrite parse_single by assumption. unfold bind at 1. rewrite E. unfold bind, ask, lift.
  eexists. split; [unfold arrange|].
  - cbn. destruct (negb _); [destruct (negb _)|destruct (negb _)]; cbn [rbind merge_all];
      (destruct (negb _); [reflexivity|]; destruct (negb _); reflexivity) || reflexivity.
  - cbn. destruct ms; [congruence|]. cbn [length]. lia.
Qed.
