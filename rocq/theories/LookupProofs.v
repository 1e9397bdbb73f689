(* The calls of getaddrinfo(): only their answers matter. *)
From Coq Require Import ZifyBool ZifyNat.
From Verif Require Import Base Addr Range Inet AddrText Parser SpecParser Lookups.
From Verif Require Import ParserProofs ParserProofs2 ParserProofs3 ParserProofs5.
Local Open Scope Z_scope.

(* What a resolver says to a question. *)
Definition says (g : resolver) (q : question) : gai_result :=
  g (q_node q) (q_service q) (q_numeric q) (q_socktype q) (q_protocol q).
Definition same_answers (g g' : resolver) (qs : list question) : Prop := forall q, In q qs -> says g' q = says g q.

Lemma bind_ext {A B} (m m' : M A) (f f' : A -> M B) p : m' p = m p ->
  (forall a p1, m p = (p1, Ok a) -> f' a p1 = f a p1) -> bind m' f' p = bind m f p.
Proof. unfold bind. intros -> H. destruct (m p) as [p1 [a|x| |]]; auto. Qed.
Lemma in_then {A} first (r : parser * res A) next q : In q (then_asks first r next) <->
  In q first \/ exists a p1, r = (p1, Ok a) /\ In q (next a p1).
Proof.
  unfold then_asks. rewrite in_app_iff. destruct r as [p1 [a|x| |]]; split; intros [H|H]; auto;
    try (destruct H as (b & p2 & E & I); (discriminate || (injection E as <- <-; auto))); try destruct H.
  right. eauto.
Qed.
Lemma then_ext {A} first first' (r r' : parser * res A) next next' : first' = first -> r' = r ->
  (forall a p1, r = (p1, Ok a) -> next' a p1 = next a p1) -> then_asks first' r' next' = then_asks first r next.
Proof. unfold then_asks. intros -> -> H. f_equal. destruct r as [p1 [a|x| |]]; auto. Qed.

Lemma bind_allowed {B} flag (f : bool -> M B) p : bind (allowed flag) f p = f (allow p flag) p.
Proof. reflexivity. Qed.
Lemma bind_ask {A B} (x : parser -> A) (f : A -> M B) p : bind (ask x) f p = f (x p) p.
Proof. reflexivity. Qed.

Section Dep.
Variables (y : sys) (g g' : resolver).
Local Notation same := (same_answers g g').
Lemma same_first {A} first (r : parser * res A) next : same (then_asks first r next) -> same first.
Proof. intros H q I. apply H, in_then. now left. Qed.
Lemma same_next {A} first (r : parser * res A) next a p1 : same (then_asks first r next) -> r = (p1, Ok a) -> same (next a p1).
Proof. intros H E q I. apply H, in_then. right. eauto. Qed.

Lemma dep_address_port address ps v6 p : same (asks_address_port address ps v6 p) ->
  parse_address_port y g' address ps v6 p = parse_address_port y g address ps v6 p.
Proof.
  unfold asks_address_port, parse_address_port, bind, allowed, ask. cbv zeta beta.
  destruct (negb _ && _); [reflexivity|].
  destruct (_ && allow p ALLOW_REQUIRED_ADDRESS); [reflexivity|].
  destruct (allow p ALLOW_ADDRESS_LOOKUP); [|reflexivity]. intros H.
  specialize (H _ (or_introl eq_refl)). unfold says in H. cbn [q_node q_service q_numeric q_socktype q_protocol] in H.
  rewrite H. reflexivity.
Qed.
Lemma dep_range_end text ps msg v6 p : same (asks_range_end text ps v6 p) ->
  range_end y g' text ps msg v6 p = range_end y g text ps msg v6 p.
Proof.
  unfold asks_range_end, range_end. destruct text as [|c t]; [reflexivity|]. intros H.
  apply bind_ext; [|reflexivity]. unfold parse_address_port_ignore_duplicates. apply bind_ext; [|reflexivity].
  now apply dep_address_port.
Qed.
Lemma dep_range_port l ps v6 p : same (asks_address_range_port y g l ps v6 p) ->
  parse_address_range_port y g' l ps v6 p = parse_address_range_port y g l ps v6 p
  /\ asks_address_range_port y g' l ps v6 p = asks_address_range_port y g l ps v6 p.
Proof.
  unfold asks_address_range_port, parse_address_range_port. rewrite !bind_allowed.
  destruct (if allow p ALLOW_ADDRESS_RANGE then find_char 45 l else None) as [k|]; [|intros H; split; [now apply dep_address_port|reflexivity]].
  match goal with |- context [if ?b then [] else _] => destruct b end; [split; reflexivity|]. intros H.
  pose proof (same_first _ _ _ H) as HF.
  assert (E : range_end y g' (firstn k l) ps (lit "The ""from"" of an address range must be exactly one address.") v6 p
    = range_end y g (firstn k l) ps (lit "The ""from"" of an address range must be exactly one address.") v6 p) by now apply dep_range_end.
  split.
  - apply bind_ext; [exact E|]. intros [fr|] p1 R; [|reflexivity].
    apply bind_ext; [|reflexivity]. apply dep_range_end. apply (same_next _ _ _ _ _ H R).
  - apply then_ext; [reflexivity|exact E|reflexivity].
Qed.
Lemma dep_address4 s p : same (asks_address4 y g s p) ->
  parse_address4 y g' s p = parse_address4 y g s p /\ asks_address4 y g' s p = asks_address4 y g s p.
Proof.
  unfold asks_address4, parse_address4, bind, allowed, ask.
  destruct (find_char 58 s); [|apply dep_range_port]. destruct (_ || _); [apply dep_range_port|split; reflexivity].
Qed.
Lemma dep_address6 s k p : same (asks_address6 y g s k p) ->
  parse_address6 y g' s k p = parse_address6 y g s k p /\ asks_address6 y g' s k p = asks_address6 y g s k p.
Proof.
  unfold asks_address6, parse_address6, bind, allowed, ask.
  destruct (match s with c :: _ => c =? 91 | [] => false end).
  - destruct (find_char 93 s); [|split; reflexivity]. destruct (skipn _ s); [apply dep_range_port|].
    destruct (negb _); [split; reflexivity|]. destruct (_ && _); [split; reflexivity|apply dep_range_port].
  - destruct (k =? 1); [|apply dep_range_port]. destruct (find_char 58 s); [apply dep_range_port|split; reflexivity].
Qed.
Lemma dep_address s m p : same (asks_address y g s m p) ->
  parse_address y g' s m p = parse_address y g s m p /\ asks_address y g' s m p = asks_address y g s m p.
Proof.
  assert (S6 : forall p, same (asks_address6 y g s (count_char 58 s) p) ->
    (do! l <- parse_address6 y g' s (count_char 58 s) in ret (l, false)) p = (do! l <- parse_address6 y g s (count_char 58 s) in ret (l, false)) p
    /\ asks_address6 y g' s (count_char 58 s) p = asks_address6 y g s (count_char 58 s) p).
  { intros q H. destruct (dep_address6 _ _ _ H) as [E1 E2]. split; [|exact E2]. apply bind_ext; [exact E1|reflexivity]. }
  assert (S4 : forall p, same (asks_address4 y g s p) ->
    (do! l <- parse_address4 y g' s in ret (l, true)) p = (do! l <- parse_address4 y g s in ret (l, true)) p
    /\ asks_address4 y g' s p = asks_address4 y g s p).
  { intros q H. destruct (dep_address4 _ _ H) as [E1 E2]. split; [|exact E2]. apply bind_ext; [exact E1|reflexivity]. }
  unfold asks_address, parse_address.
  set (a6 := do! l <- parse_address6 y g s (count_char 58 s) in ret (l, false)) in *.
  set (b6 := do! l <- parse_address6 y g' s (count_char 58 s) in ret (l, false)) in *.
  set (a4 := do! l <- parse_address4 y g s in ret (l, true)) in *.
  set (b4 := do! l <- parse_address4 y g' s in ret (l, true)) in *. clearbody a6 b6 a4 b4. cbv zeta.
  destruct (count_char 58 s >=? 2); [apply S6|].
  assert (SM : same match m with
      | [] => match f_default_address4 p, f_default_address6 p with [], _ :: _ => asks_address6 y g s (count_char 58 s) p | _, _ => asks_address4 y g s p end
      | c :: _ => if c =? 91 then asks_address6 y g s (count_char 58 s) p
                  else if mask_hint (c_str m) 0 >? 32 then asks_address6 y g s (count_char 58 s) p else asks_address4 y g s p end ->
     match m with
      | [] => do! x <- ask f_default_address4 in do! z <- ask f_default_address6 in match x, z with [], _ :: _ => b6 | _, _ => b4 end
      | c :: _ => if c =? 91 then b6 else if mask_hint (c_str m) 0 >? 32 then b6 else b4 end p
     = match m with
      | [] => do! x <- ask f_default_address4 in do! z <- ask f_default_address6 in match x, z with [], _ :: _ => a6 | _, _ => a4 end
      | c :: _ => if c =? 91 then a6 else if mask_hint (c_str m) 0 >? 32 then a6 else a4 end p
     /\ match m with
      | [] => match f_default_address4 p, f_default_address6 p with [], _ :: _ => asks_address6 y g' s (count_char 58 s) p | _, _ => asks_address4 y g' s p end
      | c :: _ => if c =? 91 then asks_address6 y g' s (count_char 58 s) p
                  else if mask_hint (c_str m) 0 >? 32 then asks_address6 y g' s (count_char 58 s) p else asks_address4 y g' s p end
     = match m with
      | [] => match f_default_address4 p, f_default_address6 p with [], _ :: _ => asks_address6 y g s (count_char 58 s) p | _, _ => asks_address4 y g s p end
      | c :: _ => if c =? 91 then asks_address6 y g s (count_char 58 s) p
                  else if mask_hint (c_str m) 0 >? 32 then asks_address6 y g s (count_char 58 s) p else asks_address4 y g s p end).
  { destruct m as [|c r].
    - unfold bind, ask. destruct (f_default_address4 p); [destruct (f_default_address6 p)|]; auto.
    - destruct (c =? 91); auto. destruct (_ >? _); auto. }
  destruct s as [|c0 r]; [exact SM|]. set (s := c0 :: r) in *. destruct (c0 =? 58); [exact SM|].
  destruct (_ || _); [apply S6|]. unfold bind, allowed, ask. destruct (_ && _); [|apply S4].
  destruct (find_char 58 s); [|apply S4]. destruct (match find_char 46 s with Some _ => _ | None => _ end); auto.
Qed.
Lemma dep_mask m a v4 p : same (asks_mask m a v4 p) -> parse_mask g' m a v4 p = parse_mask g m a v4 p.
Proof.
  unfold asks_mask, parse_mask. destruct m as [|c0 m]; [reflexivity|]. cbv zeta.
  destruct (mask_number (c_str (c0 :: m)) 0) as [k|]; [|reflexivity]. destruct (negb (k =? -1)); [reflexivity|].
  rewrite !bind_allowed. destruct (negb (allow p ALLOW_ADDRESS_MASK)); [reflexivity|].
  destruct (v4 && (c0 =? 91)); [reflexivity|]. destruct (negb v4 && negb (c0 =? 91)); [reflexivity|].
  destruct (negb v4 && negb (back (c0 :: m) =? 93)); [reflexivity|].
  destruct (negb v4 && _); [reflexivity|]. intros H.
  specialize (H _ (or_introl eq_refl)). unfold says in H. cbn [q_node q_service q_numeric q_socktype q_protocol] in H.
  rewrite H. reflexivity.
Qed.
Lemma dep_masks m v4 l : forall p, same (asks_masks g m v4 l p) ->
  apply_masks g' m v4 l p = apply_masks g m v4 l p /\ asks_masks g' m v4 l p = asks_masks g m v4 l p.
Proof.
  induction l as [|am l IH]; intros p H; [split; reflexivity|]. cbn [asks_masks apply_masks] in *. cbv zeta in *.
  pose proof (same_first _ _ _ H) as HF. pose proof (dep_mask _ _ _ _ HF) as E.
  pose proof (fun a p1 => same_next _ _ _ a p1 H) as HN. cbv beta in HN. split.
  - rewrite !bind_ask. apply bind_ext; [exact E|]. intros a p1 R. apply bind_ext; [|reflexivity]. apply IH. eapply HN, R.
  - apply then_ext; [reflexivity|exact E|]. intros a p1 R. apply IH. eapply HN, R.
Qed.
Lemma dep_cidr s p : same (asks_cidr y g s p) ->
  parse_cidr y g' s p = parse_cidr y g s p /\ asks_cidr y g' s p = asks_cidr y g s p.
Proof.
  unfold asks_cidr, parse_cidr. cbv zeta. rewrite !bind_allowed.
  destruct (allow p ALLOW_MASK).
  - destruct (match find_char 47 (trim_string s) with Some _ => _ | None => _ end) as [a m]. intros H.
    pose proof (same_first _ _ _ H) as HF. destruct (dep_address _ _ _ HF) as [E1 E2].
    pose proof (fun a p1 => same_next _ _ _ a p1 H) as HN. cbv beta in HN. split.
    + rewrite !bind_ask. apply bind_ext; [exact E1|]. intros [l v4] p1 R.
      apply bind_ext; [|reflexivity]. apply dep_masks. exact (HN (l, v4) p1 R).
    + apply then_ext; [exact E2|exact E1|]. intros [l v4] p1 R. apply dep_masks. exact (HN (l, v4) p1 R).
  - intros H. destruct (dep_address _ _ _ H) as [E1 E2]. split; [|exact E2]. apply bind_ext; [exact E1|reflexivity].
Qed.
Lemma dep_loop seps com nl : forall fuel s p, same (asks_loop y g fuel seps com nl s p) ->
  parse_loop y g' fuel seps com nl s p = parse_loop y g fuel seps com nl s p
  /\ asks_loop y g' fuel seps com nl s p = asks_loop y g fuel seps com nl s p.
Proof.
  induction fuel as [|k IH]; intros s p; [destruct s; split; reflexivity|]. destruct s as [|c s]; [split; reflexivity|].
  cbn [asks_loop parse_loop]. destruct (split_at seps (c :: s)) as [piece tail]. destruct piece as [|c1 piece]; [apply IH|].
  match goal with |- context [let (_, _) := ?x in _] => destruct x as [text tail'] end. intros H.
  pose proof (same_first _ _ _ H) as HF. pose proof (fun a p1 => same_next _ _ _ a p1 H) as HN. cbv beta in HN.
  destruct text as [|t0 text].
  - split.
    + apply bind_ext; [reflexivity|]. intros a p1 R. apply bind_ext; [|reflexivity]. apply IH. eapply HN, R.
    + apply then_ext; [reflexivity..|]. intros a p1 R. apply IH. eapply HN, R.
  - destruct (dep_cidr _ _ HF) as [E1 E2]. split.
    + apply bind_ext; [exact E1|]. intros a p1 R. apply bind_ext; [|reflexivity]. apply IH. eapply HN, R.
    + apply then_ext; [exact E2|exact E1|]. intros a p1 R. apply IH. eapply HN, R.
Qed.
Lemma dep_parse s p : same (asks_parse y g s p) ->
  parse y g' s p = parse y g s p /\ asks_parse y g' s p = asks_parse y g s p.
Proof.
  intros H. assert (parse_entries y g' s p = parse_entries y g s p /\ asks_parse y g' s p = asks_parse y g s p) as [E1 E2].
  { unfold asks_parse, parse_entries, bind, allowed, ask in *. destruct (separators p); [now apply dep_cidr|now apply dep_loop]. }
  split; [|exact E2]. apply bind_ext; [exact E1|reflexivity].
Qed.
End Dep.
