(* Proofs for C130: parse() of two parsers at once. *)
From Coq Require Import ZifyBool ZifyNat.
From Verif Require Import Base Addr Range Inet Parser SpecSettings.
From Verif Require ParserProofs ParserProofs2.
Import ParserProofs ParserProofs2.
Local Open Scope Z_scope.

Definition log (p : parser) (t : str) (n : Z) : parser := with_errors p (f_error p ++ t) (f_error_count p + n).

(* What is used of same_settings by one entry. *)
Definition entry_flags : list Z :=
  [ALLOW_REQUIRED_ADDRESS; ALLOW_ADDRESS_LOOKUP; ALLOW_ADDRESS_RANGE; ALLOW_PORT; ALLOW_REQUIRED_PORT; ALLOW_MASK; ALLOW_ADDRESS_MASK].
Record sim (p q : parser) : Prop := {
  sim_allow : forall f, In f entry_flags -> allow p f = allow q f;
  sim_sort : f_sort p = f_sort q;
  sim_a4 : f_default_address4 p = f_default_address4 q;
  sim_a6 : f_default_address6 p = f_default_address6 q;
  sim_proto : p_protocol p = p_protocol q;
  sim_port : allow p ALLOW_REQUIRED_PORT = false -> f_default_port p = f_default_port q;
  sim_mask : allow p ALLOW_MASK = true -> forall m b, effective_mask p m b = effective_mask q m b
}.
Lemma sim_log p q t n t' n' : sim p q -> sim (log p t n) (log q t' n').
Proof. intros [A B C D E F G]. constructor; auto. Qed.
Lemma log_nil p : log p [] 0 = p.
Proof. destruct p. unfold log, with_errors. cbn. now rewrite app_nil_r, Z.add_0_r. Qed.
Lemma log_log p t n t' n' : log (log p t n) t' n' = log p (t ++ t') (n + n').
Proof. unfold log, with_errors. cbn. now rewrite <- app_assoc, Z.add_assoc. Qed.

Definition rel {A} (R : parser -> parser -> Prop) (m : M A) : Prop := forall p q, R p q -> sim p q ->
  exists t n r, m p = (log p t n, r) /\ m q = (log q t n, r) /\ 0 <= n.
Definition any (p q : parser) : Prop := True.
Definition masks (p q : parser) : Prop := allow p ALLOW_MASK = true.
Definition stable (R : parser -> parser -> Prop) : Prop := forall p q t n t' n', R p q -> R (log p t n) (log q t' n').
Lemma stable_any : stable any. Proof. easy. Qed.
Lemma stable_masks : stable masks. Proof. intros p q t n t' n' H. exact H. Qed.

Section Rules.
Context (R : parser -> parser -> Prop) (ST : stable R).
Lemma rel_ret {A} (a : A) : rel R (ret a).
Proof. intros p q _ _. exists [], 0, (Ok a). rewrite !log_nil. repeat split; lia. Qed.
Lemma rel_lift {A} (r : res A) : rel R (lift r).
Proof. intros p q _ _. exists [], 0, r. rewrite !log_nil. repeat split; lia. Qed.
Lemma rel_emit s : rel R (emit s).
Proof. intros p q _ _. exists (s ++ [10]), 1, (Ok tt). repeat split; lia. Qed.
Lemma rel_bind {A B} (m : M A) (f : A -> M B) : rel R m -> (forall a, rel R (f a)) -> rel R (bind m f).
Proof.
  intros Hm Hf p q HR S. destruct (Hm p q HR S) as (t & n & r & E1 & E2 & N). unfold bind. rewrite E1, E2.
  destruct r as [a|e| |]; [|exists t, n; eexists; repeat split; auto..].
  destruct (Hf a (log p t n) (log q t n) (ST _ _ _ _ _ _ HR) (sim_log _ _ _ _ _ _ S)) as (t' & n' & r & X1 & X2 & N').
  exists (t ++ t'), (n + n'), r. rewrite X1, X2, !log_log. repeat split; lia.
Qed.
Lemma rel_fail {A} s : rel R (fail s : M (list A)).
Proof. apply rel_bind; [apply rel_emit|intros; apply rel_ret]. Qed.
Lemma rel_ask {A} (f : parser -> A) : (forall p q, R p q -> sim p q -> f p = f q) -> rel R (ask f).
Proof.
  intros H p q HR S. exists [], 0, (Ok (f p)). rewrite !log_nil. unfold ask. rewrite <- (H p q HR S). repeat split; lia.
Qed.
Lemma rel_allowed flag : In flag entry_flags -> rel R (allowed flag).
Proof. intros I. apply rel_ask. intros p q _ S. exact (sim_allow _ _ S _ I). Qed.
Lemma rel_weaken {A} (m : M A) : rel any m -> rel R m.
Proof. intros H p q _ S. exact (H p q I S). Qed.
End Rules.

Ltac look := first [apply stable_any | apply stable_masks | cbn; tauto].
Ltac step :=
  match goal with
  | |- rel _ (bind _ _) => apply rel_bind; [look| |intros]
  | |- rel _ (ret _) => apply rel_ret
  | |- rel _ (lift _) => apply rel_lift
  | |- rel _ (emit _) => apply rel_emit
  | |- rel _ (fail _) => apply rel_fail; look
  | |- rel _ (allowed _) => apply rel_allowed; look
  | |- rel _ (ask f_sort) => apply rel_ask; intros ? ? _ S; exact (sim_sort _ _ S)
  | |- rel _ (ask f_default_address4) => apply rel_ask; intros ? ? _ S; exact (sim_a4 _ _ S)
  | |- rel _ (ask f_default_address6) => apply rel_ask; intros ? ? _ S; exact (sim_a6 _ _ S)
  | |- rel _ (ask p_protocol) => apply rel_ask; intros ? ? _ S; exact (sim_proto _ _ S)
  | |- rel _ (if ?b then _ else _) => destruct b
  | |- rel _ (match ?x with _ => _ end) => destruct x
  end.
Ltac steps := repeat (first [assumption | step]).

Lemma rel_use l : forall first host d, rel any (use_addrinfo l first host d).
Proof. induction l as [|ai l IH]; intros first host d; cbn [use_addrinfo]; steps; apply IH. Qed.
Lemma rel_numeric a port d : rel any (numeric_address a port d).
Proof. unfold numeric_address. steps. Qed.
Lemma rel_default ipv6 : rel any (ask (fun p => default_address p ipv6)).
Proof. apply rel_ask. intros p q _ S. unfold default_address. now rewrite (sim_a4 _ _ S), (sim_a6 _ _ S). Qed.


Definition no_port (p q : parser) : Prop := allow p ALLOW_REQUIRED_PORT = false.
Lemma stable_no_port : stable no_port. Proof. intros p q t n t' n' H. exact H. Qed.
Lemma rel_allowed_bind {A} flag (k : bool -> M A) : In flag entry_flags ->
  rel (fun p _ => allow p flag = true) (k true) -> rel (fun p _ => allow p flag = false) (k false) ->
  rel any (bind (allowed flag) k).
Proof.
  intros I H1 H2 p q _ S. unfold bind, allowed, ask. rewrite <- (sim_allow _ _ S _ I).
  destruct (allow p flag) eqn:E; [apply H1|apply H2]; auto.
Qed.
Ltac rule H := apply rel_weaken; apply H.

Lemma rel_port y g a port ipv6 : rel any (parse_address_port y g a port ipv6).
Proof.
  unfold parse_address_port. apply rel_allowed_bind; [look| |]; fold no_port.
  - cbv beta iota zeta. destruct port as [|c port]; cbn [negb andb].
    + apply rel_fail. intros p q t n t' n' H. exact H.
    + apply rel_weaken.
      assert (C : forall (B C : Type) (f : parser -> C) (m : M B), rel any m -> rel any (bind (ask f) (fun _ => m))).
      { intros B C f m H p q HR S. exact (H p q HR S). }
      apply C. steps; try apply rel_default; try apply rel_use; try apply rel_numeric.
  - cbv beta iota zeta. rewrite andb_false_r.
    apply rel_bind; [exact stable_no_port| |intros d; apply rel_weaken].
    + apply rel_ask. intros p q H S. exact (sim_port _ _ S H).
    + steps; try apply rel_default; try apply rel_use; try apply rel_numeric.
Qed.
Lemma rel_port_ignore y g a port ipv6 : rel any (parse_address_port_ignore_duplicates y g a port ipv6).
Proof. unfold parse_address_port_ignore_duplicates. apply rel_bind; [look|apply rel_port|intros]. steps. Qed.
Lemma rel_end y g text port msg ipv6 : rel any (range_end y g text port msg ipv6).
Proof. unfold range_end. destruct text; [steps|]. apply rel_bind; [look|apply rel_port_ignore|intros]. steps. Qed.
Lemma rel_range y g a port ipv6 : rel any (parse_address_range_port y g a port ipv6).
Proof.
  unfold parse_address_range_port. step; [step|]. destruct (if a0 then _ else None) as [i|]; [|apply rel_port].
  cbv zeta. step; [step|]. apply rel_bind; [look|apply rel_end|intros fr]. destruct fr; [|step].
  apply rel_bind; [look|apply rel_end|intros tr]. steps.
Qed.
Lemma rel_address4 y g in_ : rel any (parse_address4 y g in_).
Proof. unfold parse_address4. steps; apply rel_range. Qed.
Lemma rel_address6 y g in_ colons : rel any (parse_address6 y g in_ colons).
Proof. unfold parse_address6. cbv zeta. steps; apply rel_range. Qed.
Lemma rel_address y g in_ mask : rel any (parse_address y g in_ mask).
Proof.
  unfold parse_address. cbv zeta.
  assert (S6 : rel any (do! l <- parse_address6 y g in_ (count_char 58 in_) in ret (l, false)))
    by (apply rel_bind; [look|apply rel_address6|intros; step]).
  assert (S4 : rel any (do! l <- parse_address4 y g in_ in ret (l, true)))
    by (apply rel_bind; [look|apply rel_address4|intros; step]).
  set (x6 := bind (parse_address6 _ _ _ _) _) in *. set (x4 := bind (parse_address4 _ _ _) _) in *. clearbody x6 x4.
  steps.
Qed.
Lemma rel_mask g mask cidr ipv4 : rel any (parse_mask g mask cidr ipv4).
Proof. unfold parse_mask. cbv zeta. steps. Qed.
Lemma rel_masks g mask ipv4 l : rel masks (apply_masks g mask ipv4 l).
Proof.
  induction l as [|r l IH]; cbn [apply_masks]; [step|]. apply rel_bind; [look| |intros m].
  - apply rel_ask. intros p q H S. exact (sim_mask _ _ S H _ _).
  - apply rel_bind; [look|apply rel_weaken, rel_mask|intros a]. apply rel_bind; [look|exact IH|intros; step].
Qed.
Lemma bind_eq {A B} (m : M A) (f : A -> M B) p p1 r : m p = (p1, r) ->
  bind m f p = match r with Ok a => f a p1 | Throw e => (p1, Throw e) | UB => (p1, UB) | OutOfFuel => (p1, OutOfFuel) end.
Proof. intros E. unfold bind. now rewrite E. Qed.
Lemma rel_cidr y g in_ : rel any (parse_cidr y g in_).
Proof.
  unfold parse_cidr. cbv zeta. apply rel_allowed_bind; [look| |].
  - fold masks. destruct (match find_char 47 (trim_string in_) with Some _ => _ | None => _ end) as [address mask].
    intros p q HR S.
    assert (H : rel masks (do! am <- parse_address y g address mask in let '(addr_mask, ipv4) := am in apply_masks g mask ipv4 addr_mask)).
    { apply rel_bind; [look|apply rel_weaken, rel_address|intros [l b]]. apply rel_masks. }
    destruct (H p q HR S) as (t & n & r & E1 & E2 & N). clear H.
    assert (X : forall p, (do! errcnt <- ask f_error_count in
        do! am <- parse_address y g address mask in
        (let '(addr_mask, ipv4) := am in
         do! l <- apply_masks g mask ipv4 addr_mask in
         do! errcnt' <- ask f_error_count in
         if errcnt =? errcnt' then ret l else ret [])) p =
      bind (do! am <- parse_address y g address mask in let '(addr_mask, ipv4) := am in apply_masks g mask ipv4 addr_mask)
        (fun l => do! errcnt' <- ask f_error_count in if f_error_count p =? errcnt' then ret l else ret []) p).
    { intros z. unfold bind at 1, ask at 1. unfold bind at 1 4 5. destruct (parse_address y g address mask z) as [z1 [[l b]|e| |]]; reflexivity. }
    rewrite !X. clear X. rewrite (bind_eq _ _ _ _ _ E1), (bind_eq _ _ _ _ _ E2).
    destruct r as [l|e| |]; [|exists t, n; eexists; repeat split; auto..].
    unfold bind, ask. cbn [f_error_count log with_errors].
    exists t, n, (Ok (if n =? 0 then l else [])). change (f_error_count (log p t n)) with (f_error_count p + n).
    change (f_error_count (log q t n)) with (f_error_count q + n).
    replace (f_error_count p =? f_error_count p + n) with (n =? 0) by lia.
    replace (f_error_count q =? f_error_count q + n) with (n =? 0) by lia.
    destruct (n =? 0); repeat split; auto.
  - apply rel_weaken. apply rel_bind; [look|apply rel_address|intros; step].
Qed.
Lemma rel_loop y g fuel : forall seps comments newlines rest, rel any (parse_loop y g fuel seps comments newlines rest).
Proof.
  induction fuel as [|fuel IH]; intros seps comments newlines rest; cbn [parse_loop]; (destruct rest as [|c rest]; [step|]); [step|].
  destruct (split_at seps (c :: rest)) as [piece tail]. destruct piece as [|x piece]; [apply IH|].
  destruct (match comments with [] => _ | _ => _ end) as [text tail'].
  apply rel_bind; [look| |intros l]. { destruct text; [step|apply rel_cidr]. }
  apply rel_bind; [look|apply IH|intros; step].
Qed.
(* The same separators and comments. *)
Definition cut_alike (p q : parser) : Prop := forall f, In f looked_at -> allow p f = allow q f.
Lemma stable_cut : stable cut_alike. Proof. intros p q t n t' n' H. exact H. Qed.
Lemma rel_parse y g s : rel cut_alike (parse y g s).
Proof.
  unfold parse. apply rel_bind; [exact stable_cut| |intros l].
  - unfold parse_entries. apply rel_bind; [exact stable_cut| |intros seps].
    { apply rel_ask. intros p q C _. unfold separators. now rewrite !C by look. }
    apply rel_bind; [exact stable_cut| |intros comments].
    { apply rel_ask. intros p q C _. unfold comment_chars. now rewrite !C by look. }
    destruct seps; [apply rel_weaken, rel_cidr|]. apply rel_bind; [exact stable_cut| |intros newlines; apply rel_weaken, rel_loop].
    apply rel_ask. intros p q C _. apply C. look.
  - apply rel_bind; [exact stable_cut|step|intros; step].
Qed.

Lemma find_char_none s : ~ In 58 s -> find_char 58 s = None.
Proof.
  induction s as [|c s IH]; [reflexivity|]. cbn [In find_char]. intros H. destruct (Z.eqb_spec c 58); [tauto|]. now rewrite IH by tauto.
Qed.
Lemma same_cut p q : same_settings p q -> cut_alike p q.
Proof.
  intros [A _ _ _ _ _ _ _] f I. pose proof (A f I) as X. unfold get_allow in X. cbn in I.
  decompose [or] I; subst; try contradiction; cbn in X; congruence.
Qed.
Lemma same_sim p q : same_settings p q -> sim p q.
Proof.
  intros [A B C D E F G H].
  assert (L : forall f, In f looked_at -> get_allow p f = Ok (allow p f) /\ get_allow q f = Ok (allow q f)).
  { intros f I. cbn in I. unfold get_allow. decompose [or] I; subst; try contradiction; split; reflexivity. }
  assert (AL : forall f, In f looked_at -> allow p f = allow q f).
  { intros f I. pose proof (A f I) as X. destruct (L f I) as [L1 L2]. congruence. }
  constructor; auto.
  - intros f I. apply AL. cbn in I. decompose [or] I; subst; try contradiction; look.
  - intros N. apply F. destruct (L ALLOW_REQUIRED_PORT ltac:(look)). congruence.
  - intros M m b. assert (GM : get_allow p ALLOW_MASK = Ok true) by (destruct (L ALLOW_MASK ltac:(look)); congruence).
    unfold effective_mask. destruct m; [|reflexivity]. destruct b; [exact (G GM)|].
    destruct (H GM) as [X|[X Y]].
    + unfold get_default_mask6 in X. now rewrite X.
    + unfold get_default_mask6 in *. now rewrite !find_char_none.
Qed.
Lemma parse_same y g s p q : same_settings p q -> same_answer p (parse y g s p) q (parse y g s q).
Proof.
  intros H. destruct (rel_parse y g s p q (same_cut _ _ H) (same_sim _ _ H)) as (t & n & r & E1 & E2 & _). rewrite E1, E2.
  split; [reflexivity|]. exists t. repeat split. unfold error_count, log. cbn [fst f_error_count with_errors]. lia.
Qed.
