(* Proofs for C175: parse_cidr() of two parsers with different defaults. *)
From Coq Require Import ZifyBool ZifyNat.
From Verif Require Import Base Addr Range Inet Parser SpecParser SpecParser4 SpecSettings SpecDefaults.
From Verif Require ParserProofs ParserProofs7 ParserProofs15 NumericProofs AllowProofs UnusedProofs.
Import ParserProofs.
Local Open Scope Z_scope.

Notation log := UnusedProofs.log.
Notation log_nil := UnusedProofs.log_nil.
Notation log_log := UnusedProofs.log_log.

Section Defaults.
Context (da dp dm : bool).

Definition fixed_flags : list Z :=
  [ALLOW_ADDRESS_LOOKUP; ALLOW_ADDRESS_RANGE; ALLOW_PORT; ALLOW_REQUIRED_PORT; ALLOW_MASK; ALLOW_ADDRESS_MASK].
Record sim (p q : parser) : Prop := {
  sim_allow : forall f, In f fixed_flags -> allow p f = allow q f;
  sim_required : allow p ALLOW_REQUIRED_ADDRESS = allow q ALLOW_REQUIRED_ADDRESS \/ da = true;
  sim_sort : f_sort p = f_sort q;
  sim_a4 : f_default_address4 p = f_default_address4 q \/ da = true;
  sim_a6 : f_default_address6 p = f_default_address6 q \/ da = true;
  sim_proto : p_protocol p = p_protocol q;
  sim_port : f_default_port p = f_default_port q \/ dp = true;
  sim_m4 : f_default_mask4 p = f_default_mask4 q \/ dm = true;
  sim_m6 : f_default_mask6 p = f_default_mask6 q \/ dm = true
}.
Lemma sim_log p q t n t' n' : sim p q -> sim (log p t n) (log q t' n').
Proof. intros [A B C D E F G H I]. constructor; auto. Qed.
Definition rel {A} (R : parser -> parser -> Prop) (m : M A) : Prop := forall p q, R p q -> sim p q ->
  exists t n r, m p = (log p t n, r) /\ m q = (log q t n, r) /\ 0 <= n.
Definition any (p q : parser) : Prop := True.
Definition stable (R : parser -> parser -> Prop) : Prop := forall p q t n t' n', R p q -> R (log p t n) (log q t' n').
Lemma stable_any : stable any. Proof. easy. Qed.

Section Rules.
Context (R : parser -> parser -> Prop) (ST : stable R).
Lemma rel_ret {A} (a : A) : rel R (ret a).
Proof. intros p q _ _. exists [], 0, (Ok a). rewrite !log_nil. repeat split; lia. Qed.
Lemma rel_lift {A} (r : res A) : rel R (lift r).
Proof. intros p q _ _. exists [], 0, r. rewrite !log_nil. repeat split; lia. Qed.
Lemma rel_emit x : rel R (emit x).
Proof. intros p q _ _. exists (x ++ [10]), 1, (Ok tt). repeat split; lia. Qed.
Lemma rel_bind {A B} (m : M A) (f : A -> M B) : rel R m -> (forall a, rel R (f a)) -> rel R (bind m f).
Proof.
  intros Hm Hf p q HR S. destruct (Hm p q HR S) as (t & n & r & E1 & E2 & N). unfold bind. rewrite E1, E2.
  destruct r as [a|e| |]; [|exists t, n; eexists; repeat split; auto..].
  destruct (Hf a (log p t n) (log q t n) (ST _ _ _ _ _ _ HR) (sim_log _ _ _ _ _ _ S)) as (t' & n' & r & X1 & X2 & N').
  exists (t ++ t'), (n + n'), r. rewrite X1, X2, !log_log. repeat split; lia.
Qed.
Lemma rel_fail {A} x : rel R (fail x : M (list A)).
Proof. apply rel_bind; [apply rel_emit|intros; apply rel_ret]. Qed.
Lemma rel_ask {A} (f : parser -> A) : (forall p q, R p q -> sim p q -> f p = f q) -> rel R (ask f).
Proof.
  intros H p q HR S. exists [], 0, (Ok (f p)). rewrite !log_nil. unfold ask. rewrite <- (H p q HR S). repeat split; lia.
Qed.
Lemma rel_allowed flag : In flag fixed_flags -> rel R (allowed flag).
Proof. intros I. apply rel_ask. intros p q _ S. exact (sim_allow _ _ S _ I). Qed.
Lemma rel_weaken {A} (m : M A) : rel any m -> rel R m.
Proof. intros H p q _ S. exact (H p q I S). Qed.
End Rules.

Ltac look := first [apply stable_any | cbn; tauto].
Ltac step :=
  match goal with
  | |- rel _ (bind _ _) => apply rel_bind; [look| |intros]
  | |- rel _ (ret _) => apply rel_ret
  | |- rel _ (lift _) => apply rel_lift
  | |- rel _ (emit _) => apply rel_emit
  | |- rel _ (fail _) => apply rel_fail; look
  | |- rel _ (allowed _) => apply rel_allowed; look
  | |- rel _ (ask f_sort) => apply rel_ask; intros ? ? _ S; exact (sim_sort _ _ S)
  | |- rel _ (ask p_protocol) => apply rel_ask; intros ? ? _ S; exact (sim_proto _ _ S)
  | |- rel _ (if ?b then _ else _) => destruct b
  | |- rel _ (match ?x with _ => _ end) => destruct x
  end.
Ltac steps := repeat (first [assumption | step]).

Lemma rel_use l : forall first host d, rel any (use_addrinfo l first host d).
Proof. induction l as [|ai l IH]; intros first host d; cbn [use_addrinfo]; steps; apply IH. Qed.
Lemma rel_numeric a port d : rel any (numeric_address a port d).
Proof. unfold numeric_address. steps. Qed.

Notation port_body := UnusedProofs.port_body.
Lemma rel_body y g a port ipv6 rp dp0 lk ap d ra pr : rel any (port_body y g a port ipv6 rp dp0 lk ap d ra pr).
Proof. unfold port_body. cbv zeta. steps; try apply rel_use; try apply rel_numeric. Qed.
Lemma rel_port y g a port ipv6 : (da = true -> a <> []) -> (dp = true -> port <> []) -> rel any (parse_address_port y g a port ipv6).
Proof.
  intros NA NP p q HR S. rewrite !UnusedProofs.port_is_body.
  rewrite <- (sim_allow _ _ S ALLOW_REQUIRED_PORT), <- (sim_allow _ _ S ALLOW_ADDRESS_LOOKUP), <- (sim_allow _ _ S ALLOW_PORT) by look.
  rewrite <- (sim_proto _ _ S).
  assert (X : forall rp lk ap pr, port_body y g a port ipv6 rp (f_default_port q) lk ap (default_address q ipv6) (allow q ALLOW_REQUIRED_ADDRESS) pr =
    port_body y g a port ipv6 rp (f_default_port p) lk ap (default_address p ipv6) (allow p ALLOW_REQUIRED_ADDRESS) pr).
  { intros rp lk ap pr. assert (E1 : forall d1 d2 r1 r2 k, da = true -> port_body y g a port ipv6 rp k lk ap d1 r1 pr = port_body y g a port ipv6 rp k lk ap d2 r2 pr).
    { intros d1 d2 r1 r2 k HA. destruct a as [|c a]; [now destruct (NA HA)|]. reflexivity. }
    assert (E2 : forall k1 k2 d r, dp = true -> port_body y g a port ipv6 rp k1 lk ap d r pr = port_body y g a port ipv6 rp k2 lk ap d r pr).
    { intros k1 k2 d r HP. destruct port as [|c port]; [now destruct (NP HP)|]. reflexivity. }
    transitivity (port_body y g a port ipv6 rp (f_default_port p) lk ap (default_address q ipv6) (allow q ALLOW_REQUIRED_ADDRESS) pr).
    - destruct (sim_port _ _ S) as [E|E]; [now rewrite E|now apply E2].
    - destruct (Bool.bool_dec da true) as [E|E]; [now apply E1|].
      destruct (sim_required _ _ S) as [->|]; [|contradiction]. unfold default_address.
      destruct (sim_a4 _ _ S) as [->|]; [|contradiction]. destruct (sim_a6 _ _ S) as [->|]; [reflexivity|contradiction]. }
  rewrite X. exact (rel_body _ _ _ _ _ _ _ _ _ _ _ _ p q I S).
Qed.
Lemma rel_end y g text port msg ipv6 : (dp = true -> port <> []) -> rel any (range_end y g text port msg ipv6).
Proof.
  intros NP. unfold range_end. destruct text as [|c text]; [steps|]. apply rel_bind; [look| |intros; steps].
  unfold parse_address_port_ignore_duplicates. apply rel_bind; [look|apply rel_port; [discriminate|exact NP]|intros]. steps.
Qed.
Lemma rel_range y g a port ipv6 : (da = true -> a <> []) -> (dp = true -> port <> []) -> rel any (parse_address_range_port y g a port ipv6).
Proof.
  intros NA NP. unfold parse_address_range_port. step; [step|]. destruct (if a0 then _ else None) as [i|]; [|now apply rel_port].
  cbv zeta. step; [step|]. apply rel_bind; [look|now apply rel_end|intros fr]. destruct fr; [|step].
  apply rel_bind; [look|now apply rel_end|intros tr]. steps.
Qed.

(* What is known about the entry. *)
Definition good (A : str) : Prop := (da = true -> names_address A) /\ (dp = true -> names_port A).
Lemma count_app c a b : count_char c (a ++ b) = count_char c a + count_char c b.
Proof. unfold count_char. rewrite filter_app, app_length. lia. Qed.
Lemma count_none c a : ~ In c a -> count_char c a = 0.
Proof.
  induction a as [|x a IH]; [reflexivity|]. intros N. unfold count_char. cbn [filter]. destruct (Z.eqb_spec c x); [destruct N; now left|].
  apply IH. intros I. apply N. now right.
Qed.
Lemma names_address_four A i : names_address A -> count_char 58 A < 2 -> find_char 58 A = Some i -> firstn i A <> [].
Proof.
  intros (NE & N & _) C F E. destruct (AllowProofs.find_split _ _ _ F) as [S _]. rewrite E in S. cbn [app] in S.
  rewrite S in C. pose proof (N _ S) as I. apply in_split in I as (u & v & X). rewrite X in C.
  change (58 :: u ++ 58 :: v) with ([58] ++ u ++ [58] ++ v) in C. rewrite !count_app in C. change (count_char 58 [58]) with 1 in C.
  unfold count_char in C. lia.
Qed.
Lemma names_port_first A i : names_port A -> hd 0 A <> 91 -> find_char 58 A = Some i -> skipn (i + 1) A <> [].
Proof.
  intros P H F. destruct P as [B c D NB ND NH|B c D NB]; [|now destruct H].
  destruct (AllowProofs.find_split _ _ _ F) as [S N]. intros E. rewrite E in S.
  assert (count_char 58 (B ++ 58 :: c :: D) = 1) as C by (change (58 :: c :: D) with ([58] ++ (c :: D)); rewrite !count_app, (count_none 58 B), (count_none 58 (c :: D)) by assumption; reflexivity).
  (* the last character is the colon *)
  assert (last (B ++ 58 :: c :: D) 0 = 58) as L by (rewrite S; apply last_last).
  change (58 :: c :: D) with ([58] ++ (c :: D)) in L. rewrite app_assoc in L. destruct (@exists_last _ (c :: D) ltac:(discriminate)) as (u & x & X).
  rewrite X, app_assoc, last_last in L. subst x. apply ND. rewrite X. apply in_or_app. right. now left.
Qed.
Lemma names_port_has A : names_port A -> hd 0 A <> 91 -> count_char 58 A = 1.
Proof.
  intros P H. destruct P as [B c D NB ND NH|B c D NB]; [|now destruct H].
  change (58 :: c :: D) with ([58] ++ (c :: D)); rewrite !count_app, (count_none 58 B), (count_none 58 (c :: D)) by assumption; reflexivity.
Qed.
Lemma rel_address4 y g A : good A -> hd 0 A <> 91 -> count_char 58 A < 2 -> rel any (parse_address4 y g A).
Proof.
  intros [GA GP] H C. unfold parse_address4. step; [step|]. step; [step|]. destruct (find_char 58 A) as [i|] eqn:F.
  - destruct (a || a0); [|step]. apply rel_range; intros D.
    + now apply names_address_four; [apply GA|..].
    + now apply names_port_first; [apply GP|..].
  - apply rel_range; intros D; [exact (proj1 (GA D))|]. exfalso. pose proof (names_port_has A (GP D) H) as X.
    apply find_char_count in F. lia.
Qed.
Lemma bracket_head A : match A with c :: _ => c =? 91 | [] => false end = (hd 0 A =? 91).
Proof. now destruct A. Qed.
Lemma rel_address6 y g A : good A -> rel any (parse_address6 y g A (count_char 58 A)).
Proof.
  intros [GA GP]. unfold parse_address6. cbv zeta. step; [step|]. step; [step|]. rewrite bracket_head. destruct (hd 0 A =? 91) eqn:H.
  - destruct (find_char 93 A) as [i|] eqn:F; [|step]. destruct A as [|c A]; [discriminate H|]. assert (c = 91) by (cbn in H; lia). subst c. cbn [find_char] in F.
    change (91 =? 93) with false in F. cbv iota in F. destruct (find_char 93 A) as [j|] eqn:F2; [|discriminate]. injection F as <-.
    destruct (AllowProofs.find_split _ _ _ F2) as [SP N].
    assert (K1 : da = true -> firstn (S j - 1) (skipn 1 (91 :: A)) <> []).
    { intros D E. cbn [skipn] in E. replace (S j - 1)%nat with j in E by lia. rewrite E in SP. cbn [app] in SP.
      apply (proj2 (proj2 (GA D)) (skipn (j + 1) A)). f_equal. exact SP. }
    assert (K2 : dp = true -> exists c w, skipn (S j + 1) (91 :: A) = 58 :: c :: w).
    { intros D. cbn [Nat.add skipn]. specialize (GP D). inversion GP as [B c W NB NW NH X|B c W NB X].
      - exfalso. now apply (NH A).
      - subst A. rewrite (ParserProofs7.find_char_first 93 B) in F2 by exact NB. injection F2 as <-. exists c, W.
        rewrite skipn_app, skipn_all2 by lia. replace (length B + 1 - length B)%nat with 1%nat by lia. reflexivity. }
    destruct (skipn (S j + 1) (91 :: A)) as [|c port] eqn:SK.
    { apply rel_range; [exact K1|]. intros D. destruct (K2 D) as (c & w & X). discriminate. }
    destruct (negb (c =? 58)); [step|]. destruct (negb a && negb a0); [step|]. apply rel_range; [exact K1|].
    intros D. destruct (K2 D) as (c' & w & X). injection X as _ ->. discriminate.
  - destruct (count_char 58 A =? 1) eqn:C.
    + destruct (find_char 58 A) as [i|] eqn:F; [|step]. apply rel_range; intros D.
      * apply names_address_four; [now apply GA|lia|exact F].
      * apply names_port_first; [now apply GP|lia|exact F].
    + apply rel_range; intros D; [exact (proj1 (GA D))|]. exfalso. pose proof (names_port_has A (GP D) ltac:(lia)). lia.
Qed.
Lemma rel_address y g A mask : good A -> rel any (parse_address y g A mask).
Proof.
  intros G. unfold parse_address. cbv zeta.
  assert (S6 : rel any (do! l <- parse_address6 y g A (count_char 58 A) in ret (l, false)))
    by (apply rel_bind; [look|now apply rel_address6|intros; step]).
  destruct (count_char 58 A >=? 2) eqn:C; [exact S6|].
  assert (S4 : hd 0 A <> 91 -> rel any (do! l <- parse_address4 y g A in ret (l, true)))
    by (intros H; apply rel_bind; [look|apply rel_address4; [exact G|exact H|lia]|intros; step]).
  set (x6 := bind (parse_address6 _ _ _ _) _) in *. set (x4 := bind (parse_address4 _ _ _) _) in *. clearbody x6 x4.
  assert (MASKS : da = true -> A <> [] /\ hd 0 A <> 58).
  { intros D. destruct (proj1 G D) as (N1 & N2 & _). split; [exact N1|]. destruct A as [|c A]; [now destruct N1|]. cbn [hd]. intros ->.
    pose proof (N2 _ eq_refl) as I. apply in_split in I as (u & v & X). subst A.
    change (58 :: u ++ 58 :: v) with ([58] ++ u ++ [58] ++ v) in C. rewrite !count_app in C. change (count_char 58 [58]) with 1 in C.
    unfold count_char in C. lia. }
  assert (ASKS : (A = [] \/ hd 0 A = 58) -> rel any x4 -> rel any (do! a4 <- ask f_default_address4 in do! a6 <- ask f_default_address6 in
    match a4, a6 with [], _ :: _ => x6 | _, _ => x4 end)).
  { intros H R4 p q HR S. unfold bind, ask.
    assert (da <> true) as ND by (intros D; destruct (MASKS D); destruct H; contradiction).
    destruct (sim_a4 _ _ S) as [E4|]; [|contradiction]. destruct (sim_a6 _ _ S) as [E6|]; [|contradiction]. rewrite <- E4, <- E6.
    destruct (f_default_address4 p), (f_default_address6 p); solve [exact (S6 p q HR S)|exact (R4 p q HR S)]. }
  destruct A as [|c0 A]; cbn [hd] in *.
  - specialize (S4 ltac:(discriminate)). destruct mask as [|c mask]; [apply ASKS; auto|]. steps.
  - destruct (c0 =? 58) eqn:E0.
    + specialize (S4 ltac:(lia)). destruct mask as [|c mask]; [apply ASKS; [right; lia|exact S4]|]. steps.
    + destruct ((c0 =? 91) || _) eqn:E1; [exact S6|]. specialize (S4 ltac:(lia)). steps.
Qed.
Lemma rel_mask g mask cidr ipv4 : rel any (parse_mask g mask cidr ipv4).
Proof. unfold parse_mask. cbv zeta. steps. Qed.
Lemma rel_masks g mask ipv4 l : (dm = true -> mask <> []) -> rel any (apply_masks g mask ipv4 l).
Proof.
  intros M. induction l as [|r l IH]; cbn [apply_masks]; [step|]. apply rel_bind; [look| |intros m].
  - apply rel_ask. intros p q _ S. unfold effective_mask. destruct mask as [|c mask]; [|reflexivity].
    destruct (sim_m4 _ _ S) as [->|E]; [|now destruct (M E)]. destruct (sim_m6 _ _ S) as [->|E]; [reflexivity|now destruct (M E)].
  - apply rel_bind; [look|apply rel_mask|intros a]. apply rel_bind; [look|exact IH|intros; step].
Qed.
Lemma rel_with_masks y g address mask : good address -> (dm = true -> mask <> []) -> rel any (UnusedProofs.with_masks y g address mask).
Proof.
  intros IA M p q HR S.
  assert (H : rel any (do! am <- parse_address y g address mask in let '(addr_mask, ipv4) := am in apply_masks g mask ipv4 addr_mask)).
  { apply rel_bind; [look|now apply rel_address|intros [l b]]. now apply rel_masks. }
  destruct (H p q HR S) as (t & n & r & E1 & E2 & N). clear H.
  rewrite !UnusedProofs.with_masks_eq. rewrite (UnusedProofs.bind_eq _ _ _ _ _ E1), (UnusedProofs.bind_eq _ _ _ _ _ E2).
  destruct r as [l|e| |]; [|exists t, n; eexists; repeat split; auto..].
  unfold bind, ask. exists t, n, (Ok (if n =? 0 then l else [])). change (f_error_count (log p t n)) with (f_error_count p + n).
  change (f_error_count (log q t n)) with (f_error_count q + n).
  replace (f_error_count p =? f_error_count p + n) with (n =? 0) by lia.
  replace (f_error_count q =? f_error_count q + n) with (n =? 0) by lia.
  destruct (n =? 0); repeat split; auto.
Qed.
(* One entry; x tells how p cuts it. *)
Lemma cidr_defaults y g w A M p q : sim p q -> trim_string w = w -> (if allow p ALLOW_MASK
    then w = A /\ M = [] /\ ~ In 47 A \/ w = A ++ 47 :: M /\ ~ In 47 A else w = A) ->
  good A -> (allow p ALLOW_MASK = true -> dm = true -> M <> []) ->
  exists t n r, parse_cidr y g w p = (log p t n, r) /\ parse_cidr y g w q = (log q t n, r) /\ 0 <= n.
Proof.
  intros S T P G HM. unfold parse_cidr. rewrite T. cbv zeta.
  assert (BA : forall X Y (f : parser -> X) (k : X -> Parser.M Y) z, bind (ask f) k z = k (f z) z) by reflexivity.
  unfold allowed. rewrite !BA. rewrite <- (sim_allow _ _ S ALLOW_MASK) by look. destruct (allow p ALLOW_MASK).
  - assert (match find_char 47 w with Some p => (firstn p w, skipn (p + 1) w) | None => (w, []) end = (A, M)) as ->.
    { destruct P as [(-> & -> & N)|[-> N]].
      - now rewrite (AllowProofs.find_none_of 47 A).
      - rewrite (ParserProofs7.find_char_first 47 A) by exact N. rewrite firstn_app, firstn_all, Nat.sub_diag. cbn [firstn]. rewrite app_nil_r.
        f_equal. rewrite skipn_app, skipn_all2 by lia. replace (length A + 1 - length A)%nat with 1%nat by lia. reflexivity. }
    cbv beta iota. exact (rel_with_masks y g A M G (HM eq_refl) p q I S).
  - subst w. assert (R : rel any (do! am <- parse_address y g A [] in ret (fst am))) by (apply rel_bind; [look|now apply rel_address|intros; step]).
    exact (R p q I S).
Qed.
End Defaults.
