(* Property C175: a default counts only for entries which miss what it is for. *)
From Coq Require Import ZifyBool ZifyNat.
From Verif Require Import Base Addr Spec Range Inet Parser SpecParser SpecParser2 SpecParser4 SpecLanguage SpecSettings SpecLists SpecDefaults.
From Verif Require AddrProofs4 ParserProofs ParserProofs2 ParserProofs3 ParserProofs4 ParserProofs5 ParserProofs12 ParserProofs15 PropParser PropParser2 PropParser3 PropParser4 PropParser5
  OrderProofs PropReplace PropNumeric PropAllow PropGrammar DefaultsProofs UnusedProofs IfaceHeapProofs.
Import AddrProofs4 ParserProofs ParserProofs2 ParserProofs3 ParserProofs15 PropParser PropParser2 PropParser3 OrderProofs DefaultsProofs PropAllow.
Local Open Scope Z_scope.

Lemma flag_of p q f : 0 <= f < 16 -> get_allow p f = get_allow q f -> allow p f = allow q f.
Proof. intros R E. rewrite !get_allow_nth in E by exact R. now injection E. Qed.
Lemma defaults_sim a b m p q : same_but_defaults a b m p q -> sim a b m (without_sort p) (without_sort q).
Proof.
  intros [FL SO PR A4 A6 DP M4 M6]. rewrite !without_sort_eq. constructor; try assumption.
  - intros f I. change (allow p f = allow q f). destruct (FL f) as [E|[E _]].
    + cbn in I. decompose [or] I; subst; try contradiction; cbn; tauto.
    + apply flag_of; [|exact E]. cbn in I. decompose [or] I; subst; try contradiction; cbv; split; try discriminate; reflexivity.
    + exfalso. subst f. cbn in I. clear - I. decompose [or] I; try discriminate; contradiction.
  - change (allow p ALLOW_REQUIRED_ADDRESS = allow q ALLOW_REQUIRED_ADDRESS \/ a = true).
    destruct (FL ALLOW_REQUIRED_ADDRESS) as [E|[_ E]]; [cbn; tauto|left; apply flag_of; [cbv; split; [discriminate|reflexivity]|exact E]|now right].
  - cbn [f_sort with_sort]. unfold get_sort_order in SO. now rewrite SO.
Qed.
Lemma flags_entries p q s ts : (forall f, In f looked_at -> f <> ALLOW_REQUIRED_ADDRESS -> get_allow p f = get_allow q f) ->
  entries_of p s ts -> entries_of q s ts.
Proof.
  intros FL E. assert (SE : separator q = separator p) by (unfold separator; now rewrite !FL by (cbn; tauto || discriminate)).
  assert (CO : starts_comment q = starts_comment p) by (unfold starts_comment; now rewrite !FL by (cbn; tauto || discriminate)).
  destruct E as [s t NS UP H|b c r NS NE F Sc|s ps ts S C H F|s lines ts C NL H F].
  - apply one_entry; rewrite ?SE, ?CO; auto.
  - apply comment_kept; rewrite ?SE, ?CO; auto.
  - apply (each_piece _ s ps ts); rewrite ?SE, ?CO; auto.
  - apply (first_of_lines _ s lines ts); rewrite ?SE, ?CO; auto.
Qed.
Lemma complete_cidr y g a b m p q p0 t e e2 : sim a b m p q -> allow p ALLOW_MASK = allow p0 ALLOW_MASK -> complete a b m p0 t -> trim_string t = trim_string e -> trim_string t = trim_string e2 ->
  exists x n r, parse_cidr y g e p = (log p x n, r) /\ parse_cidr y g e2 q = (log q x n, r) /\ 0 <= n.
Proof.
  intros S AM (b1 & w & b2 & A & M & -> & B1 & B2 & P & EP & HA & HP & HM) T1 T2.
  rewrite (cidr_trim _ _ e), (cidr_trim _ _ e2), <- T1, <- T2, <- cidr_trim.
  rewrite (cidr_trim _ _ (b1 ++ w ++ b2)), PropReplace.trim_around by assumption. rewrite <- cidr_trim.
  assert (GM : get_allow p0 ALLOW_MASK = Ok (allow p ALLOW_MASK)) by (rewrite AM; apply get_allow_nth; cbv; split; [discriminate|reflexivity]).
  assert (allow p ALLOW_MASK = true -> m = true -> M <> []) as HM2.
  { intros E D. destruct (HM D) as [X|X]; [exact X|]. rewrite GM, E in X. discriminate. }
  apply (cidr_defaults a b m y g w A M p q S); [| |now split|exact HM2].
  - destruct P as [->|P]; [reflexivity|now apply ParserProofs7.trimmed_trim].
  - inversion EP as [? E|? E N|? ? E N]; subst; rewrite GM in E; injection E as E; rewrite E; auto.
Qed.
Lemma sim_allow_mask a b m p q : sim a b m p q -> allow p ALLOW_MASK = allow q ALLOW_MASK.
Proof. intros S. apply (sim_allow _ _ _ _ _ S). cbn. tauto. Qed.
Lemma complete_all y g a b m p0 ts : Forall (complete a b m p0) ts -> forall es es2 p q,
  Forall2 (fun t e => trim_string t = trim_string e) ts es -> Forall2 (fun t e => trim_string t = trim_string e) ts es2 ->
  sim a b m p q -> allow p ALLOW_MASK = allow p0 ALLOW_MASK ->
  exists x n r, one_after_the_other (parse_cidr y g) es p = (log p x n, r) /\ one_after_the_other (parse_cidr y g) es2 q = (log q x n, r) /\ 0 <= n.
Proof.
  induction 1 as [|t ts C F IH]; intros es es2 p q F1 F2 S AM; inversion F1 as [|? e ? es' T1 F1']; inversion F2 as [|? e2 ? es2' T2 F2']; subst.
  - exists [], 0, (Ok []). cbn [one_after_the_other]. rewrite !log_nil. repeat split. lia.
  - destruct (complete_cidr y g a b m p q p0 t e e2 S AM C T1 T2) as (x & n & r & E1 & E2 & N). cbn [one_after_the_other]. rewrite E1, E2.
    destruct r as [l|z| |]; [|exists x, n; eexists; repeat split; assumption..].
    destruct (IH es' es2' (log p x n) (log q x n) F1' F2' (sim_log _ _ _ _ _ _ _ _ _ S) AM) as (x2 & n2 & r2 & -> & -> & N2).
    rewrite !log_log. exists (x ++ x2), (n + n2). destruct r2; eexists; repeat split; lia.
Qed.

(* Where every entry of the text has its address, its port or its mask, the
   default addresses and whether an address is required, the default port or
   the default masks may be anything: same ranges, same exception, same
   errors. *)
Theorem C175_defaults : forall addresses ports masks y g s ts p q, entries_of p s ts -> Forall (complete addresses ports masks p) ts ->
  same_but_defaults addresses ports masks p q -> same_answer p (parse y g s p) q (parse y g s q).
Proof.
  intros a b m y g s ts p q E F D.
  assert (E' : entries_of q s ts).
  { apply (flags_entries p q); [|exact E]. intros f I N. destruct (bd_flags _ _ _ _ _ D f I) as [X|[X _]]; [exact X|now destruct N]. }
  destruct (entries_parsed y g _ s ts (without_sort_unsorted p) (without_sort_entries p s ts E)) as (es & P1 & T).
  destruct (entries_parsed y g _ s ts (without_sort_unsorted q) (without_sort_entries q s ts E')) as (es2 & P2 & T2).
  destruct (complete_all y g a b m p ts F es es2 _ _ T T2 (defaults_sim _ _ _ _ _ D)) as (x & n & r & X1 & X2 & N); [now rewrite without_sort_eq|].
  rewrite <- P1 in X1. rewrite <- P2 in X2.
  assert (K : forall p x n r, parse y g s (without_sort p) = (log (without_sort p) x n, r) -> parse y g s p = (log p x n, rbind r (arrange (f_sort p)))).
  { clear. intros p x n r E. rewrite without_sort_eq in E. set (q := with_sort p _) in E.
    destruct (ParserProofs5.both_entries p q y g g eq_refl eq_refl eq_refl eq_refl eq_refl eq_refl eq_refl
      (eq_sym (no_empty_only (f_sort p))) (or_introl eq_refl) s) as (ms & re & E1 & E2).
    specialize (E1 (f_error p) (f_error_count p)). specialize (E2 (f_error p) (f_error_count p)).
    rewrite with_errors_id in E1. change (with_errors q (f_error p) (f_error_count p)) with q in E2.
    assert (Q : parse y g s q = (with_errors q (f_error p ++ flat ms) (f_error_count p + Z.of_nat (length ms)), re)).
    { unfold parse, bind, ask, lift. rewrite E2. destruct re as [l| | |]; try reflexivity. cbn [f_sort with_errors q with_sort]. now rewrite arrange_unsorted. }
    rewrite E in Q. assert (re = r) as -> by congruence.
    pose proof (f_equal (fun x => f_error (fst x)) Q) as Q1. pose proof (f_equal (fun x => f_error_count (fst x)) Q) as Q2.
    unfold UnusedProofs.log in Q1, Q2. cbn [fst with_errors f_error f_error_count q with_sort] in Q1, Q2. unfold UnusedProofs.log. rewrite Q1, Q2.
    unfold parse, bind, ask, lift. rewrite E1. destruct r; reflexivity. }
  rewrite (K p _ _ _ X1), (K q _ _ _ X2). pose proof (bd_sort _ _ _ _ _ D) as SO. unfold get_sort_order in SO. rewrite SO.
  split; [reflexivity|]. exists x. repeat split. unfold error_count, UnusedProofs.log. cbn [fst f_error_count with_errors]. lia.
Qed.
Print Assumptions C175_defaults.

(* The same after any calls which set defaults. *)
Lemma same_but_defaults_refl a b m p : same_but_defaults a b m p p.
Proof. constructor; auto. Qed.
Lemma same_but_defaults_trans a b m p q r : same_but_defaults a b m p q -> same_but_defaults a b m q r -> same_but_defaults a b m p r.
Proof.
  intros [A1 A2 A3 A4 A5 A6 A7 A8] [B1 B2 B3 B4 B5 B6 B7 B8].
  constructor; try congruence; [intros f I; destruct (A1 f I) as [E|E]; [|now right]; destruct (B1 f I) as [E2|E2]; [|now right]; left; congruence|
    repeat match goal with H : _ \/ _ |- _ => destruct H as [H|H] end; try (now right); left; congruence..].
Qed.
Lemma sets_default_step y g a b m op p : sets_default a b m op -> same_but_defaults a b m p (parser_step y g p op).
Proof.
  intros H. destruct op as [flag v|sort|s|n|s|s|n|s| |t| |t]; cbn [sets_default] in H; try contradiction; cbn [parser_step].
  - destruct H as [-> HA]. unfold set_allow. cbn -[upd]. constructor; auto; try reflexivity.
    intros f I. assert (0 <= f < 16) as RF by (cbn in I; decompose [or] I; subst; try contradiction; cbv; split; try discriminate; reflexivity).
    destruct (Z.eq_dec f ALLOW_REQUIRED_ADDRESS) as [->|N]; [now right|left]. rewrite !get_allow_nth by exact RF. f_equal. unfold allow. cbn [f_flags with_flags fst].
    destruct v; cbn [fst f_flags with_flags]; (rewrite IfaceHeapProofs.nth_upd_other; [reflexivity|unfold ALLOW_REQUIRED_ADDRESS in *; lia]).
  - unfold set_default_address. destruct s as [|c s]; [constructor; auto|]. destruct (c =? 91); [destruct (negb _); constructor; auto|]. destruct (find_char 58 _); constructor; auto.
  - unfold set_default_port. destruct (_ || _); constructor; auto.
  - unfold set_default_port_str, set_default_port. destruct s as [|c s]; [destruct (_ || _); constructor; auto|]. destruct (convert_string y _); [|constructor; auto]. destruct (_ || _); constructor; auto.
  - unfold set_default_mask. cbv zeta. destruct s as [|c s]; [constructor; auto|]. destruct (_ && _); [constructor; auto|]. destruct (_ || _); [constructor; auto|].
    destruct (find_char 58 _); [constructor; auto|]. destruct (convert_string y _) as [k|]; [|constructor; auto].
    destruct (_ || _); [constructor; auto|]. destruct (k >? 32); constructor; auto.
Qed.
Theorem C175_set : forall addresses ports masks y g s ts p ops, entries_of p s ts -> Forall (complete addresses ports masks p) ts ->
  Forall (sets_default addresses ports masks) ops ->
  let q := fold_left (parser_step y g) ops p in same_answer p (parse y g s p) q (parse y g s q).
Proof.
  intros a b m y g s ts p ops E F H q. apply (C175_defaults a b m y g s ts p q E F). subst q. clear E F.
  revert p. induction H as [|op ops H1 H IH]; intros p; cbn [fold_left]; [apply same_but_defaults_refl|].
  apply (same_but_defaults_trans _ _ _ p (parser_step y g p op)); [exact (sets_default_step y g _ _ _ op p H1)|apply IH].
Qed.
Print Assumptions C175_set.

(* string_to_addr(): a default which the text does not need may be any which
   is accepted. *)
Definition asking (y : sys) (protocol : str) (mask : bool) (p : parser) : res parser :=
  let! p := match protocol with [] => Ok p | _ => let '(p', r) := parser_set_protocol_str y p protocol in let! _ := r in Ok p' end in
  Ok (fst (set_allow p ALLOW_MASK mask)).
Lemma addr_after y g a d n protocol mask : snd (set_default_address parser_new d) = Ok tt -> -1 <= n <= 65535 ->
  string_to_addr y g a d n protocol mask =
  let! p := asking y protocol mask (fst (set_default_port (fst (set_default_address parser_new d)) n)) in
  let! l := snd (parse y g a p) in PropParser4.pick protocol l.
Proof.
  intros V R. unfold string_to_addr, asking.
  assert (E1 : match d with [] => Ok parser_new | _ => let '(p', r) := set_default_address parser_new d in let! _ := r in Ok p' end
    = Ok (fst (set_default_address parser_new d))).
  { destruct d as [|c d]; [reflexivity|]. destruct (set_default_address parser_new (c :: d)) as [p1 r]. cbn [snd fst] in *. now subst r. }
  rewrite E1. cbn [rbind]. set (p1 := fst (set_default_address parser_new d)).
  assert (D1 : f_default_port p1 = -1).
  { unfold p1, set_default_address. destruct d as [|c d]; [reflexivity|]. destruct (c =? 91); [now destruct (negb _)|]. now destruct (find_char 58 _). }
  assert (E2 : (if negb (n =? -1) then let '(p', r) := set_default_port p1 n in let! _ := r in Ok p' else Ok p1) = Ok (fst (set_default_port p1 n))).
  { unfold set_default_port. replace ((n <? -1) || (n >? 65535)) with false by lia. destruct (Z.eqb_spec n (-1)) as [->|N]; [|reflexivity].
    cbn. f_equal. clearbody p1. destruct p1. cbn in D1. now subst. }
  rewrite E2. cbn [rbind]. set (p2 := fst (set_default_port p1 n)). clearbody p2. clear.
  destruct protocol as [|c pr]; cbn [rbind]; [reflexivity|]. unfold parser_set_protocol_str. destruct (getprotobyname y (c :: pr)); reflexivity.
Qed.
Theorem C175_string_to_addr : forall addresses ports y g s d d2 n n2 protocol mask,
  snd (set_default_address parser_new d) = Ok tt -> snd (set_default_address parser_new d2) = Ok tt -> -1 <= n <= 65535 -> -1 <= n2 <= 65535 ->
  d = d2 \/ addresses = true -> n = n2 \/ ports = true ->
  complete addresses ports false (fst (set_allow parser_new ALLOW_MASK mask)) s ->
  string_to_addr y g s d n protocol mask = string_to_addr y g s d2 n2 protocol mask.
Proof.
  intros a b y g s d d2 n n2 protocol mask V V2 R R2 HA HP C. rewrite !addr_after by assumption.
  assert (B : same_but_defaults a b false (fst (set_default_port (fst (set_default_address parser_new d)) n)) (fst (set_default_port (fst (set_default_address parser_new d2)) n2))).
  { assert (K : forall d n, same_but_defaults true true false parser_new (fst (set_default_port (fst (set_default_address parser_new d)) n))).
    { intros d0 n0. apply (same_but_defaults_trans _ _ _ _ (fst (set_default_address parser_new d0))).
      - exact (sets_default_step y g true true false (P_set_default_address d0) parser_new eq_refl).
      - exact (sets_default_step y g true true false (P_set_default_port n0) _ eq_refl). }
    assert (KF : forall d n f, get_allow (fst (set_default_port (fst (set_default_address parser_new d)) n)) f = get_allow parser_new f).
    { intros d0 n0 f. unfold set_default_port. destruct (_ || _); unfold set_default_address; (destruct d0 as [|c d0]; [reflexivity|]; destruct (c =? 91); [now destruct (negb _)|]; now destruct (find_char 58 _)). }
    destruct (K d n) as [_ A2 A3 A4 A5 A6 A7 A8]. destruct (K d2 n2) as [_ B2 B3 B4 B5 B6 B7 B8].
    constructor; try congruence.
    - intros f _. left. now rewrite !KF.
    - destruct HA as [->|HA]; [|now right]. left. unfold set_default_port. now repeat destruct (_ || _).
    - destruct HA as [->|HA]; [|now right]. left. unfold set_default_port. now repeat destruct (_ || _).
    - destruct HP as [->|HP]; [|now right]. left. unfold set_default_port. replace ((n2 <? -1) || (n2 >? 65535)) with false by lia. reflexivity.
    - left. destruct A7 as [A7|A7]; [|discriminate]. destruct B7 as [B7|B7]; [|discriminate]. congruence.
    - left. destruct A8 as [A8|A8]; [|discriminate]. destruct B8 as [B8|B8]; [|discriminate]. congruence. }
  assert (FL : forall d n, f_flags (fst (set_default_port (fst (set_default_address parser_new d)) n)) = f_flags parser_new).
  { intros d0 n0. unfold set_default_port. destruct (_ || _); unfold set_default_address; (destruct d0 as [|c d0]; [reflexivity|]; destruct (c =? 91); [now destruct (negb _)|]; now destruct (find_char 58 _)). }
  pose proof (FL d n) as FP. pose proof (FL d2 n2) as FQ. clear FL.
  set (p := fst (set_default_port (fst (set_default_address parser_new d)) n)) in *.
  set (q := fst (set_default_port (fst (set_default_address parser_new d2)) n2)) in *. clearbody p q.
  unfold asking.
  assert (PR : forall x, same_but_defaults a b false (with_parser_protocol p x) (with_parser_protocol q x)).
  { intros x. destruct B as [A1 A2 A3 A4 A5 A6 A7 A8]. constructor; auto. }
  assert (FIN : forall p q, f_flags p = f_flags parser_new -> f_flags q = f_flags parser_new -> same_but_defaults a b false p q ->
    snd (parse y g s (fst (set_allow p ALLOW_MASK mask))) = snd (parse y g s (fst (set_allow q ALLOW_MASK mask)))).
  { clear - C. intros p q FL FQ B.
    assert (FA : forall z f, f_flags z = f_flags parser_new -> get_allow (fst (set_allow z ALLOW_MASK mask)) f = get_allow (fst (set_allow parser_new ALLOW_MASK mask)) f).
    { intros z f E. unfold get_allow, set_allow, allow. cbn [fst]. destruct mask; cbn -[upd nth]; now rewrite E. }
    refine (proj1 (C175_defaults a b false y g s [s] _ _ _ _ _)).
    - apply one_entry; [intros c X|split; [apply Forall_forall; intros c _ X|now left]|now left].
      + unfold separator in X. rewrite !(fun f => FA p f FL) in X. destruct mask; destruct X as [[X _]|[[X _]|[X _]]]; discriminate X.
      + unfold starts_comment in X. rewrite !(fun f => FA p f FL) in X. destruct mask; destruct X as [[X _]|[X _]]; discriminate X.
    - constructor; [|constructor]. destruct C as (b1 & w & b2 & A & M & H1 & H2 & H3 & H4 & EP & H6 & H7 & H8).
      exists b1, w, b2, A, M. repeat (split; [assumption|]). split; [|split; [exact H6|split; [exact H7|intros X; discriminate X]]].
      inversion EP; subst; constructor; rewrite ?(fun f => FA p f FL); assumption.
    - destruct B as [A1 A2 A3 A4 A5 A6 A7 A8]. constructor; auto; try (destruct mask; assumption).
      intros f _. left. now rewrite (FA p f FL), (FA q f FQ). }
  destruct protocol as [|c pr]; cbn [rbind]; [now rewrite (FIN p q FP FQ B)|].
  unfold parser_set_protocol_str. destruct (getprotobyname y (c :: pr)) as [x| |]; cbn [rbind]; try reflexivity.
  now rewrite (FIN (with_parser_protocol p x) (with_parser_protocol q x) FP FQ (PR x)).
Qed.
Print Assumptions C175_string_to_addr.

(* A usable case: two entries with address, port and mask; one parser has no
   defaults, the other has some of each kind and allows missing addresses. *)
Import PropParser5.
Definition bare : parser :=
  parser_run ref_sys numbers [P_set_allow ALLOW_REQUIRED_ADDRESS true; P_set_allow ALLOW_ADDRESS_LOOKUP false; P_set_allow ALLOW_PORT true;
    P_set_allow ALLOW_MASK true; P_set_allow ALLOW_MULTI_ADDRESSES_COMMAS true].
Definition furnished : parser :=
  parser_run ref_sys numbers [P_set_allow ALLOW_REQUIRED_ADDRESS false; P_set_default_address (lit "10.9.9.9"); P_set_default_port 53; P_set_default_mask (lit "16");
    P_set_allow ALLOW_ADDRESS_LOOKUP false; P_set_allow ALLOW_PORT true; P_set_allow ALLOW_MASK true; P_set_allow ALLOW_MULTI_ADDRESSES_COMMAS true].
Definition two_full : str := lit "10.0.0.1:80/8, [::1]:443/64".
Example C175_witness : let ts := [lit "10.0.0.1:80/8"; lit " [::1]:443/64"] in
  entries_of bare two_full ts /\ Forall (complete true true true bare) ts /\ same_but_defaults true true true bare furnished
  /\ get_default_address4 bare <> get_default_address4 furnished /\ get_default_port bare <> get_default_port furnished
  /\ get_default_mask4 bare <> get_default_mask4 furnished
  /\ exists r1 r2, parse ref_sys numbers two_full bare = (bare, Ok [r1; r2]) /\ parse ref_sys numbers two_full furnished = (furnished, Ok [r1; r2])
      /\ get_port (get_from r1) = 80 /\ mask_value (get_from r1) = 2 ^ 128 - 2 ^ 24 /\ get_port (get_from r2) = 443.
Proof.
  cbv zeta. split. { change two_full with (lit "10.0.0.1:80/8" ++ [44] ++ lit " [::1]:443/64").
    apply PropGrammar.two_entries; try reflexivity; try discriminate; now apply not_in. }
  split.
  { constructor; [|constructor; [|constructor]].
    - exists [], (lit "10.0.0.1:80/8"), [], (lit "10.0.0.1:80"), (lit "8"). split; [reflexivity|]. split; [constructor|]. split; [constructor|].
      split; [right; now apply trimmed_lit|]. split; [apply (parts_with bare (lit "10.0.0.1:80") (lit "8")); [reflexivity|now apply not_in]|].
      split; [intros _; split; [discriminate|]; split; intros r; discriminate|]. split; [|intros _; left; discriminate].
      intros _. apply (port_after (lit "10.0.0.1") 56 [48]); [now apply not_in|now apply not_in|intros r; discriminate].
    - exists [32], (lit "[::1]:443/64"), [], (lit "[::1]:443"), (lit "64"). split; [reflexivity|]. split; [constructor; [now left|constructor]|]. split; [constructor|].
      split; [right; now apply trimmed_lit|]. split; [apply (parts_with bare (lit "[::1]:443") (lit "64")); [reflexivity|now apply not_in]|].
      split; [intros _; split; [discriminate|]; split; intros r; discriminate|]. split; [|intros _; left; discriminate].
      intros _. apply (port_after_bracket (lit "::1") 52 (lit "43")). now apply not_in. }
  split. { constructor; auto; try reflexivity. intros f I. cbn in I. decompose [or] I; subst; try contradiction; auto. }
  split; [discriminate|]. split; [discriminate|]. split; [discriminate|].
  do 2 eexists. split; [vm_compute; reflexivity|]. split; [vm_compute; reflexivity|]. split; [vm_compute; reflexivity|]. split; vm_compute; reflexivity.
Qed.
Example C175_string_to_addr_case : snd (set_default_address parser_new (lit "1.2.3.4")) = Ok tt /\ snd (set_default_address parser_new (lit "[::1]")) = Ok tt
  /\ complete true true false (fst (set_allow parser_new ALLOW_MASK true)) (lit "10.0.0.1:80/8")
  /\ exists a, string_to_addr ref_sys any_name (lit "10.0.0.1:80/8") (lit "1.2.3.4") 53 (lit "tcp") true = Ok a
      /\ string_to_addr ref_sys any_name (lit "10.0.0.1:80/8") (lit "[::1]") (-1) (lit "tcp") true = Ok a.
Proof.
  split; [reflexivity|]. split; [reflexivity|]. split.
  { exists [], (lit "10.0.0.1:80/8"), [], (lit "10.0.0.1:80"), (lit "8"). split; [reflexivity|]. split; [constructor|]. split; [constructor|].
    split; [right; now apply trimmed_lit|]. split; [apply (parts_with _ (lit "10.0.0.1:80") (lit "8")); [reflexivity|now apply not_in]|].
    split; [intros _; split; [discriminate|]; split; intros r; discriminate|]. split; [|intros X; discriminate X].
    intros _. apply (port_after (lit "10.0.0.1") 56 [48]); [now apply not_in|now apply not_in|intros r; discriminate]. }
  eexists. split; vm_compute; reflexivity.
Qed.
