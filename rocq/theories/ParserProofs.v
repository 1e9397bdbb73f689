(* Reasoning about the parser: outcomes, messages and their independence of
   the error log. *)
From Coq Require Import ZifyBool ZifyNat.
From Verif Require Import Base Addr Spec AddrProofs AddrProofs2 AddrProofs3 AddrProofs4
  Range SpecRange RangeProofs Inet InetProofs TextProofs Parser SpecParser.
Local Open Scope Z_scope.
Ltac Zify.zify_post_hook ::= Z.div_mod_to_equations.

Lemma with_errors_id p : with_errors p (f_error p) (f_error_count p) = p.
Proof. now destruct p. Qed.
Lemma with_errors_twice p e c e' c' : with_errors (with_errors p e c) e' c' = with_errors p e' c'.
Proof. reflexivity. Qed.

Definition flat (ms : list str) : str := concat (map (fun m => m ++ [10]) ms).
Lemma flat_app a b : flat (a ++ b) = flat a ++ flat b.
Proof. unfold flat. now rewrite map_app, concat_app. Qed.

(* m run on the configuration of p0, whatever its log, appends the messages ms
   and ends as r, with Q r ms *)
Definition wp {A} (p0 : parser) (m : M A) (Q : res A -> list str -> Prop) : Prop :=
  exists ms r,
    (forall e c, m (with_errors p0 e c)
                 = (with_errors p0 (e ++ flat ms) (c + Z.of_nat (length ms)), r))
    /\ Q r ms.

Section Rules.
Context {A B : Type} (p0 : parser).

Lemma wp_lift (r : res A) (Q : res A -> list str -> Prop) : Q r [] -> wp p0 (lift r) Q.
Proof.
  intros H. exists [], r. split; [|exact H]. intros e c. unfold lift, flat. cbn [map concat length].
  rewrite app_nil_r. f_equal. f_equal. lia.
Qed.
Lemma wp_ret (a : A) (Q : res A -> list str -> Prop) : Q (Ok a) [] -> wp p0 (ret a) Q.
Proof. exact (wp_lift (Ok a) Q). Qed.
Lemma wp_ask (f : parser -> A) (Q : res A -> list str -> Prop) :
  (forall e c, f (with_errors p0 e c) = f p0) -> Q (Ok (f p0)) [] -> wp p0 (ask f) Q.
Proof.
  intros F H. exists [], (Ok (f p0)). split; [|exact H]. intros e c. unfold ask, flat.
  cbn [map concat length]. rewrite F, app_nil_r. f_equal. f_equal. lia.
Qed.
Lemma wp_emit msg (Q : res unit -> list str -> Prop) : Q (Ok tt) [msg] -> wp p0 (emit msg) Q.
Proof.
  intros H. exists [msg], (Ok tt). split; [|exact H]. intros e c. unfold emit, emit_error, flat.
  cbn [map concat length with_errors f_error f_error_count f_flags f_sort f_default_address4
       f_default_address6 f_default_mask4 f_default_mask6 p_protocol f_default_port].
  unfold with_errors. cbn. now rewrite app_nil_r.
Qed.
Lemma wp_conseq (m : M A) (Q Q' : res A -> list str -> Prop) :
  wp p0 m Q -> (forall r ms, Q r ms -> Q' r ms) -> wp p0 m Q'.
Proof. intros (ms & r & E & H) I. exists ms, r. split; auto. Qed.
Lemma wp_bind (m : M A) (f : A -> M B) (Q : res B -> list str -> Prop) :
  wp p0 m (fun r ms =>
    match r with
    | Ok a => wp p0 (f a) (fun r2 ms2 => Q r2 (ms ++ ms2))
    | Throw x => Q (Throw x) ms
    | UB => Q UB ms
    | OutOfFuel => Q OutOfFuel ms
    end) -> wp p0 (bind m f) Q.
Proof.
  intros (ms & r & E & H). destruct r as [a|x| |].
  - destruct H as (ms2 & r2 & E2 & H). exists (ms ++ ms2), r2. split; [|exact H].
    intros e c. unfold bind. rewrite E, E2, flat_app, app_assoc, app_length. f_equal. f_equal. lia.
  - exists ms, (Throw x). split; [|exact H]. intros e c. unfold bind. now rewrite E.
  - exists ms, UB. split; [|exact H]. intros e c. unfold bind. now rewrite E.
  - exists ms, OutOfFuel. split; [|exact H]. intros e c. unfold bind. now rewrite E.
Qed.
End Rules.

Lemma wp_allowed p0 flag (Q : res bool -> list str -> Prop) :
  Q (Ok (allow p0 flag)) [] -> wp p0 (allowed flag) Q.
Proof. intros H. now apply wp_ask. Qed.

Lemma wp_fail {A} p0 msg (Q : res (list A) -> list str -> Prop) : Q (Ok []) [msg] -> wp p0 (fail msg) Q.
Proof. intros H. apply wp_bind, wp_emit, wp_ret. exact H. Qed.

Lemma wp_run {A} p0 (m : M A) Q p : wp p0 m Q -> same_config p p0 ->
  exists ms r, m p = (with_errors p (f_error p ++ flat ms) (f_error_count p + Z.of_nat (length ms)), r)
    /\ Q r ms.
Proof.
  intros (ms & r & E & H) [S1 S2 S3 S4 S5 S6 S7 S8].
  exists ms, r. split; [|exact H].
  assert (with_errors p0 (f_error p) (f_error_count p) = p) as Ep.
  { unfold with_errors. rewrite <- S1, <- S2, <- S3, <- S4, <- S5, <- S6, <- S7, <- S8. apply with_errors_id. }
  rewrite <- Ep at 1. rewrite E. f_equal. unfold with_errors. congruence.
Qed.

Ltac wbind := apply wp_bind.
Ltac wask := wbind; apply wp_ask; [reflexivity|]; cbv beta iota.
Ltac wallow := wbind; apply wp_allowed; cbv beta iota.

(* ---------- the call tree above parse_address_port ---------- *)

Definition ends (P : addr -> Prop) (r : addr_range) : Prop :=
  defined r /\ range_wf r
  /\ (f_has_from r = true -> P (f_from r)) /\ (f_has_to r = true -> P (f_to r)).

Section Tree.
Variables (y : sys) (g : resolver) (p0 : parser) (P : addr -> Prop) (G : Prop).

Definition count_ok {A} (l : list A) (ms : list str) : Prop :=
  Z.land (f_sort p0) SORT_NO_EMPTY = 0 -> (1 <= length l + length ms)%nat.
Definition OK (r : res (list addr_range)) (ms : list str) : Prop :=
  r <> OutOfFuel
  /\ (G -> r <> UB /\ forall l, r = Ok l -> Forall (ends P) l /\ count_ok l ms).

(* what parse_address_port() returns: only `from` ends, and never nothing *)
Definition from_only (r : addr_range) : Prop :=
  f_has_from r = true /\ f_has_to r = false /\ range_wf r /\ P (f_from r).
Definition OKfrom (r : res (list addr_range)) (ms : list str) : Prop :=
  r <> OutOfFuel
  /\ (G -> r <> UB /\ forall l, r = Ok l -> Forall from_only l /\ (1 <= length l + length ms)%nat).

Hypothesis Hport : forall address port_str ipv6,
  wp p0 (parse_address_port y g address port_str ipv6) OKfrom.
Hypothesis Hmask : forall a m, P a -> bytes16 m -> P (set_mask a m).
Hypothesis Hres : G -> resolver_ok g.

Lemma from_only_ends r : from_only r -> ends P r.
Proof.
  intros (F & T & W & H). repeat split; try apply W; [left; assumption | intros _; assumption|].
  intros E. congruence.
Qed.

Lemma OK_fail msg : OK (Ok []) [msg].
Proof.
  split; [discriminate|]. intros _. split; [discriminate|]. intros l E. inversion E; subst.
  split; [constructor|]. intros _. cbn. lia.
Qed.
Lemma OK_one r : ends P r -> OK (Ok [r]) [].
Proof.
  intros H. split; [discriminate|]. intros _. split; [discriminate|]. intros l E. inversion E; subst.
  split; [now constructor|]. intros _. cbn. lia.
Qed.
Lemma OK_throw x ms : OK (Throw x) ms.
Proof. split; [discriminate|]. intros _. split; discriminate. Qed.

Lemma drop_duplicates_ok first l : (exists x, drop_duplicates first l = Throw x)
  \/ exists l', drop_duplicates first l = Ok l' /\ exists k, l' = skipn k l.
Proof.
  induction l as [|r l IH]; [right; exists []; split; [reflexivity|now exists O]|].
  cbn [drop_duplicates]. unfold on.
  destruct (set_protocol (get_from r) (get_protocol first)) as [b o] eqn:E.
  apply set_protocol_not_ub in E. cbn [fst snd rbind].
  destruct o as [u|x| |]; [|left; eexists; reflexivity | now destruct E | now destruct E].
  cbn [rbind]. destruct (ne_ first b); [right; eexists; split; [reflexivity|now exists O]|].
  destruct IH as [[x IH]|(l' & IH & k & K)]; [left; eexists; exact IH|].
  right. exists l'. split; [exact IH|]. exists (S k). exact K.
Qed.

Lemma ignore_duplicates_ok address port_str ipv6 :
  wp p0 (parse_address_port_ignore_duplicates y g address port_str ipv6) OKfrom.
Proof.
  unfold parse_address_port_ignore_duplicates. wbind.
  eapply wp_conseq; [apply Hport|]. intros r ms (N & H).
  destruct r as [l|x| |].
  - destruct l as [|r l].
    + apply wp_ret. now rewrite app_nil_r.
    + wbind. apply wp_lift.
      destruct (drop_duplicates_ok (get_from r) l) as [[x E]|(l' & E & k & K)]; rewrite E.
      * split; [discriminate|]. intros HG. split; [discriminate|]. discriminate.
      * apply wp_ret. split; [discriminate|]. intros HG. split; [discriminate|].
        intros l2 E2. inversion E2; subst. destruct (H HG) as [_ H']. destruct (H' _ eq_refl) as [F C].
        inversion F as [|? ? F1 F2]; subst. split; [|cbn [length]; rewrite !app_length; cbn [length]; lia].
        constructor; [exact F1|]. clear - F2. revert k. induction l as [|a l IH]; intros [|k]; auto.
        inversion F2; subst. now apply IH.
  - split; [discriminate|]. intros HG. split; discriminate.
  - split; [discriminate|]. intros HG. destruct (H HG) as [U _]. now destruct U.
  - now destruct N.
Qed.

Definition OKend (r : res (option (option addr_range))) (ms : list str) : Prop :=
  r <> OutOfFuel
  /\ (G -> r <> UB /\ match r with
                      | Ok None => ms <> []
                      | Ok (Some (Some x)) => from_only x
                      | _ => True
                      end).
Lemma range_end_ok text port_str msg ipv6 :
  wp p0 (range_end y g text port_str msg ipv6)
    (fun r ms => OKend r ms /\ (text <> [] -> r <> Ok (Some None)) /\ (text = [] -> r = Ok (Some None))).
Proof.
  unfold range_end. destruct text as [|t ts].
  - apply wp_ret. split; [split; [discriminate|]; intros _; split; [discriminate|exact I]|].
    split; [congruence|reflexivity].
  - wbind. eapply wp_conseq; [apply ignore_duplicates_ok|]. intros r ms (N & H).
    destruct r as [l|x| |].
    + destruct l as [|r [|r2 l]].
      * apply wp_ret. split; [|split; [intros _ |]; discriminate]. split; [discriminate|]. intros HG.
        split; [discriminate|]. destruct (H HG) as [_ H']. destruct (H' _ eq_refl) as [_ C].
        intros E. rewrite app_nil_r in E. subst. cbn in C. lia.
      * apply wp_ret. split; [|split; [intros _ |]; discriminate]. split; [discriminate|]. intros HG.
        split; [discriminate|]. destruct (H HG) as [_ H']. destruct (H' _ eq_refl) as [C _].
        now inversion C.
      * wbind. apply wp_emit. apply wp_ret. split; [|split; [intros _ |]; discriminate].
        split; [discriminate|]. intros HG. split; [discriminate|].
        intros E. apply app_eq_nil in E. destruct E as [_ E]. discriminate.
    + split; [|split; [intros _ |]; discriminate]. split; [discriminate|]. intros HG. now split; [discriminate|].
    + split; [|split; [intros _ |]; discriminate]. split; [discriminate|]. intros HG. now destruct (proj1 (H HG)).
    + now destruct N.
Qed.

Lemma range_port_ok addresses port_str ipv6 :
  wp p0 (parse_address_range_port y g addresses port_str ipv6) OK.
Proof.
  unfold parse_address_range_port. wallow.
  destruct (if allow p0 ALLOW_ADDRESS_RANGE then find_char 45 addresses else None) as [p|].
  2:{ eapply wp_conseq; [apply Hport|]. intros r ms (N & H). split; [exact N|]. intros HG.
      destruct (H HG) as [U H']. split; [exact U|]. intros l E. destruct (H' l E) as [F C].
      split; [|intros _; exact C]. eapply Forall_impl; [|exact F]. intros a. apply from_only_ends. }
  set (from := firstn p addresses). set (to := skipn (p + 1) addresses).
  destruct (match from, to with [], [] => true | _, _ => false end) eqn:B; [apply wp_fail, OK_fail|].
  wbind. eapply wp_conseq; [apply range_end_ok|]. cbv beta. intros r ms ((N & H) & T1 & T2).
  destruct r as [fr|x| |]; [| apply OK_throw | | now destruct N].
  2:{ split; [discriminate|]. intros HG. now destruct (proj1 (H HG)). }
  destruct fr as [fr|].
  2:{ apply wp_ret. rewrite app_nil_r. split; [discriminate|]. intros HG. split; [discriminate|].
      intros l E. inversion E; subst. split; [constructor|]. intros _. destruct (H HG) as [_ M].
      cbn. destruct ms; [now destruct M|]. cbn. lia. }
  wbind. eapply wp_conseq; [apply range_end_ok|]. cbv beta. intros r2 ms2 ((N2 & H2) & T3 & T4).
  destruct r2 as [tr|x| |]; [| apply OK_throw | | now destruct N2].
  2:{ split; [discriminate|]. intros HG. now destruct (proj1 (H2 HG)). }
  destruct tr as [tr|].
  2:{ apply wp_ret. rewrite app_nil_r. split; [discriminate|]. intros HG. split; [discriminate|].
      intros l E. inversion E; subst. split; [constructor|]. intros _. destruct (H2 HG) as [_ M].
      cbn. rewrite app_length. destruct ms2; [now destruct M|]. cbn. lia. }
  destruct fr as [f|], tr as [t|]; cbn [option_map].
  - wask. destruct ((Z.land (f_sort p0) SORT_NO_EMPTY =? 0) || negb (is_empty (set_to f (get_to (swap_from_to t))))) eqn:C.
    + apply wp_ret. split; [discriminate|]. intros HG. split; [discriminate|]. intros l E. inversion E; subst.
      split; [|intros _; cbn; lia]. constructor; [|constructor].
      destruct (H HG) as [_ F]. destruct (H2 HG) as [_ F2].
      destruct F as (F1 & F3 & F4 & F5). destruct F2 as (K1 & K3 & K4 & K5).
      split; [right; reflexivity|]. split; [split; cbn; [apply F4|apply K4]|]. cbn. split; intros _; assumption.
    + apply wp_ret. split; [discriminate|]. intros HG. split; [discriminate|]. intros l E. inversion E; subst.
      split; [constructor|]. intros Z0. rewrite Z0 in C. cbn in C. discriminate.
  - apply wp_ret. split; [discriminate|]. intros HG. split; [discriminate|]. intros l E. inversion E; subst.
    split; [|intros _; cbn; lia]. constructor; [|constructor]. destruct (H HG) as [_ F].
    now apply from_only_ends.
  - apply wp_ret. split; [discriminate|]. intros HG. split; [discriminate|]. intros l E. inversion E; subst.
    split; [|intros _; cbn; lia]. constructor; [|constructor]. destruct (H2 HG) as [_ (K1 & K3 & K4 & K5)].
    split; [right; exact K1|]. split; [split; cbn; [apply K4|apply K4]|]. cbn. split; [congruence|intros _; assumption].
  - exfalso. destruct from as [|f0 fs]; [|now apply (T1 ltac:(discriminate))].
    destruct to as [|t0 ts]; [discriminate B|]. now apply (T3 ltac:(discriminate)).
Qed.

Lemma address4_ok in_ : wp p0 (parse_address4 y g in_) OK.
Proof.
  unfold parse_address4. wallow. wallow. destruct (find_char 58 in_) as [p|]; [|apply range_port_ok].
  destruct (allow p0 ALLOW_PORT || allow p0 ALLOW_REQUIRED_PORT); [apply range_port_ok | apply wp_fail, OK_fail].
Qed.

Lemma find_char_count c s : find_char c s = None -> count_char c s = 0.
Proof.
  unfold count_char. induction s as [|x s IH]; [reflexivity|]. cbn [find_char filter].
  rewrite (Z.eqb_sym c x).
  destruct (x =? c) eqn:E; [discriminate|]. destruct (find_char c s); [discriminate|]. auto.
Qed.

Lemma address6_ok in_ : wp p0 (parse_address6 y g in_ (count_char 58 in_)) OK.
Proof.
  unfold parse_address6. wallow. wallow.
  destruct (match in_ with c :: _ => c =? 91 | [] => false end).
  - destruct (find_char 93 in_) as [p|]; [|apply wp_fail, OK_fail]. cbv zeta.
    destruct (skipn (p + 1) in_) as [|c port_str]; [apply range_port_ok|].
    destruct (negb (c =? 58)); [apply wp_fail, OK_fail|].
    destruct (negb (allow p0 ALLOW_PORT) && negb (allow p0 ALLOW_REQUIRED_PORT));
      [apply wp_fail, OK_fail | apply range_port_ok].
  - destruct (count_char 58 in_ =? 1) eqn:C; [|apply range_port_ok].
    destruct (find_char 58 in_) as [p|] eqn:F; [apply range_port_ok|].
    apply find_char_count in F. lia.
Qed.

Definition OKpair (r : res (list addr_range * bool)) (ms : list str) : Prop :=
  r <> OutOfFuel
  /\ (G -> r <> UB /\ forall l b, r = Ok (l, b) -> Forall (ends P) l /\ count_ok l ms).
Lemma with_flag (m : M (list addr_range)) b : wp p0 m OK -> wp p0 (do! l <- m in ret (l, b)) OKpair.
Proof.
  intros H. wbind. eapply wp_conseq; [exact H|]. intros r ms (N & K).
  destruct r as [l|x| |].
  - apply wp_ret. split; [discriminate|]. intros HG. split; [discriminate|]. intros l' b' E. inversion E; subst.
    rewrite app_nil_r. now apply K.
  - split; [discriminate|]. intros HG. split; discriminate.
  - split; [discriminate|]. intros HG. now destruct (K HG).
  - now destruct N.
Qed.

Lemma address_ok in_ mask : wp p0 (parse_address y g in_ mask) OKpair.
Proof.
  pose proof (with_flag _ false (address6_ok in_)) as H6.
  pose proof (with_flag _ true (address4_ok in_)) as H4.
  unfold parse_address. destruct (count_char 58 in_ >=? 2); [exact H6|].
  assert (wp p0 (match mask with
        | c :: _ =>
            if c =? 91 then do! l <- parse_address6 y g in_ (count_char 58 in_) in ret (l, false)
            else if mask_hint (c_str mask) 0 >? 32
            then do! l <- parse_address6 y g in_ (count_char 58 in_) in ret (l, false)
            else do! l <- parse_address4 y g in_ in ret (l, true)
        | [] =>
            do! a4 <- ask f_default_address4 in
            do! a6 <- ask f_default_address6 in
            match a4, a6 with
            | [], _ :: _ => do! l <- parse_address6 y g in_ (count_char 58 in_) in ret (l, false)
            | _, _ => do! l <- parse_address4 y g in_ in ret (l, true)
            end
        end) OKpair) as H0.
  { destruct mask as [|c mask].
    - wask. wask. destruct (f_default_address4 p0), (f_default_address6 p0); assumption.
    - destruct (c =? 91); [assumption|]. destruct (mask_hint (c_str (c :: mask)) 0 >? 32); assumption. }
  destruct in_ as [|c0 rest]; [exact H0|].
  destruct (c0 =? 58); [exact H0|].
  destruct ((c0 =? 91) || match find_char 93 (c0 :: rest) with Some _ => true | None => false end); [exact H6|].
  wallow. wallow.
  destruct (negb (allow p0 ALLOW_PORT) && negb (allow p0 ALLOW_REQUIRED_PORT)); [|exact H4].
  destruct (find_char 58 (c0 :: rest)) as [p|]; [|exact H4].
  destruct (match find_char 46 (c0 :: rest) with Some d => (p <? d)%nat | None => true end); assumption.
Qed.

Lemma mask_bits_loop_ok : forall idx n bits, bytes16 bits -> 0 <= n <= 8 * (Z.of_nat idx + 1) ->
  (idx < 16)%nat -> exists b, mask_bits_loop idx n bits = Some b /\ bytes16 b.
Proof.
  assert (forall l i v, bytes16 l -> is_byte v -> bytes16 (upd l i v)) as U.
  { intros l i v [L F] V. split; [|revert i; clear L; induction F; intros [|i]; cbn [upd]; constructor; auto].
    rewrite <- L. clear. revert i. induction l; intros [|i]; cbn [upd length]; congruence. }
  induction idx as [|idx IH]; intros n bits Hb Hn Hi; cbn [mask_bits_loop].
  - destruct (n >? 8) eqn:E; [lia|]. eexists. split; [reflexivity|]. apply U; [exact Hb|apply u8_byte].
  - destruct (n >? 8) eqn:E.
    + apply IH; [|lia|lia]. apply U; [exact Hb|]. split; lia.
    + eexists. split; [reflexivity|]. apply U; [exact Hb|apply u8_byte].
Qed.

Lemma mask_number_range s : forall n, 0 <= n <= 10000 -> forall v, mask_number s n = Some v -> v = -1 \/ 0 <= v <= 10000.
Proof.
  induction s as [|c s IH]; intros n Hn v; cbn [mask_number].
  - intros E. inversion E. lia.
  - destruct ((48 <=? c) && (c <=? 57)) eqn:D; [|intros E; inversion E; lia]. cbv zeta.
    destruct (n * 10 + c - 48 >? 10000) eqn:X; [discriminate|]. apply IH. lia.
Qed.

Lemma repeat255 : bytes16 (repeat 255 16).
Proof. split; [reflexivity|]. repeat constructor; lia. Qed.

Lemma set_mask_wf a m : addr_wf a -> bytes16 m -> addr_wf (set_mask a m).
Proof. intros [] H. constructor; assumption. Qed.

Definition OKmask (cidr : addr) (r : res addr) (ms : list str) : Prop :=
  r <> OutOfFuel
  /\ (G -> r <> UB /\ forall a, r = Ok a -> a = cidr \/ exists m, bytes16 m /\ a = set_mask cidr m).
Lemma parse_mask_ok mask cidr ipv4 : wp p0 (parse_mask g mask cidr ipv4) (OKmask cidr).
Proof.
  assert (forall ms, OKmask cidr (Ok cidr) ms) as OKsame.
  { intros ms. split; [discriminate|]. intros _. split; [discriminate|]. intros a E. inversion E. now left. }
  assert (forall m ms, (G -> bytes16 m) -> OKmask cidr (Ok (set_mask cidr m)) ms) as OKset.
  { intros m ms B. split; [discriminate|]. intros HG. split; [discriminate|]. intros a E. inversion E. right. eauto. }
  assert (forall msg, wp p0 (do! _ <- emit msg in ret cidr) (OKmask cidr)) as OKerr.
  { intros msg. wbind. apply wp_emit. apply wp_ret. apply OKsame. }
  unfold parse_mask. destruct mask as [|c0 mask']; [apply wp_ret, OKsame|].
  set (mask := c0 :: mask') in *.
  destruct (mask_number (c_str mask) 0) as [n|] eqn:N; [|apply OKerr].
  apply mask_number_range in N; [|lia].
  destruct (negb (n =? -1)) eqn:M1.
  - destruct (ipv4 && (n >? 32)) eqn:A4; [apply OKerr|].
    destruct (negb ipv4 && (n >? 128)) eqn:A6; [apply OKerr|].
    destruct (mask_bits_loop_ok 15 ((if ipv4 then 32 else 128) - n) (repeat 255 16)) as (b & E & B);
      [apply repeat255 | destruct ipv4; cbn in A4, A6; lia | lia |].
    rewrite E. apply wp_ret, OKset. intros _. exact B.
  - wallow. destruct (negb (allow p0 ALLOW_ADDRESS_MASK)); [apply OKerr|].
    destruct (ipv4 && (c0 =? 91)); [apply OKerr|].
    destruct (negb ipv4 && negb (c0 =? 91)); [apply OKerr|].
    destruct (negb ipv4 && negb (back mask =? 93)); [apply OKerr|]. cbv zeta.
    match goal with |- wp _ (if ?b then _ else _) _ => destruct b end; [apply wp_ret, OKsame|].
    match goal with |- wp _ (match ?x with _ => _ end) _ => destruct x as [text|l] eqn:X end; [apply OKerr|].
    destruct l as [|ai l].
    { apply wp_lift. split; [discriminate|]. intros HG. destruct (Hres HG _ _ _ _ _ _ X) as [L _]. now destruct L. }
    destruct ipv4.
    + destruct (negb (ai_family ai =? AF_INET)) eqn:F; [apply OKerr|].
      destruct (negb (ai_addrlen ai =? SIZEOF_IN)); [apply OKerr|].
      apply wp_ret, OKset. intros _.
      split; [reflexivity|]. cbn. repeat constructor; try lia; apply u8_byte.
    + destruct (negb (ai_family ai =? AF_INET6)) eqn:F; [apply OKerr|].
      destruct (negb (ai_addrlen ai =? SIZEOF_IN6)); [apply OKerr|].
      apply wp_ret, OKset. intros HG. destruct (Hres HG _ _ _ _ _ _ X) as [_ L].
      inversion L as [|? ? L1 L2]; subst. destruct L1 as [_ L1]. destruct L1 as [L1 _]; [lia|]. apply L1.
Qed.

Lemma apply_masks_ok mask ipv4 l :
  wp p0 (apply_masks g mask ipv4 l) (fun r ms => r <> OutOfFuel
    /\ (G -> Forall (ends P) l -> r <> UB /\ forall l', r = Ok l' -> Forall (ends P) l' /\ length l' = length l)).
Proof.
  induction l as [|am l IH].
  - apply wp_ret. split; [discriminate|]. intros _ _. split; [discriminate|]. intros l' E. inversion E; subst. auto.
  - cbn [apply_masks]. wask. wbind. eapply wp_conseq; [apply parse_mask_ok|]. intros r ms (N & H).
    destruct r as [a|x| |].
    2:{ split; [discriminate|]. intros _ _. split; discriminate. }
    2:{ split; [discriminate|]. intros HG _. now destruct (H HG). }
    2:{ now destruct N. }
    wbind. eapply wp_conseq; [apply IH|]. intros r2 ms2 (N2 & H2).
    destruct r2 as [l2|x| |].
    2:{ split; [discriminate|]. intros _ _. split; discriminate. }
    2:{ split; [discriminate|]. intros HG F. inversion F as [|? ? F1 F2]; subst.
        destruct (H2 HG F2) as [U _]. now destruct U. }
    2:{ now destruct N2. }
    apply wp_ret. split; [discriminate|]. intros HG F. inversion F as [|? ? F1 F2]; subst.
    split; [discriminate|]. intros l' E. inversion E; subst.
    destruct (H2 HG F2) as [_ H2']. destruct (H2' _ eq_refl) as [K1 K2].
    split; [|cbn; congruence]. constructor; [|exact K1].
    destruct (H HG) as [_ H']. destruct F1 as (D & [W1 W2] & Q1 & Q2).
    destruct (H' _ eq_refl) as [->|(m & Bm & ->)].
    + split; [exact D|]. split; [split; assumption|]. split; assumption.
    + split; [exact D|]. split; [split; cbn; [now apply set_mask_wf|assumption]|]. cbn. split; [|exact Q2].
      intros X. apply Hmask; auto.
Qed.

Lemma cidr_ok in_ : wp p0 (parse_cidr y g in_) (fun r ms => OK r ms
  /\ (allow p0 ALLOW_MASK = true -> ms <> [] -> forall l, r = Ok l -> l = [])).
Proof.
  unfold parse_cidr. wallow. destruct (allow p0 ALLOW_MASK) eqn:AM.
  - destruct (match find_char 47 (trim_string in_) with
              | Some p => (firstn p (trim_string in_), skipn (p + 1) (trim_string in_))
              | None => (trim_string in_, []) end) as [address mask].
    assert (wp p0 (do! am <- parse_address y g address mask in
                   let '(addr_mask, ipv4) := am in apply_masks g mask ipv4 addr_mask)
              (fun r ms => r <> OutOfFuel /\ (G -> r <> UB /\ forall l, r = Ok l -> Forall (ends P) l /\ count_ok l ms))) as H.
    { wbind. eapply wp_conseq; [apply address_ok|]. intros r ms (N & H).
      destruct r as [[l b]|x| |].
      2:{ split; [discriminate|]. intros _. split; discriminate. }
      2:{ split; [discriminate|]. intros HG. now destruct (proj1 (H HG)). }
      2:{ now destruct N. }
      eapply wp_conseq; [apply apply_masks_ok|]. intros r2 ms2 (N2 & H2). split; [exact N2|]. intros HG.
      destruct (H HG) as [_ H']. destruct (H' _ _ eq_refl) as [F C]. destruct (H2 HG F) as [U K].
      split; [exact U|]. intros l2 E. destruct (K l2 E) as [F2 L]. split; [exact F2|].
      intros Z0. specialize (C Z0). rewrite app_length. lia. }
    destruct H as (ms & r & E & N & H).
    exists ms. exists (match r with Ok l => if (length ms =? 0)%nat then Ok l else Ok [] | _ => r end).
    split.
    + intros e c. specialize (E e c). unfold bind, ask in *.
      destruct (parse_address y g address mask (with_errors p0 e c)) as [p1 r1].
      destruct r1 as [[l b]|x| |]; try (now inversion E; subst).
      destruct (apply_masks g mask b l p1) as [p2 r2]. inversion E; subst.
      destruct r as [l2|x| |]; try reflexivity.
      cbn [f_error_count with_errors ret].
      destruct (length ms) as [|n]; cbn [Nat.eqb].
      * replace (c =? c + Z.of_nat 0) with true by lia. reflexivity.
      * replace (c =? c + Z.of_nat (S n)) with false by lia. reflexivity.
    + destruct r as [l|x| |].
      2:{ split; [apply OK_throw|discriminate]. }
      2:{ split; [split; [discriminate|]|discriminate]. intros HG. now destruct (proj1 (H HG)). }
      2:{ now destruct N. }
      split; [|intros _ NE l2 E2; destruct ms; [now destruct NE|cbn in E2; congruence]].
      split; [destruct (length ms =? 0)%nat; discriminate|]. intros HG.
      split; [destruct (length ms =? 0)%nat; discriminate|]. intros l2 E2.
      destruct (H HG) as [_ H']. destruct (H' _ eq_refl) as [F C].
      destruct (length ms =? 0)%nat eqn:L; inversion E2; subst; [now split|].
      split; [constructor|]. intros _. apply Nat.eqb_neq in L. cbn. lia.
  - wbind. eapply wp_conseq; [apply address_ok|]. intros r ms (N & H).
    destruct r as [[l b]|x| |].
    + apply wp_ret. rewrite app_nil_r. split; [|discriminate]. split; [discriminate|]. intros HG. split; [discriminate|].
      intros l' E. inversion E; subst. destruct (H HG) as [_ H']. now apply (H' l' b).
    + split; [apply OK_throw|discriminate].
    + split; [split; [discriminate|]|discriminate]. intros HG. now destruct (proj1 (H HG)).
    + now destruct N.
Qed.

Lemma split_at_app set s : fst (split_at set s) ++ snd (split_at set s) = s.
Proof.
  induction s as [|c s IH]; [reflexivity|]. cbn [split_at]. destruct (mem c set); [reflexivity|].
  destruct (split_at set s) as [a b]. cbn in *. now rewrite IH.
Qed.
Lemma split_at_le set s : (length (snd (split_at set s)) <= length s)%nat.
Proof. rewrite <- (split_at_app set s) at 2. rewrite app_length. lia. Qed.

(* no fuel problem, and only good ranges *)
Definition OKall (r : res (list addr_range)) : Prop :=
  r <> OutOfFuel /\ (G -> r <> UB /\ forall l, r = Ok l -> Forall (ends P) l).
Lemma loop_ok seps comments newlines : forall fuel rest, (length rest <= fuel)%nat ->
  wp p0 (parse_loop y g fuel seps comments newlines rest) (fun r _ => OKall r).
Proof.
  assert (OKall (Ok [])) as O0.
  { split; [discriminate|]. intros _. split; [discriminate|]. intros l E. inversion E. constructor. }
  induction fuel as [|k IH]; intros rest L.
  - destruct rest; [|cbn in L; lia]. apply wp_ret. now apply O0.
  - destruct rest as [|c0 rest']; [apply wp_ret; now apply O0|]. set (rest := c0 :: rest') in *.
    cbn [parse_loop]. destruct (split_at seps rest) as [piece tail] eqn:S0.
    pose proof (split_at_app seps rest) as SA. rewrite S0 in SA. cbn [fst snd] in SA.
    assert (length piece + length tail = length rest)%nat as LL by (rewrite <- SA, app_length; lia).
    assert (0 < length rest)%nat as L0 by (cbn; lia).
    change (match rest with [] => ret [] | _ => ?x end) with x.
    destruct piece as [|c1 piece'].
    + apply IH. rewrite skipn_length. change (length (@nil Z)) with O in LL. lia.
    + set (piece := c1 :: piece') in *.
      match goal with |- wp _ (let (_, _) := ?x in _) _ =>
        assert (length (snd x) <= length tail)%nat as LQ; [|destruct x as [text tail'] eqn:Q] end.
      { destruct comments; [cbn; lia|]. cbn [snd]. destruct tail as [|c t]; [lia|].
        destruct (newlines && negb (c =? 10)); [apply split_at_le|lia]. }
      cbn [snd] in LQ.
      assert (1 <= length piece)%nat as LP by (cbn; lia).
      wbind. apply wp_conseq with (Q := fun r _ => OKall r).
      { destruct text; [apply wp_ret; now apply O0|]. eapply wp_conseq; [apply cidr_ok|].
        intros r ms ((N & H) & _). split; [exact N|]. intros HG. destruct (H HG) as [U K]. split; [exact U|].
        intros l E. now apply K. }
      intros r ms (N & H). destruct r as [l|x| |].
      2:{ split; [discriminate|]. intros _. split; discriminate. }
      2:{ split; [discriminate|]. intros HG. now destruct (proj1 (H HG)). }
      2:{ now destruct N. }
      wbind. eapply wp_conseq; [apply IH; rewrite skipn_length; lia|]. cbv beta.
      intros r2 ms2 (N2 & H2). destruct r2 as [l2|x| |].
      2:{ split; [discriminate|]. intros _. split; discriminate. }
      2:{ split; [discriminate|]. intros HG. now destruct (proj1 (H2 HG)). }
      2:{ now destruct N2. }
      apply wp_ret. split; [discriminate|]. intros HG. split; [discriminate|]. intros l3 E. inversion E; subst.
      apply Forall_app. split; [now apply H | now apply H2].
Qed.

Lemma entries_ok in_ : wp p0 (parse_entries y g in_) (fun r _ => OKall r).
Proof.
  unfold parse_entries. wask. wask. destruct (separators p0).
  - eapply wp_conseq; [apply cidr_ok|]. intros r ms ((N & H) & _). split; [exact N|]. intros HG.
    destruct (H HG) as [U K]. split; [exact U|]. intros l E. now apply K.
  - wallow. now apply loop_ok.
Qed.
End Tree.
