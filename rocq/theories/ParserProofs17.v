(* The call tree below parse(), again: the addresses which parse_address_port()
   is given are parts of the text. *)
From Coq Require Import ZifyBool ZifyNat.
From Verif Require Import Base Addr Spec Range SpecRange Inet Parser SpecParser.
From Verif Require AddrProofs AddrProofs2 AddrProofs3 AddrProofs4 RangeProofs InetProofs TextProofs ParserProofs PropLookups.
Import AddrProofs AddrProofs2 AddrProofs3 AddrProofs4 RangeProofs InetProofs TextProofs ParserProofs PropLookups.
Local Open Scope Z_scope.

Section Tree.
Variables (y : sys) (g : resolver) (p0 : parser) (P : addr -> Prop) (G : Prop) (T : str -> Prop).
Hypothesis Tpart : forall s t, T s -> part_of t s -> T t.

Let OK := OK p0 P G.
Let OKfrom := OKfrom P G.
Let from_only := from_only P.
Let count_ok {A} := @count_ok p0 A.
Hypothesis Hport : forall address port_str ipv6, T address ->
  wp p0 (parse_address_port y g address port_str ipv6) OKfrom.
Hypothesis Hmask : forall a m, P a -> bytes16 m -> P (set_mask a m).
Hypothesis Hres : G -> resolver_ok g.

Lemma OK_fail msg : OK (Ok []) [msg].
Proof.
  split; [discriminate|]. intros _. split; [discriminate|]. intros l E. inversion E; subst.
  split; [constructor|]. intros _. cbn. lia.
Qed.
Lemma ignore_duplicates_ok address port_str ipv6 : T address ->
  wp p0 (parse_address_port_ignore_duplicates y g address port_str ipv6) OKfrom.
Proof.
  intros TA. unfold parse_address_port_ignore_duplicates. wbind.
  eapply wp_conseq; [now apply Hport|]. intros r ms (N & H).
  destruct r as [l|x| |].
  - destruct l as [|r l].
    + apply wp_ret. now rewrite app_nil_r.
    + wbind. apply wp_lift.
      destruct (drop_duplicates_ok (get_from r) l) as [[x E]|(l' & E & k & K)]; rewrite E.
      * split; [discriminate|]. intros HG. split; [discriminate|]. discriminate.
      * apply wp_ret. split; [discriminate|]. intros HG. split; [discriminate|].
        intros l2 E2. inversion E2; subst. destruct (H HG) as [_ H']. destruct (H' _ eq_refl) as [F C].
        inversion F as [|? ? F1 F2]; subst. split; [|cbn [length]; rewrite !app_length; cbn [length]; lia].
        constructor; [exact F1|]. clear - F2. revert k. induction l as [|a l IH]; intros [|k]; auto.
        inversion F2; subst. now apply IH.
  - split; [discriminate|]. intros HG. split; discriminate.
  - split; [discriminate|]. intros HG. destruct (H HG) as [U _]. now destruct U.
  - now destruct N.
Qed.

Let OKend := OKend P G.
Lemma range_end_ok text port_str msg ipv6 : T text ->
  wp p0 (range_end y g text port_str msg ipv6)
    (fun r ms => OKend r ms /\ (text <> [] -> r <> Ok (Some None)) /\ (text = [] -> r = Ok (Some None))).
Proof.
  intros TT. unfold range_end. destruct text as [|t ts].
  - apply wp_ret. split; [split; [discriminate|]; intros _; split; [discriminate|exact I]|].
    split; [congruence|reflexivity].
  - wbind. eapply wp_conseq; [now apply ignore_duplicates_ok|]. intros r ms (N & H).
    destruct r as [l|x| |].
    + destruct l as [|r [|r2 l]].
      * apply wp_ret. split; [|split; [intros _ |]; discriminate]. split; [discriminate|]. intros HG.
        split; [discriminate|]. destruct (H HG) as [_ H']. destruct (H' _ eq_refl) as [_ C].
        intros E. rewrite app_nil_r in E. subst. cbn in C. lia.
      * apply wp_ret. split; [|split; [intros _ |]; discriminate]. split; [discriminate|]. intros HG.
        split; [discriminate|]. destruct (H HG) as [_ H']. destruct (H' _ eq_refl) as [C _].
        now inversion C.
      * wbind. apply wp_emit. apply wp_ret. split; [|split; [intros _ |]; discriminate].
        split; [discriminate|]. intros HG. split; [discriminate|].
        intros E. apply app_eq_nil in E. destruct E as [_ E]. discriminate.
    + split; [|split; [intros _ |]; discriminate]. split; [discriminate|]. intros HG. now split; [discriminate|].
    + split; [|split; [intros _ |]; discriminate]. split; [discriminate|]. intros HG. now destruct (proj1 (H HG)).
    + now destruct N.
Qed.

Lemma range_port_ok addresses port_str ipv6 : T addresses ->
  wp p0 (parse_address_range_port y g addresses port_str ipv6) OK.
Proof.
  intros TA. unfold parse_address_range_port. wallow.
  destruct (if allow p0 ALLOW_ADDRESS_RANGE then find_char 45 addresses else None) as [p|].
  2:{ eapply wp_conseq; [now apply Hport|]. intros r ms (N & H). split; [exact N|]. intros HG.
      destruct (H HG) as [U H']. split; [exact U|]. intros l E. destruct (H' l E) as [F C].
      split; [|intros _; exact C]. eapply Forall_impl; [|exact F]. intros a. apply (from_only_ends P). }
  set (from := firstn p addresses). set (to := skipn (p + 1) addresses).
  destruct (match from, to with [], [] => true | _, _ => false end) eqn:B; [apply wp_fail, OK_fail|].
  assert (T from) as TF by (eapply Tpart; [exact TA|apply part_firstn]). assert (T to) as TT by (eapply Tpart; [exact TA|apply part_skipn]).
  wbind. eapply wp_conseq; [apply range_end_ok; exact TF|]. cbv beta. intros r ms ((N & H) & T1 & T2).
  destruct r as [fr|x| |]; [| apply OK_throw | | now destruct N].
  2:{ split; [discriminate|]. intros HG. now destruct (proj1 (H HG)). }
  destruct fr as [fr|].
  2:{ apply wp_ret. rewrite app_nil_r. split; [discriminate|]. intros HG. split; [discriminate|].
      intros l E. inversion E; subst. split; [constructor|]. intros _. destruct (H HG) as [_ M].
      cbn. destruct ms; [now destruct M|]. cbn. lia. }
  wbind. eapply wp_conseq; [apply range_end_ok; exact TT|]. cbv beta. intros r2 ms2 ((N2 & H2) & T3 & T4).
  destruct r2 as [tr|x| |]; [| apply OK_throw | | now destruct N2].
  2:{ split; [discriminate|]. intros HG. now destruct (proj1 (H2 HG)). }
  destruct tr as [tr|].
  2:{ apply wp_ret. rewrite app_nil_r. split; [discriminate|]. intros HG. split; [discriminate|].
      intros l E. inversion E; subst. split; [constructor|]. intros _. destruct (H2 HG) as [_ M].
      cbn. rewrite app_length. destruct ms2; [now destruct M|]. cbn. lia. }
  destruct fr as [f|], tr as [t|]; cbn [option_map].
  - wask. destruct ((Z.land (f_sort p0) SORT_NO_EMPTY =? 0) || negb (is_empty (set_to f (get_to (swap_from_to t))))) eqn:C.
    + apply wp_ret. split; [discriminate|]. intros HG. split; [discriminate|]. intros l E. inversion E; subst.
      split; [|intros _; cbn; lia]. constructor; [|constructor].
      destruct (H HG) as [_ F]. destruct (H2 HG) as [_ F2].
      destruct F as (F1 & F3 & F4 & F5). destruct F2 as (K1 & K3 & K4 & K5).
      split; [right; reflexivity|]. split; [split; cbn; [apply F4|apply K4]|]. cbn. split; intros _; assumption.
    + apply wp_ret. split; [discriminate|]. intros HG. split; [discriminate|]. intros l E. inversion E; subst.
      split; [constructor|]. intros Z0. rewrite Z0 in C. cbn in C. discriminate.
  - apply wp_ret. split; [discriminate|]. intros HG. split; [discriminate|]. intros l E. inversion E; subst.
    split; [|intros _; cbn; lia]. constructor; [|constructor]. destruct (H HG) as [_ F].
    now apply (from_only_ends P).
  - apply wp_ret. split; [discriminate|]. intros HG. split; [discriminate|]. intros l E. inversion E; subst.
    split; [|intros _; cbn; lia]. constructor; [|constructor]. destruct (H2 HG) as [_ (K1 & K3 & K4 & K5)].
    split; [right; exact K1|]. split; [split; cbn; [apply K4|apply K4]|]. cbn. split; [congruence|intros _; assumption].
  - exfalso. destruct from as [|f0 fs]; [|now apply (T1 ltac:(discriminate))].
    destruct to as [|t0 ts]; [discriminate B|]. now apply (T3 ltac:(discriminate)).
Qed.

Lemma address4_ok in_ : T in_ -> wp p0 (parse_address4 y g in_) OK.
Proof.
  intros TI. unfold parse_address4. wallow. wallow. destruct (find_char 58 in_) as [p|]; [|now apply range_port_ok].
  destruct (allow p0 ALLOW_PORT || allow p0 ALLOW_REQUIRED_PORT); [|apply wp_fail, OK_fail].
  apply range_port_ok. eapply Tpart; [exact TI|apply part_firstn].
Qed.

Lemma address6_ok in_ : T in_ -> wp p0 (parse_address6 y g in_ (count_char 58 in_)) OK.
Proof.
  intros TI. assert (forall k, T (firstn k in_)) as TF by (intros k; eapply Tpart; [exact TI|apply part_firstn]).
  assert (forall k j, T (firstn k (skipn j in_))) as TM.
  { intros k j. eapply Tpart; [exact TI|]. eapply part_trans; [apply part_firstn|apply part_skipn]. }
  unfold parse_address6. wallow. wallow.
  destruct (match in_ with c :: _ => c =? 91 | [] => false end).
  - destruct (find_char 93 in_) as [p|]; [|apply wp_fail, OK_fail]. cbv zeta.
    destruct (skipn (p + 1) in_) as [|c port_str]; [apply range_port_ok, TM|].
    destruct (negb (c =? 58)); [apply wp_fail, OK_fail|].
    destruct (negb (allow p0 ALLOW_PORT) && negb (allow p0 ALLOW_REQUIRED_PORT));
      [apply wp_fail, OK_fail | apply range_port_ok, TM].
  - destruct (count_char 58 in_ =? 1) eqn:C; [|now apply range_port_ok].
    destruct (find_char 58 in_) as [p|] eqn:F; [apply range_port_ok, TF|].
    apply find_char_count in F. lia.
Qed.

Let OKpair := OKpair p0 P G.
Lemma address_ok in_ mask : T in_ -> wp p0 (parse_address y g in_ mask) OKpair.
Proof.
  intros TI. pose proof (with_flag p0 P G _ false (address6_ok in_ TI)) as H6.
  pose proof (with_flag p0 P G _ true (address4_ok in_ TI)) as H4. fold OKpair in H4, H6.
  unfold parse_address. destruct (count_char 58 in_ >=? 2); [exact H6|].
  assert (wp p0 (match mask with
        | c :: _ =>
            if c =? 91 then do! l <- parse_address6 y g in_ (count_char 58 in_) in ret (l, false)
            else if mask_hint (c_str mask) 0 >? 32
            then do! l <- parse_address6 y g in_ (count_char 58 in_) in ret (l, false)
            else do! l <- parse_address4 y g in_ in ret (l, true)
        | [] =>
            do! a4 <- ask f_default_address4 in
            do! a6 <- ask f_default_address6 in
            match a4, a6 with
            | [], _ :: _ => do! l <- parse_address6 y g in_ (count_char 58 in_) in ret (l, false)
            | _, _ => do! l <- parse_address4 y g in_ in ret (l, true)
            end
        end) OKpair) as H0.
  { destruct mask as [|c mask].
    - wask. wask. destruct (f_default_address4 p0), (f_default_address6 p0); assumption.
    - destruct (c =? 91); [assumption|]. destruct (mask_hint (c_str (c :: mask)) 0 >? 32); assumption. }
  destruct in_ as [|c0 rest]; [exact H0|].
  destruct (c0 =? 58); [exact H0|].
  destruct ((c0 =? 91) || match find_char 93 (c0 :: rest) with Some _ => true | None => false end); [exact H6|].
  wallow. wallow.
  destruct (negb (allow p0 ALLOW_PORT) && negb (allow p0 ALLOW_REQUIRED_PORT)); [|exact H4].
  destruct (find_char 58 (c0 :: rest)) as [p|]; [|exact H4].
  destruct (match find_char 46 (c0 :: rest) with Some d => (p <? d)%nat | None => true end); assumption.
Qed.

Lemma mask_bits_loop_ok : forall idx n bits, bytes16 bits -> 0 <= n <= 8 * (Z.of_nat idx + 1) ->
  (idx < 16)%nat -> exists b, mask_bits_loop idx n bits = Some b /\ bytes16 b.
Proof.
  assert (forall l i v, bytes16 l -> is_byte v -> bytes16 (upd l i v)) as U.
  { intros l i v [L F] V. split; [|revert i; clear L; induction F; intros [|i]; cbn [upd]; constructor; auto].
    rewrite <- L. clear. revert i. induction l; intros [|i]; cbn [upd length]; congruence. }
  induction idx as [|idx IH]; intros n bits Hb Hn Hi; cbn [mask_bits_loop].
  - destruct (n >? 8) eqn:E; [lia|]. eexists. split; [reflexivity|]. apply U; [exact Hb|apply u8_byte].
  - destruct (n >? 8) eqn:E.
    + apply IH; [|lia|lia]. apply U; [exact Hb|]. split; lia.
    + eexists. split; [reflexivity|]. apply U; [exact Hb|apply u8_byte].
Qed.

Lemma mask_number_range s : forall n, 0 <= n <= 10000 -> forall v, mask_number s n = Some v -> v = -1 \/ 0 <= v <= 10000.
Proof.
  induction s as [|c s IH]; intros n Hn v; cbn [mask_number].
  - intros E. inversion E. lia.
  - destruct ((48 <=? c) && (c <=? 57)) eqn:D; [|intros E; inversion E; lia]. cbv zeta.
    destruct (n * 10 + c - 48 >? 10000) eqn:X; [discriminate|]. apply IH. lia.
Qed.

Lemma repeat255 : bytes16 (repeat 255 16).
Proof. split; [reflexivity|]. repeat constructor; lia. Qed.

Lemma set_mask_wf a m : addr_wf a -> bytes16 m -> addr_wf (set_mask a m).
Proof. intros [] H. constructor; assumption. Qed.

Definition OKmask (cidr : addr) (r : res addr) (ms : list str) : Prop :=
  r <> OutOfFuel
  /\ (G -> r <> UB /\ forall a, r = Ok a -> a = cidr \/ exists m, bytes16 m /\ a = set_mask cidr m).
Lemma parse_mask_ok mask cidr ipv4 : wp p0 (parse_mask g mask cidr ipv4) (OKmask cidr).
Proof.
  assert (forall ms, OKmask cidr (Ok cidr) ms) as OKsame.
  { intros ms. split; [discriminate|]. intros _. split; [discriminate|]. intros a E. inversion E. now left. }
  assert (forall m ms, (G -> bytes16 m) -> OKmask cidr (Ok (set_mask cidr m)) ms) as OKset.
  { intros m ms B. split; [discriminate|]. intros HG. split; [discriminate|]. intros a E. inversion E. right. eauto. }
  assert (forall msg, wp p0 (do! _ <- emit msg in ret cidr) (OKmask cidr)) as OKerr.
  { intros msg. wbind. apply wp_emit. apply wp_ret. apply OKsame. }
  unfold parse_mask. destruct mask as [|c0 mask']; [apply wp_ret, OKsame|].
  set (mask := c0 :: mask') in *.
  destruct (mask_number (c_str mask) 0) as [n|] eqn:N; [|apply OKerr].
  apply mask_number_range in N; [|lia].
  destruct (negb (n =? -1)) eqn:M1.
  - destruct (ipv4 && (n >? 32)) eqn:A4; [apply OKerr|].
    destruct (negb ipv4 && (n >? 128)) eqn:A6; [apply OKerr|].
    destruct (mask_bits_loop_ok 15 ((if ipv4 then 32 else 128) - n) (repeat 255 16)) as (b & E & B);
      [apply repeat255 | destruct ipv4; cbn in A4, A6; lia | lia |].
    rewrite E. apply wp_ret, OKset. intros _. exact B.
  - wallow. destruct (negb (allow p0 ALLOW_ADDRESS_MASK)); [apply OKerr|].
    destruct (ipv4 && (c0 =? 91)); [apply OKerr|].
    destruct (negb ipv4 && negb (c0 =? 91)); [apply OKerr|].
    destruct (negb ipv4 && negb (back mask =? 93)); [apply OKerr|]. cbv zeta.
    match goal with |- wp _ (if ?b then _ else _) _ => destruct b end; [apply wp_ret, OKsame|].
    match goal with |- wp _ (match ?x with _ => _ end) _ => destruct x as [text|l] eqn:X end; [apply OKerr|].
    destruct l as [|ai l].
    { apply wp_lift. split; [discriminate|]. intros HG. destruct (Hres HG _ _ _ _ _ _ X) as [L _]. now destruct L. }
    destruct ipv4.
    + destruct (negb (ai_family ai =? AF_INET)) eqn:F; [apply OKerr|].
      destruct (negb (ai_addrlen ai =? SIZEOF_IN)); [apply OKerr|].
      apply wp_ret, OKset. intros _.
      split; [reflexivity|]. cbn. repeat constructor; try lia; apply u8_byte.
    + destruct (negb (ai_family ai =? AF_INET6)) eqn:F; [apply OKerr|].
      destruct (negb (ai_addrlen ai =? SIZEOF_IN6)); [apply OKerr|].
      apply wp_ret, OKset. intros HG. destruct (Hres HG _ _ _ _ _ _ X) as [_ L].
      inversion L as [|? ? L1 L2]; subst. destruct L1 as [_ L1]. destruct L1 as [L1 _]; [lia|]. apply L1.
Qed.

Lemma apply_masks_ok mask ipv4 l :
  wp p0 (apply_masks g mask ipv4 l) (fun r ms => r <> OutOfFuel
    /\ (G -> Forall (ends P) l -> r <> UB /\ forall l', r = Ok l' -> Forall (ends P) l' /\ length l' = length l)).
Proof.
  induction l as [|am l IH].
  - apply wp_ret. split; [discriminate|]. intros _ _. split; [discriminate|]. intros l' E. inversion E; subst. auto.
  - cbn [apply_masks]. wask. wbind. eapply wp_conseq; [apply parse_mask_ok|]. intros r ms (N & H).
    destruct r as [a|x| |].
    2:{ split; [discriminate|]. intros _ _. split; discriminate. }
    2:{ split; [discriminate|]. intros HG _. now destruct (H HG). }
    2:{ now destruct N. }
    wbind. eapply wp_conseq; [apply IH|]. intros r2 ms2 (N2 & H2).
    destruct r2 as [l2|x| |].
    2:{ split; [discriminate|]. intros _ _. split; discriminate. }
    2:{ split; [discriminate|]. intros HG F. inversion F as [|? ? F1 F2]; subst.
        destruct (H2 HG F2) as [U _]. now destruct U. }
    2:{ now destruct N2. }
    apply wp_ret. split; [discriminate|]. intros HG F. inversion F as [|? ? F1 F2]; subst.
    split; [discriminate|]. intros l' E. inversion E; subst.
    destruct (H2 HG F2) as [_ H2']. destruct (H2' _ eq_refl) as [K1 K2].
    split; [|cbn; congruence]. constructor; [|exact K1].
    destruct (H HG) as [_ H']. destruct F1 as (D & [W1 W2] & Q1 & Q2).
    destruct (H' _ eq_refl) as [->|(m & Bm & ->)].
    + split; [exact D|]. split; [split; assumption|]. split; assumption.
    + split; [exact D|]. split; [split; cbn; [now apply set_mask_wf|assumption]|]. cbn. split; [|exact Q2].
      intros X. apply Hmask; auto.
Qed.

Lemma cidr_ok in_ : T in_ -> wp p0 (parse_cidr y g in_) (fun r ms => OK r ms
  /\ (allow p0 ALLOW_MASK = true -> ms <> [] -> forall l, r = Ok l -> l = [])).
Proof.
  intros TI. assert (T (trim_string in_)) as TR by (eapply Tpart; [exact TI|apply part_trim]).
  unfold parse_cidr. wallow. destruct (allow p0 ALLOW_MASK) eqn:AM.
  - destruct (match find_char 47 (trim_string in_) with
              | Some p => (firstn p (trim_string in_), skipn (p + 1) (trim_string in_))
              | None => (trim_string in_, []) end) as [address mask] eqn:SP.
    assert (T address) as TA.
    { destruct (find_char 47 (trim_string in_)); injection SP as <- <-; [eapply Tpart; [exact TR|apply part_firstn]|exact TR]. }
    assert (wp p0 (do! am <- parse_address y g address mask in
                   let '(addr_mask, ipv4) := am in apply_masks g mask ipv4 addr_mask)
              (fun r ms => r <> OutOfFuel /\ (G -> r <> UB /\ forall l, r = Ok l -> Forall (ends P) l /\ count_ok l ms))) as H.
    { wbind. eapply wp_conseq; [now apply address_ok|]. intros r ms (N & H).
      destruct r as [[l b]|x| |].
      2:{ split; [discriminate|]. intros _. split; discriminate. }
      2:{ split; [discriminate|]. intros HG. now destruct (proj1 (H HG)). }
      2:{ now destruct N. }
      eapply wp_conseq; [apply apply_masks_ok|]. intros r2 ms2 (N2 & H2). split; [exact N2|]. intros HG.
      destruct (H HG) as [_ H']. destruct (H' _ _ eq_refl) as [F C]. destruct (H2 HG F) as [U K].
      split; [exact U|]. intros l2 E. destruct (K l2 E) as [F2 L]. split; [exact F2|].
      intros Z0. specialize (C Z0). rewrite app_length. lia. }
    destruct H as (ms & r & E & N & H).
    exists ms. exists (match r with Ok l => if (length ms =? 0)%nat then Ok l else Ok [] | _ => r end).
    split.
    + intros e c. specialize (E e c). unfold bind, ask in *.
      destruct (parse_address y g address mask (with_errors p0 e c)) as [p1 r1].
      destruct r1 as [[l b]|x| |]; try (now inversion E; subst).
      destruct (apply_masks g mask b l p1) as [p2 r2]. inversion E; subst.
      destruct r as [l2|x| |]; try reflexivity.
      cbn [f_error_count with_errors ret].
      destruct (length ms) as [|n]; cbn [Nat.eqb].
      * replace (c =? c + Z.of_nat 0) with true by lia. reflexivity.
      * replace (c =? c + Z.of_nat (S n)) with false by lia. reflexivity.
    + destruct r as [l|x| |].
      2:{ split; [apply OK_throw|discriminate]. }
      2:{ split; [split; [discriminate|]|discriminate]. intros HG. now destruct (proj1 (H HG)). }
      2:{ now destruct N. }
      split; [|intros _ NE l2 E2; destruct ms; [now destruct NE|cbn in E2; congruence]].
      split; [destruct (length ms =? 0)%nat; discriminate|]. intros HG.
      split; [destruct (length ms =? 0)%nat; discriminate|]. intros l2 E2.
      destruct (H HG) as [_ H']. destruct (H' _ eq_refl) as [F C].
      destruct (length ms =? 0)%nat eqn:L; inversion E2; subst; [now split|].
      split; [constructor|]. intros _. apply Nat.eqb_neq in L. cbn. lia.
  - wbind. eapply wp_conseq; [now apply address_ok|]. intros r ms (N & H).
    destruct r as [[l b]|x| |].
    + apply wp_ret. rewrite app_nil_r. split; [|discriminate]. split; [discriminate|]. intros HG. split; [discriminate|].
      intros l' E. inversion E; subst. destruct (H HG) as [_ H']. now apply (H' l' b).
    + split; [apply OK_throw|discriminate].
    + split; [split; [discriminate|]|discriminate]. intros HG. now destruct (proj1 (H HG)).
    + now destruct N.
Qed.

Lemma split_at_le set s : (length (snd (split_at set s)) <= length s)%nat.
Proof. rewrite <- (split_at_app set s) at 2. rewrite app_length. lia. Qed.

Let OKall := OKall P G.
Lemma loop_ok seps comments newlines : forall fuel rest, (length rest <= fuel)%nat -> T rest ->
  wp p0 (parse_loop y g fuel seps comments newlines rest) (fun r _ => OKall r).
Proof.
  assert (OKall (Ok [])) as O0.
  { split; [discriminate|]. intros _. split; [discriminate|]. intros l E. inversion E. constructor. }
  induction fuel as [|k IH]; intros rest L TR.
  - destruct rest; [|cbn in L; lia]. apply wp_ret. now apply O0.
  - destruct rest as [|c0 rest']; [apply wp_ret; now apply O0|]. set (rest := c0 :: rest') in *.
    cbn [parse_loop]. destruct (split_at seps rest) as [piece tail] eqn:S0.
    pose proof (split_at_app seps rest) as SA. rewrite S0 in SA. cbn [fst snd] in SA.
    assert (length piece + length tail = length rest)%nat as LL by (rewrite <- SA, app_length; lia).
    assert (0 < length rest)%nat as L0 by (cbn; lia).
    change (match rest with [] => ret [] | _ => ?x end) with x.
    destruct piece as [|c1 piece'].
    + apply IH; [rewrite skipn_length; change (length (@nil Z)) with O in LL; lia|].
      eapply Tpart; [exact TR|]. eapply part_trans; [apply part_skipn|]. exists [], []. rewrite app_nil_r. symmetry. exact SA.
    + set (piece := c1 :: piece') in *.
      match goal with |- wp _ (let (_, _) := ?x in _) _ =>
        assert (length (snd x) <= length tail)%nat as LQ; [|assert (part_of (fst x) piece /\ part_of (snd x) tail) as TQ; [|destruct x as [text tail'] eqn:Q]] end.
      { destruct comments; [cbn; lia|]. cbn [snd]. destruct tail as [|c t]; [lia|].
        destruct (newlines && negb (c =? 10)); [apply split_at_le|lia]. }
      { destruct comments as [|c2 ks] eqn:EK; cbn [fst snd]; [split; apply part_refl|]. split.
        - exists [], (snd (split_at (c2 :: ks) piece)). cbn [app]. symmetry. apply split_at_app.
        - destruct tail as [|c t]; [apply part_refl|]. destruct (newlines && negb (c =? 10)); [|apply part_refl].
          eexists _, []. rewrite app_nil_r. symmetry. apply split_at_app. }
      cbn [fst snd] in LQ, TQ. destruct TQ as [TQ1 TQ2].
      assert (T piece) as TP by (eapply Tpart; [exact TR|]; exists [], tail; symmetry; exact SA).
      assert (T tail) as TL by (eapply Tpart; [exact TR|]; exists piece, []; rewrite app_nil_r; symmetry; exact SA).
      assert (1 <= length piece)%nat as LP by (cbn; lia).
      wbind. apply wp_conseq with (Q := fun r _ => OKall r).
      { destruct text; [apply wp_ret; now apply O0|]. eapply wp_conseq; [apply cidr_ok; now apply (Tpart piece)|].
        intros r ms ((N & H) & _). split; [exact N|]. intros HG. destruct (H HG) as [U K]. split; [exact U|].
        intros l E. now apply K. }
      intros r ms (N & H). destruct r as [l|x| |].
      2:{ split; [discriminate|]. intros _. split; discriminate. }
      2:{ split; [discriminate|]. intros HG. now destruct (proj1 (H HG)). }
      2:{ now destruct N. }
      wbind. eapply wp_conseq; [apply IH; [rewrite skipn_length; lia|apply (Tpart tail); [exact TL|]; eapply part_trans; [apply part_skipn|exact TQ2]]|]. cbv beta.
      intros r2 ms2 (N2 & H2). destruct r2 as [l2|x| |].
      2:{ split; [discriminate|]. intros _. split; discriminate. }
      2:{ split; [discriminate|]. intros HG. now destruct (proj1 (H2 HG)). }
      2:{ now destruct N2. }
      apply wp_ret. split; [discriminate|]. intros HG. split; [discriminate|]. intros l3 E. inversion E; subst.
      apply Forall_app. split; [now apply H | now apply H2].
Qed.

Lemma entries_ok in_ : T in_ -> wp p0 (parse_entries y g in_) (fun r _ => OKall r).
Proof.
  intros TI. unfold parse_entries. wask. wask. destruct (separators p0).
  - eapply wp_conseq; [apply cidr_ok; eapply Tpart; [exact TI|apply part_single]|]. intros r ms ((N & H) & _). split; [exact N|]. intros HG.
    destruct (H HG) as [U K]. split; [exact U|]. intros l E. now apply K.
  - wallow. now apply loop_ok.
Qed.
End Tree.
