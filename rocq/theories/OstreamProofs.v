(* Proofs about the settings of the streams. *)
From Verif Require Import Base Addr Range Inet AddrText Ostream SpecOstream.
Local Open Scope Z_scope.

(* A text is made or an exception is thrown. *)
Definition ends {A} (r : res A) : Prop := match r with Ok _ | Throw _ => True | _ => False end.
Lemma ends_bind : forall A B (r : res A) (f : A -> res B), ends r -> (forall a, ends (f a)) -> ends (rbind r f).
Proof. intros A B [a|e| |] f E F; cbn in *; auto. Qed.
Ltac ends := repeat first
  [ exact I
  | apply ends_bind; [|intros ?]
  | match goal with |- ends (match ?x with _ => _ end) => destruct x end ].
Lemma port_text_ends : forall y a mode, protocols_known y -> ends (port_text y a mode).
Proof.
  intros y a mode H. unfold port_text. destruct (shows_port mode); [|exact I]. apply ends_bind.
  - destruct (has mode STRING_IP_PORT_NAME); [|exact I]. unfold get_port_name. apply ends_bind.
    + unfold get_protocol_name. specialize (H (f_protocol a)). now destruct (getprotobynumber y (f_protocol a)).
    + intros proto. now destruct (getservbyport _ _ _).
  - now intros [|c w].
Qed.
Lemma mask_text4_ends : forall a mode, ends (mask_text4 a mode).
Proof. intros. unfold mask_text4. ends. Qed.
Lemma text_ends : forall y a mode, protocols_known y -> ends (to_ipv4or6_string y a mode).
Proof.
  intros. unfold to_ipv4or6_string, to_ipv4_string, to_ipv6_string. destruct (is_ipv4 a).
  - apply ends_bind; [ends|]. intros ip. apply ends_bind; [now apply port_text_ends|].
    intros p. apply ends_bind; [apply mask_text4_ends|]. intros; exact I.
  - destruct (ip_text6 a mode). apply ends_bind; [now apply port_text_ends|]. intros; exact I.
Qed.
Lemma range_text_ends : forall y r mode, protocols_known y -> ends (range_to_string y r mode).
Proof.
  intros. unfold range_to_string. repeat match goal with |- ends (if ?x then _ else _) => destruct x end;
  repeat first [exact I | now apply text_ends | apply ends_bind; [|intros ?]].
Qed.
Lemma ranges_loop_ends : forall y l mode sep first acc, protocols_known y -> ends (ranges_to_string_loop y l mode sep first acc).
Proof.
  intros y l. induction l as [|r l IH]; intros mode sep first acc K; cbn [ranges_to_string_loop]; [exact I|].
  apply ends_bind; [now apply range_text_ends|]. intros w. now apply IH.
Qed.
Lemma put_addrs_ends : forall y i sep l first, protocols_known y -> ends (snd (put_addrs y i sep first l)).
Proof.
  intros y i sep l. induction l as [|a l IH]; intros first K; cbn [put_addrs]; [exact I|].
  unfold put_addr. pose proof (text_ends y a match i with Some i0 => f_mode i0 | None => STRING_IP_ALL end K) as E.
  destruct (to_ipv4or6_string _ _ _); cbn in *; try tauto.
  specialize (IH false K). destruct (put_addrs y i sep false l). exact IH.
Qed.
Lemma put_item_ends : forall y i x, protocols_known y -> ends (snd (put_item y i x)).
Proof.
  intros y i [a|l|r|l] K; cbn [put_item].
  - unfold put_addr. pose proof (text_ends y a match i with Some i0 => f_mode i0 | None => STRING_IP_ALL end K) as E.
    destruct (to_ipv4or6_string _ _ _); cbn in *; tauto.
  - now apply put_addrs_ends.
  - pose proof (range_text_ends y r match i with Some i0 => f_mode i0 | None => STRING_IP_ALL end K) as E.
    destruct (range_to_string _ _ _); cbn in *; tauto.
  - assert (E : ends (match i with
             | None => ranges_to_string y l STRING_IP_ALL (lit ",")
             | Some i => ranges_to_string y l (f_mode i) (f_sep i)
             end)) by (unfold ranges_to_string; destruct i; now apply ranges_loop_ends).
    destruct (match i with Some _ => _ | None => _ end); cbn in *; tauto.
Qed.

(* What is written. *)
Definition of_info (i : option info) : Z * str :=
  match i with None => initially | Some i => (f_mode i, f_sep i) end.
Lemma put_addrs_shows : forall y i sep l ws first,
  Forall2 (fun a w => to_ipv4or6_string y a (fst (of_info i)) = Ok w) l ws ->
  put_addrs y i sep first l =
    ((match l with [] => [] | _ => if first then [] else sep end) ++ separated sep ws, Ok tt).
Proof.
  intros y i sep l ws first F. revert first. induction F as [|a w l ws E F IH]; intros first; [reflexivity|].
  cbn [put_addrs]. unfold put_addr.
  replace (match i with Some i0 => f_mode i0 | None => STRING_IP_ALL end) with (fst (of_info i)) by now destruct i.
  rewrite E, IH. destruct F as [|b v l ws E' F]; cbn [separated]; rewrite ?app_nil_r; reflexivity.
Qed.
Lemma ranges_loop_shows : forall y mode sep l ws first acc,
  Forall2 (fun r w => range_to_string y r mode = Ok w) l ws ->
  ranges_to_string_loop y l mode sep first acc =
    Ok (acc ++ (match l with [] => [] | _ => if first then [] else sep end) ++ separated sep ws).
Proof.
  intros y mode sep l ws first acc F. revert first acc.
  induction F as [|r w l ws E F IH]; intros first acc; cbn [ranges_to_string_loop].
  - now rewrite app_nil_r.
  - rewrite E. cbn [rbind]. rewrite IH. f_equal.
    destruct F as [|b v l ws E' F]; destruct first; cbn [separated]; rewrite ?app_nil_r, <- ?app_assoc; reflexivity.
Qed.
Lemma put_item_shows : forall y i x w, shows y (fst (of_info i)) (snd (of_info i)) x w ->
  put_item y i x = (w, Ok tt).
Proof.
  intros y i x w S. destruct S as [a w E|l ws F|r w E|l ws F]; cbn [put_item].
  - unfold put_addr. now destruct i; cbn [of_info initially fst] in E; rewrite E.
  - rewrite (put_addrs_shows y i _ l ws true F). f_equal. destruct l, i; reflexivity.
  - now destruct i; cbn [of_info initially fst] in E; rewrite E.
  - unfold ranges_to_string. destruct i; cbn [of_info initially fst snd] in *; rewrite (ranges_loop_shows _ _ _ _ _ true [] F); now destruct l.
Qed.

(* Each stream with settings has one object of its own, and one callback. *)
Record Inv (past : list op) (t : state) : Prop := {
  inv_alive : forall s, alive past s = match streams t s with Some _ => true | None => false end;
  inv_none : forall s z, streams t s = Some z -> pword z = None -> callbacks z = 0%nat /\ settings past s = initially;
  inv_some : forall s z p, streams t s = Some z -> pword z = Some p ->
    callbacks z = 1%nat /\ objects (mem t) p = Some (mk_info (fst (settings past s)) (snd (settings past s)));
  inv_alone : forall s1 s2 z1 z2 p, streams t s1 = Some z1 -> streams t s2 = Some z2 ->
    pword z1 = Some p -> pword z2 = Some p -> s1 = s2;
  inv_used : forall p, objects (mem t) p <> None -> exists s z, streams t s = Some z /\ pword z = Some p;
  inv_next : forall p, objects (mem t) p <> None -> (p < next (mem t))%nat }.

Lemma Inv_new : Inv [] state_new.
Proof. split; cbn; intros; try congruence. Qed.

Ltac eqb := match goal with
  | H : context[Nat.eqb ?a ?b] |- _ => destruct (Nat.eqb_spec a b); subst
  | |- context[Nat.eqb ?a ?b] => destruct (Nat.eqb_spec a b); subst
  end.
Ltac inv := match goal with
  | H : Some _ = Some _ |- _ => injection H as H; subst
  | H : Some _ = None |- _ => discriminate H
  | H : None = Some _ |- _ => discriminate H
  end.

Lemma is_live : forall past t s, Inv past t -> alive past s = true -> exists z, streams t s = Some z.
Proof. intros past t s I A. rewrite (inv_alive _ _ I) in A. destruct (streams t s); [eauto|discriminate]. Qed.
Lemma is_vacant : forall past t s, Inv past t -> alive past s = false -> streams t s = None.
Proof. intros past t s I A. rewrite (inv_alive _ _ I) in A. destruct (streams t s); [discriminate|reflexivity]. Qed.

Lemma inv_info : forall past t s z, Inv past t -> streams t s = Some z ->
  exists i, get_info (mem t) z = Ok i /\ of_info i = settings past s.
Proof.
  intros past t s z I Z. unfold get_info. destruct (pword z) as [p|] eqn:P.
  - destruct (inv_some _ _ I _ _ _ Z P) as [_ O]. unfold deref. rewrite O. cbn [rbind].
    eexists. split; [reflexivity|]. cbn. now destruct (settings past s).
  - destruct (inv_none _ _ I _ _ Z P) as [_ E]. exists None. split; [reflexivity|]. now rewrite E.
Qed.

(* The erase_event callbacks of a stream. *)
Lemma erased : forall past t s z, Inv past t -> streams t s = Some z ->
  exists m, call_callbacks (callbacks z) on_erase (mem t) z = Ok (m, mk_ios None (callbacks z) (text z)) /\
    next m = next (mem t) /\
    (forall p, pword z = Some p -> objects m p = None) /\
    (forall q, pword z <> Some q -> objects m q = objects (mem t) q).
Proof.
  intros past t s z I Z. destruct (pword z) as [p|] eqn:P.
  - destruct (inv_some _ _ I _ _ _ Z P) as [C O]. rewrite C. cbn [call_callbacks]. unfold on_erase, delete.
    rewrite P, O. cbn [rbind]. rewrite C. eexists. split; [reflexivity|]. cbn. split; [reflexivity|]. split.
    + intros q Q. injection Q as <-. now rewrite Nat.eqb_refl.
    + intros q Q. destruct (Nat.eqb_spec q p); [subst; congruence|reflexivity].
  - destruct (inv_none _ _ I _ _ Z P) as [C _]. rewrite C. cbn [call_callbacks].
    exists (mem t). destruct z as [pw cb tx]. cbn in *. subst. repeat split; congruence.
Qed.

Lemma Inv_construct : forall past t s, Inv past t -> proper past (Construct s) ->
  exists t', step t (Construct s) = (t', Ok tt) /\ Inv (Construct s :: past) t'.
Proof.
  intros past t s I P. cbn in P. pose proof (is_vacant _ _ _ I P) as V. cbn [step]. unfold vacant. rewrite V.
  eexists. split; [reflexivity|]. destruct I as [A N S L U X]. unfold put. split; cbn [streams mem].
  - intros k. cbn [alive]. rewrite A. rewrite Nat.eqb_sym. eqb; [reflexivity|]. reflexivity.
  - intros k z Z W. cbn [settings]. rewrite Nat.eqb_sym. eqb; [|eauto]. inv. split; reflexivity.
  - intros k z p Z W. cbn [settings]. rewrite Nat.eqb_sym. eqb; [|eauto]. inv. discriminate.
  - intros s1 s2 z1 z2 p. repeat eqb; intros; repeat inv; try discriminate; eauto.
  - intros p O. destruct (U p O) as [k [z [Z W]]]. exists k, z. eqb; [congruence|]. now split.
  - exact X.
Qed.

Lemma Inv_destroy : forall past t s, Inv past t -> proper past (Destroy s) ->
  exists t', step t (Destroy s) = (t', Ok tt) /\ Inv (Destroy s :: past) t'.
Proof.
  intros past t s I P. cbn in P. destruct (is_live _ _ _ I P) as [z Z]. cbn [step]. unfold live. rewrite Z.
  destruct (erased _ _ _ _ I Z) as [m [E [M [O1 O2]]]]. rewrite E.
  eexists. split; [reflexivity|]. destruct I as [A N S L U X]. unfold put. split; cbn [streams mem].
  - intros k. cbn [alive]. rewrite A, Nat.eqb_sym. now eqb.
  - intros k x K W. cbn [settings]. eqb; [inv|eauto].
  - intros k x p K W. cbn [settings]. eqb; [inv|]. destruct (S _ _ _ K W) as [C O]. split; [exact C|].
    rewrite O2; [exact O|]. intros Q. eapply n, L; eassumption.
  - intros s1 s2 z1 z2 p. repeat eqb; intros; repeat inv; eauto.
  - intros p O. assert (Q : pword z <> Some p) by (intros Q; now apply O, O1).
    rewrite O2 in O by exact Q. destruct (U p O) as [k [x [K W]]]. exists k, x. eqb; [congruence|]. now split.
  - intros p O. rewrite M. apply X. destruct (pword z) as [q|] eqn:W.
    + destruct (Nat.eq_dec p q); [subst; now rewrite O1 in O|]. rewrite O2 in O; [exact O|congruence].
    + rewrite O2 in O; [exact O|congruence].
Qed.

(* Both manipulators. *)
Lemma Inv_set : forall past t s o f,
  Inv past t -> alive past s = true ->
  (forall k, alive (o :: past) k = alive past k) ->
  (forall k, k <> s -> settings (o :: past) k = settings past k) ->
  (forall i, mk_info (fst (settings past s)) (snd (settings past s)) = i ->
     mk_info (fst (settings (o :: past) s)) (snd (settings (o :: past) s)) = f i) ->
  exists t', set_info t s true true f = (t', Ok tt) /\ Inv (o :: past) t'.
Proof.
  intros past t s o f I P HA HK HS. destruct (is_live _ _ _ I P) as [z Z]. unfold set_info, live. rewrite Z.
  cbn [negb]. pose proof I as [A N S L U X]. destruct (pword z) as [p|] eqn:W.
  - destruct (S _ _ _ Z W) as [C O]. unfold deref. rewrite O.
    eexists. split; [reflexivity|]. unfold put, store. split; cbn [streams mem objects next].
    + intros k. rewrite HA, A. eqb; [now rewrite Z|reflexivity].
    + intros k x K V. eqb; [inv; congruence|]. rewrite HK by assumption. eauto.
    + intros k x q K V. eqb.
      * inv. split; [exact C|]. replace q with p by congruence. rewrite Nat.eqb_refl. f_equal. symmetry. now apply HS.
      * rewrite HK by assumption. destruct (S _ _ _ K V) as [C' O']. split; [exact C'|]. eqb; [|exact O'].
        exfalso. eapply n, L; eassumption.
    + intros s1 s2 z1 z2 q K1 K2 W1 W2.
      assert (E1 : streams t s1 = Some z1) by (destruct (Nat.eqb_spec s1 s); [inv; congruence|assumption]).
      assert (E2 : streams t s2 = Some z2) by (destruct (Nat.eqb_spec s2 s); [inv; congruence|assumption]).
      eauto.
    + intros q V. assert (V' : objects (mem t) q <> None) by (destruct (Nat.eqb_spec q p); [subst; congruence|exact V]).
      destruct (U q V') as [k [x [K V'']]]. clear V V'. exists k. eqb; [|eauto]. exists z. split; [reflexivity|]. congruence.
    + intros q V. apply X. destruct (Nat.eqb_spec q p); [subst; congruence|exact V].
  - destruct (N _ _ Z W) as [C Eini]. unfold alloc, deref. cbn [objects next]. rewrite Nat.eqb_refl.
    assert (F : objects (mem t) (next (mem t)) = None).
    { destruct (objects (mem t) (next (mem t))) eqn:E; [|reflexivity]. specialize (X (next (mem t))). rewrite E in X.
      exfalso. assert (next (mem t) < next (mem t))%nat by (apply X; discriminate). lia. }
    eexists. split; [reflexivity|]. unfold put, store. split; cbn [streams mem objects next].
    + intros k. rewrite HA, A. eqb; [now rewrite Z|reflexivity].
    + intros k x K V. eqb; [inv; discriminate|]. rewrite HK by assumption. eauto.
    + intros k x q K V. eqb.
      * inv. cbn in V. injection V as <-. rewrite Nat.eqb_refl. split; [cbn; now rewrite C|].
        f_equal. symmetry. apply HS. rewrite Eini. reflexivity.
      * rewrite HK by assumption. destruct (S _ _ _ K V) as [C' O']. split; [exact C'|].
        eqb; [congruence|exact O'].
    + intros s1 s2 z1 z2 q K1 K2 W1 W2.
      assert (NQ : forall k x, streams t k = Some x -> pword x <> Some (next (mem t))).
      { intros k x K V. destruct (S _ _ _ K V) as [_ O]. congruence. }
      destruct (Nat.eqb_spec s1 s), (Nat.eqb_spec s2 s); repeat inv; cbn in W1, W2; try congruence.
      * injection W1 as <-. exfalso. eapply NQ; eassumption.
      * injection W2 as <-. exfalso. eapply NQ; eassumption.
      * eauto.
    + intros q V. destruct (Nat.eqb_spec q (next (mem t))).
      * subst. exists s. rewrite Nat.eqb_refl. eexists. split; reflexivity.
      * destruct (U q V) as [k [x [K V'']]]. clear V. exists k, x. eqb; [congruence|]. now split.
    + intros q V. destruct (Nat.eqb_spec q (next (mem t))); [subst; lia|].
      specialize (X q V). lia.
Qed.

Lemma Inv_copyfmt : forall past t s from, Inv past t -> proper past (Copyfmt s from true) ->
  exists t', step t (Copyfmt s from true) = (t', Ok tt) /\ Inv (Copyfmt s from true :: past) t'.
Proof.
  intros past t s from I [P Q]. destruct (is_live _ _ _ I P) as [z Z]. destruct (is_live _ _ _ I Q) as [y Y].
  cbn [step]. unfold copyfmt, live. rewrite Z, Y.
  destruct (Nat.eqb_spec s from) as [E|E].
  - subst. eexists. split; [reflexivity|]. destruct I as [A N S L U X].
    assert (H : forall k, settings (Copyfmt from from true :: past) k = settings past k)
      by (intros k; cbn [settings]; destruct (Nat.eqb_spec from k); congruence).
    split; auto; intros; rewrite H; eauto.
  - destruct (erased _ _ _ _ I Z) as [m [EE [M [O1 O2]]]]. rewrite EE. cbn [text].
    pose proof I as [A N S L U X].
    assert (HK : forall k, k <> s -> settings (Copyfmt s from true :: past) k = settings past k)
      by (intros k H; cbn [settings]; destruct (Nat.eqb_spec s k); congruence).
    assert (HS : settings (Copyfmt s from true :: past) s = settings past from)
      by (cbn [settings]; now rewrite Nat.eqb_refl).
    assert (HX : forall p, objects m p <> None -> objects (mem t) p <> None).
    { intros p O. destruct (pword z) as [q|] eqn:W.
      + destruct (Nat.eq_dec p q); [subst; now rewrite O1 in O|]. rewrite O2 in O; [exact O|congruence].
      + rewrite O2 in O; [exact O|congruence]. }
    assert (HO : forall k x p, k <> s -> streams t k = Some x -> pword x = Some p -> objects m p = objects (mem t) p).
    { intros k x p H K W. apply O2. intros V. eapply H, L; eassumption. }
    destruct (pword y) as [p|] eqn:W.
    + destruct (S _ _ _ Y W) as [C O]. rewrite C. cbn [call_callbacks]. unfold on_copyfmt, deref. cbn [pword].
      rewrite (HO from y p) by (congruence || assumption). rewrite O. cbn [rbind]. unfold alloc. cbn [callbacks text].
      eexists. split; [reflexivity|]. unfold put. split; cbn [streams mem objects next].
      * intros k. cbn [alive]. rewrite A. eqb; [now rewrite Z|reflexivity].
      * intros k x K V. eqb; [inv; discriminate|]. rewrite HK by assumption. eauto.
      * intros k x q K V. eqb.
        -- inv. cbn in V. injection V as <-. rewrite Nat.eqb_refl, HS. now split.
        -- rewrite HK by assumption. destruct (S _ _ _ K V) as [C' O']. split; [exact C'|].
           destruct (Nat.eqb_spec q (next m)); [|now rewrite (HO k x)].
           exfalso. assert (q < next (mem t))%nat by (apply X; congruence). lia.
      * intros s1 s2 z1 z2 q K1 K2 W1 W2.
        assert (NQ : forall k x, streams t k = Some x -> pword x <> Some (next m)).
        { intros k x K V. destruct (S _ _ _ K V) as [_ O']. rewrite M in O'.
          assert (next (mem t) < next (mem t))%nat by (apply X; congruence). lia. }
        destruct (Nat.eqb_spec s1 s), (Nat.eqb_spec s2 s); repeat inv; cbn in W1, W2; try congruence.
        -- injection W1 as <-. exfalso. eapply NQ; eassumption.
        -- injection W2 as <-. exfalso. eapply NQ; eassumption.
        -- eauto.
      * intros q V. destruct (Nat.eqb_spec q (next m)).
        -- subst. exists s. rewrite Nat.eqb_refl. eexists. split; reflexivity.
        -- destruct (U q (HX q V)) as [k [x [K V'']]]. exists k, x.
           destruct (Nat.eqb_spec k s); [|now split]. subst. rewrite Z in K. inv. rewrite O1 in V; tauto.
      * intros q V. destruct (Nat.eqb_spec q (next m)); [subst; lia|].
        apply HX in V. specialize (X q V). lia.
    + destruct (N _ _ Y W) as [C Ei]. rewrite C. cbn [call_callbacks].
      eexists. split; [reflexivity|]. unfold put. split; cbn [streams mem objects next].
      * intros k. cbn [alive]. rewrite A. eqb; [now rewrite Z|reflexivity].
      * intros k x K V. eqb; [|rewrite HK by assumption; eauto]. inv. split; [reflexivity|]. now rewrite HS.
      * intros k x q K V. eqb; [inv; discriminate|].
        rewrite HK by assumption. destruct (S _ _ _ K V) as [C' O']. split; [exact C'|]. now rewrite (HO k x).
      * intros s1 s2 z1 z2 q K1 K2 W1 W2.
        destruct (Nat.eqb_spec s1 s), (Nat.eqb_spec s2 s); repeat inv; cbn in W1, W2; try congruence. eauto.
      * intros q V. destruct (U q (HX q V)) as [k [x [K V'']]]. exists k, x.
        destruct (Nat.eqb_spec k s); [|now split]. subst. rewrite Z in K. inv. rewrite O1 in V; tauto.
      * intros q V. rewrite M. now apply X, HX.
Qed.

Lemma Inv_move : forall past t s from, Inv past t -> proper past (Move_construct s from) ->
  exists t', step t (Move_construct s from) = (t', Ok tt) /\ Inv (Move_construct s from :: past) t'.
Proof.
  intros past t s from I [P Q]. pose proof (is_vacant _ _ _ I P) as V. destruct (is_live _ _ _ I Q) as [y Y].
  cbn [step]. unfold vacant, live. rewrite V, Y. eexists. split; [reflexivity|].
  assert (E : s <> from) by congruence.
  destruct I as [A N S L U X]. unfold put. split; cbn [streams mem].
  - intros k. cbn [alive]. rewrite A, Nat.eqb_sym. eqb; [reflexivity|]. cbn. eqb; [now rewrite Y|reflexivity].
  - intros k z Z W. cbn [settings]. rewrite (Nat.eqb_sym s k), (Nat.eqb_sym from k).
    destruct (Nat.eqb_spec k s); [inv; eauto|]. destruct (Nat.eqb_spec k from); [inv; now split|eauto].
  - intros k z p Z W. cbn [settings]. rewrite (Nat.eqb_sym s k), (Nat.eqb_sym from k).
    destruct (Nat.eqb_spec k s); [inv; eauto|]. destruct (Nat.eqb_spec k from); [inv; discriminate|eauto].
  - intros s1 s2 z1 z2 p K1 K2 W1 W2.
    destruct (Nat.eqb_spec s1 s), (Nat.eqb_spec s2 s); try congruence;
    [destruct (Nat.eqb_spec s2 from)|destruct (Nat.eqb_spec s1 from)|
     destruct (Nat.eqb_spec s1 from), (Nat.eqb_spec s2 from)]; repeat inv; try discriminate; try congruence; eauto.
    + exfalso. apply n0. eapply L; eassumption.
    + exfalso. apply n0. eapply L; eassumption.
  - intros p O. destruct (U p O) as [k [z [Z W]]]. destruct (Nat.eq_dec k from).
    + subst. exists s, z. rewrite Nat.eqb_refl. split; congruence.
    + exists k, z. destruct (Nat.eqb_spec k s); [congruence|]. destruct (Nat.eqb_spec k from); [congruence|]. now split.
  - exact X.
Qed.

Lemma Inv_swap : forall past t s1 s2, Inv past t -> proper past (Swap s1 s2) ->
  exists t', step t (Swap s1 s2) = (t', Ok tt) /\ Inv (Swap s1 s2 :: past) t'.
Proof.
  intros past t a b I [P Q]. destruct (is_live _ _ _ I P) as [x X]. destruct (is_live _ _ _ I Q) as [y Y].
  cbn [step]. unfold live. rewrite X, Y. eexists. split; [reflexivity|].
  set (o := fun k => if Nat.eqb k b then a else if Nat.eqb k a then b else k).
  assert (H : forall k, streams (put (put t (mem t) a (Some y)) (mem t) b (Some x)) k = streams t (o k)).
  { intros k. unfold put, o. cbn [streams]. destruct (Nat.eqb_spec k b); [now subst|].
    destruct (Nat.eqb_spec k a); [now subst|reflexivity]. }
  assert (HS : forall k, settings (Swap a b :: past) k = settings past (o k)).
  { intros k. cbn [settings]. unfold o. rewrite (Nat.eqb_sym a k), (Nat.eqb_sym b k).
    destruct (Nat.eqb_spec k a), (Nat.eqb_spec k b); subst; congruence. }
  assert (OO : forall k, o (o k) = k).
  { intros k. unfold o. destruct (Nat.eqb_spec k b); [subst; destruct (Nat.eqb_spec a b); [congruence|now rewrite Nat.eqb_refl]|].
    destruct (Nat.eqb_spec k a); [subst; now rewrite Nat.eqb_refl|].
    destruct (Nat.eqb_spec k b); [congruence|]. destruct (Nat.eqb_spec k a); congruence. }
  destruct I as [A N S L U N']. split; cbn [mem put]; try setoid_rewrite H; try setoid_rewrite HS.
  - intros k. cbn [alive]. rewrite A. unfold o. destruct (Nat.eqb_spec k b); [subst; now rewrite X, Y|].
    destruct (Nat.eqb_spec k a); [subst; now rewrite X, Y|reflexivity].
  - eauto.
  - eauto.
  - intros k1 k2 z1 z2 p K1 K2 W1 W2. rewrite <- (OO k1), <- (OO k2). f_equal. eapply L; eassumption.
  - intros p O. destruct (U p O) as [k [z [Z W]]]. exists (o k), z. rewrite OO. now split.
  - exact N'.
Qed.

Lemma Inv_print : forall past t y s x, Inv past t -> proper past (Print y s x) ->
  exists t' r, step t (Print y s x) = (t', r) /\ ends r /\ Inv (Print y s x :: past) t'.
Proof.
  intros past t y s x I [P K]. destruct (is_live _ _ _ I P) as [z Z]. cbn [step]. unfold live. rewrite Z.
  destruct (inv_info _ _ _ _ I Z) as [i [E _]]. rewrite E. pose proof (put_item_ends y i x K) as F.
  destruct (put_item y i x) as [w r]. cbn [snd] in F. eexists. exists r. split; [reflexivity|]. split; [exact F|].
  set (f := fun k z' => if Nat.eqb k s then mk_ios (pword z') (callbacks z') (text z' ++ w) else z').
  assert (H : forall k, streams (put t (mem t) s (Some (mk_ios (pword z) (callbacks z) (text z ++ w)))) k =
                 match streams t k with Some z' => Some (f k z') | None => None end).
  { intros k. unfold put, f. cbn [streams]. destruct (Nat.eqb_spec k s); [now subst; rewrite Z|].
    now destruct (streams t k). }
  assert (HP : forall k z', pword (f k z') = pword z') by (intros k z'; unfold f; now destruct (Nat.eqb k s)).
  assert (HC : forall k z', callbacks (f k z') = callbacks z') by (intros k z'; unfold f; now destruct (Nat.eqb k s)).
  destruct I as [A N S L U N']. split; cbn [mem put settings alive]; try setoid_rewrite H.
  - intros k. rewrite A. now destruct (streams t k).
  - intros k z' Z' W. destruct (streams t k) eqn:T; [|discriminate]. inv. rewrite HP in W. rewrite HC. eauto.
  - intros k z' p Z' W. destruct (streams t k) eqn:T; [|discriminate]. inv. rewrite HP in W. rewrite HC. eauto.
  - intros k1 k2 z1 z2 p K1 K2 W1 W2. destruct (streams t k1) eqn:T1; [|discriminate].
    destruct (streams t k2) eqn:T2; [|discriminate]. repeat inv. rewrite HP in W1, W2. eauto.
  - intros p O. destruct (U p O) as [k [z' [Z' W]]]. exists k, (f k z'). rewrite Z', HP. now split.
  - exact N'.
Qed.

Lemma Inv_step : forall past t o, Inv past t -> proper past o -> enough_memory o ->
  exists t' r, step t o = (t', r) /\ ends r /\ Inv (o :: past) t'.
Proof.
  intros past t o I P M.
  assert (G : (exists t', step t o = (t', Ok tt) /\ Inv (o :: past) t') ->
              exists t' r, step t o = (t', r) /\ ends r /\ Inv (o :: past) t').
  { intros [t' [E J]]. exists t', (Ok tt). split; [exact E|]. split; [exact Logic.I|exact J]. }
  destruct o as [s|s|s mode m1 m2|s sep m1 m2|s from m|s from|s1 s2|y s x].
  - now apply G, Inv_construct.
  - now apply G, Inv_destroy.
  - destruct M as [-> ->]. apply G. cbn [step]. apply Inv_set; try assumption; try reflexivity.
    + intros k H. cbn [settings]. destruct (Nat.eqb_spec s k); congruence.
    + intros i <-. cbn [settings]. now rewrite Nat.eqb_refl.
  - destruct M as [-> ->]. apply G. cbn [step]. apply Inv_set; try assumption; try reflexivity.
    + intros k H. cbn [settings]. destruct (Nat.eqb_spec s k); congruence.
    + intros i <-. cbn [settings]. now rewrite Nat.eqb_refl.
  - cbn in M. subst. now apply G, Inv_copyfmt.
  - now apply G, Inv_move.
  - now apply G, Inv_swap.
  - now apply Inv_print.
Qed.

Lemma run_app : forall h1 h2 t, run t (h1 ++ h2) = match run t h1 with Some t => run t h2 | None => None end.
Proof.
  induction h1 as [|o h1 IH]; intros h2 t; [reflexivity|]. cbn [app run].
  destruct (step t o) as [t' [[]|e| |]]; auto.
Qed.
Lemma reached : forall past, program past -> Forall enough_memory past ->
  exists t, run state_new (rev past) = Some t /\ Inv past t.
Proof.
  induction past as [|o past IH]; intros P M.
  - exists state_new. split; [reflexivity|apply Inv_new].
  - destruct P as [Po P]. inversion M as [|? ? Mo M']; subst. destruct (IH P M') as [t [R I]].
    destruct (Inv_step _ _ _ I Po Mo) as [t' [r [E [F J]]]]. exists t'. split; [|exact J].
    cbn [rev]. rewrite run_app, R. cbn [run]. rewrite E. now destruct r.
Qed.
