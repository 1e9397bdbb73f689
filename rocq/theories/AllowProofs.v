(* Proofs for C158: a flag which is set in addition. *)
From Coq Require Import ZifyBool ZifyNat.
From Verif Require Import Base Addr Range Inet AddrText Parser SpecParser.
From Verif Require TextProofs DottedProofs ParserProofs9 InetProofs InetProofs2.
From Verif Require Import ParserProofs ParserProofs2 ParserProofs3 ParserProofs5 ParserProofs15 LookupProofs NumericProofs.
Local Open Scope Z_scope.

Lemma in_firstn {A} n (l : list A) x : In x (firstn n l) -> In x l.
Proof. intros I. rewrite <- (firstn_skipn n l). apply in_or_app. auto. Qed.
Lemma in_skipn {A} n (l : list A) x : In x (skipn n l) -> In x l.
Proof. intros I. rewrite <- (firstn_skipn n l). apply in_or_app. auto. Qed.
Lemma find_split c s k : find_char c s = Some k -> s = firstn k s ++ c :: skipn (k + 1) s /\ ~ In c (firstn k s).
Proof.
  revert k. induction s as [|d s IH]; intros k; [discriminate|]. cbn [find_char]. destruct (d =? c) eqn:E.
  - intros H. injection H as <-. apply Z.eqb_eq in E. subst d. split; [reflexivity|intros []].
  - destruct (find_char c s) as [j|]; [|discriminate]. intros H. injection H as <-. destruct (IH _ eq_refl) as [E1 E2].
    split; [|intros [X|X]; [lia|auto]]. cbn [firstn Nat.add skipn app]. now rewrite <- E1.
Qed.
Lemma find_none c s : find_char c s = None -> ~ In c s.
Proof.
  induction s as [|d s IH]; [intros _ []|]. cbn [find_char]. destruct (d =? c) eqn:E; [discriminate|].
  destruct (find_char c s); [discriminate|]. intros _ [X|X]; [lia|]. now apply IH.
Qed.
Lemma find_none_of c s : ~ In c s -> find_char c s = None.
Proof.
  induction s as [|d s IH]; [reflexivity|]. intros N. cbn [find_char]. replace (d =? c) with false; [|symmetry; apply Z.eqb_neq; intros ->; apply N; now left].
  rewrite IH; [reflexivity|]. intros I. apply N. now right.
Qed.

Section Numeric.
Variables (y : sys) (g : resolver) (p : parser).
Hypothesis OFF : allow p ALLOW_ADDRESS_LOOKUP = false.

Definition ip_like (t : str) : Prop := forall c, In c t -> TextProofs.ip_text_char c = true.
Lemma pton_text A q : inet_pton4 A = Some q \/ inet_pton6 A = Some q -> ip_like A /\ (In 46 A \/ In 58 A).
Proof.
  intros [H|H].
  - split.
    + pose proof (TextProofs.pton4_chars _ _ H) as F. rewrite forallb_forall in F. intros c I. apply F in I.
      now apply TextProofs.dotted_text.
    + left. apply TextProofs.pton4_iff in H. destruct H as (L & F & ->). destruct (TextProofs.bytes4_explicit q L F) as (a & b & c & d & -> & _).
      unfold inet_ntop4. cbn. rewrite !in_app_iff. cbn. auto.
  - split.
    + pose proof (TextProofs.pton6_chars _ _ H) as F. rewrite forallb_forall in F. exact F.
    + right. eapply DottedProofs.pton6_colon, H.
Qed.
Definition port_good (P : str) : Prop := P = [] \/ exists n, convert_string y P = Some n.
Lemma acc_port A P v6 l : parse_address_port y g A P v6 p = (p, Ok l) -> ~ In 0 A ->
  ip_like A /\ (A <> [] -> In 46 A \/ In 58 A) /\ port_good P /\ exists r, l = [r].
Proof.
  intros H N0. unfold parse_address_port in H. cbv zeta in H. rewrite bind_allowed in H.
  destruct (negb _ && _) eqn:RQ; [exfalso; exact (not_fail _ _ _ H)|]. rewrite bind_ask, bind_allowed in H.
  destruct (_ && allow p ALLOW_REQUIRED_ADDRESS); [exfalso; exact (not_fail _ _ _ H)|]. rewrite bind_ask, bind_allowed, OFF in H. cbv iota in H.
  rewrite bind_allowed in H.
  set (A' := if match A with [] => true | _ => false end then default_address p v6 else A) in *.
  assert (forall n d, numeric_address A' n d p = (p, Ok l) -> ip_like A /\ (A <> [] -> In 46 A \/ In 58 A) /\ exists r, l = [r]) as K.
  { intros n d X. unfold numeric_address in X. rewrite bind_ask in X.
    assert (ip_like A /\ (A <> [] -> In 46 A \/ In 58 A)) as HA.
    { unfold A' in X. destruct A as [|a A]; [split; [intros c []|congruence]|]. rewrite ParserProofs9.c_str_id in X by exact N0.
      destruct (inet_pton4 (a :: A)) as [q|] eqn:E4; [destruct (pton_text _ q (or_introl E4)); auto|].
      destruct (inet_pton6 (a :: A)) as [q|] eqn:E6; [destruct (pton_text _ q (or_intror E6)); auto|]. exfalso. exact (not_fail _ _ _ X). }
    destruct HA as [H1 H2]. split; [exact H1|]. split; [exact H2|]. clear - X.
    destruct (inet_pton4 _) as [q|]; [|destruct (inet_pton6 _) as [q|]; [|exfalso; exact (not_fail _ _ _ X)]]; unfold bind, lift in X;
      match type of X with context [match ?z with _ => _ end] => destruct z; [|discriminate..] end; injection X as <-; eauto. }
  destruct P as [|c P].
  - assert (ip_like A /\ (A <> [] -> In 46 A \/ In 58 A) /\ exists r, l = [r]); [|unfold port_good; tauto].
    match type of H with (if ?b then _ else _) _ = _ => destruct b end; [|exact (K _ _ H)].
    destruct (convert_string y _) as [n|]; [|exfalso; exact (not_fail _ _ _ H)].
    destruct ((n <? 0) || _); [exfalso; exact (not_fail _ _ _ H)|].
    destruct (negb (allow p ALLOW_PORT) && _); [exfalso; exact (not_fail _ _ _ H)|exact (K _ _ H)].
  - cbn [negb andb] in H. rewrite orb_true_r in H.
    destruct (convert_string y (c :: P)) as [n|] eqn:CV; [|exfalso; exact (not_fail _ _ _ H)].
    destruct ((n <? 0) || _); [exfalso; exact (not_fail _ _ _ H)|].
    destruct (negb (allow p ALLOW_PORT) && _); [exfalso; exact (not_fail _ _ _ H)|]. destruct (K _ _ H) as (K1 & K2 & K3). repeat split; auto. right. eauto.
Qed.
Lemma ok_bind {A B} (m : M A) (f : A -> M B) b : grows m -> (forall a, grows (f a)) -> bind m f p = (p, Ok b) ->
  exists a, m p = (p, Ok a) /\ f a p = (p, Ok b).
Proof.
  intros G1 G2 H. apply quiet_bind in H; [|assumption..]. destruct H as [X|[(x & _ & X)|[(_ & X)|(_ & X)]]]; [exact X|discriminate..].
Qed.
Lemma acc_end t P m v6 l : range_end y g t P m v6 p = (p, Ok l) -> ~ In 0 t ->
  l <> None /\ ip_like t /\ (t <> [] -> In 46 t \/ In 58 t) /\ (t <> [] -> port_good P).
Proof.
  unfold range_end. destruct t as [|c t]; [intros H _; injection H as <-; repeat split; [discriminate|intros c []|congruence..]|]. intros H N0.
  apply ok_bind in H; [|apply grows_ignore|grow]. destruct H as (a & H & HL). unfold parse_address_port_ignore_duplicates in H.
  apply ok_bind in H; [|apply grows_port|grow]. destruct H as (b & H & HB). destruct (acc_port _ _ _ _ H N0) as (H1 & H2 & H3 & r & ->).
  injection HB as <-. injection HL as <-. repeat split; auto. discriminate.
Qed.
Lemma acc_range t P v6 l : parse_address_range_port y g t P v6 p = (p, Ok l) -> ~ In 0 t ->
  (forall c, In c t -> TextProofs.ip_text_char c = true \/ c = 45) /\ (t <> [] -> In 46 t \/ In 58 t) /\ port_good P.
Proof.
  intros H N0. unfold parse_address_range_port in H. rewrite bind_allowed in H.
  destruct (if allow p ALLOW_ADDRESS_RANGE then find_char 45 t else None) as [k|] eqn:FK.
  2:{ destruct (acc_port _ _ _ _ H N0) as (H1 & H2 & H3 & _). split; [|auto]. intros c I. left. now apply H1. }
  assert (find_char 45 t = Some k) as FC by (destruct (allow p ALLOW_ADDRESS_RANGE); [exact FK|discriminate]).
  destruct (find_split _ _ _ FC) as [E _]. cbv zeta in H. set (fr := firstn k t) in *. set (to := skipn (k + 1) t) in *.
  assert (~ In 0 fr /\ ~ In 0 to) as [NF NT] by (split; intros I; apply N0; [now apply in_firstn in I|now apply in_skipn in I]).
  destruct (match fr, to with [], [] => true | _, _ => false end) eqn:EE; [exfalso; exact (not_fail _ _ _ H)|].
  apply ok_bind in H; [|apply grows_end|].
  2:{ intros [f|]; [|apply grows_ret]. apply grows_bind; [apply grows_end|]. grow. }
  destruct H as (x & HX & H). destruct (acc_end _ _ _ _ _ HX NF) as (XN & F1 & F2 & F3). destruct x as [x|]; [|congruence].
  apply ok_bind in H; [|apply grows_end|grow]. destruct H as (x2 & HX2 & _). destruct (acc_end _ _ _ _ _ HX2 NT) as (_ & T1 & T2 & T3).
  clearbody fr to. subst t. split; [|split].
  - intros c I. apply in_app_or in I. destruct I as [I|[<-|I]]; auto.
  - intros _. rewrite !in_app_iff. cbn. destruct fr; [destruct to; [discriminate|]|].
    + destruct T2; [discriminate|auto|auto].
    + destruct F2; [discriminate|auto|auto].
  - destruct fr; [destruct to; [discriminate|]|]; [apply T3; discriminate|apply F3; discriminate].
Qed.

Hypothesis CONV : forall t n, convert_string y t = Some n -> ~ In 47 t.
Lemma acc_range_slash t P v6 l : parse_address_range_port y g t P v6 p = (p, Ok l) -> ~ In 0 t -> ~ In 47 t /\ ~ In 47 P.
Proof.
  intros H N0. destruct (acc_range _ _ _ _ H N0) as (H1 & _ & H3). split.
  - intros I. destruct (H1 _ I) as [X|X]; discriminate.
  - destruct H3 as [->|(n & E)]; [intros []|eapply CONV, E].
Qed.
Lemma no_firstn {n} {s : str} {c} : ~ In c s -> ~ In c (firstn n s).
Proof. intros N I. apply N. now apply in_firstn in I. Qed.
Lemma acc_four s l : parse_address4 y g s p = (p, Ok l) -> ~ In 0 s -> ~ In 47 s.
Proof.
  intros H N0. unfold parse_address4 in H. rewrite !bind_allowed in H. destruct (find_char 58 s) as [k|] eqn:FC.
  - destruct (_ || _); [|exfalso; exact (not_fail _ _ _ H)]. destruct (find_split _ _ _ FC) as [E _].
    apply acc_range_slash in H; [|now apply no_firstn]. rewrite E. rewrite in_app_iff. cbn. intros [I|[I|I]]; [tauto|discriminate|tauto].
  - apply acc_range_slash in H; tauto.
Qed.
Lemma acc_six s k l : parse_address6 y g s k p = (p, Ok l) -> ~ In 0 s -> ~ In 47 s.
Proof.
  intros H N0. unfold parse_address6 in H. rewrite !bind_allowed in H.
  destruct s as [|c s]; [intros []|]. destruct (c =? 91) eqn:C.
  - destruct (find_char 93 (c :: s)) as [j|] eqn:FC; [|exfalso; exact (not_fail _ _ _ H)]. cbv zeta in H.
    destruct (find_split _ _ _ FC) as [E _]. assert (c = 91) by lia. subst c.
    destruct j as [|j]; [discriminate|]. cbn [firstn] in E. replace (S j - 1)%nat with j in H by lia. cbn [skipn] in H.
    assert (~ In 0 (firstn j s)) as N1 by (apply no_firstn; intros I; apply N0; now right).
    assert (In 47 (91 :: s) -> In 47 (firstn j s) \/ In 47 (skipn (S j + 1) (91 :: s))) as K.
    { intros I. rewrite E in I. rewrite <- app_comm_cons in I. destruct I as [I|I]; [discriminate|]. apply in_app_or in I. cbn in I.
      destruct I as [I|[I|I]]; [auto|discriminate|auto]. }
    destruct (skipn (S j + 1) (91 :: s)) as [|c r].
    + apply acc_range_slash in H; [|exact N1]. intros I. apply K in I. cbn in I. tauto.
    + destruct (c =? 58) eqn:C2; cbn [negb] in H; [|exfalso; exact (not_fail _ _ _ H)]. assert (c = 58) by lia. subst c.
      destruct (_ && _); [exfalso; exact (not_fail _ _ _ H)|]. apply acc_range_slash in H; [|exact N1].
      intros I. apply K in I. cbn in I. destruct I as [I|[I|I]]; [tauto|discriminate|tauto].
  - destruct (k =? 1).
    + destruct (find_char 58 (c :: s)) as [j|] eqn:FC; [|discriminate]. destruct (find_split _ _ _ FC) as [E _].
      apply acc_range_slash in H; [|now apply no_firstn]. intros I. rewrite E in I. apply in_app_or in I. cbn in I.
      destruct I as [I|[I|I]]; [tauto|discriminate|tauto].
    + apply acc_range_slash in H; tauto.
Qed.
Lemma acc_address s m l : parse_address y g s m p = (p, Ok l) -> ~ In 0 s -> ~ In 47 s.
Proof.
  intros H N0.
  assert (forall x, (do! l <- parse_address6 y g s (count_char 58 s) in ret (l, false)) p = (p, Ok x) -> ~ In 47 s) as H6.
  { intros x X. apply ok_bind in X; [|apply grows_six|grow]. destruct X as (a & X & _). now apply acc_six in X. }
  assert (forall x, (do! l <- parse_address4 y g s in ret (l, true)) p = (p, Ok x) -> ~ In 47 s) as H4.
  { intros x X. apply ok_bind in X; [|apply grows_four|grow]. destruct X as (a & X & _). now apply acc_four in X. }
  unfold parse_address in H. cbv zeta in H.
  set (m6 := do! l <- parse_address6 y g s (count_char 58 s) in ret (l, false)) in *.
  set (m4 := do! l <- parse_address4 y g s in ret (l, true)) in *. clearbody m6 m4.
  repeat first [ now apply H6 in H | now apply H4 in H | rewrite bind_ask in H | rewrite bind_allowed in H
    | match type of H with (match ?x with _ => _ end) _ = _ => destruct x end ].
Qed.
End Numeric.

(* ---------- the two runs ---------- *)
Definition entry_flags : list Z := [ALLOW_ADDRESS_RANGE; ALLOW_PORT; ALLOW_MASK; ALLOW_ADDRESS_MASK].
Definition cut_flags : list Z :=
  [ALLOW_MULTI_ADDRESSES_COMMAS; ALLOW_MULTI_ADDRESSES_SPACES; ALLOW_MULTI_ADDRESSES_NEWLINES; ALLOW_COMMENT_HASH; ALLOW_COMMENT_SEMICOLON].
Section More.
Variables (y : sys) (g : resolver) (p : parser) (fl : Z) (F : list bool).
Local Notation lk := (with_flags p F).
Hypothesis FL : forall f, 1 <= f <= 12 -> allow lk f = (f =? fl) || allow p f.
Hypothesis KIND : In fl (ALLOW_ADDRESS_MASK :: cut_flags)
  \/ (In fl [ALLOW_ADDRESS_RANGE; ALLOW_PORT; ALLOW_MASK] /\ allow p ALLOW_ADDRESS_LOOKUP = false).
Hypothesis MASKS : fl = ALLOW_MASK -> f_default_mask4 p = [] /\ f_default_mask6 p = [] /\ (forall t n, convert_string y t = Some n -> ~ In 47 t).

Definition sim {A} (m m' : M A) : Prop := forall a, m p = (p, Ok a) -> m' lk = (lk, Ok a).
Lemma sim_bind {A C} (m m' : M A) (f f' : A -> M C) :
  grows m -> (forall a, grows (f a)) -> sim m m' -> (forall a, m p = (p, Ok a) -> sim (f a) (f' a)) -> sim (bind m f) (bind m' f').
Proof.
  intros G1 G2 H1 H2 c E. apply ok_bind in E; [|assumption..]. destruct E as (a & E1 & E2).
  unfold bind. rewrite (H1 _ E1). apply (H2 _ E1 _ E2).
Qed.
Lemma sim_ret {A} (a : A) : sim (ret a) (ret a).
Proof. intros c E. injection E as <-. reflexivity. Qed.
Lemma sim_lift {A} (r : res A) : sim (lift r) (lift r).
Proof. intros c E. injection E as ->. reflexivity. Qed.
Lemma sim_fail {A} m (m' : M (list A)) : sim (fail m) m'.
Proof. intros a E. exfalso. exact (not_fail _ _ _ E). Qed.
Lemma sim_emit {A} m f (m' : M A) : (forall a, grows (f a)) -> sim (bind (emit m) f) m'.
Proof. intros H a E. exfalso. exact (not_emit _ _ _ _ H E). Qed.
Lemma sim_same {C} flag (f f' : bool -> M C) : 1 <= flag <= 12 -> flag <> fl ->
  sim (f (allow p flag)) (f' (allow p flag)) -> sim (bind (allowed flag) f) (bind (allowed flag) f').
Proof. intros R N H c. rewrite !bind_allowed, FL by assumption. replace (flag =? fl) with false by lia. apply H. Qed.
Lemma sim_more {C} flag (f f' : bool -> M C) : 1 <= flag <= 12 -> 
  sim (f (allow p flag)) (f' (allow p flag)) -> (flag = fl -> allow p flag = false -> sim (f false) (f' true)) ->
  sim (bind (allowed flag) f) (bind (allowed flag) f').
Proof.
  intros R H1 H2 c. rewrite !bind_allowed, FL by assumption. destruct (flag =? fl) eqn:E; [|apply H1]. cbn [orb].
  destruct (allow p flag) eqn:A; [apply H1|]. apply H2; [lia|reflexivity].
Qed.
Lemma sim_ask {A C} (x : parser -> A) (f f' : A -> M C) : x lk = x p ->
  sim (f (x p)) (f' (x p)) -> sim (bind (ask x) f) (bind (ask x) f').
Proof. intros N H c. rewrite !bind_ask, N. apply H. Qed.
Ltac other := cbn in KIND; unfold ALLOW_ADDRESS_RANGE, ALLOW_PORT, ALLOW_MASK, ALLOW_ADDRESS_MASK, ALLOW_MULTI_ADDRESSES_COMMAS, ALLOW_MULTI_ADDRESSES_SPACES,
  ALLOW_MULTI_ADDRESSES_NEWLINES, ALLOW_COMMENT_HASH, ALLOW_COMMENT_SEMICOLON, ALLOW_REQUIRED_PORT, ALLOW_REQUIRED_ADDRESS, ALLOW_ADDRESS_LOOKUP in *; lia.

Lemma lookup_off : In fl [ALLOW_ADDRESS_RANGE; ALLOW_PORT; ALLOW_MASK] -> allow p ALLOW_ADDRESS_LOOKUP = false.
Proof. intros I. destruct KIND as [K|[_ K]]; [exfalso|exact K]. clear - I K. cbn in I, K. destruct I as [<-|[<-|[<-|[]]]]; intuition discriminate. Qed.
Lemma sim_use l : forall first h d, sim (use_addrinfo l first h d) (use_addrinfo l first h d).
Proof.
  induction l as [|ai l IH]; intros; cbn [use_addrinfo]; [apply sim_ret|].
  pose proof (fun first h d => grows_use l first h d) as GU.
  destruct (_ =? _); [|destruct (_ =? _)].
  - destruct (negb _); [apply sim_emit; auto|]. apply sim_bind; [apply grows_lift| |apply sim_lift|].
    + intros. apply grows_bind; [apply GU|grow].
    + intros. apply sim_bind; [apply GU|grow|apply IH|intros; apply sim_ret].
  - destruct (negb _); [apply sim_emit; auto|]. apply sim_bind; [apply grows_lift| |apply sim_lift|].
    + intros. apply grows_bind; [apply GU|grow].
    + intros. apply sim_bind; [apply GU|grow|apply IH|intros; apply sim_ret].
  - destruct first; [apply sim_emit; auto|apply IH].
Qed.
Lemma sim_numeric A n d : sim (numeric_address A n d) (numeric_address A n d).
Proof.
  unfold numeric_address. apply sim_ask; [reflexivity|].
  destruct (inet_pton4 _); [|destruct (inet_pton6 _)]; [..|apply sim_fail];
    (apply sim_bind; [apply grows_lift|grow|apply sim_lift|intros; apply sim_ret]).
Qed.
Lemma sim_port A P v6 : sim (parse_address_port y g A P v6) (parse_address_port y g A P v6).
Proof.
  unfold parse_address_port. cbv zeta. apply sim_same; [other|other|].
  destruct (negb _ && _); [apply sim_fail|]. apply sim_ask; [reflexivity|]. apply sim_same; [other|other|].
  destruct (_ && allow p ALLOW_REQUIRED_ADDRESS); [apply sim_fail|]. apply sim_ask; [reflexivity|]. apply sim_same; [other|other|].
  destruct (allow p ALLOW_ADDRESS_LOOKUP).
  - apply sim_ask; [reflexivity|]. match goal with |- sim (match ?z with _ => _ end) _ => destruct z end; [apply sim_fail|apply sim_use].
  - apply sim_more; [other| |].
    + destruct (_ || _); [|apply sim_numeric]. destruct (convert_string _ _) as [n|]; [|apply sim_fail].
      destruct (_ || _); [apply sim_fail|]. destruct (_ && _); [apply sim_fail|apply sim_numeric].
    + intros _ _. destruct (_ || _); [|apply sim_numeric]. destruct (convert_string _ _) as [n|]; [|apply sim_fail].
      destruct (_ || _); [apply sim_fail|]. cbn [negb andb]. destruct (negb _); [apply sim_fail|apply sim_numeric].
Qed.
Lemma sim_end t P m v6 : sim (range_end y g t P m v6) (range_end y g t P m v6).
Proof.
  unfold range_end. destruct t as [|c t]; [apply sim_ret|]. apply sim_bind; [apply grows_ignore|grow| |].
  - unfold parse_address_port_ignore_duplicates. apply sim_bind; [apply grows_port|grow|apply sim_port|].
    intros [|r l] _; [apply sim_ret|]. apply sim_bind; [apply grows_lift|grow|apply sim_lift|intros; apply sim_ret].
  - intros [|r [|r2 l]] _; [apply sim_ret..|apply sim_emit; grow].
Qed.
(* texts with a NUL are left out where the C string decides *)
Definition nz (s : str) : Prop := In fl [ALLOW_ADDRESS_RANGE; ALLOW_PORT; ALLOW_MASK] -> ~ In 0 s.
Lemma nz_in a b : (forall c, In c a -> In c b) -> nz b -> nz a.
Proof. intros I N K X. exact (N K (I _ X)). Qed.
Lemma nz_firstn n s : nz s -> nz (firstn n s).
Proof. apply nz_in. intros c. apply in_firstn. Qed.
Lemma nz_skipn n s : nz s -> nz (skipn n s).
Proof. apply nz_in. intros c. apply in_skipn. Qed.
Lemma sim_range t P v6 : nz t -> sim (parse_address_range_port y g t P v6) (parse_address_range_port y g t P v6).
Proof.
  intros N0. unfold parse_address_range_port. apply sim_more; [other| |].
  - destruct (if allow p ALLOW_ADDRESS_RANGE then find_char 45 t else None) as [k|]; [|apply sim_port]. cbv zeta.
    match goal with |- sim (if ?x then _ else _) _ => destruct x end; [apply sim_fail|].
    apply sim_bind; [apply grows_end| |apply sim_end|].
    { intros [f|]; [|apply grows_ret]. apply grows_bind; [apply grows_end|]. grow. }
    intros [f|] _; [|apply sim_ret]. apply sim_bind; [apply grows_end|grow|apply sim_end|].
    intros [h|] _; [|apply sim_ret]. destruct f as [f|], h as [h|]; cbn [option_map]; [|apply sim_ret|apply sim_ret|apply sim_lift].
    apply sim_ask; [reflexivity|]. destruct (_ || _); apply sim_ret.
  - intros E A a H. assert (allow p ALLOW_ADDRESS_LOOKUP = false) as OFF by (apply lookup_off; rewrite <- E || rewrite E; cbn; auto).
    destruct (acc_port _ _ _ OFF _ _ _ _ H (N0 ltac:(rewrite <- E; cbn; auto))) as (H1 & _). rewrite find_none_of; [now apply sim_port|].
    intros I. apply H1 in I. discriminate.
Qed.
Lemma no_skipn {n} {s : str} {c} : ~ In c s -> ~ In c (skipn n s).
Proof. intros N I. apply N. now apply in_skipn in I. Qed.
Lemma sim_four s : nz s -> sim (parse_address4 y g s) (parse_address4 y g s).
Proof.
  intros N0. unfold parse_address4. apply sim_more; [other| |].
  - apply sim_same; [other|other|]. destruct (find_char 58 s) as [k|]; [|now apply sim_range].
    destruct (_ || _); [|apply sim_fail]. apply sim_range. now apply nz_firstn.
  - intros _ _. apply sim_same; [other|other|]. destruct (find_char 58 s) as [k|]; [|now apply sim_range].
    cbn [orb]. destruct (allow p ALLOW_REQUIRED_PORT); [|apply sim_fail]. apply sim_range. now apply nz_firstn.
Qed.
Lemma sim_six s k : nz s -> sim (parse_address6 y g s k) (parse_address6 y g s k).
Proof.
  intros N0.
  assert (forall a b r, (a = false -> b = true \/ b = false) -> (a = true -> b = true) ->
    sim (if match s with c :: _ => c =? 91 | [] => false end then
    match find_char 93 s with
    | None => fail (lit "IPv6 is missing the ']' (" ++ s ++ lit ").")
    | Some p =>
        match skipn (p + 1) s with
        | [] => parse_address_range_port y g (firstn (p - 1) (skipn 1 s)) [] true
        | c :: port_str =>
            if negb (c =? 58) then
              fail (lit "The IPv6 address """ ++ s ++ lit """ is followed by unknown data.")
            else if negb a && negb r then
              fail (lit "Port not allowed (" ++ s ++ lit ").")
            else parse_address_range_port y g (firstn (p - 1) (skipn 1 s)) port_str true
        end
    end
  else if k =? 1 then
    match find_char 58 s with
    | None => lift (Throw E_logic_error)
    | Some p => parse_address_range_port y g (firstn p s) (skipn (p + 1) s) true
    end
  else parse_address_range_port y g s [] true)
    (if match s with c :: _ => c =? 91 | [] => false end then
    match find_char 93 s with
    | None => fail (lit "IPv6 is missing the ']' (" ++ s ++ lit ").")
    | Some p =>
        match skipn (p + 1) s with
        | [] => parse_address_range_port y g (firstn (p - 1) (skipn 1 s)) [] true
        | c :: port_str =>
            if negb (c =? 58) then
              fail (lit "The IPv6 address """ ++ s ++ lit """ is followed by unknown data.")
            else if negb b && negb r then
              fail (lit "Port not allowed (" ++ s ++ lit ").")
            else parse_address_range_port y g (firstn (p - 1) (skipn 1 s)) port_str true
        end
    end
  else if k =? 1 then
    match find_char 58 s with
    | None => lift (Throw E_logic_error)
    | Some p => parse_address_range_port y g (firstn p s) (skipn (p + 1) s) true
    end
  else parse_address_range_port y g s [] true)) as K.
  { intros a b r _ AB. match goal with |- sim (if ?x then _ else _) _ => destruct x end.
    - destruct (find_char 93 s) as [j|]; [|apply sim_fail].
      assert (nz (firstn (j - 1) (skipn 1 s))) as N1 by now apply nz_firstn, nz_skipn.
      destruct (skipn (j + 1) s) as [|c t]; [now apply sim_range|].
      destruct (negb (c =? 58)); [apply sim_fail|]. destruct a.
      + rewrite AB by reflexivity. now apply sim_range.
      + destruct r; cbn [negb andb]; [rewrite andb_false_r; now apply sim_range|apply sim_fail].
    - destruct (k =? 1); [|now apply sim_range]. destruct (find_char 58 s) as [j|]; [|apply sim_lift].
      apply sim_range. now apply nz_firstn. }
  unfold parse_address6. apply sim_more; [other| |].
  - apply sim_same; [other|other|]. apply K; [destruct (allow p ALLOW_PORT); auto|auto].
  - intros _ _. apply sim_same; [other|other|]. apply K; auto.
Qed.
Lemma sim_address s m : nz s -> sim (parse_address y g s m) (parse_address y g s m).
Proof.
  intros N0.
  assert (sim (do! l <- parse_address6 y g s (count_char 58 s) in ret (l, false))
              (do! l <- parse_address6 y g s (count_char 58 s) in ret (l, false))) as H6.
  { apply sim_bind; [apply grows_six|grow|now apply sim_six|]. intros. apply sim_ret. }
  assert (sim (do! l <- parse_address4 y g s in ret (l, true)) (do! l <- parse_address4 y g s in ret (l, true))) as H4.
  { apply sim_bind; [apply grows_four|grow|now apply sim_four|]. intros. apply sim_ret. }
  unfold parse_address. cbv zeta. destruct (count_char 58 s >=? 2) eqn:TWO; [exact H6|].
  assert (forall k j : nat, fl = ALLOW_PORT -> find_char 58 s = Some k -> match s with c :: _ => c <> 58 | [] => True end ->
    match s with c :: _ => c <> 91 | [] => True end ->
    match find_char 46 s with Some d => (k <? d)%nat | None => true end = true ->
    forall a, (do! l <- parse_address6 y g s (count_char 58 s) in ret (l, false)) p = (p, Ok a) -> False) as BAD.
  { intros k j E FC C1 C2 DOT a H. apply ok_bind in H; [|apply grows_six|grow]. destruct H as (l & H & _).
    assert (allow p ALLOW_ADDRESS_LOOKUP = false) as OFF by (apply lookup_off; rewrite <- E || rewrite E; cbn; auto).
    destruct (find_split _ _ _ FC) as [ES NS].
    assert (count_char 58 s = 1) as ONE.
    { unfold count_char in *. assert (In 58 (filter (Z.eqb 58) s)) as I.
      { apply filter_In. split; [|reflexivity]. rewrite ES. apply in_or_app. right. now left. }
      destruct (filter (Z.eqb 58) s); [destruct I|]. cbn in *. lia. }
    unfold parse_address6 in H. rewrite !bind_allowed, ONE, FC in H. destruct s as [|c s]; [discriminate|].
    replace (c =? 91) with false in H by lia. change (1 =? 1) with true in H. cbv iota in H.
    destruct (acc_range _ _ _ OFF _ _ _ _ H (no_firstn (N0 ltac:(rewrite E; cbn; auto)))) as (_ & H2 & _).
    assert (firstn k (c :: s) <> []) as NE. { destruct k; [|discriminate]. cbn [find_char] in FC. replace (c =? 58) with false in FC by lia. destruct (find_char 58 s); discriminate. }
    destruct (H2 NE) as [I|I]; [|auto]. destruct (find_char 46 (c :: s)) as [d|] eqn:FD.
    - destruct (find_split _ _ _ FD) as [_ ND]. apply ND. apply Nat.ltb_lt in DOT.
      revert I. clear - DOT. generalize (c :: s). intros l I. 
      replace (firstn k l) with (firstn k (firstn d l)) in I by (rewrite firstn_firstn; f_equal; lia). now apply in_firstn in I.
    - apply find_none in FD. apply FD. now apply in_firstn in I. }
  set (m6 := do! l <- parse_address6 y g s (count_char 58 s) in ret (l, false)) in *.
  set (m4 := do! l <- parse_address4 y g s in ret (l, true)) in *. clearbody m6 m4.
  destruct s as [|c s].
  - repeat first [ exact H6 | exact H4 | apply sim_ask; [reflexivity|] | match goal with |- sim (match ?x with _ => _ end) _ => destruct x end ].
  - destruct (c =? 58) eqn:C58.
    { repeat first [ exact H6 | exact H4 | apply sim_ask; [reflexivity|] | match goal with |- sim (match ?x with _ => _ end) _ => destruct x end ]. }
    destruct (c =? 91) eqn:C91; [exact H6|]. cbn [orb]. destruct (find_char 93 (c :: s)) as [j|]; [exact H6|].
    apply sim_more; [other| |].
    + apply sim_same; [other|other|].
      repeat first [ exact H6 | exact H4 | match goal with |- sim (match ?x with _ => _ end) _ => destruct x end ].
    + intros E A. apply sim_same; [other|other|]. cbn [negb andb]. destruct (negb (allow p ALLOW_REQUIRED_PORT)); [|exact H4].
      destruct (find_char 58 (c :: s)) as [k|] eqn:FC; [|exact H4].
      match goal with |- sim (if ?x then _ else _) _ => destruct x eqn:DOT end; [|exact H4].
      intros a H. exfalso. apply (BAD k O (eq_sym E) eq_refl) with (a := a); [lia|lia|exact DOT|exact H].
Qed.
Lemma sim_mask m a v4 : sim (parse_mask g m a v4) (parse_mask g m a v4).
Proof.
  unfold parse_mask. cbv zeta. destruct m as [|c0 m]; [apply sim_ret|].
  destruct (mask_number _ 0) as [k|]; [|apply sim_emit; grow].
  destruct (negb (k =? -1)).
  { destruct (v4 && _); [apply sim_emit; grow|]. destruct (negb v4 && _); [apply sim_emit; grow|].
    destruct (mask_bits_loop _ _ _) as [bits|]; [apply sim_ret|apply sim_lift]. }
  apply sim_more; [other| |intros _ _; apply sim_emit; grow].
  repeat first [ apply sim_ret | apply sim_lift | apply sim_emit; grow | match goal with |- sim (match ?x with _ => _ end) _ => destruct x end ].
Qed.
Lemma sim_masks m v4 l : sim (apply_masks g m v4 l) (apply_masks g m v4 l).
Proof.
  induction l as [|am l IH]; cbn [apply_masks]; [apply sim_ret|]. cbv zeta. apply sim_ask; [reflexivity|].
  apply sim_bind; [apply grows_mask| |apply sim_mask|].
  - intros. apply grows_bind; [apply grows_masks|grow].
  - intros a _. apply sim_bind; [apply grows_masks|grow|exact IH|]. intros. apply sim_ret.
Qed.
Lemma masks_none v4 : effective_mask lk [] v4 = [] -> forall l, apply_masks g [] v4 l lk = (lk, Ok l).
Proof.
  intros E. induction l as [|am l IH]; [reflexivity|]. cbn [apply_masks]. cbv zeta. rewrite bind_ask, E. cbn [parse_mask].
  unfold bind, ret, lift. rewrite IH. destruct am. reflexivity.
Qed.
Lemma sim_cidr s : nz s -> sim (parse_cidr y g s) (parse_cidr y g s).
Proof.
  intros N0. unfold parse_cidr. cbv zeta.
  assert (nz (trim_string s)) as N1 by (revert N0; apply nz_in; intros c; apply trim_in).
  apply sim_more; [other| |].
  - destruct (allow p ALLOW_MASK).
    + match goal with |- sim (let (_, _) := ?x in _) _ => assert (nz (fst x)) as N2; [|destruct x as [t m]] end.
      { destruct (find_char 47 _); cbn [fst]; [now apply nz_firstn|exact N1]. }
      cbn [fst] in N2. apply sim_ask; [reflexivity|]. apply sim_bind; [apply grows_address| |now apply sim_address|].
      { intros [l v4]. apply grows_bind; [apply grows_masks|grow]. }
      intros [l v4] _. apply sim_bind; [apply grows_masks|grow|apply sim_masks|]. intros a _. apply sim_ask; [reflexivity|].
      destruct (_ =? _); apply sim_ret.
    + apply sim_bind; [apply grows_address|grow|now apply sim_address|]. intros. apply sim_ret.
  - intros E A a H. destruct (MASKS (eq_sym E)) as (M4 & M6 & CV). assert (allow p ALLOW_ADDRESS_LOOKUP = false) as OFF by (apply lookup_off; rewrite <- E || rewrite E; cbn; auto).
    apply ok_bind in H; [|apply grows_address|grow]. destruct H as ([l v4] & H & X). injection X as <-.
    pose proof (acc_address _ _ _ OFF CV _ _ _ H (N1 ltac:(rewrite <- E; cbn; auto))) as NS. rewrite find_none_of by exact NS. rewrite bind_ask.
    unfold bind at 1. rewrite (sim_address _ _ N1 _ H). unfold bind at 1. rewrite masks_none.
    + rewrite bind_ask, Z.eqb_refl. reflexivity.
    + unfold effective_mask. cbn [f_default_mask4 f_default_mask6 with_flags]. rewrite M4, M6. destruct v4; reflexivity.
Qed.

(* ---------- entries ---------- *)
Lemma split_same set set' s : (forall d, In d s -> mem d set' = mem d set) -> split_at set' s = split_at set s.
Proof.
  induction s as [|d s IH]; [reflexivity|]. intros H. cbn [split_at]. rewrite (H d) by now left. destruct (mem d set); [reflexivity|].
  rewrite IH; [reflexivity|]. intros e I. apply H. now right.
Qed.
Lemma split_none set s : (forall d, In d s -> mem d set = false) -> split_at set s = (s, []).
Proof.
  induction s as [|d s IH]; [reflexivity|]. intros H. cbn [split_at]. rewrite (H d) by now left. rewrite IH; [reflexivity|].
  intros e I. apply H. now right.
Qed.
Lemma split_head set s a d b : split_at set s = (a, d :: b) -> mem d set = true.
Proof.
  revert a. induction s as [|c s IH]; intros a; cbn [split_at]; [discriminate|]. destruct (mem c set) eqn:M.
  - intros H. injection H as _ <- _. exact M.
  - destruct (split_at set s) as [a' b']. intros H. injection H as _ ->. now apply (IH a').
Qed.
Definition skips (com : str) (nl : bool) (d : Z) : bool := match com with [] => false | _ => nl && negb (d =? 10) end.
Lemma sim_loop seps seps' com com' nl nl' : forall fuel s, nz s ->
  (forall d, In d s -> mem d seps' = mem d seps /\ mem d com' = mem d com /\ (mem d seps = true -> skips com' nl' d = skips com nl d)) ->
  sim (parse_loop y g fuel seps com nl s) (parse_loop y g fuel seps' com' nl' s).
Proof.
  induction fuel as [|k IH]; intros [|c s] N0 H; [apply sim_ret|apply sim_lift|apply sim_ret|].
  cbn [parse_loop]. rewrite (split_same seps seps') by (intros d I; apply H, I).
  pose proof (split_in seps (c :: s)) as SI. pose proof (split_head seps (c :: s)) as SH.
  destruct (split_at seps (c :: s)) as [piece tail]. cbn [fst snd] in SI.
  destruct piece as [|c1 piece].
  { apply IH; [revert N0; apply nz_in|intros d I; apply H]; intros; apply SI; right; eapply in_skipn; eassumption. }
  assert (match com' with
          | [] => (c1 :: piece, tail)
          | _ => (fst (split_at com' (c1 :: piece)), match tail with [] => tail | d :: _ => if nl' && negb (d =? 10) then snd (split_at [10] tail) else tail end)
          end
          = match com with
          | [] => (c1 :: piece, tail)
          | _ => (fst (split_at com (c1 :: piece)), match tail with [] => tail | d :: _ => if nl && negb (d =? 10) then snd (split_at [10] tail) else tail end)
          end) as E.
  { assert (split_at com' (c1 :: piece) = split_at com (c1 :: piece)) as E1.
    { apply split_same. intros d I. apply H. apply SI. now left. }
    rewrite E1. clear E1.
    assert (com = [] -> com' <> [] -> fst (split_at com (c1 :: piece)) = c1 :: piece) as E2.
    { intros -> _. rewrite split_none; reflexivity. }
    assert (com' = [] -> fst (split_at com (c1 :: piece)) = c1 :: piece) as E3.
    { intros ->. rewrite split_none; [reflexivity|]. intros d I. destruct (H d) as (_ & <- & _); [apply SI; now left|reflexivity]. }
    assert (match tail with [] => True | d :: _ => skips com' nl' d = skips com nl d end) as E4.
    { destruct tail as [|d tail]; [exact I|]. apply H; [apply SI; right; now left|]. eapply SH. reflexivity. }
    unfold skips in E4. destruct com as [|x com], com' as [|x' com']; [reflexivity| | |].
    - rewrite E2 by (reflexivity || discriminate). destruct tail as [|d tail]; [reflexivity|]. now rewrite E4.
    - rewrite E3 by reflexivity. destruct tail as [|d tail]; [reflexivity|]. now rewrite <- E4.
    - destruct tail as [|d tail]; [reflexivity|]. now rewrite E4. }
  match goal with |- sim (let (_, _) := ?x in _) (let (_, _) := ?x' in _) => replace x' with x by (symmetry; exact E) end. clear E.
  match goal with |- sim (let (_, _) := ?x in _) _ =>
    assert ((forall d, In d (fst x) -> In d (c :: s)) /\ (forall d, In d (snd x) -> In d (c :: s))) as [I1 I2]; [|destruct x as [text tl]] end.
  { split.
    - intros d I. apply SI. left. destruct com; [exact I|]. cbn [fst] in I. eapply split_in. left. exact I.
    - intros d I. apply SI. right. destruct com; [exact I|]. cbn [snd] in I. destruct tail as [|e tail]; [exact I|].
      destruct (_ && _); [|exact I]. eapply split_in. right. exact I. }
  cbn [fst snd] in I1, I2. apply sim_bind; [destruct text; [apply grows_ret|apply grows_cidr]| | |].
  - intros. apply grows_bind; [apply grows_loop|grow].
  - destruct text as [|t text]; [apply sim_ret|]. apply sim_cidr. revert N0. apply nz_in. exact I1.
  - intros l _. apply sim_bind; [apply grows_loop|grow| |intros; apply sim_ret].
    apply IH; [revert N0; apply nz_in|intros d I; apply H]; intros; apply I2; eapply in_skipn; eassumption.
Qed.
Lemma mem_in c set : mem c set = true <-> In c set.
Proof. unfold mem. rewrite existsb_exists. split; [intros (x & I & E); apply Z.eqb_eq in E; now subst|intros I; exists c; split; [exact I|apply Z.eqb_refl]]. Qed.
Lemma single_same com com' s : (forall d, In d s -> mem d com' = mem d com) -> single_entry com' s = single_entry com s.
Proof.
  intros H. unfold single_entry. cbv zeta. set (k := (length s - length (trim_left s))%nat).
  assert (k <= length s)%nat as LE by (unfold k; lia).
  assert (split_at com' (skipn k s) = split_at com (skipn k s)) as E by (apply split_same; intros d I; apply H; now apply in_skipn in I).
  assert (length (skipn k s) + k = length s)%nat as L by (rewrite skipn_length; lia).
  destruct com as [|x com], com' as [|x' com']; [reflexivity| | |now rewrite E].
  - rewrite E, split_none by reflexivity. cbn [fst]. rewrite Nat.add_comm, L. reflexivity.
  - rewrite <- E, split_none by reflexivity. cbn [fst]. rewrite Nat.add_comm, L. reflexivity.
Qed.
Lemma single_in com s d : In d (single_entry com s) -> In d s.
Proof.
  unfold single_entry. cbv zeta. match goal with |- In d (if ?b then _ else _) -> _ => destruct b end; intros I; [|apply in_firstn in I]; now apply in_skipn in I.
Qed.

Lemma sim_entries_inside s : In fl entry_flags -> nz s -> sim (parse_entries y g s) (parse_entries y g s).
Proof.
  intros IE N0. assert (separators lk = separators p /\ comment_chars lk = comment_chars p) as [ES EC].
  { unfold separators, comment_chars. rewrite !FL by other. cbn in IE. destruct IE as [<-|[<-|[<-|[<-|[]]]]]; split; reflexivity. }
  unfold parse_entries. apply sim_ask; [exact ES|]. apply sim_ask; [exact EC|]. destruct (separators p) as [|x seps].
  - apply sim_cidr. revert N0. apply nz_in. intros c. apply single_in.
  - apply sim_same; [other|clear - IE; cbn in IE; destruct IE as [<-|[<-|[<-|[<-|[]]]]]; discriminate|]. apply sim_loop; [exact N0|]. auto.
Qed.

(* the character which a flag makes special *)
Definition flag_char : Z :=
  if fl =? 2 then 44 else if fl =? 3 then 32 else if fl =? 4 then 10 else if fl =? 11 then 35 else 59.
Definition mixed (q : parser) : bool :=
  (allow q ALLOW_COMMENT_HASH || allow q ALLOW_COMMENT_SEMICOLON) && allow q ALLOW_MULTI_ADDRESSES_NEWLINES
  && (allow q ALLOW_MULTI_ADDRESSES_COMMAS || allow q ALLOW_MULTI_ADDRESSES_SPACES).
Lemma mem_seps q d : mem d (separators q) = (allow q ALLOW_MULTI_ADDRESSES_COMMAS && (d =? 44)) || (allow q ALLOW_MULTI_ADDRESSES_SPACES && (d =? 32))
  || (allow q ALLOW_MULTI_ADDRESSES_NEWLINES && (d =? 10)).
Proof. unfold separators, mem. destruct (allow q _), (allow q _), (allow q _); cbn; rewrite ?orb_false_r, ?orb_assoc; reflexivity. Qed.
Lemma mem_com q d : mem d (comment_chars q) = (allow q ALLOW_COMMENT_HASH && (d =? 35)) || (allow q ALLOW_COMMENT_SEMICOLON && (d =? 59)).
Proof. unfold comment_chars, mem. destruct (allow q _), (allow q _); cbn; rewrite ?orb_false_r; reflexivity. Qed.
Lemma skips_mixed q d : mem d (separators q) = true ->
  skips (comment_chars q) (allow q ALLOW_MULTI_ADDRESSES_NEWLINES) d = mixed q && negb (d =? 10).
Proof.
  rewrite mem_seps. unfold skips, mixed, comment_chars.
  destruct (allow q ALLOW_COMMENT_HASH), (allow q ALLOW_COMMENT_SEMICOLON), (allow q ALLOW_MULTI_ADDRESSES_COMMAS),
    (allow q ALLOW_MULTI_ADDRESSES_SPACES), (allow q ALLOW_MULTI_ADDRESSES_NEWLINES); cbn; try reflexivity; destruct (d =? 10); cbn; congruence.
Qed.
Lemma same_mem d : In fl cut_flags -> d <> flag_char ->
  mem d (separators lk) = mem d (separators p) /\ mem d (comment_chars lk) = mem d (comment_chars p).
Proof.
  intros IC N. rewrite !mem_seps, !mem_com, !FL by other. clear - IC N. unfold flag_char in N. cbn in IC.
  destruct IC as [<-|[<-|[<-|[<-|[<-|[]]]]]]; cbn in N |- *; apply Z.eqb_neq in N; rewrite ?N; rewrite ?andb_false_r, ?orb_false_r; auto.
Qed.
Lemma sim_entries_cut s : In fl cut_flags -> ~ In flag_char s -> (mixed lk = true -> mixed p = true) ->
  (separators p = [] -> separators lk <> [] -> s <> [] /\ forall d, In d s -> mem d (comment_chars p) = false) ->
  sim (parse_entries y g s) (parse_entries y g s).
Proof.
  intros IC NC MX NEW.
  assert (forall t, nz t) as NZ.
  { intros t K. exfalso. clear - IC K. cbn in IC, K. destruct IC as [<-|[<-|[<-|[<-|[<-|[]]]]]]; intuition discriminate. }
  assert (mixed p = true -> mixed lk = true) as MX2.
  { unfold mixed. rewrite !FL by other. clear. rewrite !andb_true_iff, !orb_true_iff. tauto. }
  assert (forall d, In d s -> mem d (separators lk) = mem d (separators p) /\ mem d (comment_chars lk) = mem d (comment_chars p)
    /\ (mem d (separators p) = true -> skips (comment_chars lk) (allow lk ALLOW_MULTI_ADDRESSES_NEWLINES) d
          = skips (comment_chars p) (allow p ALLOW_MULTI_ADDRESSES_NEWLINES) d)) as H.
  { intros d I. destruct (same_mem d IC) as [H1 H2]; [congruence|]. split; [exact H1|]. split; [exact H2|]. intros X.
    rewrite !skips_mixed by congruence. f_equal. destruct (mixed p), (mixed lk); intuition congruence. }
  intros a. unfold parse_entries. rewrite !bind_ask. destruct (separators p) as [|x seps] eqn:EP.
  - destruct (separators lk) as [|x' seps'] eqn:EL.
    + rewrite (single_same (comment_chars p) (comment_chars lk)) by (intros; now apply H). now apply sim_cidr.
    + destruct NEW as [NE NOC]; [reflexivity|discriminate|]. rewrite bind_allowed.
      rewrite cidr_trim, single_trim, <- cidr_trim.
      2:{ apply Forall_forall. intros d I X. specialize (NOC d I). rewrite mem_com in NOC. unfold starts_comment in X.
          change (get_allow p ALLOW_COMMENT_HASH) with (Ok (allow p ALLOW_COMMENT_HASH)) in X.
          change (get_allow p ALLOW_COMMENT_SEMICOLON) with (Ok (allow p ALLOW_COMMENT_SEMICOLON)) in X.
          destruct X as [[X ->]|[X ->]]; injection X as X; rewrite X in NOC; [|rewrite orb_comm in NOC]; discriminate. }
      intros E. apply (sim_cidr _ (NZ _)) in E. destruct s as [|c s]; [congruence|]. cbn [length parse_loop].
      rewrite split_none by (intros d I; destruct (H d I) as (-> & _); reflexivity).
      match goal with |- context [let (_, _) := ?z in _] => assert (z = ((c :: s : str), ([] : str))) as ET; [|rewrite ET] end.
      { destruct (comment_chars lk) eqn:EC; [reflexivity|]. rewrite split_none; [reflexivity|]. intros d I. destruct (H d I) as (_ & -> & _). now apply NOC. }
      unfold bind at 1. rewrite E. cbn [skipn]. destruct (length s); cbn [parse_loop]; unfold bind, ret, lift; rewrite app_nil_r; reflexivity.
  - rewrite bind_allowed. destruct (separators lk) as [|x' seps'] eqn:EL.
    + exfalso. assert (mem x (separators p) = true) as X by (rewrite EP; cbn; now rewrite Z.eqb_refl).
      assert (mem x (separators lk) = true) as X2; [|rewrite EL in X2; discriminate].
      revert X. rewrite !mem_seps, !FL by other. clear. rewrite !orb_true_iff, !andb_true_iff, !orb_true_iff. tauto.
    + rewrite bind_allowed. apply sim_loop; [apply NZ|]. exact H.
Qed.
End More.
