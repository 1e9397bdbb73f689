(* Property C84, exactly: what reading the route table gives for any content. *)
From Coq Require Import Lia ZifyBool ZifyNat.
From Verif Require Import Base Addr Route SpecRoute.
From Verif Require RouteProofs PropRoute.
Import RouteProofs.
Local Open Scope Z_scope.

(* ---------- specification ---------- *)
(* The words of a line which are followed by a blank; what comes after the last
   blank is lost. *)
Definition line_words (line : str) (ws : list str) : Prop :=
  exists l w, line = l ++ w /\ laid_out l ws /\ Forall (fun c => ~ blank c /\ c <> 10) w.
Definition needed : list str := [lit "Iface"; lit "Destination"; lit "Gateway"].
Definition others : list str := [lit "Flags"; lit "RefCnt"; lit "Use"; lit "Metric"; lit "Mask"; lit "MTU"; lit "Window"; lit "IRTT"].

(* ---------- proofs ---------- *)
Lemma blank_dec c : {blank c} + {~ blank c}.
Proof. unfold blank. destruct (Z.eq_dec c 9); [left; auto|]. destruct (Z.eq_dec c 32); [left; auto|right; tauto]. Defined.
Lemma laid_out_blank c l ws : blank c -> laid_out l ws -> laid_out (c :: l) ws.
Proof. intros B H. destruct H as [b F|b w d r ws F W D H]; [constructor; now constructor|]. rewrite app_comm_cons. constructor; auto. Qed.
(* Every line has its words. *)
Lemma words_exist line : ~ In 10 line -> exists ws, line_words line ws.
Proof.
  assert (forall n line, (length line <= n)%nat -> ~ In 10 line -> exists ws, line_words line ws) as G; [|eauto].
  induction n as [|n IH]; intros s L N.
  { destruct s; [|cbn in L; lia]. exists [], [], []. split; [reflexivity|]. split; repeat constructor. }
  destruct s as [|c s]. { exists [], [], []. split; [reflexivity|]. split; repeat constructor. }
  cbn in L. destruct (blank_dec c) as [B|B].
  - destruct (IH s) as (ws & l & w & -> & H & F); [lia|intros X; apply N; now right|].
    exists ws, (c :: l), w. split; [reflexivity|]. split; [now apply laid_out_blank|exact F].
  - assert (exists w r, c :: s = w ++ r /\ Forall (fun c => ~ blank c /\ c <> 10) w /\ w <> []
      /\ match r with [] => True | d :: _ => blank d end) as (w & r & E & F & NE & H).
    { assert (forall t, ~ In 10 t -> exists w r, t = w ++ r /\ Forall (fun c => ~ blank c /\ c <> 10) w
        /\ match r with [] => True | d :: _ => blank d end) as G.
      { induction t as [|d t IHt]; intros Nt; [exists [], []; auto|]. destruct (blank_dec d) as [D|D].
        - exists [], (d :: t). auto.
        - destruct IHt as (w & r & -> & F & H); [intros X; apply Nt; now right|]. exists (d :: w), r. split; [reflexivity|].
          split; [|exact H]. constructor; [|exact F]. split; [exact D|]. intros ->. apply Nt. now left. }
      destruct (G s) as (w & r & -> & F & H); [intros X; apply N; now right|]. exists (c :: w), r. split; [reflexivity|].
      split; [constructor; [split; [exact B|intros ->; apply N; now left]|exact F]|]. split; [discriminate|exact H]. }
    destruct r as [|d r].
    + rewrite app_nil_r in E. exists [], [], w. split; [exact E|]. split; [constructor; constructor|exact F].
    + destruct (IH r) as (ws & l & u & Er & LO & FU).
      { apply (f_equal (@length Z)) in E. rewrite app_length in E. cbn in E. destruct w; [congruence|]. cbn in E. lia. }
      { intros X. apply N. rewrite E. apply in_or_app. right. now right. }
      exists (w :: ws), (w ++ d :: l), u. split; [rewrite E, Er, <- app_assoc; reflexivity|]. split; [|exact FU].
      apply (laid_out_word [] w d l ws); auto. now split.
Qed.
Lemma laid_out_tail l ws w rest words : laid_out l ws -> Forall (fun c => ~ blank c /\ c <> 10) w ->
  readwords_loop (l ++ w ++ 10 :: rest) [] words = Some (words ++ ws, rest).
Proof.
  intros H F. revert words. induction H as [b B|b v c r ws B [N FV] C L IH]; intros words.
  - rewrite read_blanks by assumption. rewrite read_word by assumption. cbn. now rewrite app_nil_r.
  - rewrite <- app_assoc. rewrite read_blanks by assumption. rewrite <- app_assoc.
    rewrite read_word by assumption. cbn [app readwords_loop].
    replace (c =? 10) with false by (destruct C; subst; reflexivity).
    replace ((c =? 9) || (c =? 32)) with true by (destruct C; subst; reflexivity).
    destruct v as [|x v]; [congruence|]. rewrite IH. now rewrite <- app_assoc.
Qed.
Lemma read_words line ws rest : line_words line ws -> readwords (line ++ 10 :: rest) = Some (ws, rest).
Proof. intros (l & w & -> & L & F). unfold readwords. rewrite <- app_assoc. now rewrite (laid_out_tail l ws w rest [] L F). Qed.

Lemma at_minus_one ws : get_value ws (-1) = UB.
Proof. unfold get_value. replace (-1 <? Z.of_nat (length ws)) with true by lia. reflexivity. Qed.
Lemma not_there hs name : ~ In name hs -> get_position hs name = -1.
Proof.
  unfold get_position. generalize 0. induction hs as [|h hs IH]; intros k N; [reflexivity|]. cbn [position].
  destruct (str_eqb h name) eqn:E; [|apply IH; intros X; apply N; now right]. apply str_eqb_true in E. elim N. now left.
Qed.
Lemma there hs name : In name hs -> 0 <= get_position hs name.
Proof. intros I. now apply (position_found hs name 0). Qed.
Definition hopeless {A} (r : res A) : Prop := r = UB \/ exists e, r = Throw e.
Lemma hopeless_bind {A B} (r : res A) (f : A -> res B) : r <> OutOfFuel -> (forall a, r = Ok a -> hopeless (f a)) -> hopeless (rbind r f).
Proof. intros N H. destruct r as [a|e| |]; cbn; [now apply H|right; now exists e|now left|congruence]. Qed.
Lemma hopeless_first {A B} (r : res A) (f : A -> res B) : hopeless r -> hopeless (rbind r f).
Proof. intros [->|[e ->]]; [now left|right; now exists e]. Qed.
Lemma safe_fuel {A} (r : res A) : safe r -> r <> OutOfFuel.
Proof. intros [[a ->]|[e ->]]; discriminate. Qed.
Lemma value_fuel ws pos : get_value ws pos <> OutOfFuel.
Proof. unfold get_value. destruct (_ <? _); [destruct (_ <? _)|]; discriminate. Qed.
Lemma int_fuel ws pos : int_value ws pos <> OutOfFuel.
Proof.
  unfold int_value. pose proof (value_fuel ws pos). destruct (get_value ws pos) as [w|e| |]; cbn; try congruence.
  pose proof (safe_fuel _ (stol_safe w)). destruct (stol w); cbn; congruence.
Qed.
Lemma value_missing ws pos : pos = -1 -> hopeless (get_value ws pos).
Proof. intros ->. left. apply at_minus_one. Qed.
Lemma int_missing ws pos : pos = -1 -> hopeless (int_value ws pos).
Proof. intros ->. left. unfold int_value. now rewrite at_minus_one. Qed.
Lemma row_missing hs ws name : In name others -> ~ In name hs -> hopeless (make_route hs ws).
Proof.
  intros I N. apply not_there in N. unfold make_route.
  do 2 (apply hopeless_bind; [apply value_fuel|intros ? _]). apply hopeless_bind; [apply safe_fuel, hex_addr_safe|intros ? _].
  apply hopeless_bind; [apply value_fuel|intros ? _]. apply hopeless_bind; [apply safe_fuel, hex_addr_safe|intros ? _].
  destruct I as [<-|I]; [now apply hopeless_first, int_missing|]. apply hopeless_bind; [apply int_fuel|intros ? _].
  destruct I as [<-|I]; [now apply hopeless_first, int_missing|]. apply hopeless_bind; [apply int_fuel|intros ? _].
  destruct I as [<-|I]; [now apply hopeless_first, int_missing|]. apply hopeless_bind; [apply int_fuel|intros ? _].
  destruct I as [<-|I]; [now apply hopeless_first, int_missing|]. apply hopeless_bind; [apply int_fuel|intros ? _].
  destruct I as [<-|I].
  { do 3 (apply hopeless_bind; [apply int_fuel|intros ? _]). now apply hopeless_first, value_missing. }
  destruct I as [<-|I]; [now apply hopeless_first, int_missing|]. apply hopeless_bind; [apply int_fuel|intros ? _].
  destruct I as [<-|I]; [now apply hopeless_first, int_missing|]. apply hopeless_bind; [apply int_fuel|intros ? _].
  destruct I as [<-|[]]. now apply hopeless_first, int_missing.
Qed.

(* For any bytes in the file: no table without a first line or without the
   three columns which are needed; with all the columns an answer or an
   exception; without one of the others, nothing as long as there is no row,
   and never a table otherwise. *)
Theorem C84_exactly : forall s,
  (~ In 10 s -> get_ipv4_routes (Some s) = Ok [])
  /\ forall header rest, s = header ++ 10 :: rest -> ~ In 10 header -> exists hs, line_words header hs
     /\ (~ incl needed hs -> get_ipv4_routes (Some s) = Ok [])
     /\ (incl needed hs -> incl others hs ->
         (exists routes, get_ipv4_routes (Some s) = Ok routes) \/ (exists e, get_ipv4_routes (Some s) = Throw e))
     /\ (incl needed hs -> ~ incl others hs ->
         (~ In 10 rest -> get_ipv4_routes (Some s) = Ok [])
         /\ (In 10 rest -> get_ipv4_routes (Some s) = UB \/ exists e, get_ipv4_routes (Some s) = Throw e)).
Proof.
  intros s. split.
  { intros N. unfold get_ipv4_routes, readwords. now rewrite read_end. }
  intros header rest -> N. destruct (words_exist header N) as (hs & W). exists hs. split; [exact W|].
  unfold get_ipv4_routes. rewrite (read_words header hs rest W).
  assert ((get_position hs (lit "Iface") =? -1) || (get_position hs (lit "Destination") =? -1)
    || (get_position hs (lit "Gateway") =? -1) = false <-> incl needed hs) as TEST.
  { split.
    - intros E. apply orb_false_iff in E as [E E3]. apply orb_false_iff in E as [E1 E2].
      assert (forall name, get_position hs name =? -1 = false -> In name hs) as P.
      { intros name P. destruct (in_dec (list_eq_dec Z.eq_dec) name hs) as [I|I]; [exact I|]. rewrite not_there in P by exact I. discriminate. }
      intros x [<-|[<-|[<-|[]]]]; auto.
    - intros I. pose proof (there hs (lit "Iface") ltac:(apply I; now left)).
      pose proof (there hs (lit "Destination") ltac:(apply I; right; now left)).
      pose proof (there hs (lit "Gateway") ltac:(apply I; right; right; now left)). lia. }
  split; [|split].
  - intros NI. destruct (_ || _); [reflexivity|]. elim NI. now apply TEST.
  - intros I O. rewrite (proj2 TEST I). apply (routes_loop_safe hs); [|lia].
    intros x [<-|[<-|[<-|X]]]; [apply I; now left|apply I; right; now left|apply I; right; right; now left|].
    apply O. exact X.
  - intros I O. rewrite (proj2 TEST I). split.
    + intros NR. cbn [routes_loop]. unfold readwords. now rewrite read_end.
    + intros IR. cbn [routes_loop].
      assert (exists row rest', rest = row ++ 10 :: rest' /\ ~ In 10 row) as (row & rest' & -> & NR).
      { clear - IR. induction rest as [|c rest IH]; [destruct IR|]. destruct (Z.eq_dec c 10) as [->|D].
        - exists [], rest. split; [reflexivity|intros []].
        - destruct IH as (row & r & -> & NR); [destruct IR; [congruence|assumption]|].
          exists (c :: row), r. split; [reflexivity|]. intros [X|X]; [congruence|auto]. }
      destruct (words_exist row NR) as (ws & WS). rewrite (read_words row ws rest' WS).
      assert (exists name, In name others /\ ~ In name hs) as (name & IN & NN).
      { clear - O. revert O. generalize others. induction l as [|x l IH]; intros O; [elim O; intros x []|].
        destruct (in_dec (list_eq_dec Z.eq_dec) x hs) as [I|I]; [|exists x; split; [now left|exact I]].
        destruct IH as (n & N1 & N2); [intros X; apply O; intros y [<-|Y]; auto|]. exists n. split; [now right|exact N2]. }
      apply hopeless_first. now apply (row_missing hs ws name).
Qed.
Print Assumptions C84_exactly.

Example C84_exactly_case : let header := PropRoute.line needed ++ lit "Mask" in
  line_words header needed /\ ~ In 10 header /\ incl needed needed /\ ~ incl others needed.
Proof.
  cbv zeta. split; [|split; [cbn; intuition discriminate|]; split; [apply incl_refl|]].
  - exists (PropRoute.line needed), (lit "Mask"). split; [reflexivity|]. split.
    + apply PropRoute.words_check. reflexivity.
    + repeat constructor; cbn; unfold blank; lia.
  - intros X. specialize (X (lit "Mask")). destruct X as [X|[X|[X|[]]]]; [cbn; tauto|discriminate..].
Qed.
