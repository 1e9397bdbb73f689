(* Property C160: what each row of a route table is read as, whatever the file
   contains. *)
From Coq Require Import Lia ZifyBool ZifyNat.
From Verif Require Import Base Addr Spec Route SpecRoute.
From Verif Require RouteProofs PropRoute PropRoute2.
Import RouteProofs PropRoute2.
Local Open Scope Z_scope.
Ltac Zify.zify_post_hook ::= Z.div_mod_to_equations.

(* ---------- specification ---------- *)
(* What the row ws has in the first column of that name; nothing when the row
   is too short. *)
Definition cell (hs ws : list str) (name w : str) : Prop :=
  exists before after, hs = before ++ name :: after /\ ~ In name before /\ nth (length before) ws [] = w.
(* White space, a sign, digits, then anything: a number of 64 bits, of which
   the 32 low bits are kept. *)
Definition white (c : Z) : Prop := 9 <= c <= 13 \/ c = 32.
Definition reads_number (w : str) (v : Z) : Prop :=
  exists b sign digits rest n l, w = b ++ sign ++ digits ++ rest /\ Forall white b /\ decimal digits n
  /\ match rest with [] => True | c :: _ => is_digit c = false end
  /\ ((sign = [] \/ sign = [43]) /\ l = n \/ sign = [45] /\ l = - n)
  /\ - 2 ^ 63 <= l < 2 ^ 63 /\ int v /\ exists k, v = l + k * 2 ^ 32.
Definition number_cell hs ws name v : Prop := exists w, cell hs ws name w /\ reads_number w v.
(* Eight hexadecimal digits. *)
Definition quad_cell hs ws name (x : addr) : Prop :=
  exists w a b c d, cell hs ws name w /\ hex_quad w a b c d /\ value x = v4_base + quad a b c d.
(* Nothing, or eight hexadecimal digits. *)
Definition mask_cell hs ws name (x : addr) : Prop :=
  exists w, cell hs ws name w /\
    (w = [] /\ is_mask_defined x = false /\ mask_value x = 2 ^ 128 - 1
     \/ exists a b c d, hex_quad w a b c d /\ is_mask_defined x = true /\ mask_value x = 2 ^ 128 - 2 ^ 32 + quad a b c d).
(* What the row gives. *)
Record row_gives (hs ws : list str) (r : route) : Prop := mk_row_gives {
  g_iface : cell hs ws (lit "Iface") (get_interface_name r);
  g_destination : quad_cell hs ws (lit "Destination") (get_destination_address r);
  g_gateway : quad_cell hs ws (lit "Gateway") (get_gateway_address r);
  g_flags : number_cell hs ws (lit "Flags") (get_flags r);
  g_refcnt : number_cell hs ws (lit "RefCnt") (get_reference_count r);
  g_use : number_cell hs ws (lit "Use") (get_use r);
  g_metric : number_cell hs ws (lit "Metric") (get_metric r);
  g_mtu : number_cell hs ws (lit "MTU") (get_mtu r);
  g_window : number_cell hs ws (lit "Window") (get_window r);
  g_irtt : number_cell hs ws (lit "IRTT") (get_irtt r);
  g_mask : mask_cell hs ws (lit "Mask") (get_destination_address r)
}.
(* Why a row is refused. *)
Definition bad_quad hs ws name : Prop := exists w, cell hs ws name w /\ forall a b c d, ~ hex_quad w a b c d.
Definition bad_number hs ws name : Prop := exists w, cell hs ws name w /\ forall v, ~ reads_number w v.
Definition bad_mask hs ws name : Prop := exists w, cell hs ws name w /\ w <> [] /\ forall a b c d, ~ hex_quad w a b c d.
Definition numeric : list str := [lit "Flags"; lit "RefCnt"; lit "Use"; lit "Metric"; lit "MTU"; lit "Window"; lit "IRTT"].
Definition refused hs ws e : Prop :=
  e = E_invalid_argument /\ (bad_quad hs ws (lit "Destination") \/ bad_quad hs ws (lit "Gateway"))
  \/ e = E_std /\ ~ bad_quad hs ws (lit "Destination") /\ ~ bad_quad hs ws (lit "Gateway")
     /\ (exists name, In name numeric /\ bad_number hs ws name)
  \/ e = E_invalid_argument /\ ~ bad_quad hs ws (lit "Destination") /\ ~ bad_quad hs ws (lit "Gateway")
     /\ (forall name, In name numeric -> ~ bad_number hs ws name) /\ bad_mask hs ws (lit "Mask").
(* The complete lines of a text. *)
Definition text_rows (s : str) (wss : list (list str)) : Prop :=
  exists lines tail, s = concat (map (fun l => l ++ [10]) lines) ++ tail /\ Forall2 line_words lines wss /\ ~ In 10 tail.

(* ---------- proofs ---------- *)
(* Cells. *)
Lemma position_first before name after k : ~ In name before ->
  position (before ++ name :: after) name k = k + Z.of_nat (length before).
Proof.
  revert k. induction before as [|h before IH]; intros k N; cbn [app position length].
  - rewrite (proj2 (str_eqb_true name name) eq_refl). lia.
  - destruct (str_eqb h name) eqn:E; [apply str_eqb_true in E; subst; elim N; now left|].
    rewrite IH by (intros X; apply N; now right). lia.
Qed.
Lemma cell_value hs ws name w : cell hs ws name w -> get_value ws (get_position hs name) = Ok w.
Proof.
  intros (before & after & -> & N & <-). unfold get_position. rewrite position_first by exact N. unfold get_value.
  destruct (Z.ltb_spec (0 + Z.of_nat (length before)) (Z.of_nat (length ws))) as [L|L].
  - replace (0 + Z.of_nat (length before) <? 0) with false by lia. f_equal. f_equal. lia.
  - f_equal. symmetry. apply nth_overflow. lia.
Qed.
Lemma cell_exists hs ws name : In name hs -> exists w, cell hs ws name w.
Proof.
  intros I.
  assert (exists before after, hs = before ++ name :: after /\ ~ In name before) as (before & after & -> & N).
  { induction hs as [|h hs IH]; [destruct I|]. destruct (list_eq_dec Z.eq_dec h name) as [->|D].
    - exists [], hs. split; [reflexivity|intros []].
    - destruct IH as (b & a & -> & N); [destruct I; [congruence|assumption]|].
      exists (h :: b), a. split; [reflexivity|]. intros [X|X]; [congruence|auto]. }
  eexists. exists before, after. split; [reflexivity|]. split; [exact N|reflexivity].
Qed.
Lemma cell_unique hs ws name w w' : cell hs ws name w -> cell hs ws name w' -> w = w'.
Proof. intros A B. apply cell_value in A, B. congruence. Qed.

(* Numbers. *)
Lemma skip_white b s : Forall white b -> match s with [] => True | c :: _ => is_space c = false end ->
  skip_spaces (b ++ s) = s.
Proof.
  intros F H. induction F as [|c b W F IH]; cbn [app].
  - destruct s as [|c s]; [reflexivity|]. cbn [skip_spaces]. now rewrite H.
  - cbn [skip_spaces]. replace (is_space c) with true by (unfold is_space; unfold white in W; lia). exact IH.
Qed.
Lemma skip_split s : exists b, s = b ++ skip_spaces s /\ Forall white b
  /\ match skip_spaces s with [] => True | c :: _ => is_space c = false end.
Proof.
  induction s as [|c s (b & E & F & H)]; [exists []; repeat constructor|]. cbn [skip_spaces].
  destruct (is_space c) eqn:X.
  - exists (c :: b). split; [cbn [app]; congruence|]. split; [constructor; [unfold white; unfold is_space in X; lia|exact F]|exact H].
  - exists []. split; [reflexivity|]. split; [constructor|exact X].
Qed.
Lemma leading_app d rest : forallb is_digit d = true -> match rest with [] => True | c :: _ => is_digit c = false end ->
  leading_digits (d ++ rest) = d.
Proof.
  intros F H. induction d as [|c d IH]; cbn [app].
  - destruct rest as [|c r]; [reflexivity|]. cbn [leading_digits]. unfold is_digit in H. now rewrite H.
  - cbn [forallb] in F. apply andb_true_iff in F as [A B]. cbn [leading_digits]. unfold is_digit in A. rewrite A. now rewrite IH.
Qed.
Lemma leading_split s : exists rest, s = leading_digits s ++ rest /\ forallb is_digit (leading_digits s) = true
  /\ match rest with [] => True | c :: _ => is_digit c = false end.
Proof.
  induction s as [|c s (r & E & F & H)]; [exists []; repeat constructor|]. cbn [leading_digits].
  destruct ((48 <=? c) && (c <=? 57)) eqn:X.
  - exists r. split; [cbn [app]; congruence|]. split; [|exact H]. cbn [forallb]. apply andb_true_iff. split; [exact X|exact F].
  - exists (c :: s). split; [reflexivity|]. split; [reflexivity|exact X].
Qed.
Lemma to_int_reads l : int (to_int l) /\ exists k, to_int l = l + k * 2 ^ 32.
Proof.
  unfold int, to_int. change (2 ^ 31) with 2147483648. change (2 ^ 32) with 4294967296. split; [lia|].
  exists (- ((l + 2147483648) / 4294967296)). lia.
Qed.
Lemma to_int_unique l v k : int v -> v = l + k * 2 ^ 32 -> to_int l = v.
Proof.
  unfold int, to_int. change (2 ^ 31) with 2147483648. change (2 ^ 32) with 4294967296. intros I ->.
  replace (l + 2147483648) with (l + k * 4294967296 + 2147483648 + (- k) * 4294967296) by lia.
  rewrite Z.mod_add by lia. rewrite Z.mod_small by lia. lia.
Qed.
Lemma stol_reads w v : reads_number w v -> exists l, stol w = Ok l /\ to_int l = v.
Proof.
  intros (b & sign & digits & rest & n & l & -> & B & (ND & FD & V) & H & S & R & I & k & E).
  exists l. split; [|now apply (to_int_unique l v k)].
  destruct (digits_first digits ND FD) as (c & r & EC & RC).
  unfold stol. rewrite skip_white; [|exact B|].
  2:{ destruct S as [[[-> | ->] _]|[-> _]]; [rewrite EC; cbn [app]; unfold is_space; lia|reflexivity|reflexivity]. }
  change (2 ^ 63) with 9223372036854775808 in *.
  assert (forall neg, (if neg : bool then - n else n) = l ->
    match leading_digits (digits ++ rest) with
    | [] => Throw E_std
    | _ => let v := fold_left (fun v c => v * 10 + (c - 48)) (leading_digits (digits ++ rest)) 0 in
      let v := if neg then - v else v in
      if (v <? - 9223372036854775808) || (v >=? 9223372036854775808) then Throw E_std else Ok v
    end = Ok l) as G.
  { intros neg L. rewrite leading_app by assumption. fold (decimal_value digits). cbv zeta. rewrite V, L.
    match goal with |- context [if ?b then Throw _ else _] => replace b with false by lia end. now rewrite EC. }
  destruct S as [[[-> | ->] L]|[-> L]].
  - cbn [app]. specialize (G false (eq_sym L)). rewrite EC in G |- *. cbn [app] in G |- *.
    replace (c =? 45) with false by lia. replace (c =? 43) with false by lia. exact G.
  - cbn [app]. exact (G false (eq_sym L)).
  - cbn [app]. exact (G true (eq_sym L)).
Qed.
Lemma stol_exact w : (exists l, stol w = Ok l /\ reads_number w (to_int l))
  \/ stol w = Throw E_std /\ forall v, ~ reads_number w v.
Proof.
  destruct (stol w) as [l|e| |] eqn:E.
  - left. exists l. split; [reflexivity|]. unfold stol in E. destruct (skip_split w) as (b & EW & B & H).
    assert (exists (neg : bool) s sign, skip_spaces w = sign ++ s /\ ((sign = [] \/ sign = [43]) /\ neg = false \/ sign = [45] /\ neg = true)
      /\ match leading_digits s with
         | [] => Throw E_std
         | _ => let v := fold_left (fun v c => v * 10 + (c - 48)) (leading_digits s) 0 in
           let v := if neg then - v else v in
           if (v <? - 2 ^ 63) || (v >=? 2 ^ 63) then Throw E_std else Ok v
         end = Ok l) as (neg & s & sign & ES & SG & EL).
    { destruct (skip_spaces w) as [|c r]; [exists false, [], []; split; [reflexivity|]; split; [now auto|exact E]|].
      destruct (Z.eqb_spec c 45) as [->|]; [exists true, r, [45]; split; [reflexivity|]; split; [now auto|exact E]|].
      destruct (Z.eqb_spec c 43) as [->|]; [exists false, r, [43]; split; [reflexivity|]; split; [now auto|exact E]|].
      exists false, (c :: r), []. split; [reflexivity|]. split; [now auto|exact E]. }
    clear E. destruct (leading_split s) as (rest & EQ & F & R).
    destruct (leading_digits s) as [|c d] eqn:LD; [discriminate|]. rewrite <- LD in *. cbv zeta in EL.
    fold (decimal_value (leading_digits s)) in EL. set (n := decimal_value (leading_digits s)) in *.
    set (x := if neg then - n else n) in *.
    destruct ((x <? - 2 ^ 63) || (x >=? 2 ^ 63)) eqn:Q; [discriminate|]. injection EL as <-.
    exists b, sign, (leading_digits s), rest, n, x. split; [congruence|]. split; [exact B|].
    split; [split; [rewrite LD; discriminate|]; split; [exact F|reflexivity]|]. split; [exact R|].
    split; [unfold x; destruct SG as [[SG ->]|[SG ->]]; auto|].
    split; [revert Q; change (2 ^ 63) with 9223372036854775808; lia|]. apply to_int_reads.
  - right. split.
    + unfold stol in E. revert E. cbv zeta. destruct (match skip_spaces w with [] => _ | _ => _ end) as [neg s].
      destruct (leading_digits s); [intros E; injection E as <-; reflexivity|].
      match goal with |- context [if ?b then Throw _ else _] => destruct b end; congruence.
    + intros v X. destruct (stol_reads w v X) as (l & Y & _). congruence.
  - destruct (stol_safe w) as [[? X]|[? X]]; congruence.
  - destruct (stol_safe w) as [[? X]|[? X]]; congruence.
Qed.
Lemma number_cells hs ws name : In name hs ->
  (exists v, int_value ws (get_position hs name) = Ok v /\ number_cell hs ws name v /\ ~ bad_number hs ws name)
  \/ int_value ws (get_position hs name) = Throw E_std /\ bad_number hs ws name /\ ~ exists v, number_cell hs ws name v.
Proof.
  intros I. destruct (cell_exists hs ws name I) as (w & C). unfold int_value. rewrite (cell_value _ _ _ _ C). cbn [rbind].
  destruct (stol_exact w) as [(l & -> & R)|[-> N]]; cbn [rbind].
  - left. exists (to_int l). split; [reflexivity|]. split; [now exists w|].
    intros (w' & C' & N). rewrite (cell_unique _ _ _ _ _ C' C) in N. exact (N _ R).
  - right. split; [reflexivity|]. split; [now exists w|]. intros (v & w' & C' & R).
    rewrite (cell_unique _ _ _ _ _ C' C) in R. exact (N _ R).
Qed.

(* Addresses. *)
Lemma hex_number_inv c : (exists d, hex_to_number c = Ok d /\ hex_digit c d) \/ hex_to_number c = Throw E_invalid_argument /\ forall d, ~ hex_digit c d.
Proof.
  destruct (hex_to_number c) as [d|e| |] eqn:E.
  - left. exists d. split; [reflexivity|]. unfold hex_to_number in E.
    destruct ((c >=? 48) && (c <=? 57)) eqn:A. { injection E as <-. replace c with (48 + (c - 48)) at 1 by lia. constructor. lia. }
    destruct ((c >=? 97) && (c <=? 102)) eqn:B. { injection E as <-. replace c with (87 + (c - 97 + 10)) at 1 by lia. constructor. lia. }
    destruct ((c >=? 65) && (c <=? 70)) eqn:D; [|discriminate].
    injection E as <-. replace c with (55 + (c - 65 + 10)) at 1 by lia. constructor. lia.
  - right. split.
    + unfold hex_to_number in E. repeat match goal with H : (if ?b then _ else _) = _ |- _ => destruct b end; congruence.
    + intros d H. apply hex_number in H as [H _]. congruence.
  - destruct (hex_number_safe c) as [[? X]|[? X]]; congruence.
  - destruct (hex_number_safe c) as [[? X]|[? X]]; congruence.
Qed.
Lemma hex_exact w : (exists a b c d, hex_quad w a b c d) \/ hex_to_addr w = Throw E_invalid_argument /\ forall a b c d, ~ hex_quad w a b c d.
Proof.
  assert (forall a b c d, hex_quad w a b c d -> length w = 8%nat) as LEN.
  { intros a b c d (sa & sb & sc & sd & -> & (? & ? & ? & ? & -> & _) & (? & ? & ? & ? & -> & _) & (? & ? & ? & ? & -> & _) & (? & ? & ? & ? & -> & _)). reflexivity. }
  destruct (Nat.eq_dec (length w) 8) as [L|L].
  2:{ right. split; [|intros a b c d H; apply L; now apply (LEN a b c d)].
      unfold hex_to_addr. do 8 (destruct w as [|? w]; [reflexivity|]). destruct w; [elim L; reflexivity|reflexivity]. }
  clear LEN.
  destruct w as [|c0 [|c1 [|c2 [|c3 [|c4 [|c5 [|c6 [|c7 [|? ?]]]]]]]]]; try discriminate L. clear L.
  assert (forall a b c d, hex_quad [c0; c1; c2; c3; c4; c5; c6; c7] a b c d ->
    forall x, In x [c0; c1; c2; c3; c4; c5; c6; c7] -> exists d, hex_digit x d) as ALL.
  { intros a b c d (sa & sb & sc & sd & E & (? & ? & ? & ? & -> & ? & ? & _) & (? & ? & ? & ? & -> & ? & ? & _) & (? & ? & ? & ? & -> & ? & ? & _) & (? & ? & ? & ? & -> & ? & ? & _)).
    cbn [app] in E. injection E as -> -> -> -> -> -> -> ->. intros u [<-|[<-|[<-|[<-|[<-|[<-|[<-|[<-|[]]]]]]]]]; eauto. }
  cbn [hex_to_addr].
  Ltac dig8 ALL x := let D := fresh "D" in let N := fresh "N" in
    destruct (hex_number_inv x) as [(? & -> & D)|[-> N]];
    [cbn [rbind]|right; split; [reflexivity|intros a b c d H; destruct (ALL a b c d H x) as [y Y]; [cbn; tauto|exact (N y Y)]]].
  dig8 ALL c7. dig8 ALL c6. dig8 ALL c5. dig8 ALL c4. dig8 ALL c3. dig8 ALL c2. dig8 ALL c1. dig8 ALL c0.
  left. do 4 eexists. eapply PropRoute.hexq; try eassumption; reflexivity.
Qed.
Definition fresh (x : addr) : Prop := addr_wf x /\ is_mask_defined x = false /\ mask_value x = 2 ^ 128 - 1.
Lemma hex_fresh w x : hex_to_addr w = Ok x -> is_mask_defined x = false /\ mask_value x = 2 ^ 128 - 1.
Proof.
  unfold hex_to_addr. do 8 (destruct w as [|? w]; [discriminate|]). destruct w; [|discriminate].
  repeat match goal with |- context [hex_to_number ?c] => destruct (hex_to_number c); cbn [rbind]; try discriminate end.
  unfold addr_from_in, set_ipv4. cbn [sin_family]. rewrite Z.eqb_refl. cbn [negb]. intros E. injection E as <-.
  split; reflexivity.
Qed.
Lemma quad_cells hs ws name : In name hs -> exists w, get_value ws (get_position hs name) = Ok w /\
  ((exists x, hex_to_addr w = Ok x /\ quad_cell hs ws name x /\ fresh x /\ ~ bad_quad hs ws name)
   \/ hex_to_addr w = Throw E_invalid_argument /\ bad_quad hs ws name /\ ~ exists x, quad_cell hs ws name x).
Proof.
  intros I. destruct (cell_exists hs ws name I) as (w & C). exists w. split; [now apply cell_value|].
  destruct (hex_exact w) as [(a & b & c & d & H)|[E N]].
  - left. destruct (hex_quad_addr w a b c d H) as (_ & _ & x & E & W & V & _). exists x. split; [exact E|].
    split; [exists w, a, b, c, d; exact (conj C (conj H V))|]. split; [split; [exact W|exact (hex_fresh w x E)]|].
    intros (w' & C' & N). rewrite (cell_unique _ _ _ _ _ C' C) in N. exact (N _ _ _ _ H).
  - right. split; [exact E|]. split; [now exists w|]. intros (x & w' & a & b & c & d & C' & H & _).
    rewrite (cell_unique _ _ _ _ _ C' C) in H. exact (N _ _ _ _ H).
Qed.
Lemma mask_cells hs ws name x : In name hs -> fresh x -> exists w, get_value ws (get_position hs name) = Ok w /\
  ((exists y, route_mask x w = Ok y /\ value y = value x /\ mask_cell hs ws name y)
   \/ route_mask x w = Throw E_invalid_argument /\ bad_mask hs ws name /\ ~ exists y, mask_cell hs ws name y).
Proof.
  intros I (W & M1 & M2). destruct (cell_exists hs ws name I) as (w & C). exists w. split; [now apply cell_value|].
  destruct w as [|c0 w].
  { left. exists x. split; [reflexivity|]. split; [reflexivity|]. exists []. split; [exact C|]. left. exact (conj eq_refl (conj M1 M2)). }
  destruct (hex_exact (c0 :: w)) as [(a & b & c & d & H)|[E N]].
  - left. destruct (route_mask_ok x (c0 :: w) a b c d W H) as (y & E & _ & V & D & M). exists y. split; [exact E|]. split; [exact V|].
    exists (c0 :: w). split; [exact C|]. right. exists a, b, c, d. exact (conj H (conj D M)).
  - right. split; [unfold route_mask; now rewrite E|]. split; [exists (c0 :: w); split; [exact C|split; [discriminate|exact N]]|].
    intros (y & w' & C' & H). rewrite (cell_unique _ _ _ _ _ C' C) in H.
    destruct H as [[H _]|(a & b & c & d & H & _)]; [discriminate|exact (N _ _ _ _ H)].
Qed.

(* One row. *)
Lemma row_exact hs ws : incl all_columns hs ->
  (exists r, make_route hs ws = Ok r /\ row_gives hs ws r)
  \/ exists e, make_route hs ws = Throw e /\ refused hs ws e /\ ~ exists r, row_gives hs ws r.
Proof.
  intros I.
  assert (forall name, In name all_columns -> In name hs) as IN by exact I. clear I. unfold make_route.
  destruct (cell_exists hs ws (lit "Iface")) as (iface & CI); [apply IN; cbn; tauto|]. rewrite (cell_value _ _ _ _ CI). cbn [rbind].
  destruct (quad_cells hs ws (lit "Destination")) as (w1 & -> & [(x & E1 & Q1 & FX & B1)|(E1 & B1 & N1)]); [apply IN; cbn; tauto| |]; cbn [rbind]; rewrite E1; cbn [rbind].
  2:{ right. eexists. split; [reflexivity|]. split; [left; auto|]. intros (r & G). apply N1. eexists. exact (g_destination _ _ _ G). }
  destruct (quad_cells hs ws (lit "Gateway")) as (w2 & -> & [(g & E2 & Q2 & FG & B2)|(E2 & B2 & N2)]); [apply IN; cbn; tauto| |]; cbn [rbind]; rewrite E2; cbn [rbind].
  2:{ right. eexists. split; [reflexivity|]. split; [left; auto|]. intros (r & G). apply N2. eexists. exact (g_gateway _ _ _ G). }
  Ltac num IN hs ws nm proj :=
    let v := fresh "v" in let E := fresh "E" in let C := fresh "C" in let B := fresh "B" in let N := fresh "N" in
    destruct (number_cells hs ws (lit nm)) as [(v & E & C & B)|(E & B & N)]; [apply IN; cbn; tauto| |]; rewrite E; cbn [rbind];
    [|right; eexists; split; [reflexivity|]; split;
      [right; left; repeat (split; [assumption || reflexivity|]); exists (lit nm); split; [cbn; tauto|exact B]
      |intros (r & G); apply N; eexists; exact (proj _ _ _ G)]].
  num IN hs ws "Flags"%string g_flags. num IN hs ws "RefCnt"%string g_refcnt. num IN hs ws "Use"%string g_use.
  num IN hs ws "Metric"%string g_metric. num IN hs ws "MTU"%string g_mtu. num IN hs ws "Window"%string g_window.
  num IN hs ws "IRTT"%string g_irtt.
  destruct (mask_cells hs ws (lit "Mask") x) as (w3 & -> & [(y & EM & V & M)|(EM & BM & NM)]); [apply IN; cbn; tauto|exact FX| |]; cbn [rbind]; rewrite EM; cbn [rbind].
  2:{ right. eexists. split; [reflexivity|]. split; [right; right|intros (r & G); apply NM; eexists; exact (g_mask _ _ _ G)].
      split; [reflexivity|]. split; [exact B1|]. split; [exact B2|]. split; [|exact BM].
      intros name [<-|[<-|[<-|[<-|[<-|[<-|[<-|[]]]]]]]]; assumption. }
  left. eexists. split; [reflexivity|]. constructor; try assumption.
  destruct Q1 as (w & a & b & c & d & CD & H & VX). exists w, a, b, c, d. split; [exact CD|]. split; [exact H|].
  change (value y = v4_base + quad a b c d). congruence.
Qed.

Lemma all_needed hs : incl needed hs -> incl others hs -> incl all_columns hs.
Proof. intros A B x [<-|[<-|[<-|X]]]; [apply A; cbn; tauto..|]. now apply B. Qed.

(* All the rows. *)
Lemma loop_exact hs : incl all_columns hs -> forall lines wss, Forall2 line_words lines wss ->
  forall tail fuel acc, ~ In 10 tail ->
  (length (concat (map (fun line => line ++ [10%Z]) lines) ++ tail) < fuel)%nat ->
  (exists rs, routes_loop fuel hs (concat (map (fun line => line ++ [10]) lines) ++ tail) acc = Ok (acc ++ rs) /\ Forall2 (row_gives hs) wss rs)
  \/ exists e ws1 ws ws2, routes_loop fuel hs (concat (map (fun line => line ++ [10]) lines) ++ tail) acc = Throw e
     /\ wss = ws1 ++ ws :: ws2 /\ Forall (fun ws => exists r, row_gives hs ws r) ws1 /\ refused hs ws e /\ ~ exists r, row_gives hs ws r.
Proof.
  intros I lines wss H. induction H as [|line ws lines wss W H IH]; intros tail fuel acc T L.
  - cbn [map concat app] in *. destruct fuel as [|fuel]; [lia|]. left. exists []. cbn [routes_loop].
    unfold readwords. rewrite read_end by assumption. now rewrite app_nil_r.
  - cbn [map concat] in *. rewrite <- !app_assoc in *. cbn [app] in *.
    destruct fuel as [|fuel]; [lia|]. cbn [routes_loop]. rewrite (read_words line ws _ W).
    destruct (row_exact hs ws I) as [(r & E & G)|(e & E & R & N)]; rewrite E; cbn [rbind].
    + destruct (IH tail fuel (acc ++ [r]) T) as [(rs & E2 & F2)|(e & ws1 & w & ws2 & E2 & -> & F & R & N)].
      { rewrite !app_length in *. cbn [length] in L. rewrite !app_length in L. lia. }
      * left. exists (r :: rs). split; [rewrite E2; now rewrite <- app_assoc|now constructor].
      * right. exists e, (ws :: ws1), w, ws2. split; [exact E2|]. split; [reflexivity|]. split; [constructor; [now exists r|exact F]|auto].
    + right. exists e, [], ws, wss. split; [reflexivity|]. split; [reflexivity|]. split; [constructor|auto].
Qed.

(* ---------- C160 ---------- *)
(* With all the columns, whatever the rows: the routes are exactly what the
   rows give, in order, or the first row which gives nothing is refused. *)
Theorem C160_rows : forall header hs rest wss, line_words header hs -> incl needed hs -> incl others hs -> text_rows rest wss ->
  ((exists rs, get_ipv4_routes (Some (header ++ 10 :: rest)) = Ok rs) <-> Forall (fun ws => exists r, row_gives hs ws r) wss)
  /\ (forall rs, get_ipv4_routes (Some (header ++ 10 :: rest)) = Ok rs -> Forall2 (row_gives hs) wss rs)
  /\ (~ Forall (fun ws => exists r, row_gives hs ws r) wss -> exists e ws1 ws ws2,
      get_ipv4_routes (Some (header ++ 10 :: rest)) = Throw e
      /\ wss = ws1 ++ ws :: ws2 /\ Forall (fun ws => exists r, row_gives hs ws r) ws1 /\ refused hs ws e /\ ~ exists r, row_gives hs ws r).
Proof.
  intros header hs rest wss W I O (lines & tail & -> & H & T).
  pose proof (all_needed hs I O) as A.
  assert (get_ipv4_routes (Some (header ++ 10 :: concat (map (fun l => l ++ [10]) lines) ++ tail))
    = routes_loop (S (length (concat (map (fun l => l ++ [10]) lines) ++ tail))) hs (concat (map (fun l => l ++ [10]) lines) ++ tail) []) as E.
  { unfold get_ipv4_routes. rewrite (read_words header hs _ W).
    pose proof (there hs (lit "Iface") ltac:(apply I; now left)).
    pose proof (there hs (lit "Destination") ltac:(apply I; right; now left)).
    pose proof (there hs (lit "Gateway") ltac:(apply I; right; right; now left)).
    match goal with |- context [if ?b then Ok [] else _] => replace b with false by lia end. reflexivity. }
  rewrite E. clear E.
  destruct (loop_exact hs A lines wss H tail (S (length (concat (map (fun l => l ++ [10]) lines) ++ tail))) [] T ltac:(lia))
    as [(rs & -> & F)|(e & ws1 & ws & ws2 & -> & EW & F & R & N)].
  - assert (Forall (fun ws => exists r, row_gives hs ws r) wss) as G.
    { clear - F. cbn [app] in F. induction F; constructor; eauto. }
    split; [split; [intros _; exact G|intros _; eexists; reflexivity]|]. split; [|intros X; elim X; exact G].
    intros rs' X. injection X as <-. exact F.
  - split.
    + split; [intros (rs & X); discriminate|]. intros X. rewrite EW in X. apply Forall_app in X as [_ X]. inversion X; subst. now elim N.
    + split; [discriminate|]. intros _. exists e, ws1, ws, ws2. auto.
Qed.
Print Assumptions C160_rows.

(* Every text after the first line is made of such rows. *)
Theorem C160_any_text : forall s, exists wss, text_rows s wss.
Proof.
  assert (forall n s, (length s <= n)%nat -> exists wss, text_rows s wss) as G; [|eauto].
  induction n as [|n IH]; intros s L.
  { destruct s; [|cbn in L; lia]. exists [], [], []. split; [reflexivity|]. split; [constructor|intros []]. }
  destruct (in_dec Z.eq_dec 10 s) as [I|I].
  - assert (exists row rest, s = row ++ 10 :: rest /\ ~ In 10 row) as (row & rest & -> & N).
    { clear - I. induction s as [|c s IHs]; [destruct I|]. destruct (Z.eq_dec c 10) as [->|D].
      - exists [], s. split; [reflexivity|intros []].
      - destruct IHs as (row & r & -> & N); [destruct I; [congruence|assumption]|].
        exists (c :: row), r. split; [reflexivity|]. intros [X|X]; [congruence|auto]. }
    destruct (words_exist row N) as (ws & W). rewrite app_length in L. cbn [length] in L.
    destruct (IH rest ltac:(lia)) as (wss & lines & tail & -> & F & T).
    exists (ws :: wss), (row :: lines), tail. split; [cbn [map concat]; rewrite <- !app_assoc; reflexivity|]. split; [now constructor|exact T].
  - exists [], [], s. split; [reflexivity|]. split; [constructor|exact I].
Qed.
Print Assumptions C160_any_text.

(* A short row of numbers with signs and trailing text after a good one, in a
   table with columns in another order, one of them twice; then a row without
   a number. *)
Definition other_hs : list str :=
  [lit "Mask"; lit "IRTT"; lit "Window"; lit "MTU"; lit "Metric"; lit "Use"; lit "RefCnt"; lit "Flags"; lit "Iface";
   lit "Gateway"; lit "Iface"; lit "Destination"].
Definition good_row : list str :=
  [lit "00FFFFFF"; [11] ++ lit "-7"; lit "+8"; lit "9x9"; lit "4294967297"; lit "0"; lit "0"; lit "001B"; lit "eth0";
   lit "010200c0"; lit "eth1"; lit "000200C0"].
Definition bad_row : list str :=
  [lit "00FFFFFF"; lit "-"; lit "+8"; lit "9x9"; lit "4294967297"; lit "0"; lit "0"; lit "001B"; lit "eth0";
   lit "010200c0"; lit "eth1"; lit "000200C0"].
Definition other_text (rows : list (list str)) : str := concat (map (fun l => PropRoute.line l ++ [10]) rows) ++ lit "end".
Example C160_witness :
  line_words (PropRoute.line other_hs) other_hs /\ incl needed other_hs /\ incl others other_hs
  /\ text_rows (other_text [good_row; good_row]) [good_row; good_row]
  /\ text_rows (other_text [good_row; bad_row]) [good_row; bad_row]
  /\ (exists r, row_gives other_hs good_row r /\ get_flags r = 1 /\ get_metric r = 1 /\ get_irtt r = -7
      /\ get_mtu r = 9 /\ get_interface_name r = lit "eth0" /\ value (get_gateway_address r) = v4_base + quad 192 0 2 1)
  /\ get_ipv4_routes (Some (PropRoute.line other_hs ++ 10 :: other_text [good_row; bad_row])) = Throw E_std.
Proof.
  assert (forall ws, forallb (fun w => negb (length w =? 0)%nat && forallb (fun c => negb ((c =? 9) || (c =? 32) || (c =? 10))) w) ws = true ->
    line_words (PropRoute.line ws) ws) as LW.
  { intros ws H. exists (PropRoute.line ws), []. split; [now rewrite app_nil_r|]. split; [now apply PropRoute.words_check|constructor]. }
  assert (forall rows, Forall (fun ws => line_words (PropRoute.line ws) ws) rows -> text_rows (other_text rows) rows) as TR.
  { intros rows F. exists (map PropRoute.line rows), (lit "end"). split; [unfold other_text; now rewrite map_map|].
    split; [|cbn; intuition discriminate]. induction F; constructor; auto. }
  assert (incl needed other_hs) as I1 by (intros x [<-|[<-|[<-|[]]]]; cbn; tauto).
  assert (incl others other_hs) as I2 by (intros x [<-|[<-|[<-|[<-|[<-|[<-|[<-|[<-|[]]]]]]]]]; cbn; tauto).
  split; [now apply LW|]. split; [exact I1|]. split; [exact I2|].
  split; [apply TR; repeat (constructor; [now apply LW|]); constructor|].
  split; [apply TR; repeat (constructor; [now apply LW|]); constructor|].
  split; [|vm_compute; reflexivity].
  destruct (row_exact other_hs good_row (all_needed _ I1 I2)) as [(r & E & G)|(e & E & _)]; [|revert E; vm_compute; discriminate].
  exists r. split; [exact G|]. revert E. clear. vm_compute. intros E. injection E as <-. vm_compute. repeat split; reflexivity.
Qed.
