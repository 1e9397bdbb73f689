(* Properties C60-C62, C84 and C85: routes. *)
From Coq Require Import Lia ZifyBool ZifyNat.
From Verif Require Import Base Addr Spec Route SpecRoute.
From Verif Require RouteProofs AddrProofs AddrProofs2 AddrProofs3.
Import RouteProofs AddrProofs AddrProofs2 AddrProofs3.
Local Open Scope Z_scope.

(* ---------- C60 ---------- *)
(* The table, possibly followed by an incomplete line. The columns can be in
   any order, and there can be others. *)
Theorem C60_routes : forall hs rows file tail, table hs rows file -> ~ In 10 tail ->
  incl [lit "Iface"; lit "Destination"; lit "Gateway"] hs ->
  exists routes, get_ipv4_routes (Some (file ++ tail)) = Ok routes /\ Forall2 describes rows routes.
Proof.
  intros hs rows file tail T N I. destruct (table_routes hs rows file tail T I N) as (rs & E & F).
  exists rs. split; [exact E|]. clear - F. induction F as [|k r ks rs [D _] F IH]; constructor; auto.
Qed.
Print Assumptions C60_routes.

(* A table of a Linux kernel: a default route, a network, and a network made
   unreachable. *)
Definition hs : list str :=
  [lit "Iface"; lit "Destination"; lit "Gateway"; lit "Flags"; lit "RefCnt"; lit "Use"; lit "Metric";
   lit "Mask"; lit "MTU"; lit "Window"; lit "IRTT"].
Definition tab : str := [9].
Definition line (ws : list str) : str := concat (map (fun w => w ++ tab) ws) ++ lit "    ".
Definition row1 := [lit "eth0"; lit "00000000"; lit "010200C0"; lit "0003"; lit "0"; lit "0"; lit "100"; lit "00000000"; lit "1500"; lit "0"; lit "0"].
Definition row2 := [lit "eth0"; lit "000200C0"; lit "00000000"; lit "0001"; lit "0"; lit "0"; lit "-1"; lit "00FFFFFF"; lit "0"; lit "0"; lit "0"].
Definition row3 := [lit "*"; lit "0000000A"; lit "00000000"; lit "0201"; lit "0"; lit "0"; lit "0"; lit "000000FF"; lit "0"; lit "0"; lit "0"].
Definition k1 := mk_kroute (lit "eth0") (0, 0, 0, 0) (192, 0, 2, 1) (0, 0, 0, 0) 3 0 0 100 1500 0 0.
Definition k2 := mk_kroute (lit "eth0") (192, 0, 2, 0) (0, 0, 0, 0) (255, 255, 255, 0) 1 0 0 (-1) 0 0 0.
Definition k3 := mk_kroute (lit "*") (10, 0, 0, 0) (0, 0, 0, 0) (255, 0, 0, 0) 0x201 0 0 0 0 0 0.
Definition text : str := concat (map (fun l => line l ++ [10]) [hs; row1; row2; row3]).

Lemma line_laid_out ws : Forall word ws -> laid_out (line ws) ws.
Proof.
  unfold line. induction 1 as [|w ws W F IH].
  - apply laid_out_end. repeat constructor; now right.
  - cbn [map concat]. unfold tab. rewrite <- !app_assoc. cbn [app].
    refine (laid_out_word [] w 9 _ ws _ W (or_introl eq_refl) IH). constructor.
Qed.
Lemma word_check w : negb (length w =? 0)%nat && forallb (fun c => negb ((c =? 9) || (c =? 32) || (c =? 10))) w = true -> word w.
Proof.
  intros H. apply andb_true_iff in H as [A B]. split.
  - intros ->. discriminate.
  - rewrite forallb_forall in B. apply Forall_forall. intros c I. specialize (B c I). unfold blank. lia.
Qed.
Lemma words_check ws : forallb (fun w => negb (length w =? 0)%nat && forallb (fun c => negb ((c =? 9) || (c =? 32) || (c =? 10))) w) ws = true ->
  laid_out (line ws) ws.
Proof.
  intros H. apply line_laid_out. rewrite forallb_forall in H. apply Forall_forall. intros w I. apply word_check. auto.
Qed.
Lemma col (ws : list str) i name w : nth_error hs i = Some name -> nth_error ws i = Some w -> column hs ws name w.
Proof. intros A B. now exists i. Qed.
Lemma dig c d : (0 <= d <= 9 /\ c = 48 + d) \/ (10 <= d <= 15 /\ c = 55 + d) -> hex_digit c d.
Proof. intros [[A ->]|[A ->]]; constructor; lia. Qed.
Lemma hexq c0 c1 c2 c3 c4 c5 c6 c7 d0 d1 d2 d3 d4 d5 d6 d7 a b c d :
  hex_digit c0 d0 -> hex_digit c1 d1 -> hex_digit c2 d2 -> hex_digit c3 d3 ->
  hex_digit c4 d4 -> hex_digit c5 d5 -> hex_digit c6 d6 -> hex_digit c7 d7 ->
  a = 16 * d6 + d7 -> b = 16 * d4 + d5 -> c = 16 * d2 + d3 -> d = 16 * d0 + d1 ->
  hex_quad [c0; c1; c2; c3; c4; c5; c6; c7] a b c d.
Proof.
  intros. exists [c6; c7], [c4; c5], [c2; c3], [c0; c1]. split; [reflexivity|].
  repeat split; unfold hex_byte; repeat eexists; eassumption.
Qed.
Ltac row_tac := constructor; cbn [k1 k2 k3 k_iface k_destination k_gateway k_mask k_flags k_refcnt k_use k_metric k_mtu k_window k_irtt].
Lemma rows_ok : Forall2 (fun l k => exists ws, laid_out l ws /\ row_says hs ws k)
  [line row1; line row2; line row3] [k1; k2; k3].
Proof.
  assert (DG : forall s v, forallb is_digit s && negb (length s =? 0)%nat && (decimal_value s =? v) = true -> number s v).
  { intros s v H. apply andb_true_iff in H as [H V]. apply andb_true_iff in H as [H L]. left. split; [intros ->; discriminate|].
    split; [exact H|now apply Z.eqb_eq]. }
  assert (IT : forall v, (-2147483648 <=? v) && (v <? 2147483648) = true -> int v) by (unfold int; intros; lia).
  constructor; [|constructor; [|constructor; [|constructor]]]; eexists; (split; [apply words_check; reflexivity|]).
  - row_tac.
    + apply (col _ 0); reflexivity.
    + eexists. split; [apply (col _ 1); reflexivity|].
      apply (hexq _ _ _ _ _ _ _ _ 0 0 0 0 0 0 0 0); try reflexivity; apply dig; left; split; try lia; reflexivity.
    + eexists. split; [apply (col _ 2); reflexivity|].
      apply (hexq _ _ _ _ _ _ _ _ 0 1 0 2 0 0 12 0); try reflexivity; apply dig;
        first [left; split; [lia|reflexivity]|right; split; [lia|reflexivity]].
    + split; [change (2 ^ 15) with 32768; lia|]. apply (col _ 3); reflexivity.
    + split; [now apply IT|]. eexists. split; [apply (col _ 4); reflexivity|now apply DG].
    + split; [now apply IT|]. eexists. split; [apply (col _ 5); reflexivity|now apply DG].
    + split; [now apply IT|]. eexists. split; [apply (col _ 6); reflexivity|now apply DG].
    + eexists. split; [apply (col _ 7); reflexivity|].
      apply (hexq _ _ _ _ _ _ _ _ 0 0 0 0 0 0 0 0); try reflexivity; apply dig; left; split; try lia; reflexivity.
    + split; [now apply IT|]. eexists. split; [apply (col _ 8); reflexivity|now apply DG].
    + split; [now apply IT|]. eexists. split; [apply (col _ 9); reflexivity|now apply DG].
    + split; [now apply IT|]. eexists. split; [apply (col _ 10); reflexivity|now apply DG].
  - row_tac.
    + apply (col _ 0); reflexivity.
    + eexists. split; [apply (col _ 1); reflexivity|].
      apply (hexq _ _ _ _ _ _ _ _ 0 0 0 2 0 0 12 0); try reflexivity; apply dig;
        first [left; split; [lia|reflexivity]|right; split; [lia|reflexivity]].
    + eexists. split; [apply (col _ 2); reflexivity|].
      apply (hexq _ _ _ _ _ _ _ _ 0 0 0 0 0 0 0 0); try reflexivity; apply dig; left; split; try lia; reflexivity.
    + split; [change (2 ^ 15) with 32768; lia|]. apply (col _ 3); reflexivity.
    + split; [now apply IT|]. eexists. split; [apply (col _ 4); reflexivity|now apply DG].
    + split; [now apply IT|]. eexists. split; [apply (col _ 5); reflexivity|now apply DG].
    + split; [now apply IT|]. eexists. split; [apply (col _ 6); reflexivity|].
      right. exists (lit "1"). split; [reflexivity|]. repeat split. discriminate.
    + eexists. split; [apply (col _ 7); reflexivity|].
      apply (hexq _ _ _ _ _ _ _ _ 0 0 15 15 15 15 15 15); try reflexivity; apply dig;
        first [left; split; [lia|reflexivity]|right; split; [lia|reflexivity]].
    + split; [now apply IT|]. eexists. split; [apply (col _ 8); reflexivity|now apply DG].
    + split; [now apply IT|]. eexists. split; [apply (col _ 9); reflexivity|now apply DG].
    + split; [now apply IT|]. eexists. split; [apply (col _ 10); reflexivity|now apply DG].
  - row_tac.
    + apply (col _ 0); reflexivity.
    + eexists. split; [apply (col _ 1); reflexivity|].
      apply (hexq _ _ _ _ _ _ _ _ 0 0 0 0 0 0 0 10); try reflexivity; apply dig;
        first [left; split; [lia|reflexivity]|right; split; [lia|reflexivity]].
    + eexists. split; [apply (col _ 2); reflexivity|].
      apply (hexq _ _ _ _ _ _ _ _ 0 0 0 0 0 0 0 0); try reflexivity; apply dig; left; split; try lia; reflexivity.
    + split; [change (2 ^ 15) with 32768; lia|]. apply (col _ 3); reflexivity.
    + split; [now apply IT|]. eexists. split; [apply (col _ 4); reflexivity|now apply DG].
    + split; [now apply IT|]. eexists. split; [apply (col _ 5); reflexivity|now apply DG].
    + split; [now apply IT|]. eexists. split; [apply (col _ 6); reflexivity|now apply DG].
    + eexists. split; [apply (col _ 7); reflexivity|].
      apply (hexq _ _ _ _ _ _ _ _ 0 0 0 0 0 0 15 15); try reflexivity; apply dig;
        first [left; split; [lia|reflexivity]|right; split; [lia|reflexivity]].
    + split; [now apply IT|]. eexists. split; [apply (col _ 8); reflexivity|now apply DG].
    + split; [now apply IT|]. eexists. split; [apply (col _ 9); reflexivity|now apply DG].
    + split; [now apply IT|]. eexists. split; [apply (col _ 10); reflexivity|now apply DG].
Qed.
Lemma text_table : table hs [k1; k2; k3] text.
Proof.
  exists (line hs), [line row1; line row2; line row3]. split; [apply words_check; reflexivity|].
  split.
  - repeat constructor; cbn; intuition discriminate.
  - split; [exact rows_ok|reflexivity].
Qed.
Example C60_satisfiable : table hs [k1; k2; k3] text /\ ~ In 10 (lit "eth1") /\
  incl [lit "Iface"; lit "Destination"; lit "Gateway"] hs.
Proof.
  split; [exact text_table|]. split; [cbn; intuition discriminate|].
  intros x I. cbn in I |- *. tauto.
Qed.

(* ---------- C61 ---------- *)
(* The flags are right exactly when they are below ten. *)
Theorem C61_flags_partial : forall hs rows file, table hs rows file ->
  incl [lit "Iface"; lit "Destination"; lit "Gateway"] hs ->
  exists routes, get_ipv4_routes (Some file) = Ok routes /\
    Forall2 (fun k r => describes k r /\ (get_flags r = k_flags k <-> k_flags k < 10)) rows routes.
Proof.
  intros hs rows file T I. destruct (table_routes hs rows file [] T I (fun x => x)) as (rs & E & F).
  rewrite app_nil_r in E. exists rs. split; [exact E|].
  clear - F. induction F as [|k r ks rs [D [A _]] F IH]; constructor; auto.
Qed.
Print Assumptions C61_flags_partial.

(* And what they are otherwise. *)
Theorem C61_any_flags : forall hs rows file, table hs rows file ->
  incl [lit "Iface"; lit "Destination"; lit "Gateway"] hs ->
  exists routes, get_ipv4_routes (Some file) = Ok routes /\
    Forall2 (fun k r => describes k r /\ get_flags r = misread (k_flags k)) rows routes.
Proof.
  intros hs rows file T I. destruct (table_routes hs rows file [] T I (fun x => x)) as (rs & E & F).
  rewrite app_nil_r in E. exists rs. split; [exact E|].
  clear - F. induction F as [|k r ks rs [D [_ A]] F IH]; constructor; auto.
Qed.
Print Assumptions C61_any_flags.
Example C61_witness_any : map misread [0x3; 0x201; 0x4B; 0x7C03] = [3; 201; 4; 7].
Proof. reflexivity. Qed.


(* An unreachable network: UP and REJECT are read as 201, which is UP, REINSTATE,
   MTU and WINDOW. *)
Theorem C61_flags_refuted : exists r1 r2 r3,
  table hs [k1; k2; k3] text /\ get_ipv4_routes (Some text) = Ok [r1; r2; r3] /\
  k_flags k3 = 0x201 /\ get_flags r3 = 201 /\ flags_to_string r3 = lit "URuw".
Proof.
  do 3 eexists. split; [exact text_table|]. split; [vm_compute; reflexivity|].
  split; [reflexivity|]. split; vm_compute; reflexivity.
Qed.
Print Assumptions C61_flags_refuted.

(* ---------- C62 ---------- *)
Definition default_destination (r : route) : Prop :=
  value (get_destination_address r) = 0 \/ value (get_destination_address r) = v4_base.

Theorem C62_find_default : forall routes, Forall (fun r => addr_wf (get_destination_address r)) routes ->
  match find_default_route routes with
  | Some r => exists before after, routes = before ++ r :: after /\ default_destination r /\
      Forall (fun q => ~ default_destination q) before
  | None => Forall (fun q => ~ default_destination q) routes
  end.
Proof.
  intros routes F. unfold find_default_route. induction F as [|r rs W F IH]; [constructor|]. cbn [find].
  destruct (is_default (get_destination_address r)) eqn:D.
  - exists [], rs. split; [reflexivity|]. split; [|constructor]. now apply is_default_value.
  - assert (N : ~ default_destination r) by (intros X; apply is_default_value in X; [congruence|assumption]).
    destruct (find _ rs) as [q|].
    + destruct IH as (b & a & -> & X & Y). exists (r :: b), a. split; [reflexivity|]. split; [exact X|].
      now constructor.
    + now constructor.
Qed.
Print Assumptions C62_find_default.

(* The routes read from a table: the first with destination 0.0.0.0. *)
Theorem C62_from_the_table : forall hs rows file, table hs rows file ->
  incl [lit "Iface"; lit "Destination"; lit "Gateway"] hs ->
  exists routes, get_ipv4_routes (Some file) = Ok routes /\
  match find_default_route routes with
  | Some r => exists before k after, rows = before ++ k :: after /\ describes k r /\
      k_destination k = (0, 0, 0, 0) /\ Forall (fun q => k_destination q <> (0, 0, 0, 0)) before
  | None => Forall (fun q => k_destination q <> (0, 0, 0, 0)) rows
  end.
Proof.
  intros hs rows file T I.
  assert (BYTES : Forall (fun k => let '(a, b, c, d) := k_destination k in
    is_byte a /\ is_byte b /\ is_byte c /\ is_byte d) rows).
  { destruct T as (h & ls & _ & _ & H & _). clear - H.
    induction H as [|l k ls ks (ws & _ & R) H IH]; constructor; [|assumption].
    destruct (row_destination _ _ _ R) as (w & _ & Q). destruct (k_destination k) as [[[a b] c] d].
    now destruct (hex_quad_addr w a b c d Q). }
  destruct (table_routes hs rows file [] T I (fun x => x)) as (rs & E & F).
  rewrite app_nil_r in E. exists rs. split; [exact E|]. clear E T.
  unfold find_default_route. induction F as [|k r ks rs [D _] F IH]; [constructor|].
  inversion BYTES as [|? ? B1 B2]; subst. specialize (IH B2). cbn [find].
  assert (X : is_default (get_destination_address r) = true <-> k_destination k = (0, 0, 0, 0)).
  { pose proof (d_destination _ _ D) as V. pose proof (proj1 (d_wf _ _ D)) as W.
    rewrite is_default_value by exact W. destruct (k_destination k) as [[[a b] c] d]. cbn [is_quad] in V.
    rewrite V. unfold is_byte, quad, v4_base in *. change (2 ^ 32) with 4294967296. split.
    - intros H. assert (a = 0) by lia. assert (b = 0) by lia. assert (c = 0) by lia. assert (d = 0) by lia. congruence.
    - intros H. injection H as -> -> -> ->. lia. }
  destruct (is_default (get_destination_address r)) eqn:DF.
  - exists [], k, ks. split; [reflexivity|]. split; [exact D|]. split; [now apply X|constructor].
  - assert (N : k_destination k <> (0, 0, 0, 0)) by (intros Y; apply X in Y; discriminate).
    destruct (find _ rs) as [q|].
    + destruct IH as (b & k' & a & -> & A1 & A2 & A3). exists (k :: b), k', a. split; [reflexivity|].
      split; [exact A1|]. split; [exact A2|]. now constructor.
    + now constructor.
Qed.
Print Assumptions C62_from_the_table.
Example C62_satisfiable : exists r1 r2 r3, get_ipv4_routes (Some text) = Ok [r1; r2; r3] /\
  find_default_route [r3; r1; r2] = Some r1 /\ find_default_route [r3; r2] = None /\
  Forall (fun r => addr_wf (get_destination_address r)) [r3; r1; r2].
Proof.
  destruct (table_routes hs _ text [] text_table (proj2 (proj2 C60_satisfiable)) (fun x => x)) as (rs & E & F).
  rewrite app_nil_r in E.
  inversion F as [|? r1 ? ? [D1 _] F1]; subst. inversion F1 as [|? r2 ? ? [D2 _] F2]; subst.
  inversion F2 as [|? r3 ? ? [D3 _] F3]; subst. inversion F3; subst.
  exists r1, r2, r3. split; [exact E|].
  assert (W : Forall (fun r => addr_wf (get_destination_address r)) [r3; r1; r2]).
  { exact (Forall_cons _ (proj1 (d_wf _ _ D3)) (Forall_cons _ (proj1 (d_wf _ _ D1))
      (Forall_cons _ (proj1 (d_wf _ _ D2)) (Forall_nil _)))). }
  split; [|split; [|exact W]].
  - assert (X : get_ipv4_routes (Some text) = Ok [r1; r2; r3] -> find_default_route [r3; r1; r2] = Some r1).
    { vm_compute. intros X. injection X as <- <- <-. vm_compute. reflexivity. }
    exact (X E).
  - assert (X : get_ipv4_routes (Some text) = Ok [r1; r2; r3] -> find_default_route [r3; r2] = None).
    { vm_compute. intros X. injection X as <- <- <-. vm_compute. reflexivity. }
    exact (X E).
Qed.

(* ---------- C84 ---------- *)
(* Whatever follows a line with all the headers. *)
Theorem C84_any_content_partial : forall header hs rest, laid_out header hs ->
  incl [lit "Iface"; lit "Destination"; lit "Gateway"; lit "Flags"; lit "RefCnt"; lit "Use"; lit "Metric";
        lit "Mask"; lit "MTU"; lit "Window"; lit "IRTT"] hs ->
  (exists routes, get_ipv4_routes (Some (header ++ 10 :: rest)) = Ok routes) \/
  (exists e, get_ipv4_routes (Some (header ++ 10 :: rest)) = Throw e).
Proof.
  intros header hs rest L I. unfold get_ipv4_routes, readwords. rewrite (read_line header hs L). cbn [app].
  match goal with |- context [if ?b then _ else _] => destruct b end; [left; now exists []|].
  apply (routes_loop_safe hs I). lia.
Qed.
Print Assumptions C84_any_content_partial.
(* Without the file, without a complete line, or without one of the first
   three columns there are no routes. *)
Theorem C84_no_table : forall s,
  get_ipv4_routes None = Ok [] /\
  (~ In 10 s -> get_ipv4_routes (Some s) = Ok []) /\
  (forall header hs rest, s = header ++ 10 :: rest -> laid_out header hs ->
     ~ incl [lit "Iface"; lit "Destination"; lit "Gateway"] hs -> get_ipv4_routes (Some s) = Ok []).
Proof.
  intros s. split; [reflexivity|]. split.
  - intros N. unfold get_ipv4_routes, readwords. now rewrite read_end.
  - intros header hs rest -> L N. unfold get_ipv4_routes, readwords. rewrite (read_line header hs L). cbn [app].
    match goal with |- context [if ?b then _ else _] => destruct b eqn:E end; [reflexivity|]. exfalso. apply N.
    assert (G : forall name, get_position hs name =? -1 = false -> In name hs).
    { clear. unfold get_position. intros name. generalize 0 as k.
      induction hs as [|h hs IH]; intros k H; [discriminate|]. cbn [position] in H.
      destruct (str_eqb h name) eqn:X; [left; now apply str_eqb_true|right; eauto]. }
    apply orb_false_iff in E as [E E3]. apply orb_false_iff in E as [E1 E2].
    intros x [<-|[<-|[<-|[]]]]; auto.
Qed.
Print Assumptions C84_no_table.

(* A table without one of the other columns is undefined behaviour as soon as
   it has a row; so is a line of headers whose last word is not followed by a
   blank: that word is lost. *)
Theorem C84_any_content_refuted :
  get_ipv4_routes (Some (concat (map (fun l => line l ++ [10]) [removelast hs; removelast row1]))) = UB /\
  get_ipv4_routes (Some (lit "Iface Destination Gateway Flags RefCnt Use Metric Mask MTU Window IRTT" ++ [10]
    ++ line row1 ++ [10])) = UB.
Proof. split; vm_compute; reflexivity. Qed.
Print Assumptions C84_any_content_refuted.
Example C84_satisfiable : laid_out (line hs) hs /\
  get_ipv4_routes (Some (line hs ++ 10 :: lit "a b c" ++ [10])) = Throw E_invalid_argument.
Proof. split; [apply words_check; reflexivity|vm_compute; reflexivity]. Qed.

(* ---------- C85 ---------- *)
(* The letters of the flags which are set. *)
Theorem C85_flag_letters : forall r, - 2 ^ 31 <= get_flags r < 2 ^ 31 ->
  flags_to_string r = map snd (filter (fun bl => Z.testbit (get_flags r) (fst bl)) flag_letters).
Proof.
  intros r H. unfold get_flags in *. unfold flags_to_string.
  assert (B : forall i, 0 <= i < 32 -> negb (Z.land (u32 (f_flags r)) (2 ^ i) =? 0) = Z.testbit (f_flags r) i).
  { intros i I. unfold u32.
    assert (E : Z.land (f_flags r mod 2 ^ 32) (2 ^ i) = if Z.testbit (f_flags r) i then 2 ^ i else 0).
    { apply Z.bits_inj'. intros n N. rewrite Z.land_spec.
      rewrite (Z.pow2_bits_eqb i n) by lia. destruct (Z.eqb_spec i n) as [<-|D].
      - rewrite andb_true_r. rewrite Z.mod_pow2_bits_low by lia.
        destruct (Z.testbit (f_flags r) i); [now rewrite Z.pow2_bits_true by lia|now rewrite Z.bits_0].
      - rewrite andb_false_r. destruct (Z.testbit (f_flags r) i); [|now rewrite Z.bits_0].
        rewrite Z.pow2_bits_eqb by lia. symmetry. now apply Z.eqb_neq. }
    rewrite E. destruct (Z.testbit (f_flags r) i); [|reflexivity].
    assert (0 < 2 ^ i) by (apply Z.pow_pos_nonneg; lia). replace (2 ^ i =? 0) with false by lia. reflexivity. }
  assert (G : forall (l : list (Z * Z)) (acc : list Z), Forall (fun bl => 0 <= fst bl < 32) l ->
    fold_left (fun result fn => if negb (Z.land (u32 (f_flags r)) (fst fn) =? 0) then result ++ [snd fn] else result)
      (map (fun bl => (2 ^ fst bl, snd bl)) l) acc =
    acc ++ map snd (filter (fun bl => Z.testbit (f_flags r) (fst bl)) l)).
  { induction l as [|[i c] l IH]; intros acc F; cbn [map fold_left filter].
    - now rewrite app_nil_r.
    - inversion F as [|? ? F1 F2]; subst. cbn [fst snd] in *. rewrite B by assumption.
      destruct (Z.testbit (f_flags r) i); rewrite IH by assumption; [|reflexivity].
      cbn [map snd]. now rewrite <- app_assoc. }
  specialize (G flag_letters []). cbn [app] in G. rewrite <- G.
  - reflexivity.
  - unfold flag_letters. repeat constructor; cbn; lia.
Qed.
Print Assumptions C85_flag_letters.
Example C85_satisfiable :
  flags_to_string (mk_route [] addr_new addr_new (- 2 ^ 31 + 0x203) 0 0 0 0 0 0) = lit "UG!l".
Proof. vm_compute. reflexivity. Qed.
