(* Proofs about routes. *)
From Coq Require Import Lia ZifyBool ZifyNat.
From Verif Require Import Base Addr Spec Route SpecRoute AddrProofs AddrProofs2 AddrProofs3.
Local Open Scope Z_scope.
Ltac Zify.zify_post_hook ::= Z.div_mod_to_equations.

(* Reading lines. *)

Lemma read_blanks b s words : Forall blank b -> readwords_loop (b ++ s) [] words = readwords_loop s [] words.
Proof.
  induction 1 as [|c b B F IH]; [reflexivity|]. cbn [app readwords_loop].
  replace (c =? 10) with false by (destruct B; subst; reflexivity).
  replace ((c =? 9) || (c =? 32)) with true by (destruct B; subst; reflexivity). exact IH.
Qed.

Lemma read_word w : forall s cur words, Forall (fun c => ~ blank c /\ c <> 10) w ->
  readwords_loop (w ++ s) cur words = readwords_loop s (cur ++ w) words.
Proof.
  induction w as [|c w IH]; intros s cur words F; cbn [app].
  - now rewrite app_nil_r.
  - inversion F; subst. destruct H1 as [A B]. cbn [readwords_loop].
    replace (c =? 10) with false by lia.
    replace ((c =? 9) || (c =? 32)) with false by (unfold blank in A; lia).
    rewrite IH by assumption. now rewrite <- app_assoc.
Qed.

Lemma read_line line ws : laid_out line ws -> forall rest words,
  readwords_loop (line ++ 10 :: rest) [] words = Some (words ++ ws, rest).
Proof.
  induction 1 as [b B|b w c r ws B [N F] C L IH]; intros rest words.
  - rewrite read_blanks by assumption. cbn. now rewrite app_nil_r.
  - rewrite <- app_assoc. rewrite read_blanks by assumption. rewrite <- app_assoc.
    rewrite read_word by assumption. cbn [app readwords_loop].
    replace (c =? 10) with false by (destruct C; subst; reflexivity).
    replace ((c =? 9) || (c =? 32)) with true by (destruct C; subst; reflexivity).
    destruct w as [|x w]; [congruence|]. rewrite IH. now rewrite <- app_assoc.
Qed.

Lemma read_end s : ~ In 10 s -> forall w words, readwords_loop s w words = None.
Proof.
  induction s as [|c s IH]; intros N w words; [reflexivity|]. cbn [readwords_loop].
  assert (N1 : ~ In 10 s) by (intros X; apply N; now right).
  destruct (Z.eqb_spec c 10) as [->|D]; [destruct N; now left|].
  destruct ((c =? 9) || (c =? 32)); [|now apply IH].
  destruct w; now apply IH.
Qed.

(* Columns. *)

Lemma str_eqb_true a b : str_eqb a b = true <-> a = b.
Proof.
  revert b; induction a as [|x a IH]; intros [|y b]; cbn; try (split; congruence).
  rewrite andb_true_iff, IH, Z.eqb_eq. split; [intros []; congruence|intros H; injection H; auto].
Qed.

Lemma position_at hs : forall i name k, NoDup hs -> nth_error hs i = Some name ->
  position hs name k = k + Z.of_nat i.
Proof.
  induction hs as [|h hs IH]; intros i name k ND E; [destruct i; discriminate|].
  inversion ND; subst. destruct i as [|i]; cbn [nth_error] in E.
  - injection E as ->. cbn [position]. replace (str_eqb name name) with true by (symmetry; now apply str_eqb_true). lia.
  - cbn [position]. destruct (str_eqb h name) eqn:X.
    + apply str_eqb_true in X. subst. destruct H1. eapply nth_error_In; eassumption.
    + rewrite (IH i name (k + 1)) by assumption. lia.
Qed.

Lemma column_value hs ws name w : NoDup hs -> column hs ws name w ->
  get_value ws (get_position hs name) = Ok w /\ get_position hs name <> -1.
Proof.
  intros ND (i & A & B). unfold get_position. rewrite (position_at hs i name 0 ND A).
  split; [|lia]. unfold get_value.
  assert (i < length ws)%nat by (apply nth_error_Some; congruence).
  replace (0 + Z.of_nat i <? Z.of_nat (length ws)) with true by lia.
  replace (0 + Z.of_nat i <? 0) with false by lia.
  f_equal. replace (Z.to_nat (0 + Z.of_nat i)) with i by lia. now apply nth_error_nth.
Qed.

(* Hexadecimal addresses. *)

Lemma lor_shift x d k : 0 <= k -> 0 <= x < 2 ^ k -> Z.lor x (Z.shiftl d k) = x + d * 2 ^ k.
Proof.
  intros K X.
  assert (L : Z.land x (Z.shiftl d k) = 0).
  { apply Z.bits_inj'. intros n N. rewrite Z.land_spec, Z.bits_0.
    destruct (Z.ltb_spec n k) as [H|H].
    - rewrite Z.shiftl_spec_low by assumption. apply andb_false_r.
    - replace (Z.testbit x n) with false; [reflexivity|]. symmetry.
      destruct (Z.eq_dec x 0) as [->|NZ]; [apply Z.bits_0|].
      apply Z.bits_above_log2; [lia|]. apply Z.log2_lt_pow2; [lia|].
      apply Z.lt_le_trans with (2 ^ k); [lia|]. apply Z.pow_le_mono_r; lia. }
  rewrite <- Z.lxor_lor by assumption. rewrite <- Z.add_nocarry_lxor by assumption.
  now rewrite Z.shiftl_mul_pow2.
Qed.

Lemma hex_number c d : hex_digit c d -> hex_to_number c = Ok d /\ 0 <= d < 16.
Proof.
  intros H. unfold hex_to_number. inversion H; subst.
  - replace ((48 + d >=? 48) && (48 + d <=? 57)) with true by lia. split; [f_equal; lia|lia].
  - replace ((55 + d >=? 48) && (55 + d <=? 57)) with false by lia.
    replace ((55 + d >=? 97) && (55 + d <=? 102)) with false by lia.
    replace ((55 + d >=? 65) && (55 + d <=? 70)) with true by lia. split; [f_equal; lia|lia].
  - replace ((87 + d >=? 48) && (87 + d <=? 57)) with false by lia.
    replace ((87 + d >=? 97) && (87 + d <=? 102)) with true by lia. split; [f_equal; lia|lia].
Qed.

Lemma bswap_quad a b c d : is_byte a -> is_byte b -> is_byte c -> is_byte d ->
  bswap32 (a + 256 * b + 65536 * c + 16777216 * d) = quad a b c d.
Proof.
  unfold is_byte, bswap32, quad, u8. intros. change (2 ^ 8) with 256. change (2 ^ 16) with 65536.
  change (2 ^ 24) with 16777216. lia.
Qed.

Lemma hex_quad_addr s a b c d : hex_quad s a b c d ->
  (is_byte a /\ is_byte b /\ is_byte c /\ is_byte d) /\ s <> [] /\
  exists x, hex_to_addr s = Ok x /\ addr_wf x /\ value x = v4_base + quad a b c d /\
    get_ipv4 x = Ok (mk_in AF_INET 0 (a + 256 * b + 65536 * c + 16777216 * d)) /\
    is_mask_defined x = false.
Proof.
  intros (sa & sb & sc & sd & -> & A & B & C & D).
  destruct A as (a1 & x1 & a2 & x2 & -> & A1 & A2 & ->).
  destruct B as (b1 & y1 & b2 & y2 & -> & B1 & B2 & ->).
  destruct C as (c1 & z1 & c2 & z2 & -> & C1 & C2 & ->).
  destruct D as (d1 & t1 & d2 & t2 & -> & D1 & D2 & ->).
  apply hex_number in A1 as [A1 ?], A2 as [A2 ?], B1 as [B1 ?], B2 as [B2 ?],
    C1 as [C1 ?], C2 as [C2 ?], D1 as [D1 ?], D2 as [D2 ?].
  split; [unfold is_byte; lia|]. split; [discriminate|].
  cbn [app hex_to_addr]. rewrite A1, A2, B1, B2, C1, C2, D1, D2. cbn [rbind].
  rewrite Z.shiftl_0_r.
  rewrite (lor_shift _ _ 4) by (try change (2 ^ 4) with 16; lia).
  rewrite (lor_shift _ _ 8) by (try change (2 ^ 8) with 256; try change (2 ^ 4) with 16; lia).
  rewrite (lor_shift _ _ 12) by (try change (2 ^ 12) with 4096; try change (2 ^ 8) with 256; try change (2 ^ 4) with 16; lia).
  change (2 ^ 12) with 4096. change (2 ^ 8) with 256. change (2 ^ 4) with 16.
  rewrite (lor_shift _ _ 16) by (try change (2 ^ 16) with 65536; lia).
  change (2 ^ 16) with 65536.
  rewrite (lor_shift _ _ 20) by (try change (2 ^ 20) with 1048576; lia).
  change (2 ^ 20) with 1048576.
  rewrite (lor_shift _ _ 24) by (try change (2 ^ 24) with 16777216; lia).
  change (2 ^ 24) with 16777216.
  rewrite (lor_shift _ _ 28) by (try change (2 ^ 28) with 268435456; lia).
  change (2 ^ 28) with 268435456.
  match goal with |- context [u32 ?v] => replace (u32 v) with
    ((16 * x1 + x2) + 256 * (16 * y1 + y2) + 65536 * (16 * z1 + z2) + 16777216 * (16 * t1 + t2)) end.
  2:{ unfold u32. change (2 ^ 32) with 4294967296. lia. }
  set (v := (16 * x1 + x2) + 256 * (16 * y1 + y2) + 65536 * (16 * z1 + z2) + 16777216 * (16 * t1 + t2)).
  assert (V : 0 <= v < 2 ^ 32) by (unfold v; change (2 ^ 32) with 4294967296; lia).
  assert (Q : bswap32 v = quad (16 * x1 + x2) (16 * y1 + y2) (16 * z1 + z2) (16 * t1 + t2)).
  { apply bswap_quad; unfold is_byte; lia. }
  destruct (set_ipv4_spec addr_new (mk_in AF_INET 0 v) new_wf) as (x & E & W & VAL & G).
  { unfold sockaddr_in_ok. cbn [sin_family sin_port s_addr]. unfold AF_INET. lia. }
  { reflexivity. }
  exists x. unfold addr_from_in. rewrite E. split; [reflexivity|]. split; [exact W|].
  cbn [s_addr] in VAL. rewrite Q in VAL. split; [exact VAL|]. split; [exact G|].
  unfold set_ipv4 in E. cbn [sin_family] in E. rewrite Z.eqb_refl in E. cbn [negb] in E.
  injection E as <-. reflexivity.
Qed.

Lemma route_mask_ok x w a b c d : addr_wf x -> hex_quad w a b c d ->
  exists y, route_mask x w = Ok y /\ addr_wf y /\ value y = value x /\ is_mask_defined y = true /\
    mask_value y = 2 ^ 128 - 2 ^ 32 + quad a b c d.
Proof.
  intros W H. destruct (hex_quad_addr w a b c d H) as ((A & B & C & D) & N & m & E & Wm & _ & G & _).
  unfold route_mask. destruct w as [|c0 w]; [congruence|]. rewrite E. cbn [rbind]. rewrite G. cbn [rbind s_addr].
  set (l := _ ++ _).
  assert (L : l = [255; 255; 255; 255; 255; 255; 255; 255; 255; 255; 255; 255; a; b; c; d]).
  { unfold l. cbn [app]. rewrite !Z.shiftr_div_pow2 by lia. unfold u8, is_byte in *.
    change (2 ^ 0) with 1. change (2 ^ 8) with 256. change (2 ^ 16) with 65536. change (2 ^ 24) with 16777216.
    repeat f_equal; lia. }
  rewrite L. clear l L. eexists. split; [reflexivity|]. split.
  - destruct W. constructor; cbn; auto. split; [reflexivity|].
    repeat constructor; unfold is_byte in *; lia.
  - split; [reflexivity|]. split; [reflexivity|].
    unfold mask_value, set_mask, with_mask, with_mask_defined. cbn [f_mask].
    rewrite num_explicit. unfold num16, quad. lia.
Qed.

(* Numbers. *)

Lemma leading_all s : forallb is_digit s = true -> leading_digits s = s.
Proof.
  induction s as [|c s IH]; [reflexivity|]. cbn [forallb leading_digits]. intros H.
  apply andb_true_iff in H as [A B]. unfold is_digit in A. rewrite A. now rewrite IH.
Qed.

Lemma decimal_nonneg s v : decimal s v -> 0 <= v.
Proof.
  intros (N & F & <-). unfold decimal_value.
  assert (G : forall s acc, 0 <= acc -> forallb is_digit s = true -> 0 <= fold_left (fun v c => v * 10 + (c - 48)) s acc).
  { clear. induction s as [|c s IH]; intros acc A F; [exact A|]. cbn [fold_left]. cbn [forallb] in F.
    apply andb_true_iff in F as [D F]. unfold is_digit in D. apply IH; [lia|assumption]. }
  apply G; [lia|assumption].
Qed.

Lemma digits_first s : s <> [] -> forallb is_digit s = true ->
  exists c r, s = c :: r /\ 48 <= c <= 57.
Proof.
  intros N F. destruct s as [|c r]; [congruence|]. exists c, r. split; [reflexivity|].
  cbn [forallb] in F. apply andb_true_iff in F as [D _]. unfold is_digit in D. lia.
Qed.

Lemma stol_number s v : number s v -> int v -> stol s = Ok v.
Proof.
  unfold int. change (2 ^ 31) with 2147483648. intros [(N & F & V)|(t & -> & (N & F & V))] I.
  - destruct (digits_first s N F) as (c & r & E & R).
    unfold stol. replace (skip_spaces s) with s.
    2:{ rewrite E. cbn [skip_spaces]. replace (is_space c) with false by (unfold is_space; lia). reflexivity. }
    rewrite E. replace (c =? 45) with false by lia. replace (c =? 43) with false by lia. cbn zeta. rewrite <- E.
    rewrite leading_all by assumption. fold (decimal_value s). rewrite V.
    change (2 ^ 63) with 9223372036854775808.
    match goal with |- context [if ?b then Throw _ else _] => replace b with false by lia end.
    rewrite E. reflexivity.
  - destruct (digits_first t N F) as (c & r & E & R).
    change (stol (45 :: t)) with
      (match leading_digits t with
       | [] => Throw E_std
       | _ =>
           let v := - fold_left (fun v c => v * 10 + (c - 48)) (leading_digits t) 0 in
           if (v <? - 2 ^ 63) || (v >=? 2 ^ 63) then Throw E_std else Ok v
       end).
    cbn zeta.
    rewrite leading_all by assumption. fold (decimal_value t). rewrite V.
    change (2 ^ 63) with 9223372036854775808.
    match goal with |- context [if ?b then Throw _ else _] => replace b with false by lia end.
    rewrite E. f_equal. lia.
Qed.

Lemma int_id v : int v -> to_int v = v.
Proof.
  unfold int, to_int. change (2 ^ 31) with 2147483648. change (2 ^ 32) with 4294967296. lia.
Qed.

Lemma int_column hs ws name v : NoDup hs -> int v -> (exists w, column hs ws name w /\ number w v) ->
  int_value ws (get_position hs name) = Ok v.
Proof.
  intros ND I (w & C & N). unfold int_value. rewrite (proj1 (column_value hs ws name w ND C)). cbn [rbind].
  rewrite (stol_number w v N I). cbn [rbind]. now rewrite int_id.
Qed.

(* The flags: the decimal digits at the start of the hexadecimal word. *)

Lemma digit_decimal d : 0 <= d < 16 ->
  (d < 10 /\ digit_of d = 48 + d /\ (48 <=? digit_of d) && (digit_of d <=? 57) = true) \/
  (10 <= d /\ (48 <=? digit_of d) && (digit_of d <=? 57) = false).
Proof.
  intros H. unfold digit_of. destruct (Z.ltb_spec d 10) as [L|L]; [left|right].
  - split; [exact L|]. split; [reflexivity|]. lia.
  - split; [exact L|]. lia.
Qed.

Lemma stol_flags f : 0 <= f < 2 ^ 15 -> exists v, stol (hex4 f) = Ok v /\ int v /\ ((v = f <-> f < 10) /\ v = misread f).
Proof.
  change (2 ^ 15) with 32768. intros F. unfold hex4, misread. cbv zeta.
  assert (H0 : 0 <= f / 4096 mod 16 < 8) by lia.
  assert (H1 : 0 <= f / 256 mod 16 < 16) by lia.
  assert (H2 : 0 <= f / 16 mod 16 < 16) by lia.
  assert (H3 : 0 <= f mod 16 < 16) by lia.
  assert (E : f = 4096 * (f / 4096 mod 16) + 256 * (f / 256 mod 16) + 16 * (f / 16 mod 16) + f mod 16) by lia.
  set (d0 := f / 4096 mod 16) in *. set (d1 := f / 256 mod 16) in *.
  set (d2 := f / 16 mod 16) in *. set (d3 := f mod 16) in *. clearbody d0 d1 d2 d3. clear F. subst f.
  unfold stol.
  assert (X0 : digit_of d0 = 48 + d0) by (destruct (digit_decimal d0 ltac:(lia)) as [(_ & X & _)|[X _]]; [exact X|lia]). rewrite X0.
  cbn [skip_spaces]. replace (is_space (48 + d0)) with false by (unfold is_space; lia).
  replace (48 + d0 =? 45) with false by lia. replace (48 + d0 =? 43) with false by lia. cbn zeta.
  cbn [leading_digits]. replace ((48 <=? 48 + d0) && (48 + d0 <=? 57)) with true by lia.
  change (2 ^ 63) with 9223372036854775808. unfold int. change (2 ^ 31) with 2147483648.
  destruct (digit_decimal d1 H1) as [(A1 & E1 & B1)|(A1 & B1)]; rewrite B1.
  - rewrite E1. destruct (digit_decimal d2 H2) as [(A2 & E2 & B2)|(A2 & B2)]; rewrite B2.
    + rewrite E2. destruct (digit_decimal d3 H3) as [(A3 & E3 & B3)|(A3 & B3)]; rewrite B3.
      * rewrite E3. cbn [fold_left].
        match goal with |- context [Ok ?v] => exists v end.
        match goal with |- context [if ?b then Throw _ else _] => replace b with false by lia end.
        split; [reflexivity|].
  repeat match goal with |- context [10 <=? ?x] => destruct (Z.leb_spec 10 x); try lia end; lia.
      * cbn [fold_left].
        match goal with |- context [Ok ?v] => exists v end.
        match goal with |- context [if ?b then Throw _ else _] => replace b with false by lia end.
        split; [reflexivity|].
  repeat match goal with |- context [10 <=? ?x] => destruct (Z.leb_spec 10 x); try lia end; lia.
    + cbn [fold_left].
      match goal with |- context [Ok ?v] => exists v end.
      match goal with |- context [if ?b then Throw _ else _] => replace b with false by lia end.
      split; [reflexivity|].
  repeat match goal with |- context [10 <=? ?x] => destruct (Z.leb_spec 10 x); try lia end; lia.
  - cbn [fold_left].
    match goal with |- context [Ok ?v] => exists v end.
    match goal with |- context [if ?b then Throw _ else _] => replace b with false by lia end.
    split; [reflexivity|].
  repeat match goal with |- context [10 <=? ?x] => destruct (Z.leb_spec 10 x); try lia end; lia.
Qed.

(* One row. *)

Lemma make_route_ok hs ws k : NoDup hs -> row_says hs ws k ->
  exists r, make_route hs ws = Ok r /\ describes k r /\ ((get_flags r = k_flags k <-> k_flags k < 10) /\ get_flags r = misread (k_flags k)).
Proof.
  intros ND [IF (dw & DC & DW) (gw & GC & GW) [FR FC] [I1 R1] [I2 R2] [I3 R3] (mw & MC & MW) [I4 R4] [I5 R5] [I6 R6]].
  unfold make_route.
  rewrite (proj1 (column_value hs ws _ _ ND IF)), (proj1 (column_value hs ws _ _ ND DC)),
    (proj1 (column_value hs ws _ _ ND GC)), (proj1 (column_value hs ws _ _ ND MC)). cbn [rbind].
  destruct (k_destination k) as [[[a b] c] d] eqn:KD. destruct (k_gateway k) as [[[a' b'] c'] d'] eqn:KG.
  destruct (k_mask k) as [[[ma mb] mc] md] eqn:KM. cbn [quad_word] in DW, GW, MW.
  destruct (hex_quad_addr _ _ _ _ _ DW) as (_ & _ & x & E & W & V & _).
  destruct (hex_quad_addr _ _ _ _ _ GW) as (_ & _ & g & Eg & Wg & Vg & _).
  rewrite E, Eg. cbn [rbind].
  destruct (stol_flags (k_flags k) FR) as (fv & FS & FI & FE).
  unfold int_value at 1. rewrite (proj1 (column_value hs ws _ _ ND FC)). cbn [rbind]. rewrite FS. cbn [rbind].
  rewrite (int_id fv FI).
  rewrite (int_column hs ws _ _ ND I1 R1), (int_column hs ws _ _ ND I2 R2), (int_column hs ws _ _ ND I3 R3),
    (int_column hs ws _ _ ND I4 R4), (int_column hs ws _ _ ND I5 R5), (int_column hs ws _ _ ND I6 R6). cbn [rbind].
  destruct (route_mask_ok x mw ma mb mc md W MW) as (y & Ey & Wy & Vy & My & MVy).
  rewrite Ey. cbn [rbind]. eexists. split; [reflexivity|]. split; [|exact FE].
  constructor; cbn [get_interface_name get_destination_address get_gateway_address get_reference_count get_use
    get_metric get_mtu get_window get_irtt f_interface_name f_destination_address f_gateway_address
    f_reference_count f_use f_metric f_mtu f_window f_irtt]; try reflexivity.
  - rewrite KD. unfold is_quad. congruence.
  - rewrite KM. now split.
  - rewrite KG. exact Vg.
  - now split.
Qed.

Lemma routes_loop_ok hs : NoDup hs -> forall lines rows,
  Forall2 (fun line k => exists ws, laid_out line ws /\ row_says hs ws k) lines rows ->
  forall tail fuel acc, ~ In 10 tail ->
  (length (concat (map (fun line => line ++ [10%Z]) lines) ++ tail) < fuel)%nat ->
  exists routes, routes_loop fuel hs (concat (map (fun line => line ++ [10]) lines) ++ tail) acc = Ok (acc ++ routes) /\
    Forall2 (fun k r => describes k r /\ ((get_flags r = k_flags k <-> k_flags k < 10) /\ get_flags r = misread (k_flags k))) rows routes.
Proof.
  intros ND lines rows H. induction H as [|line k lines rows (ws & LO & RS) H IH]; intros tail fuel acc T L.
  - cbn [map concat app] in *. destruct fuel as [|fuel]; [lia|]. exists []. cbn [routes_loop].
    unfold readwords. rewrite read_end by assumption. now rewrite app_nil_r.
  - cbn [map concat] in *. rewrite <- !app_assoc in *. cbn [app] in *.
    destruct fuel as [|fuel]; [lia|]. cbn [routes_loop]. unfold readwords.
    rewrite (read_line line ws LO). cbn [app].
    destruct (make_route_ok hs ws k ND RS) as (r & E & D & F). rewrite E. cbn [rbind].
    destruct (IH tail fuel (acc ++ [r]) T) as (rs & E2 & F2).
    { rewrite !app_length in *. cbn [length] in L. rewrite !app_length in L. lia. }
    exists (r :: rs). split; [|constructor; auto]. rewrite E2. now rewrite <- app_assoc.
Qed.

Lemma table_routes hs rows file tail : table hs rows file ->
  incl [lit "Iface"; lit "Destination"; lit "Gateway"] hs -> ~ In 10 tail ->
  exists routes, get_ipv4_routes (Some (file ++ tail)) = Ok routes /\
    Forall2 (fun k r => describes k r /\ ((get_flags r = k_flags k <-> k_flags k < 10) /\ get_flags r = misread (k_flags k))) rows routes.
Proof.
  intros (header & lines & LO & ND & H & ->) IN T. cbn [map concat].
  unfold get_ipv4_routes. rewrite <- !app_assoc. cbn [app]. unfold readwords. rewrite (read_line header hs LO).
  cbn [app].
  assert (P : forall name, In name hs -> get_position hs name =? -1 = false).
  { intros name I. destruct (In_nth_error _ _ I) as [i E]. unfold get_position.
    rewrite (position_at hs i name 0 ND E). lia. }
  rewrite !P by (apply IN; cbn; tauto). cbn [orb].
  destruct (routes_loop_ok hs ND lines rows H tail
    (S (length (concat (map (fun line => line ++ [10]) lines) ++ tail))) [] T ltac:(lia)) as (rs & E & F).
  exists rs. split; [exact E|exact F].
Qed.

(* Any content of the file. *)

Definition safe {A} (r : res A) : Prop := (exists a, r = Ok a) \/ (exists e, r = Throw e).

Lemma safe_bind {A B} (r : res A) (f : A -> res B) : safe r -> (forall a, safe (f a)) -> safe (rbind r f).
Proof. intros [[a ->]|[e ->]] H; cbn; [apply H|right; now exists e]. Qed.
Lemma safe_ok {A} (a : A) : safe (Ok a).
Proof. left. now exists a. Qed.
Lemma safe_throw {A} e : safe (Throw e : res A).
Proof. right. now exists e. Qed.

Lemma get_value_safe ws pos : 0 <= pos -> safe (get_value ws pos).
Proof.
  intros H. unfold get_value. destruct (pos <? Z.of_nat (length ws)); [|apply safe_ok].
  replace (pos <? 0) with false by lia. apply safe_ok.
Qed.

Lemma hex_number_safe c : safe (hex_to_number c).
Proof.
  unfold hex_to_number. repeat match goal with |- context [if ?b then _ else _] => destruct b end;
    auto using safe_ok, safe_throw.
Qed.

Lemma hex_addr_safe s : safe (hex_to_addr s).
Proof.
  unfold hex_to_addr. do 8 (destruct s as [|? s]; [apply safe_throw|]). destruct s; [|apply safe_throw].
  do 8 (apply safe_bind; [apply hex_number_safe|intros ?]).
  unfold addr_from_in, set_ipv4. cbn [sin_family]. rewrite Z.eqb_refl. apply safe_ok.
Qed.

Lemma stol_safe s : safe (stol s).
Proof.
  unfold stol. cbn zeta.
  destruct (match skip_spaces s with [] => _ | _ => _ end) as [neg t].
  destruct (leading_digits t); [apply safe_throw|].
  match goal with |- context [if ?b then Throw _ else _] => destruct b end; auto using safe_ok, safe_throw.
Qed.

Lemma int_value_safe ws pos : 0 <= pos -> safe (int_value ws pos).
Proof.
  intros H. unfold int_value. apply safe_bind; [now apply get_value_safe|]. intros w.
  apply safe_bind; [apply stol_safe|]. intros v. apply safe_ok.
Qed.

Definition all_columns : list str :=
  [lit "Iface"; lit "Destination"; lit "Gateway"; lit "Flags"; lit "RefCnt"; lit "Use"; lit "Metric";
   lit "Mask"; lit "MTU"; lit "Window"; lit "IRTT"].

Lemma position_found hs name : forall k, In name hs -> k <= position hs name k.
Proof.
  induction hs as [|h hs IH]; intros k I; [destruct I|]. cbn [position].
  destruct (str_eqb h name) eqn:E; [lia|].
  destruct I as [->|I].
  - rewrite (proj2 (str_eqb_true name name) eq_refl) in E. discriminate.
  - specialize (IH (k + 1) I). lia.
Qed.

Lemma route_mask_safe x m : safe (route_mask x m).
Proof.
  unfold route_mask. destruct m; [apply safe_ok|].
  apply safe_bind; [apply hex_addr_safe|]. intros y.
  apply safe_bind; [unfold get_ipv4; destruct (is_ipv4 y); auto using safe_ok, safe_throw|]. intros ?. apply safe_ok.
Qed.

Lemma make_route_safe hs ws : incl all_columns hs -> safe (make_route hs ws).
Proof.
  intros IN. assert (P : forall name, In name all_columns -> 0 <= get_position hs name).
  { intros name I. apply (position_found hs name 0). now apply IN. }
  unfold make_route.
  apply safe_bind; [apply get_value_safe, P; cbn; tauto|intros ?].
  apply safe_bind; [apply get_value_safe, P; cbn; tauto|intros ?].
  apply safe_bind; [apply hex_addr_safe|intros ?].
  apply safe_bind; [apply get_value_safe, P; cbn; tauto|intros ?].
  apply safe_bind; [apply hex_addr_safe|intros ?].
  do 7 (apply safe_bind; [apply int_value_safe, P; cbn; tauto|intros ?]).
  apply safe_bind; [apply get_value_safe, P; cbn; tauto|intros ?].
  apply safe_bind; [apply route_mask_safe|intros ?]. apply safe_ok.
Qed.

Lemma read_shorter s : forall w words ws rest, readwords_loop s w words = Some (ws, rest) ->
  (length rest < length s)%nat.
Proof.
  induction s as [|c s IH]; intros w words ws rest H; [discriminate|]. cbn [readwords_loop length] in *.
  destruct (c =? 10); [injection H as _ <-; lia|].
  destruct ((c =? 9) || (c =? 32)); [destruct w|]; apply IH in H; lia.
Qed.

Lemma routes_loop_safe hs : incl all_columns hs -> forall fuel s acc, (length s < fuel)%nat ->
  safe (routes_loop fuel hs s acc).
Proof.
  intros IN. induction fuel as [|fuel IH]; intros s acc L; [lia|]. cbn [routes_loop].
  destruct (readwords s) as [[ws rest]|] eqn:E; [|apply safe_ok].
  apply read_shorter in E. apply safe_bind; [now apply make_route_safe|]. intros r. apply IH. lia.
Qed.
