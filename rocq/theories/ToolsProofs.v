(* Lemmas about the lines printed by the tools. *)
From Coq Require Import Lia ZifyBool ZifyNat.
From Verif Require Import Base Addr Spec SpecText Inet AddrText Route Iface SpecRoute SpecIface NameInfo TableTools SpecTools.
From Verif Require InetProofs InetProofs2 TextProofs AddrProofs AddrProofs2 AddrProofs3 AddrProofs4 RouteProofs PropText PropAddr.
Import InetProofs InetProofs2 TextProofs AddrProofs AddrProofs2 AddrProofs3 AddrProofs4 RouteProofs PropText.
Local Open Scope Z_scope.
Ltac Zify.zify_post_hook ::= Z.div_mod_to_equations.

(* ---------- the length of numbers and addresses ---------- *)
Lemma digits_len base f : forall n acc, (length (digits base f n acc) <= f + length acc)%nat.
Proof.
  induction f as [|f IH]; intros n acc; [cbn; lia|]. cbn [digits]. cbv zeta.
  destruct (n / base =? 0); [cbn [length]; lia|].
  etransitivity; [apply IH|]. cbn [length]. lia.
Qed.
Lemma hex_len w : (length (hex_string w) <= 4)%nat.
Proof. unfold hex_string. etransitivity; [apply digits_len|]. cbn [length]. lia. Qed.
Lemma digits_small k : forall f n acc, 0 <= n < 10 ^ Z.of_nat (S k) ->
  (length (digits 10 f n acc) <= S k + length acc)%nat.
Proof.
  induction k as [|k IH]; intros f n acc H.
  - destruct f as [|f]; [cbn; lia|]. cbn [digits]. cbv zeta. change (10 ^ Z.of_nat 1) with 10 in H.
    replace (n / 10 =? 0) with true by lia. cbn [length]. lia.
  - destruct f as [|f]; [cbn; lia|]. cbn [digits]. cbv zeta. destruct (n / 10 =? 0); [cbn [length]; lia|].
    etransitivity; [apply IH|cbn [length]; lia].
    replace (Z.of_nat (S (S k))) with (Z.succ (Z.of_nat (S k))) in H by lia.
    rewrite Z.pow_succ_r in H by lia. lia.
Qed.
Lemma dec_len k n : 0 <= n < 10 ^ Z.of_nat (S k) -> (length (dec_string n) <= S k)%nat.
Proof. intros H. unfold dec_string. pose proof (digits_small k (S (Z.to_nat (Z.log2 n))) n [] H). cbn [length] in H0. lia. Qed.
Lemma int_len n : seven n -> (length (to_string_int n) <= 7)%nat.
Proof.
  unfold seven, to_string_int. intros H. destruct (n <? 0) eqn:E.
  - cbn [length]. pose proof (dec_len 5 (- n)). change (10 ^ Z.of_nat 6) with 1000000 in H0. lia.
  - pose proof (dec_len 6 n). change (10 ^ Z.of_nat 7) with 10000000 in H0. lia.
Qed.
Lemma ntop4_len p q r t : is_byte p -> is_byte q -> is_byte r -> is_byte t ->
  (length (inet_ntop4 [p; q; r; t]) <= 15)%nat.
Proof.
  unfold is_byte. intros. unfold inet_ntop4, at_. cbn [nth]. rewrite !app_length. cbn [length].
  pose proof (dec_len 2 p). pose proof (dec_len 2 q). pose proof (dec_len 2 r). pose proof (dec_len 2 t).
  change (10 ^ Z.of_nat 3) with 1000 in *. lia.
Qed.
Lemma ntop6_len b : bytes16 b -> (length (inet_ntop6 b) <= 39)%nat.
Proof.
  intros W. pose proof (skip12_bytes _ W) as (p & q & r & t & E & Hp & Hq & Hr & Ht).
  pose proof (ntop4_len p q r t Hp Hq Hr Ht) as L. rewrite <- E in L.
  unfold inet_ntop6, words. cbn [map].
  generalize (Inet.word b 0) (Inet.word b 1) (Inet.word b 2) (Inet.word b 3) (Inet.word b 4) (Inet.word b 5)
    (Inet.word b 6) (Inet.word b 7). intros w0 w1 w2 w3 w4 w5 w6 w7.
  pose proof (hex_len w0). pose proof (hex_len w1). pose proof (hex_len w2). pose proof (hex_len w3).
  pose proof (hex_len w4). pose proof (hex_len w5). pose proof (hex_len w6). pose proof (hex_len w7).
  destruct (0 =? w0), (0 =? w1), (0 =? w2), (0 =? w3), (0 =? w4), (0 =? w5), (0 =? w6), (0 =? w7);
  cbv [best_run find_run better_run Nat.ltb Nat.leb];
  cbn [ntop6_loop Nat.eqb Nat.leb Nat.ltb Nat.add andb orb app length];
  try match goal with |- context [if ?c then _ else _] => destruct c end;
  repeat (progress (rewrite ?app_length; cbn [length])); lia.
Qed.

(* ---------- lines made of columns ---------- *)
Lemma spaces_blank n : Forall blank (repeat 32 n).
Proof. induction n; constructor; [now right|assumption]. Qed.
Lemma blanks_laid b rest ws : Forall blank b -> laid_out rest ws -> laid_out (b ++ rest) ws.
Proof.
  intros B L. inversion L as [b' B'|b' w c rest' ws' B' W C L']; subst.
  - apply laid_out_end. now apply Forall_app.
  - rewrite app_assoc. apply laid_out_word; auto. now apply Forall_app.
Qed.
Lemma setw_laid n w rest ws : word w -> (length w < n)%nat -> laid_out rest ws -> laid_out (setw n w ++ rest) (w :: ws).
Proof.
  intros W L H. unfold setw. destruct (n - length w)%nat as [|k] eqn:E; [lia|]. cbn [repeat]. rewrite <- app_assoc.
  cbn [app]. apply (laid_out_word [] w 32 (repeat 32 k ++ rest) ws); auto; [now right|].
  apply blanks_laid; auto using spaces_blank.
Qed.
Lemma setw_fields n w rest ws : fields rest ws -> fields (setw n w ++ rest) (w :: ws).
Proof. intros H. unfold setw. rewrite <- app_assoc. apply fields_next; auto using spaces_blank. Qed.

Definition cols (l : list (nat * str)) : str := concat (map (fun nw => setw (fst nw) (snd nw)) l).
Lemma cols_fields l : fields (cols l) (map snd l).
Proof. induction l as [|[n w] l IH]; [constructor|]. unfold cols in *. cbn [map concat fst snd]. now apply setw_fields. Qed.
Lemma cols_laid l : Forall (fun nw => word (snd nw) /\ (length (snd nw) < fst nw)%nat) l -> laid_out (cols l) (map snd l).
Proof.
  induction 1 as [|[n w] l [W L] F IH]; [apply laid_out_end; constructor|].
  unfold cols in *. cbn [map concat fst snd] in *. now apply setw_laid.
Qed.
Definition no_newline (s : str) : Prop := ~ In 10 s.
Lemma cols_no_newline l : Forall (fun nw => no_newline (snd nw)) l -> no_newline (cols l).
Proof.
  unfold no_newline. induction 1 as [|[n w] l W F IH]; [intros []|]. unfold cols in *. cbn [map concat fst snd] in *.
  unfold setw. rewrite !in_app_iff. intros [[H|H]|H]; auto. apply repeat_spec in H. discriminate.
Qed.
Lemma word_no_newline w : word w -> no_newline w.
Proof. intros [_ F] I. rewrite Forall_forall in F. destruct (F 10 I) as [_ X]. now apply X. Qed.
Lemma chars_word p s : s <> [] -> forallb p s = true -> p 9 = false -> p 32 = false -> p 10 = false -> word s.
Proof.
  intros N F P1 P2 P3. split; [exact N|]. rewrite forallb_forall in F. apply Forall_forall. intros c I. specialize (F c I).
  unfold blank. split; [intros [->| ->]|intros ->]; congruence.
Qed.

(* ---------- numbers and addresses ---------- *)
Lemma to_string_word n : word (to_string_int n).
Proof.
  unfold to_string_int.
  assert (G : forall m, 0 <= m -> word (dec_string m)).
  { intros m H. destruct (dec_string_spec m H) as (A & B & _). now apply (chars_word digit_char). }
  destruct (n <? 0) eqn:E; [|apply G; lia].
  destruct (G (- n)) as [A B]; [lia|]. split; [discriminate|]. constructor; [|exact B]. unfold blank. lia.
Qed.
Lemma to_string_integer n : integer (to_string_int n) n.
Proof.
  unfold integer, to_string_int. destruct (n <? 0) eqn:E.
  - right. split; [lia|]. eexists. split; [reflexivity|]. apply plain_dec_string. lia.
  - left. split; [lia|]. apply plain_dec_string. lia.
Qed.
Lemma ntop4_word p q r t : is_byte p -> is_byte q -> is_byte r -> is_byte t -> word (inet_ntop4 [p; q; r; t]).
Proof.
  intros. apply (chars_word dotted_char); try reflexivity; [|now apply ntop4_chars].
  unfold inet_ntop4. intros E. apply app_eq_nil in E as [E _].
  unfold is_byte in *. destruct (dec_string_spec p) as (A & _); [lia|]. now apply A.
Qed.
Lemma ntop4_dotted p q r t : is_byte p -> is_byte q -> is_byte r -> is_byte t ->
  dotted (inet_ntop4 [p; q; r; t]) (quad p q r t).
Proof.
  intros. exists p, q, r, t, (dec_string p), (dec_string q), (dec_string r), (dec_string t).
  unfold is_byte in *. repeat (split; [solve [auto | apply plain_dec_string; lia]|]). reflexivity.
Qed.
Lemma v4_text y a : addr_wf a -> is_v4_value (value a) ->
  exists s, to_ipv4or6_string y a STRING_IP_ADDRESS = Ok s /\ dotted s (value a - v4_base) /\ word s /\ (length s <= 15)%nat.
Proof.
  intros W V. pose proof (proj2 (is_ipv4_value a W) V) as I.
  destruct (skip12_value a W I) as (p & q & r & t & Hp & Hq & Hr & Ht & E & N).
  exists (inet_ntop4 [p; q; r; t]). unfold to_ipv4or6_string. rewrite I, text4_address_only, I, E, N.
  split; [reflexivity|]. split; [now apply ntop4_dotted|]. split; [now apply ntop4_word|now apply ntop4_len].
Qed.
Definition quad_ok (q : Z * Z * Z * Z) : Prop :=
  let '(a, b, c, d) := q in is_byte a /\ is_byte b /\ is_byte c /\ is_byte d.
Lemma is_quad_v4 a q : quad_ok q -> is_quad a q -> is_v4_value (value a).
Proof.
  destruct q as [[[x z] t] u]. unfold quad_ok, is_quad, is_v4_value, v4_base, quad, is_byte. intros B V.
  change (2 ^ 32) with 4294967296. generalize dependent (value a). intros v V. clear - B V. lia.
Qed.
Lemma quad_text_ok y a q : addr_wf a -> quad_ok q -> is_quad a q ->
  exists s, to_ipv4or6_string y a STRING_IP_ADDRESS = Ok s /\ quad_text s q /\ word s /\ (length s <= 15)%nat.
Proof.
  intros W B Q. destruct (v4_text y a W (is_quad_v4 a q B Q)) as (s & E & D & X).
  exists s. split; [exact E|]. split; [|exact X].
  destruct q as [[[x z] t] u]. unfold is_quad in Q. rewrite Q in D. unfold quad_text.
  replace (v4_base + quad x z t u - v4_base) with (quad x z t u) in D by lia. exact D.
Qed.
Lemma nth_skip (l : list Z) k : forall n, nth (n + k) l 0 = nth k (skipn n l) 0.
Proof.
  intros n. revert l. induction n as [|n IH]; intros l; [reflexivity|].
  destruct l; [cbn [skipn]; destruct k; reflexivity|]. cbn [Nat.add nth skipn]. apply IH.
Qed.
Lemma dotted_mask_ok a x z t u : addr_wf a -> quad_ok (x, z, t, u) ->
  mask_value a = 2 ^ 128 - 2 ^ 32 + quad x z t u ->
  quad_text (dotted_mask a) (x, z, t, u) /\ word (dotted_mask a) /\ (length (dotted_mask a) <= 15)%nat.
Proof.
  intros W (X & Z & T & U) M.
  destruct (skip12_bytes _ (wf_mask _ W)) as (p & q & r & s & E & Hp & Hq & Hr & Hs).
  pose proof (skip12_num _ (wf_mask _ W)) as N. fold (mask_value a) in N. rewrite M, E in N.
  cbn [num length] in N.
  change (256 ^ Z.of_nat 3) with 16777216 in N. change (256 ^ Z.of_nat 2) with 65536 in N.
  change (256 ^ Z.of_nat 1) with 256 in N. change (256 ^ Z.of_nat 0) with 1 in N.
  assert (EQ : p = x /\ q = z /\ r = t /\ s = u).
  { unfold quad, is_byte in *. change (2 ^ 128) with 340282366920938463463374607431768211456 in N.
    change (2 ^ 32) with 4294967296 in N. clear - N X Z T U Hp Hq Hr Hs.
    replace ((340282366920938463463374607431768211456 - 4294967296 + (((x * 256 + z) * 256 + t) * 256 + u)) mod 4294967296)
      with (((x * 256 + z) * 256 + t) * 256 + u) in N by lia. lia. }
  destruct EQ as (-> & -> & -> & ->).
  assert (D : dotted_mask a = inet_ntop4 [x; z; t; u]).
  { assert (K : forall k, nth (12 + k) (f_mask a) 0 = nth k [x; z; t; u] 0).
    { intros k. rewrite <- E. apply nth_skip. }
    unfold dotted_mask, get_mask, inet_ntop4, at_. cbv zeta.
    pose proof (K 0%nat) as K0. pose proof (K 1%nat) as K1. pose proof (K 2%nat) as K2. pose proof (K 3%nat) as K3.
    cbn [Nat.add] in K0, K1, K2, K3. rewrite K0, K1, K2, K3. cbn [nth].
    unfold to_string_int, is_byte in *. replace (x <? 0) with false by lia. replace (z <? 0) with false by lia.
    replace (t <? 0) with false by lia. replace (u <? 0) with false by lia. reflexivity. }
  rewrite D. split; [unfold quad_text; now apply ntop4_dotted|]. split; [now apply ntop4_word|now apply ntop4_len].
Qed.

(* ---------- ipv4-routes ---------- *)
Lemma laid_words l ws : laid_out l ws -> Forall word ws.
Proof. induction 1; constructor; auto. Qed.
Definition k_ok (k : kernel_route) : Prop :=
  word (k_iface k) /\ quad_ok (k_destination k) /\ quad_ok (k_gateway k) /\ quad_ok (k_mask k).
Lemma hex_quad_ok w q : quad_word w q -> quad_ok q.
Proof. destruct q as [[[a b] c] d]. intros Q. now destruct (hex_quad_addr w a b c d Q). Qed.
Lemma table_ok hs rows file : table hs rows file -> Forall k_ok rows.
Proof.
  intros (h & ls & _ & _ & H & _). induction H as [|l k ls ks (ws & L & R) H IH]; constructor; [|assumption].
  split; [|split; [|split]].
  - destruct (row_iface _ _ _ R) as (i & _ & E). apply nth_error_In in E.
    pose proof (laid_words _ _ L) as F. rewrite Forall_forall in F. now apply F.
  - destruct (row_destination _ _ _ R) as (w & _ & Q). eapply hex_quad_ok; eauto.
  - destruct (row_gateway _ _ _ R) as (w & _ & Q). eapply hex_quad_ok; eauto.
  - destruct (row_mask _ _ _ R) as (w & _ & Q). eapply hex_quad_ok; eauto.
Qed.
Lemma flags_chars r : Forall (fun c => 32 < c) (flags_to_string r).
Proof.
  unfold flags_to_string.
  assert (G : forall l acc, Forall (fun fn : Z * Z => 32 < snd fn) l -> Forall (fun c => 32 < c) acc ->
    Forall (fun c => 32 < c) (fold_left (fun result fn =>
      if negb (Z.land (u32 (Route.f_flags r)) (fst fn) =? 0) then result ++ [snd fn] else result) l acc)).
  { induction l as [|fn l IH]; intros acc F A; [exact A|]. inversion F; subst. cbn [fold_left]. apply IH; [assumption|].
    destruct (negb _); [|assumption]. apply Forall_app. split; [assumption|]. now repeat constructor. }
  apply G; [|constructor]. unfold rtf_flag_names. repeat constructor; cbn [snd]; lia.
Qed.

Definition route_cols (r : route) (d g : str) : list (nat * str) :=
  [(8%nat, get_interface_name r); (16%nat, d); (16%nat, g); (8%nat, flags_to_string r);
   (8%nat, to_string_int (get_reference_count r)); (8%nat, to_string_int (get_use r));
   (8%nat, to_string_int (get_metric r)); (16%nat, dotted_mask (get_destination_address r));
   (8%nat, to_string_int (get_mtu r)); (8%nat, to_string_int (get_window r)); (8%nat, to_string_int (get_irtt r))].
Lemma route_line_ok y k r : k_ok k -> describes k r ->
  exists l ws, route_line y r = Ok (l ++ [10]) /\ fields l ws /\ no_newline l
    /\ shows_route k (flags_to_string r) ws
    /\ ((length (k_iface k) <= 7)%nat -> flags_to_string r <> [] -> (length (flags_to_string r) <= 7)%nat ->
        seven (k_refcnt k) -> seven (k_use k) -> seven (k_metric k) -> seven (k_mtu k) -> seven (k_window k) ->
        seven (k_irtt k) -> laid_out l ws).
Proof.
  intros (WI & QD & QG & QM) D.
  destruct (quad_text_ok y _ _ (proj1 (d_wf _ _ D)) QD (d_destination _ _ D)) as (d & ED & TD & WD & LD).
  destruct (quad_text_ok y _ _ (proj2 (d_wf _ _ D)) QG (d_gateway _ _ D)) as (g & EG & TG & WG & LG).
  assert (M : quad_text (dotted_mask (get_destination_address r)) (k_mask k)
    /\ word (dotted_mask (get_destination_address r)) /\ (length (dotted_mask (get_destination_address r)) <= 15)%nat).
  { pose proof (proj2 (d_mask _ _ D)) as M. destruct (k_mask k) as [[[x z] t] u].
    apply dotted_mask_ok; auto. apply (d_wf _ _ D). }
  destruct M as (TM & WM & LM).
  exists (cols (route_cols r d g)), (map snd (route_cols r d g)).
  pose proof (flags_chars r) as FC. pose proof (d_iface _ _ D) as DI.
  split; [|split; [|split; [|split]]].
  - unfold route_line. rewrite ED. cbn [rbind]. rewrite EG. cbn [rbind]. f_equal. unfold cols, route_cols.
    cbn [map concat fst snd]. rewrite app_nil_r, !app_assoc. reflexivity.
  - apply cols_fields.
  - apply cols_no_newline. unfold route_cols.
    repeat (apply Forall_cons; [cbn [snd]; first [now apply word_no_newline; try apply to_string_word; try rewrite DI
      | intros I; rewrite Forall_forall in FC; specialize (FC 10 I); lia]|]). constructor.
  - unfold route_cols. cbn [map snd]. rewrite DI.
    rewrite (d_refcnt _ _ D), (d_use _ _ D), (d_metric _ _ D), (d_mtu _ _ D), (d_window _ _ D), (d_irtt _ _ D).
    do 9 eexists. split; [reflexivity|]. repeat (split; [solve [assumption | apply to_string_integer]|]).
    apply to_string_integer.
  - intros L1 L2 L3 S1 S2 S3 S4 S5 S6. apply cols_laid. unfold route_cols.
    rewrite DI, (d_refcnt _ _ D), (d_use _ _ D), (d_metric _ _ D), (d_mtu _ _ D), (d_window _ _ D), (d_irtt _ _ D).
    assert (WF : word (flags_to_string r)).
    { split; [exact L2|]. eapply Forall_impl; [|exact FC]. unfold blank. intros c H. cbn beta in H. lia. }
    repeat (apply Forall_cons; [cbn [fst snd]; split; [solve [assumption | apply to_string_word]|
      first [lia | match goal with |- (length (to_string_int ?x) < 8)%nat => pose proof (int_len x ltac:(assumption)); lia end]]|]).
    constructor.
Qed.

Lemma route_lines_ok y d : forall routes ls o,
  Forall2 (fun r l => route_line y r = Ok (l ++ [10]))
    (filter (fun r => negb d || is_default (get_destination_address r)) routes) ls ->
  route_lines y d routes o = mk_run (o ++ lines ls) [] (Ok 0).
Proof.
  induction routes as [|r routes IH]; intros ls o F; cbn [filter route_lines] in *.
  - inversion F; subst. unfold lines. cbn. now rewrite app_nil_r.
  - destruct (negb d || is_default (get_destination_address r)) eqn:E; [|now apply IH].
    inversion F as [|? l ? ls' E1 F']; subst. rewrite E1. rewrite (IH ls' _ F').
    unfold lines. cbn [map concat]. now rewrite <- !app_assoc.
Qed.
Lemma describes_default k r : quad_ok (k_destination k) -> describes k r ->
  is_default (get_destination_address r) = match k_destination k with (0, 0, 0, 0) => true | _ => false end.
Proof.
  intros B D. pose proof (d_destination _ _ D) as V. pose proof (proj1 (d_wf _ _ D)) as W.
  pose proof (is_default_value (get_destination_address r) W) as X.
  destruct (k_destination k) as [[[a b] c] d]. cbn [is_quad quad_ok] in *. rewrite V in X.
  unfold is_byte, quad, v4_base in *. change (2 ^ 32) with 4294967296 in X.
  assert (Y : is_default (get_destination_address r) = true <-> a = 0 /\ b = 0 /\ c = 0 /\ d = 0).
  { rewrite X. clear - B. lia. }
  destruct a; try (destruct (is_default _); [exfalso; lia|reflexivity]).
  destruct b; try (destruct (is_default _); [exfalso; lia|reflexivity]).
  destruct c; try (destruct (is_default _); [exfalso; lia|reflexivity]).
  destruct d; try (destruct (is_default _); [exfalso; lia|reflexivity]).
  now apply Y.
Qed.

(* The arguments. *)
Lemma existsb_in a l : existsb (str_eqb a) l = true <-> In a l.
Proof.
  rewrite existsb_exists. split.
  - intros (x & I & E). apply str_eqb_true in E. now subst.
  - intros I. exists a. split; [exact I|]. now apply str_eqb_true.
Qed.
Lemma str_eqb_refl a : str_eqb a a = true. Proof. now apply str_eqb_true. Qed.
Lemma str_eqb_neq a b : a <> b -> str_eqb a b = false.
Proof. intros H. destruct (str_eqb a b) eqn:E; [|reflexivity]. apply str_eqb_true in E. contradiction. Qed.
Lemma routes_arguments_ok argv0 : forall args rest o, only args route_settings ->
  routes_arguments argv0 (args ++ rest) o = routes_arguments argv0 rest
    (mk_routes_options (show_default o || given args opt_default) (ro_hide_headers o || given args opt_hide)).
Proof.
  induction args as [|a args IH]; intros rest o H; cbn [app].
  - unfold given. cbn. rewrite !orb_false_r. now destruct o.
  - assert (A : In a route_settings) by (apply H; now left).
    assert (H' : only args route_settings) by (intros x I; apply H; now right).
    unfold route_settings, opt_default, opt_hide in A. cbn [app] in A.
    destruct A as [<-|[<-|[<-|[]]]]; cbn [routes_arguments]; vm_compute (str_eqb _ _); cbn [orb];
      rewrite (IH rest _ H'); cbn [show_default ro_hide_headers];
      unfold given; cbn [existsb]; vm_compute (existsb _ opt_default); vm_compute (existsb _ opt_hide);
      rewrite ?orb_false_l, ?orb_true_l, ?orb_true_r, ?orb_false_r; try reflexivity.
Qed.
