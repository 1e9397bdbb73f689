(* Proofs about the text forms of IP addresses. *)
From Verif Require Import Base Addr Inet.
From Coq Require Import ZifyBool ZifyNat.
Local Open Scope Z_scope.
Ltac Zify.zify_post_hook ::= Z.div_mod_to_equations.

(* ---------- decimal numbers ---------- *)
Lemma digits_acc base f : forall n acc, digits base f n acc = digits base f n [] ++ acc.
Proof.
  induction f as [|f IH]; intros n acc; cbn [digits]; auto.
  cbv zeta. destruct (n / base =? 0); [reflexivity|].
  rewrite IH. rewrite (IH (n / base) [_]). now rewrite <- app_assoc.
Qed.

Lemma log2_div10 n : 0 <= n -> n / 10 <> 0 ->
  (S (Z.to_nat (Z.log2 (n / 10))) <= Z.to_nat (Z.log2 n))%nat.
Proof.
  intros H N.
  assert (Z.log2 (n / 10) < Z.log2 n).
  { apply (Z.lt_le_trans _ (Z.log2 (2 * (n / 10)))).
    - rewrite Z.log2_double by lia. lia.
    - apply Z.log2_le_mono. lia. }
  pose proof (Z.log2_nonneg (n / 10)). lia.
Qed.

Definition digit_char (c : Z) : bool := (48 <=? c) && (c <=? 57).
Definition dvalue (s : str) (v : Z) : Z := fold_left (fun v c => v * 10 + (c - 48)) s v.

Lemma dvalue_app s t v : dvalue (s ++ t) v = dvalue t (dvalue s v).
Proof. apply fold_left_app. Qed.

Lemma digits10_spec f : forall n, 0 <= n -> (Z.to_nat (Z.log2 n) < f)%nat ->
  digits 10 f n [] <> [] /\ forallb digit_char (digits 10 f n []) = true
  /\ dvalue (digits 10 f n []) 0 = n
  /\ (n <> 0 -> hd 0 (digits 10 f n []) <> 48)
  /\ (length (digits 10 f n []) <= f)%nat.
Proof.
  induction f as [|f IH]; intros n H F; [lia|].
  cbn [digits]. cbv zeta.
  assert (D : (n mod 10 <? 10) = true) by lia. rewrite D.
  assert (K : digit_char (48 + n mod 10) = true) by (unfold digit_char; lia).
  destruct (n / 10 =? 0) eqn:E.
  - repeat split.
    + discriminate.
    + cbn [forallb]. now rewrite K.
    + unfold dvalue. cbn [fold_left]. lia.
    + cbn [hd]. lia.
    + cbn [length]. lia.
  - destruct (IH (n / 10)) as (A & B & C & G & L).
    + lia.
    + pose proof (log2_div10 n H). lia.
    + rewrite digits_acc. repeat split.
      * destruct (digits 10 f (n / 10) []); [congruence|discriminate].
      * rewrite forallb_app, B. cbn [forallb]. now rewrite K.
      * rewrite dvalue_app, C. unfold dvalue. cbn [fold_left]. lia.
      * destruct (digits 10 f (n / 10) []); [congruence|]. intros _. cbn in *. apply G. lia.
      * rewrite app_length. cbn. lia.
Qed.

Lemma dec_string_spec n : 0 <= n ->
  dec_string n <> [] /\ forallb digit_char (dec_string n) = true
  /\ dvalue (dec_string n) 0 = n /\ (n <> 0 -> hd 0 (dec_string n) <> 48).
Proof.
  intros H. unfold dec_string.
  destruct (digits10_spec (S (Z.to_nat (Z.log2 n))) n H) as (A & B & C & D & _); [lia|]. auto.
Qed.

Lemma dec_string_0 : dec_string 0 = [48]. Proof. reflexivity. Qed.

Lemma dec_byte b : 0 <= b < 256 ->
  dec_string b =
    if b <? 10 then [48 + b]
    else if b <? 100 then [48 + b / 10; 48 + b mod 10]
    else [48 + b / 100; 48 + b / 10 mod 10; 48 + b mod 10].
Proof.
  intros H. unfold dec_string.
  assert (L : exists k, S (Z.to_nat (Z.log2 b)) = S k /\ (b >= 10 -> (k >= 3)%nat)
     /\ (b >= 100 -> (k >= 6)%nat)).
  { exists (Z.to_nat (Z.log2 b)). split; auto. split; intros G.
    - assert (Z.log2 8 <= Z.log2 b) by (apply Z.log2_le_mono; lia). cbn in H0. lia.
    - assert (Z.log2 64 <= Z.log2 b) by (apply Z.log2_le_mono; lia). cbn in H0. lia. }
  destruct L as (k & -> & L1 & L2).
  cbn [digits]. cbv zeta.
  replace (b mod 10 <? 10) with true by lia.
  destruct (b <? 10) eqn:E1.
  - replace (b / 10 =? 0) with true by lia. f_equal. lia.
  - replace (b / 10 =? 0) with false by lia.
    destruct k as [|k]; [lia|]. cbn [digits]. cbv zeta.
    replace (b / 10 mod 10 <? 10) with true by lia.
    destruct (b <? 100) eqn:E2.
    + replace (b / 10 / 10 =? 0) with true by lia. f_equal. lia.
    + replace (b / 10 / 10 =? 0) with false by lia.
      destruct k as [|k]; [lia|]. cbn [digits]. cbv zeta.
      replace (b / 10 / 10 mod 10 <? 10) with true by lia.
      replace (b / 10 / 10 / 10 =? 0) with true by lia. f_equal. lia.
Qed.

(* ---------- IPv4 ---------- *)
Lemma pton4_octet b rest out k : 0 <= b < 256 -> 0 <= k < 4 ->
  pton4_loop (dec_string b ++ rest) out 0 k false
  = pton4_loop rest out b (k + 1) true.
Proof.
  intros H K. rewrite dec_byte by auto.
  destruct (b <? 10) eqn:E1; [|destruct (b <? 100) eqn:E2]; cbn [app pton4_loop];
    repeat match goal with
    | |- context [(48 <=? ?x) && (?x <=? 57)] =>
        replace ((48 <=? x) && (x <=? 57)) with true by lia
    end; cbv zeta; cbn [andb];
    repeat match goal with
    | |- context [255 <? ?x] => replace (255 <? x) with false by lia
    | |- context [4 <? ?x] => replace (4 <? x) with false by lia
    | |- context [?x =? 0] => replace (x =? 0) with false by lia
    end; f_equal; lia.
Qed.

Lemma pton4_dot rest out b k : 1 <= k < 4 ->
  pton4_loop (46 :: rest) out b k true = pton4_loop rest (out ++ [b]) 0 k false.
Proof. intros K. cbn [pton4_loop]. cbn. replace (k =? 4) with false by lia. reflexivity. Qed.

Lemma ntop4_pton4 b0 b1 b2 b3 :
  is_byte b0 -> is_byte b1 -> is_byte b2 -> is_byte b3 ->
  inet_pton4 (inet_ntop4 [b0; b1; b2; b3]) = Some [b0; b1; b2; b3].
Proof.
  unfold is_byte. intros. unfold inet_pton4, inet_ntop4, at_. cbn [nth].
  rewrite pton4_octet by lia. cbn [app]. rewrite pton4_dot by lia.
  rewrite pton4_octet by lia. rewrite pton4_dot by lia.
  rewrite pton4_octet by lia. rewrite pton4_dot by lia.
  rewrite <- (app_nil_r (dec_string b3)).
  rewrite pton4_octet by lia. reflexivity.
Qed.

(* the characters of a dotted address *)
Definition dotted_char (c : Z) : bool := ((48 <=? c) && (c <=? 57)) || (c =? 46).

Lemma dec_chars b : 0 <= b -> forallb dotted_char (dec_string b) = true.
Proof.
  intros H. destruct (dec_string_spec b H) as (_ & F & _).
  apply forallb_forall. intros x I. rewrite forallb_forall in F. specialize (F x I).
  unfold dotted_char, digit_char in *. lia.
Qed.

Lemma ntop4_chars b0 b1 b2 b3 :
  is_byte b0 -> is_byte b1 -> is_byte b2 -> is_byte b3 ->
  forallb dotted_char (inet_ntop4 [b0; b1; b2; b3]) = true.
Proof.
  unfold is_byte. intros. unfold inet_ntop4, at_. cbn [nth].
  rewrite !forallb_app, !dec_chars by lia. reflexivity.
Qed.

(* ---------- hexadecimal words ---------- *)
Definition hexchar (d : Z) : Z := if d <? 10 then 48 + d else 87 + d.

Lemma hex_digit_char d : 0 <= d < 16 -> hex_digit (hexchar d) = Some d.
Proof.
  intros H. unfold hexchar, hex_digit. destruct (d <? 10) eqn:E.
  - replace ((48 <=? 48 + d) && (48 + d <=? 57)) with true by lia. f_equal. lia.
  - replace ((48 <=? 87 + d) && (87 + d <=? 57)) with false by lia.
    replace ((97 <=? 87 + d) && (87 + d <=? 102)) with true by lia. f_equal. lia.
Qed.

Lemma hex_word w : 0 <= w < 65536 ->
  hex_string w =
    if w <? 16 then [hexchar w]
    else if w <? 256 then [hexchar (w / 16); hexchar (w mod 16)]
    else if w <? 4096 then [hexchar (w / 256); hexchar (w / 16 mod 16); hexchar (w mod 16)]
    else [hexchar (w / 4096); hexchar (w / 256 mod 16); hexchar (w / 16 mod 16); hexchar (w mod 16)].
Proof.
  intros H. unfold hex_string. cbn [digits]. cbv zeta. fold (hexchar (w mod 16)).
  destruct (w <? 16) eqn:E1.
  - replace (w / 16 =? 0) with true by lia. replace (w mod 16) with w by lia. reflexivity.
  - replace (w / 16 =? 0) with false by lia.
    fold (hexchar (w / 16 mod 16)). replace (w / 16 / 16) with (w / 256) by lia.
    destruct (w <? 256) eqn:E2.
    + replace (w / 256 =? 0) with true by lia.
      replace (w / 16 mod 16) with (w / 16) by lia. reflexivity.
    + replace (w / 256 =? 0) with false by lia.
      fold (hexchar (w / 256 mod 16)). replace (w / 256 / 16) with (w / 4096) by lia.
      destruct (w <? 4096) eqn:E3.
      * replace (w / 4096 =? 0) with true by lia.
        replace (w / 256 mod 16) with (w / 256) by lia. reflexivity.
      * replace (w / 4096 =? 0) with false by lia.
        fold (hexchar (w / 4096 mod 16)).
        replace (w / 4096 / 16 =? 0) with true by lia.
        replace (w / 4096 mod 16) with (w / 4096) by lia. reflexivity.
Qed.

(* Reading one word. *)
Lemma pton6_word w rest cur tp cp : 0 <= w < 65536 ->
  exists n, (1 <= n <= 4)%nat /\
  pton6_loop (hex_string w ++ rest) cur tp cp 0 0 = pton6_loop rest cur tp cp n w.
Proof.
  intros H. rewrite hex_word by auto.
  destruct (w <? 16) eqn:E1; [exists 1%nat|destruct (w <? 256) eqn:E2;
    [exists 2%nat|destruct (w <? 4096) eqn:E3; [exists 3%nat|exists 4%nat]]];
    (split; [lia|]); cbn [app pton6_loop];
    rewrite !hex_digit_char by lia; cbn [Nat.eqb]; cbv zeta;
    repeat match goal with
    | |- context [0xFFFF <? ?x] => replace (0xFFFF <? x) with false by lia
    end; f_equal; lia.
Qed.

Definition word_bytes (w : Z) : list Z := [w / 256 mod 256; w mod 256].

Lemma pton6_group w rest c cur tp cp : 0 <= w < 65536 -> (length tp <= 14)%nat ->
  pton6_loop (hex_string w ++ 58 :: c :: rest) cur tp cp 0 0
  = pton6_loop (c :: rest) (c :: rest) (tp ++ word_bytes w) cp 0 0.
Proof.
  intros H L. destruct (pton6_word w (58 :: c :: rest) cur tp cp H) as (n & N & ->).
  cbn [pton6_loop]. change (hex_digit 58) with (@None Z). change (58 =? 58) with true.
  cbv iota. replace (n =? 0)%nat with false by lia.
  replace (16 <? length tp + 2)%nat with false by lia. reflexivity.
Qed.

Lemma pton6_last w cur tp cp : 0 <= w < 65536 -> (length tp <= 14)%nat ->
  pton6_loop (hex_string w) cur tp cp 0 0 = pton6_finish (tp ++ word_bytes w) cp 0 0.
Proof.
  intros H L. rewrite <- (app_nil_r (hex_string w)).
  destruct (pton6_word w [] cur tp cp H) as (n & N & ->).
  cbn [pton6_loop]. unfold pton6_finish.
  replace (0 <? n)%nat with true by lia. replace (16 <? length tp + 2)%nat with false by lia.
  reflexivity.
Qed.

Lemma pton6_double s cur tp :
  pton6_loop (58 :: s) cur tp None 0 0 = pton6_loop s s tp (Some (length tp)) 0 0.
Proof. reflexivity. Qed.

Lemma pton6_nil cur tp cp : pton6_loop [] cur tp cp 0 0 = pton6_finish tp cp 0 0.
Proof. reflexivity. Qed.

Lemma dec_hex b : 0 <= b < 256 -> forall rest cur tp cp,
  exists n v, pton6_loop (dec_string b ++ rest) cur tp cp 0 0 = pton6_loop rest cur tp cp n v.
Proof.
  intros H rest cur tp cp. rewrite dec_byte by auto.
  assert (D : forall d, 0 <= d < 10 -> hex_digit (48 + d) = Some d).
  { intros d I. pose proof (hex_digit_char d) as X. unfold hexchar in X.
    replace (d <? 10) with true in X by lia. apply X. lia. }
  destruct (b <? 10) eqn:E1; [|destruct (b <? 100) eqn:E2];
    cbn [app pton6_loop]; rewrite !D by lia; cbn [Nat.eqb]; cbv zeta;
    repeat match goal with
    | |- context [0xFFFF <? ?x] => replace (0xFFFF <? x) with false by lia
    end; eexists _, _; reflexivity.
Qed.

Lemma pton6_finish_val tp cp v : pton6_finish tp cp 0 v = pton6_finish tp cp 0 0.
Proof. reflexivity. Qed.

Lemma pton6_v4 b0 b1 b2 b3 tp cp :
  is_byte b0 -> is_byte b1 -> is_byte b2 -> is_byte b3 -> (length tp <= 12)%nat ->
  pton6_loop (inet_ntop4 [b0;b1;b2;b3]) (inet_ntop4 [b0;b1;b2;b3]) tp cp 0 0
  = pton6_finish (tp ++ [b0;b1;b2;b3]) cp 0 0.
Proof.
  intros H0 H1 H2 H3 L. pose proof (ntop4_pton4 b0 b1 b2 b3 H0 H1 H2 H3) as P.
  remember (inet_ntop4 [b0;b1;b2;b3]) as t eqn:T.
  rewrite T at 1. unfold inet_ntop4, at_. cbn [nth].
  destruct (dec_hex b0 H0 ([46] ++ dec_string b1 ++ [46] ++ dec_string b2 ++ [46] ++ dec_string b3)
    t tp cp) as (n & v & ->).
  cbn [app pton6_loop]. change (hex_digit 46) with (@None Z). cbn [Z.eqb andb Pos.eqb].
  replace (length tp + 4 <=? 16)%nat with true by lia. now rewrite P.
Qed.

(* ---------- IPv6 ---------- *)
Lemma hex_head w : 0 <= w < 65536 -> exists c r, hex_string w = c :: r /\ (c =? 58) = false.
Proof.
  intros H. rewrite hex_word by auto. unfold hexchar.
  destruct (w <? 16) eqn:E1; [|destruct (w <? 256) eqn:E2; [|destruct (w <? 4096) eqn:E3]];
    eexists _, _; (split; [reflexivity|]);
    match goal with |- context [if ?x then _ else _] => destruct x eqn:? end; lia.
Qed.

Lemma pton6_start_word w rest : 0 <= w < 65536 ->
  inet_pton6 (hex_string w ++ rest)
  = pton6_loop (hex_string w ++ rest) (hex_string w ++ rest) [] None 0 0.
Proof.
  intros H. unfold inet_pton6. destruct (hex_head w H) as (c & r & E & N).
  destruct (hex_string w ++ rest) eqn:D; [rewrite E in D; discriminate|].
  rewrite E in D. cbn in D. injection D as <- _. rewrite N. reflexivity.
Qed.

Lemma pton6_group_word w w' rest cur tp cp : 0 <= w < 65536 -> 0 <= w' < 65536 ->
  (length tp <= 14)%nat ->
  pton6_loop (hex_string w ++ 58 :: hex_string w' ++ rest) cur tp cp 0 0
  = pton6_loop (hex_string w' ++ rest) (hex_string w' ++ rest) (tp ++ word_bytes w) cp 0 0.
Proof.
  intros H H' L. destruct (hex_head w' H') as (c & r & E & _).
  destruct (hex_string w' ++ rest) eqn:D; [rewrite E in D; discriminate|].
  now apply pton6_group.
Qed.

Lemma pton6_group_v4 w b0 b1 b2 b3 cur tp cp : 0 <= w < 65536 -> is_byte b0 ->
  (length tp <= 14)%nat ->
  pton6_loop (hex_string w ++ 58 :: inet_ntop4 [b0;b1;b2;b3]) cur tp cp 0 0
  = pton6_loop (inet_ntop4 [b0;b1;b2;b3]) (inet_ntop4 [b0;b1;b2;b3])
      (tp ++ word_bytes w) cp 0 0.
Proof.
  intros H B L.
  destruct (inet_ntop4 [b0;b1;b2;b3]) eqn:D.
  - exfalso. unfold inet_ntop4, at_ in D. cbn [nth] in D.
    unfold is_byte in B. destruct (dec_string_spec b0) as (N & _); [lia|].
    destruct (dec_string b0); [congruence|discriminate].
  - now apply pton6_group.
Qed.

Lemma word_bytes_at x y : is_byte x -> is_byte y -> word_bytes (x * 256 + y) = [x; y].
Proof. unfold is_byte, word_bytes. intros. repeat f_equal; lia. Qed.

Lemma word_zero x y : is_byte x -> is_byte y -> (0 =? x * 256 + y) = true -> x = 0 /\ y = 0.
Proof. unfold is_byte. lia. Qed.

Lemma pton6_last' w cur tp cp : 0 <= w < 65536 -> (length tp <= 14)%nat ->
  pton6_loop (hex_string w ++ []) cur tp cp 0 0 = pton6_finish (tp ++ word_bytes w) cp 0 0.
Proof. rewrite app_nil_r. apply pton6_last. Qed.

Lemma pton6_start_double s :
  inet_pton6 (58 :: 58 :: s) = pton6_loop s s [] (Some 0%nat) 0 0.
Proof. reflexivity. Qed.

Lemma word_bytes_zero w : (0 =? w) = true -> word_bytes w = [0; 0].
Proof. intros H. now replace w with 0 by lia. Qed.

Ltac len := cbn [length app word_bytes]; lia.
Ltac pton6_run :=
  repeat first
    [ rewrite pton6_start_double
    | rewrite pton6_start_word by assumption
    | rewrite pton6_group_word by (assumption || len)
    | rewrite pton6_group_v4 by (assumption || len)
    | rewrite pton6_v4 by (assumption || len)
    | rewrite pton6_group by (assumption || len)
    | rewrite pton6_double
    | rewrite pton6_nil
    | rewrite pton6_last' by (assumption || len) ].

Lemma ntop6_words w0 w1 w2 w3 w4 w5 w6 w7 b0 b1 b2 b3 r :
  0 <= w0 < 65536 -> 0 <= w1 < 65536 -> 0 <= w2 < 65536 -> 0 <= w3 < 65536 ->
  0 <= w4 < 65536 -> 0 <= w5 < 65536 -> 0 <= w6 < 65536 -> 0 <= w7 < 65536 ->
  is_byte b0 -> is_byte b1 -> is_byte b2 -> is_byte b3 ->
  word_bytes w6 = [b0; b1] -> word_bytes w7 = [b2; b3] ->
  skipn 12 r = [b0; b1; b2; b3] -> word r 5 = w5 ->
  inet_pton6 (ntop6_loop r (best_run (map (Z.eqb 0) [w0;w1;w2;w3;w4;w5;w6;w7]))
                [w0;w1;w2;w3;w4;w5;w6;w7] 0)
  = Some (word_bytes w0 ++ word_bytes w1 ++ word_bytes w2 ++ word_bytes w3
          ++ word_bytes w4 ++ word_bytes w5 ++ word_bytes w6 ++ word_bytes w7).
Proof.
  intros H0 H1 H2 H3 H4 H5 H6 H7 B0 B1 B2 B3 W6 W7 SK W5.
  cbn [map].
  destruct (0 =? w0) eqn:E0; destruct (0 =? w1) eqn:E1; destruct (0 =? w2) eqn:E2;
  destruct (0 =? w3) eqn:E3; destruct (0 =? w4) eqn:E4; destruct (0 =? w5) eqn:E5;
  destruct (0 =? w6) eqn:E6; destruct (0 =? w7) eqn:E7;
  cbv [best_run find_run better_run Nat.ltb Nat.leb];
  cbn [ntop6_loop Nat.eqb Nat.leb Nat.ltb Nat.add andb orb app]; try rewrite W5; clear W5; try rewrite SK;
  try (destruct (w5 =? 65535) eqn:F5);
  cbn [andb orb]; try (apply Z.eqb_eq in F5; exfalso; lia);
  pton6_run;
  repeat match goal with
         | E : (0 =? ?w) = true |- _ => apply Z.eqb_eq in E; subst w
         end;
  injection W6 as <- <-; injection W7 as <- <-; reflexivity.
Qed.

Lemma list16 (l : list Z) : length l = 16%nat ->
  exists b0 b1 b2 b3 b4 b5 b6 b7 b8 b9 b10 b11 b12 b13 b14 b15,
    l = [b0;b1;b2;b3;b4;b5;b6;b7;b8;b9;b10;b11;b12;b13;b14;b15].
Proof.
  intros H. do 16 (destruct l as [|? l]; [discriminate|]).
  destruct l; [|discriminate]. repeat eexists.
Qed.

Ltac forall_inv :=
  repeat match goal with
         | H : Forall _ (_ :: _) |- _ => inversion H; clear H; subst
         | H : Forall _ [] |- _ => clear H
         end.

Lemma word_range x y : is_byte x -> is_byte y -> 0 <= x * 256 + y < 65536.
Proof. unfold is_byte. lia. Qed.

Lemma ntop6_pton6 b : bytes16 b -> inet_pton6 (inet_ntop6 b) = Some b.
Proof.
  intros [L F]. destruct (list16 b L) as
    (b0&b1&b2&b3&b4&b5&b6&b7&b8&b9&b10&b11&b12&b13&b14&b15&->).
  forall_inv. unfold inet_ntop6, words. cbn [map]. unfold word. cbn [Nat.mul Nat.add at_ nth].
  pose proof (ntop6_words (b0*256+b1) (b2*256+b3) (b4*256+b5) (b6*256+b7) (b8*256+b9)
    (b10*256+b11) (b12*256+b13) (b14*256+b15) b12 b13 b14 b15
    [b0;b1;b2;b3;b4;b5;b6;b7;b8;b9;b10;b11;b12;b13;b14;b15]) as P.
  cbn [map] in P. unfold at_. cbn [nth].
  rewrite P; auto using word_range, word_bytes_at.
  now rewrite !word_bytes_at by auto.
Qed.
