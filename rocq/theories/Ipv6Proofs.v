(* Proofs about the texts of IPv6 addresses. *)
From Coq Require Import ZifyBool ZifyNat.
From Verif Require Import Base Addr Spec SpecText Inet SpecIpv6.
From Verif Require Import InetProofs TextProofs.
From Verif Require Import DottedProofs.
From Verif Require ParserProofs2.
Local Open Scope Z_scope.
Ltac Zify.zify_post_hook ::= Z.div_mod_to_equations.

Definition word_list_bytes (ws : list Z) : list Z := concat (map word_bytes ws).
Lemma wlb_length ws : length (word_list_bytes ws) = (2 * length ws)%nat.
Proof. unfold word_list_bytes. induction ws as [|w ws IH]; [reflexivity|]. cbn [map concat app length word_bytes]. rewrite IH. lia. Qed.
Lemma wlb_app a b : word_list_bytes (a ++ b) = word_list_bytes a ++ word_list_bytes b.
Proof. unfold word_list_bytes. now rewrite map_app, concat_app. Qed.

(* ---------- digits ---------- *)
Lemma hex_char_iff c d : hex_char c d <-> hex_digit c = Some d.
Proof.
  unfold hex_char, hex_digit. split.
  - intros [[H ->]|[[H ->]|[H ->]]].
    + now replace ((48 <=? c) && (c <=? 57)) with true by lia.
    + replace ((48 <=? c) && (c <=? 57)) with false by lia. replace ((97 <=? c) && (c <=? 102)) with false by lia.
      replace ((65 <=? c) && (c <=? 70)) with true by lia. f_equal. lia.
    + replace ((48 <=? c) && (c <=? 57)) with false by lia. replace ((97 <=? c) && (c <=? 102)) with true by lia. f_equal. lia.
  - destruct ((48 <=? c) && (c <=? 57)) eqn:A; [intros [= <-]; lia|].
    destruct ((97 <=? c) && (c <=? 102)) eqn:B; [intros [= <-]; lia|].
    destruct ((65 <=? c) && (c <=? 70)) eqn:C; [intros [= <-]; lia|discriminate].
Qed.
Lemma hex_digit_range c d : hex_digit c = Some d -> 0 <= d < 16.
Proof. intros H. apply hex_char_iff in H. unfold hex_char in H. lia. Qed.
Lemma hexadecimal_range s v : hexadecimal s v -> 0 <= v < 16 ^ Z.of_nat (length s).
Proof.
  induction 1 as [|s v c d H IH D]; [cbn; lia|]. apply hex_char_iff, hex_digit_range in D.
  rewrite app_length. cbn [length]. rewrite Nat.add_1_r, Nat2Z.inj_succ, Z.pow_succ_r by lia. lia.
Qed.
Lemma group_range s w : group s w -> 0 <= w < 65536.
Proof.
  intros [H L]. apply hexadecimal_range in H.
  assert (16 ^ Z.of_nat (length s) <= 16 ^ 4) by (apply Z.pow_le_mono_r; lia). change (16 ^ 4) with 65536 in *. lia.
Qed.

(* reading the digits of a group *)
Lemma loop_hex s w : hexadecimal s w -> (length s <= 4)%nat -> forall rest cur tp cp,
  pton6_loop (s ++ rest) cur tp cp 0 0 = pton6_loop rest cur tp cp (length s) w.
Proof.
  induction 1 as [|s v c d H IH D]; intros L rest cur tp cp; [reflexivity|].
  rewrite app_length in *. cbn [length] in *. rewrite <- app_assoc. cbn [app]. rewrite IH by lia. cbn [pton6_loop].
  pose proof (hexadecimal_range _ _ H) as R. apply hex_char_iff in D. rewrite D. pose proof (hex_digit_range _ _ D) as RD.
  replace (length s =? 4)%nat with false by lia. cbv zeta.
  assert (16 ^ Z.of_nat (length s) <= 16 ^ 3) by (apply Z.pow_le_mono_r; lia). change (16 ^ 3) with 4096 in *.
  replace (0xFFFF <? v * 16 + d) with false by lia. now rewrite Nat.add_1_r.
Qed.
Lemma group_nonempty s w : group s w -> s <> [].
Proof. intros [_ L] ->. cbn in L. lia. Qed.
Lemma end_nonempty s ws : end_groups s ws -> s <> [] /\ ws <> [].
Proof.
  destruct 1 as [s w G|s v D|s w t ws G E].
  - split; [now apply group_nonempty in G|discriminate].
  - split; [|discriminate]. destruct D as (a & b & c & d & sa & sb & sc & sd & _ & _ & _ & _ & _ & _ & _ & _ & _ & ->). intros X.
    apply app_eq_nil in X. destruct X as [_ X]. discriminate.
  - split; [|discriminate]. intros X. apply app_eq_nil in X. destruct X as [_ X]. discriminate.
Qed.

Lemma loop_colon t cur tp cp n w : t <> [] -> (1 <= n)%nat -> (length tp <= 14)%nat ->
  pton6_loop (58 :: t) cur tp cp n w = pton6_loop t t (tp ++ word_bytes w) cp 0 0.
Proof.
  intros T N L. cbn [pton6_loop]. change (hex_digit 58) with (@None Z). change (58 =? 58) with true. cbv iota.
  replace (n =? 0)%nat with false by lia. destruct t as [|c t]; [congruence|].
  now replace (16 <? length tp + 2)%nat with false by lia.
Qed.

Lemma dotted_bytes s v : dotted s v -> exists a b c d, is_byte a /\ is_byte b /\ is_byte c /\ is_byte d /\
  v = quad a b c d /\ s = inet_ntop4 [a; b; c; d].
Proof.
  intros D. destruct (dotted_pton s v D) as (q & P & N & L & F).
  apply pton4_iff in P. destruct P as (_ & _ & P). destruct q as [|a [|b [|c [|d [|]]]]]; try discriminate.
  inversion F as [|? ? A F1]; inversion F1 as [|? ? B F2]; inversion F2 as [|? ? C F3]; inversion F3 as [|? ? E _]; subst.
  exists a, b, c, d. repeat (split; [assumption|]). split; [|reflexivity].
  unfold quad. cbn [num length]. change (256 ^ Z.of_nat 3) with 16777216. change (256 ^ Z.of_nat 2) with 65536.
  change (256 ^ Z.of_nat 1) with 256. change (256 ^ Z.of_nat 0) with 1. lia.
Qed.
Lemma quad_words a b c d : is_byte a -> is_byte b -> is_byte c -> is_byte d ->
  word_list_bytes [quad a b c d / 2 ^ 16; quad a b c d mod 2 ^ 16] = [a; b; c; d].
Proof.
  unfold is_byte, quad. intros. change (2 ^ 16) with 65536. cbn [word_list_bytes map concat word_bytes app]. repeat f_equal; lia.
Qed.

(* ---------- texts of the grammar are read ---------- *)
Lemma finish_flush tp cp n w : (1 <= n)%nat -> (length tp <= 14)%nat ->
  pton6_finish tp cp n w = pton6_finish (tp ++ word_bytes w) cp 0 0.
Proof.
  intros N L. unfold pton6_finish. replace (0 <? n)%nat with true by lia. now replace (16 <? length tp + 2)%nat with false by lia.
Qed.
Lemma end_read s ws : end_groups s ws -> forall tp cp, (length tp + 2 * length ws <= 16)%nat ->
  pton6_loop s s tp cp 0 0 = pton6_finish (tp ++ word_list_bytes ws) cp 0 0.
Proof.
  induction 1 as [s w G|s v D|s w t ws G E IH]; intros tp cp L; cbn [length] in L.
  - destruct G as [H LN]. rewrite <- (app_nil_r s) at 1. rewrite (loop_hex s w H) by lia. cbn [pton6_loop].
    rewrite finish_flush by lia. unfold word_list_bytes. cbn [map concat]. now rewrite app_nil_r.
  - destruct (dotted_bytes s v D) as (a & b & c & d & A & B & C & E & -> & ->). rewrite quad_words by assumption.
    apply pton6_v4; auto. lia.
  - pose proof G as [H LN]. rewrite (loop_hex s w H) by lia. change (lit ":" ++ t) with (58 :: t).
    rewrite loop_colon by (try lia; apply (end_nonempty t ws E)). rewrite IH.
    + f_equal. unfold word_list_bytes. cbn [map concat]. now rewrite <- app_assoc.
    + rewrite app_length. cbn [word_bytes length]. lia.
Qed.
Lemma groups_read s ws : groups s ws -> forall r cur tp, (length tp + 2 * length ws <= 16)%nat ->
  pton6_loop (s ++ 58 :: 58 :: r) cur tp None 0 0
  = pton6_loop r r (tp ++ word_list_bytes ws) (Some (length (tp ++ word_list_bytes ws))) 0 0.
Proof.
  induction 1 as [s w G|s w t ws G E IH]; intros r cur tp L; cbn [length] in L.
  - destruct G as [H LN]. rewrite (loop_hex s w H) by lia. rewrite loop_colon by (try discriminate; lia).
    rewrite pton6_double. unfold word_list_bytes. cbn [map concat]. now rewrite app_nil_r.
  - pose proof G as [H LN]. rewrite <- app_assoc. rewrite (loop_hex s w H) by lia. change (lit ":") with [58]. cbn [app].
    rewrite loop_colon; try lia; [|intros X; apply app_eq_nil in X; destruct X; discriminate]. rewrite IH.
    + unfold word_list_bytes. cbn [map concat]. now rewrite <- !app_assoc.
    + rewrite app_length. cbn [word_bytes length]. lia.
Qed.

Lemma group_head s w : group s w -> exists c r, s = c :: r /\ c <> 58.
Proof.
  intros [H L]. destruct s as [|c r]; [cbn in L; lia|]. exists c, r. split; [reflexivity|].
  assert (A : forall s v, hexadecimal s v -> forall c, In c s -> c <> 58).
  { induction 1 as [|s0 v c0 d H0 IH D]; intros x I; [destruct I|]. apply in_app_or in I. destruct I as [I|[<-|[]]]; [now apply IH|].
    unfold hex_char in D. lia. }
  apply (A _ _ H). now left.
Qed.
Lemma dotted_head s v : dotted s v -> exists c r, s = c :: r /\ c <> 58.
Proof.
  intros (a & b & c & d & sa & sb & sc & sd & _ & _ & _ & _ & _ & [(NE & DG & _) _] & _ & _ & _ & ->).
  destruct sa as [|x sa]; [congruence|]. exists x. eexists. split; [reflexivity|].
  cbn [forallb] in DG. unfold is_digit in DG. lia.
Qed.
Lemma end_head s ws : end_groups s ws -> exists c r, s = c :: r /\ c <> 58.
Proof.
  destruct 1 as [s w G|s v D|s w t ws G E]; [now apply group_head in G|now apply dotted_head in D|].
  apply group_head in G. destruct G as (c & r & -> & N). now exists c, (r ++ lit ":" ++ t).
Qed.
Lemma groups_head s ws : groups s ws -> exists c r, s = c :: r /\ c <> 58.
Proof.
  destruct 1 as [s w G|s w t ws G E]; [now apply group_head in G|].
  apply group_head in G. destruct G as (c & r & -> & N). now exists c, (r ++ lit ":" ++ t).
Qed.

Lemma pton6_start s : (exists c r, s = c :: r /\ c <> 58) -> inet_pton6 s = pton6_loop s s [] None 0 0.
Proof. intros (c & r & -> & N). unfold inet_pton6. now replace (c =? 58) with false by lia. Qed.

Lemma zeros_bytes n : word_list_bytes (repeat 0 n) = repeat 0 (2 * n).
Proof. induction n as [|n IH]; [reflexivity|]. replace (2 * S n)%nat with (S (S (2 * n))) by lia. cbn [repeat]. unfold word_list_bytes in *. cbn [map concat]. rewrite IH. reflexivity. Qed.
Lemma finish_full tp : length tp = 16%nat -> pton6_finish tp None 0 0 = Some tp.
Proof. intros L. unfold pton6_finish. cbn [Nat.ltb Nat.leb]. now rewrite L. Qed.
Lemma finish_short a b n : (1 <= n)%nat -> (length a + length b + 2 * n = 16)%nat ->
  pton6_finish (a ++ b) (Some (length a)) 0 0 = Some (a ++ repeat 0 (2 * n) ++ b).
Proof.
  intros N L. unfold pton6_finish. cbn [Nat.ltb Nat.leb]. rewrite app_length. replace (length a + length b =? 16)%nat with false by lia.
  rewrite firstn_app, Nat.sub_diag, firstn_all, skipn_app, Nat.sub_diag, skipn_all. cbn [firstn skipn app].
  rewrite app_nil_r. now replace (16 - (length a + length b))%nat with (2 * n)%nat by lia.
Qed.

Lemma text_read s ws : ipv6_text s ws -> inet_pton6 s = Some (word_list_bytes ws).
Proof.
  destruct 1 as [s ws E L|l lws r rws n HL HR N L].
  - rewrite pton6_start by (now apply (end_head s ws)). rewrite (end_read s ws E) by (cbn; lia). cbn [app].
    apply finish_full. rewrite wlb_length. lia.
  - assert (X : inet_pton6 (l ++ lit "::" ++ r) = pton6_loop r r (word_list_bytes lws) (Some (length (word_list_bytes lws))) 0 0).
    { change (lit "::" ++ r) with (58 :: 58 :: r). destruct HL as [[-> ->]|G]; [reflexivity|].
      rewrite pton6_start.
      - now rewrite (groups_read l lws G) by (cbn; lia).
      - destruct (groups_head l lws G) as (c & q & -> & NC). now exists c, (q ++ 58 :: 58 :: r). }
    rewrite X.
    assert (Y : pton6_loop r r (word_list_bytes lws) (Some (length (word_list_bytes lws))) 0 0
                = pton6_finish (word_list_bytes lws ++ word_list_bytes rws) (Some (length (word_list_bytes lws))) 0 0).
    { destruct HR as [[-> ->]|G]; [cbn [pton6_loop]; now rewrite app_nil_r|]. rewrite (end_read r rws G); [reflexivity|]. rewrite wlb_length. lia. }
    rewrite Y, (finish_short _ _ n) by (rewrite ?wlb_length; lia). now rewrite !wlb_app, zeros_bytes.
Qed.

(* ---------- only texts of the grammar are read ---------- *)
Definition right_part (r : str) (rws : list Z) : Prop := r = [] /\ rws = [] \/ end_groups r rws.
Definition read_as (cur : str) (tp : list Z) (cp : option nat) (q : list Z) : Prop :=
  match cp with
  | Some c => exists rws, right_part cur rws /\ pton6_finish (tp ++ word_list_bytes rws) (Some c) 0 0 = Some q
  | None =>
      (exists ws, end_groups cur ws /\ pton6_finish (tp ++ word_list_bytes ws) None 0 0 = Some q) \/
      exists l lws r rws, (l = [] /\ lws = [] /\ cur = 58 :: r \/ groups l lws /\ cur = l ++ 58 :: 58 :: r) /\ right_part r rws /\
        pton6_finish ((tp ++ word_list_bytes lws) ++ word_list_bytes rws) (Some (length (tp ++ word_list_bytes lws))) 0 0 = Some q
  end.
Lemma read_end cur ws tp cp q : end_groups cur ws -> pton6_finish (tp ++ word_list_bytes ws) cp 0 0 = Some q -> read_as cur tp cp q.
Proof. intros E F. destruct cp; [exists ws; split; [now right|exact F]|left; now exists ws]. Qed.

Lemma sound_loop s : forall h tp cp n val q, hexadecimal h val -> length h = n -> (n <= 4)%nat -> (cp = None -> h ++ s <> []) ->
  pton6_loop s (h ++ s) tp cp n val = Some q -> read_as (h ++ s) tp cp q.
Proof.
  induction s as [|ch s IH]; intros h tp cp n val q H LN N4 NE E; cbn [pton6_loop] in E.
  - rewrite app_nil_r in *. destruct h as [|c h].
    + cbn [length] in LN. subst n. destruct cp as [c|]; [|now specialize (NE eq_refl)].
      exists []. split; [now left|]. inversion H as [|s v c0 d H0 D X]; subst; [|destruct s; discriminate].
      change (word_list_bytes []) with (@nil Z). rewrite app_nil_r. exact E.
    + assert (G : group (c :: h) val) by (split; [exact H|rewrite LN; cbn [length] in LN; lia]).
      apply (read_end _ [val]); [now apply end_one|]. unfold word_list_bytes. cbn [map concat]. rewrite app_nil_r.
      rewrite <- (finish_flush tp cp n val); [exact E|cbn [length] in LN; lia|].
      unfold pton6_finish in E. replace (0 <? n)%nat with true in E by (cbn [length] in LN; lia).
      destruct (16 <? length tp + 2)%nat eqn:X; [discriminate|lia].
  - destruct (hex_digit ch) as [d|] eqn:D.
    + destruct (n =? 4)%nat eqn:N; [discriminate|]. cbv zeta in E. destruct (0xFFFF <? val * 16 + d) eqn:V; [discriminate|].
      replace (h ++ ch :: s) with ((h ++ [ch]) ++ s) in * by now rewrite <- app_assoc.
      apply (IH (h ++ [ch]) tp cp (S n) (val * 16 + d) q); auto; [|rewrite app_length; cbn; lia|lia].
      constructor; [exact H|]. now apply hex_char_iff.
    + destruct (ch =? 58) eqn:C.
      * apply Z.eqb_eq in C. subst ch. destruct (n =? 0)%nat eqn:N.
        -- (* "::" *) destruct h; [|cbn [length] in LN; lia]. cbn [app] in *. destruct cp as [c|]; [discriminate|].
           assert (val = 0) as -> by (inversion H as [|s0 v c0 d H0 D0 X]; subst; [reflexivity|destruct s0; discriminate]).
           specialize (IH [] tp (Some (length tp)) 0%nat 0 q hex_nil eq_refl ltac:(lia) ltac:(discriminate) E).
           destruct IH as (rws & R & F). right. exists [], [], s, rws. split; [left; auto|]. split; [exact R|].
           change (word_list_bytes []) with (@nil Z). rewrite app_nil_r. exact F.
        -- destruct s as [|c s]; [discriminate|]. destruct (16 <? length tp + 2)%nat eqn:L; [discriminate|].
           assert (G : group h val) by (split; [exact H|lia]).
           specialize (IH [] (tp ++ word_bytes val) cp 0%nat 0 q hex_nil eq_refl ltac:(lia) ltac:(discriminate) E). cbn [app] in IH.
           assert (CAT : forall ws, (tp ++ word_bytes val) ++ word_list_bytes ws = tp ++ word_list_bytes (val :: ws)).
           { intros ws. unfold word_list_bytes. cbn [map concat]. now rewrite <- app_assoc. }
           destruct cp as [k|].
           ++ destruct IH as (rws & [[R _]|R] & F); [discriminate|]. rewrite CAT in F. exists (val :: rws). split; [|exact F].
              right. now apply end_cons.
           ++ destruct IH as [(ws & EG & F)|(l & lws & r & rws & HL & HR & F)]; rewrite CAT in F.
              ** left. exists (val :: ws). split; [now apply end_cons|exact F].
              ** right. destruct HL as [(-> & -> & X)|(GL & X)]; rewrite X.
                 --- exists h, [val], r, rws. split; [right; split; [now apply groups_one|reflexivity]|]. split; [exact HR|exact F].
                 --- exists (h ++ 58 :: l), (val :: lws), r, rws. split; [right; split; [now apply groups_cons|now rewrite <- app_assoc]|].
                     split; [exact HR|exact F].
      * destruct ((ch =? 46) && (length tp + 4 <=? 16)%nat) eqn:P; [|discriminate].
        destruct (inet_pton4 (h ++ ch :: s)) as [q4|] eqn:Q; [|discriminate].
        pose proof (proj1 (pton4_iff _ _) Q) as (L4 & F4 & T).
        destruct q4 as [|a [|b [|c [|d [|]]]]]; try discriminate.
        inversion F4 as [|? ? A F1]; inversion F1 as [|? ? B F2]; inversion F2 as [|? ? CC F3]; inversion F3 as [|? ? DD _]; subst.
        apply (read_end _ [quad a b c d / 2 ^ 16; quad a b c d mod 2 ^ 16]).
        -- apply end_v4. rewrite T. now apply dotted_ntop4.
        -- now rewrite quad_words.
Qed.

Lemma finish_none tp q : pton6_finish tp None 0 0 = Some q -> length tp = 16%nat /\ q = tp.
Proof. unfold pton6_finish. cbn [Nat.ltb Nat.leb]. destruct (length tp =? 16)%nat eqn:L; [|discriminate]. intros [= <-]. split; [lia|reflexivity]. Qed.

Lemma read_text s q : inet_pton6 s = Some q -> exists ws, ipv6_text s ws /\ q = word_list_bytes ws.
Proof.
  intros E.
  assert (R : (exists c r, s = c :: r /\ c <> 58 /\ read_as s [] None q) \/ exists r, s = 58 :: 58 :: r /\ read_as (58 :: r) [] None q).
  { unfold inet_pton6 in E. destruct s as [|c s]; [discriminate|]. destruct (c =? 58) eqn:C.
    - destruct s as [|d s]; [discriminate|]. destruct (d =? 58) eqn:D; [|discriminate]. right. exists s.
      apply Z.eqb_eq in C, D. subst. split; [reflexivity|].
      exact (sound_loop (58 :: s) [] [] None 0%nat 0 q hex_nil eq_refl ltac:(lia) ltac:(discriminate) E).
    - left. exists c, s. split; [reflexivity|]. split; [lia|].
      exact (sound_loop (c :: s) [] [] None 0%nat 0 q hex_nil eq_refl ltac:(lia) ltac:(discriminate) E). }
  assert (SHORT : forall l lws r rws, (l = [] /\ lws = [] \/ groups l lws) -> right_part r rws ->
    pton6_finish (([] ++ word_list_bytes lws) ++ word_list_bytes rws) (Some (length ([] ++ word_list_bytes lws))) 0 0 = Some q ->
    exists ws, ipv6_text (l ++ 58 :: 58 :: r) ws /\ q = word_list_bytes ws).
  { intros l lws r rws HL HR F. cbn [app] in F. pose proof (ParserProofs2.pton6_bytes s q E) as [LQ _].
    assert (B : (length lws + length rws <= 7)%nat).
    { unfold pton6_finish in F. cbn [Nat.ltb Nat.leb] in F.
      destruct (length (word_list_bytes lws ++ word_list_bytes rws) =? 16)%nat eqn:L; [discriminate|]. injection F as F.
      rewrite <- F in LQ. rewrite !app_length, repeat_length in LQ.
      revert LQ L. rewrite firstn_length, skipn_length, !app_length, !wlb_length. lia. }
    exists (lws ++ repeat 0 (8 - length lws - length rws) ++ rws). split.
    - apply text_short; auto; lia.
    - rewrite (finish_short _ _ (8 - length lws - length rws)) in F by (rewrite ?wlb_length; lia). injection F as <-.
      now rewrite !wlb_app, zeros_bytes. }
  destruct R as [(c & r & -> & NC & [(ws & EG & F)|(l & lws & r' & rws & HL & HR & F)])|(r & -> & [(ws & EG & F)|(l & lws & r' & rws & HL & HR & F)])].
  - cbn [app] in F. apply finish_none in F. destruct F as [L ->]. rewrite wlb_length in L. exists ws. split; [|reflexivity]. apply text_full; [exact EG|lia].
  - destruct HL as [(_ & _ & X)|(GL & X)]; [congruence|]. rewrite X. apply (SHORT l lws r' rws); auto.
  - exfalso. apply end_head in EG. destruct EG as (c & x & X & NC). congruence.
  - destruct HL as [(-> & -> & X)|(GL & X)].
    + injection X as ->. apply (SHORT [] [] r' rws); auto.
    + exfalso. apply groups_head in GL. destruct GL as (c & x & -> & NC). cbn [app] in X. congruence.
Qed.
Theorem pton6_iff s q : inet_pton6 s = Some q <-> exists ws, ipv6_text s ws /\ q = word_list_bytes ws.
Proof. split; [apply read_text|]. intros (ws & T & ->). now apply text_read. Qed.

(* ---------- words and numbers ---------- *)
Lemma end_range s ws : end_groups s ws -> Forall (fun w => 0 <= w < 65536) ws.
Proof.
  induction 1 as [s w G|s v D|s w t ws G E IH].
  - constructor; [now apply group_range in G|constructor].
  - destruct (dotted_bytes s v D) as (a & b & c & d & A & B & C & DD & -> & _). unfold is_byte, quad in *. change (2 ^ 16) with 65536.
    repeat constructor; lia.
  - constructor; [now apply group_range in G|exact IH].
Qed.
Lemma groups_range s ws : groups s ws -> Forall (fun w => 0 <= w < 65536) ws.
Proof. induction 1 as [s w G|s w t ws G E IH]; constructor; try (now apply group_range in G); auto. Qed.
Lemma text_range s ws : ipv6_text s ws -> Forall (fun w => 0 <= w < 65536) ws /\ length ws = 8%nat.
Proof.
  destruct 1 as [s ws E L|l lws r rws n HL HR N L].
  - split; [now apply end_range in E|exact L].
  - split; [|rewrite !app_length, repeat_length; lia]. apply Forall_app. split; [|apply Forall_app; split].
    + destruct HL as [[_ ->]|G]; [constructor|now apply groups_range in G].
    + apply Forall_forall. intros x X. apply repeat_spec in X. lia.
    + destruct HR as [[_ ->]|G]; [constructor|now apply end_range in G].
Qed.
Lemma num_words ws : Forall (fun w => 0 <= w < 65536) ws -> num (word_list_bytes ws) = words_value ws.
Proof.
  intros F. unfold words_value.
  assert (G : forall v, fold_left (fun v w => v * 2 ^ 16 + w) ws v = v * 256 ^ Z.of_nat (2 * length ws) + num (word_list_bytes ws)).
  { induction F as [|w ws R F IH]; intros v; cbn [fold_left].
    - cbn [length num word_list_bytes map concat]. change (256 ^ Z.of_nat (2 * 0)) with 1. lia.
    - rewrite IH. change (word_list_bytes (w :: ws)) with ((w / 256 mod 256) :: (w mod 256) :: word_list_bytes ws).
      cbn [num length]. rewrite wlb_length.
      replace (Z.of_nat (2 * S (length ws))) with (Z.of_nat (2 * length ws) + 2) by lia.
      replace (Z.of_nat (S (2 * length ws))) with (Z.of_nat (2 * length ws) + 1) by lia.
      rewrite !Z.pow_add_r by lia. change (256 ^ 2) with 65536. change (256 ^ 1) with 256. change (2 ^ 16) with 65536.
      set (P := 256 ^ Z.of_nat (2 * length ws)).
      assert (w = (w / 256 mod 256) * 256 + w mod 256) by lia. nia. }
  rewrite (G 0). lia.
Qed.
Lemma six_iff s v : (exists ws, ipv6_text s ws /\ v = words_value ws) <-> exists q, inet_pton6 s = Some q /\ v = num q.
Proof.
  split.
  - intros (ws & T & ->). exists (word_list_bytes ws). split; [now apply text_read|]. symmetry. apply num_words, (text_range _ _ T).
  - intros (q & Q & ->). apply read_text in Q as (ws & T & ->). exists ws. split; [exact T|]. apply num_words, (text_range _ _ T).
Qed.
