(* Proofs about the texts of addresses: dotted notation, and what a text with a
   colon is. *)
From Coq Require Import ZifyBool ZifyNat.
From Verif Require Import Base Addr Spec Inet SpecText.
From Verif Require Import AddrProofs InetProofs InetProofs2 TextProofs.
From Verif Require PropText.
Local Open Scope Z_scope.

(* ---------- texts of addresses ---------- *)
Lemma fold_digits_ge D : forall n, 0 <= n -> forallb is_digit D = true ->
  n <= fold_left (fun v c => v * 10 + (c - 48)) D n.
Proof.
  induction D as [|c D IH]; intros n N H; cbn [fold_left]; [lia|]. cbn [forallb] in H. apply andb_true_iff in H.
  destruct H as [H1 H2]. unfold is_digit in H1. specialize (IH (n * 10 + (c - 48)) ltac:(lia) H2). lia.
Qed.
Lemma pton6_loop_colon s : forall cur n v, ~ In 58 s -> pton6_loop s cur [] None n v = None.
Proof.
  induction s as [|ch s IH]; intros cur n v N; cbn [pton6_loop].
  - unfold pton6_finish. destruct (0 <? n)%nat; reflexivity.
  - assert (ch <> 58 /\ ~ In 58 s) as [N1 N2] by (split; intros X; apply N; [now left|now right]).
    destruct (hex_digit ch).
    + destruct (n =? 4)%nat; [reflexivity|]. cbv zeta. destruct (65535 <? _); [reflexivity|]. now apply IH.
    + replace (ch =? 58) with false by lia. destruct ((ch =? 46) && _); [|reflexivity].
      destruct (inet_pton4 cur) as [q|] eqn:Q; [|reflexivity]. apply pton4_iff in Q. destruct Q as (L & _).
      cbn [app]. unfold pton6_finish. cbn [Nat.ltb Nat.leb]. rewrite L. reflexivity.
Qed.
Lemma pton6_colon s q : inet_pton6 s = Some q -> In 58 s.
Proof.
  intros H. destruct (in_dec Z.eq_dec 58 s) as [I|I]; [exact I|]. exfalso. unfold inet_pton6 in H.
  destruct s as [|c s]; [discriminate|].
  replace (c =? 58) with false in H by (symmetry; apply Z.eqb_neq; intros ->; apply I; now left).
  rewrite pton6_loop_colon in H by exact I. discriminate.
Qed.
Lemma decimal_app s c : decimal_value (s ++ [c]) = decimal_value s * 10 + (c - 48).
Proof. unfold decimal_value. now rewrite fold_left_app. Qed.
Lemma leading_positive s : s <> [] -> forallb is_digit s = true -> hd 0 s <> 48 -> 0 < decimal_value s.
Proof.
  destruct s as [|c s]; [congruence|]. cbn [forallb hd]. intros _ F H. apply andb_true_iff in F. destruct F as [F1 F2].
  unfold is_digit in F1. unfold decimal_value. cbn [fold_left].
  pose proof (fold_digits_ge s (0 * 10 + (c - 48)) ltac:(lia) F2). lia.
Qed.
Lemma decimal_unique s : forall t, s <> [] -> t <> [] -> forallb is_digit s = true -> forallb is_digit t = true ->
  hd 0 s <> 48 -> hd 0 t <> 48 -> decimal_value s = decimal_value t -> s = t.
Proof.
  induction s as [|c s IH] using rev_ind; intros t N1 N2 F1 F2 H1 H2 E; [congruence|].
  destruct (exists_last N2) as (t' & d & ->). rewrite !decimal_app in E. rewrite forallb_app in F1, F2.
  apply andb_true_iff in F1, F2. destruct F1 as [F1 C1], F2 as [F2 C2]. cbn [forallb] in C1, C2. unfold is_digit in C1, C2.
  assert (c = d /\ decimal_value s = decimal_value t') as [-> V] by lia. f_equal.
  destruct s as [|c s], t' as [|e t'].
  - reflexivity.
  - pose proof (leading_positive (e :: t') ltac:(discriminate) F2 H2). change (decimal_value []) with 0 in V. lia.
  - pose proof (leading_positive (c :: s) ltac:(discriminate) F1 H1). change (decimal_value []) with 0 in V. lia.
  - apply IH; auto; discriminate.
Qed.
Lemma plain_unique s t v : plain_decimal s v -> plain_decimal t v -> s = t.
Proof.
  intros ((N1 & F1 & V1) & H1 & Z1) ((N2 & F2 & V2) & H2 & Z2). destruct (Z.eq_dec v 0) as [E|E].
  - now rewrite Z1, Z2.
  - apply decimal_unique; auto. congruence.
Qed.
Lemma dotted_pton s w : dotted s w -> exists q, inet_pton4 s = Some q /\ num q = w /\ length q = 4%nat /\ Forall is_byte q.
Proof.
  intros (a & b & c & d & sa & sb & sc & sd & Ha & Hb & Hc & Hd & -> & Pa & Pb & Pc & Pd & ->).
  assert (forall s v, is_byte v -> plain_decimal s v -> s = dec_string v) as U.
  { intros s v B P. unfold is_byte in B. apply (plain_unique _ _ v P). apply PropText.plain_dec_string. lia. }
  rewrite (U sa a Ha Pa), (U sb b Hb Pb), (U sc c Hc Pc), (U sd d Hd Pd). exists [a; b; c; d].
  split; [now apply ntop4_pton4|]. split; [|split; [reflexivity|repeat (apply Forall_cons; [assumption|]); apply Forall_nil]].
  unfold quad. cbn [num length]. change (256 ^ Z.of_nat 3) with (2 ^ 24). change (256 ^ Z.of_nat 2) with (2 ^ 16).
  change (256 ^ Z.of_nat 1) with (2 ^ 8). change (256 ^ Z.of_nat 0) with 1. lia.
Qed.
Lemma dotted_ntop4 a b c d : is_byte a -> is_byte b -> is_byte c -> is_byte d ->
  dotted (inet_ntop4 [a; b; c; d]) (quad a b c d).
Proof.
  intros A B C D. exists a, b, c, d, (dec_string a), (dec_string b), (dec_string c), (dec_string d).
  unfold is_byte in *. repeat (split; [solve [auto | apply PropText.plain_dec_string; lia]|]). reflexivity.
Qed.
