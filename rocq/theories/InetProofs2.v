(* The characters which occur in the text forms of IP addresses. *)
From Verif Require Import Base Addr Inet InetProofs.
From Coq Require Import ZifyBool ZifyNat.
Local Open Scope Z_scope.
Ltac Zify.zify_post_hook ::= Z.div_mod_to_equations.

(* ---------- the characters of an IPv6 text ---------- *)
Definition ip_char (c : Z) : bool :=
  dotted_char c || (c =? 58) || ((97 <=? c) && (c <=? 102)).

Lemma hex_chars w : 0 <= w < 65536 -> forallb ip_char (hex_string w) = true.
Proof.
  intros H.
  assert (D : forall d, 0 <= d < 16 -> ip_char (hexchar d) = true).
  { intros d I. unfold ip_char, dotted_char, hexchar. destruct (d <? 10) eqn:E; lia. }
  rewrite hex_word by auto.
  destruct (w <? 16) eqn:E1; [|destruct (w <? 256) eqn:E2; [|destruct (w <? 4096) eqn:E3]];
    cbn [forallb]; rewrite !D by lia; reflexivity.
Qed.

Lemma dotted_ip s : forallb dotted_char s = true -> forallb ip_char s = true.
Proof.
  intros H. apply forallb_forall. intros x I. rewrite forallb_forall in H.
  unfold ip_char. now rewrite (H x I).
Qed.

Lemma ntop6_loop_chars b best : forall ws i,
  forallb ip_char (inet_ntop4 (skipn 12 b)) = true ->
  (forall w, In w ws -> 0 <= w < 65536) ->
  forallb ip_char (ntop6_loop b best ws i) = true.
Proof.
  induction ws as [|w ws IH]; intros i V4 H; cbn [ntop6_loop].
  - destruct best as [[? ?]|]; auto. now destruct (_ =? _)%nat.
  - assert (T : forallb ip_char (ntop6_loop b best ws (S i)) = true)
      by (apply IH; auto; intros; apply H; now right).
    assert (W : forallb ip_char (hex_string w) = true) by (apply hex_chars, H; now left).
    destruct best as [[bb bl]|].
    + destruct (_ && _).
      * rewrite forallb_app, T. now destruct (i =? bb)%nat.
      * destruct (_ && _); destruct (i =? 0)%nat;
          rewrite ?forallb_app, ?V4, ?W, ?T; reflexivity.
    + rewrite !forallb_app, W, T. now destruct (i =? 0)%nat.
Qed.

Lemma ntop6_chars b : bytes16 b -> forallb ip_char (inet_ntop6 b) = true.
Proof.
  intros [L F]. destruct (list16 b L) as
    (b0&b1&b2&b3&b4&b5&b6&b7&b8&b9&b10&b11&b12&b13&b14&b15&->).
  forall_inv. apply ntop6_loop_chars.
  - apply dotted_ip. cbn [skipn]. now apply ntop4_chars.
  - unfold words, word. cbn [map Nat.mul Nat.add at_ nth In].
    intros w I. unfold at_ in I. cbn [nth] in I.
    decompose [or] I; clear I; subst; try contradiction; now apply word_range.
Qed.

(* an IPv6 text always has a colon *)
Lemma ntop6_loop_colon b best w0 w1 ws : In 58 (ntop6_loop b best (w0 :: w1 :: ws) 0).
Proof.
  cbn [ntop6_loop].
  generalize (ntop6_loop b best ws 2) as t. intros t.
  generalize (inet_ntop4 (skipn 12 b)) as t4. intros t4.
  destruct best as [[bb bl]|].
  - destruct bb as [|bb].
    + destruct bl as [|bl].
      * cbn. rewrite in_app_iff. right. left. reflexivity.
      * cbn. now left.
    + cbn [Nat.leb andb Nat.eqb app]. rewrite !in_app_iff. right.
      destruct bb as [|bb].
      * destruct bl as [|bl]; cbn; auto.
      * cbn. now left.
  - rewrite !in_app_iff. cbn. auto.
Qed.

Lemma ntop6_colon b : In 58 (inet_ntop6 b).
Proof. apply ntop6_loop_colon. Qed.
