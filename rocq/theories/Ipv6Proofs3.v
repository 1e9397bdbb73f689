(* The recommended text of an IPv6 address is unique, and a text is the text of
   at most one address. *)
From Coq Require Import ZifyBool ZifyNat.
From Verif Require Import Base Addr Spec SpecText Inet SpecIpv6.
From Verif Require Import InetProofs TextProofs DottedProofs Ipv6Proofs Ipv6Proofs2.
Local Open Scope Z_scope.
Ltac Zify.zify_post_hook ::= Z.div_mod_to_equations.

Lemma small_char c c' d : hex_char c d -> hex_char c' d -> ~ 65 <= c <= 70 -> ~ 65 <= c' <= 70 -> c = c'.
Proof. unfold hex_char. lia. Qed.
Lemma hex_positive s w : hexadecimal s w -> s <> [] -> hd 0 s <> 48 -> 0 < w.
Proof.
  induction 1 as [|s v c d H IH D]; [congruence|]. intros _ Z. pose proof (hexadecimal_range _ _ H) as R.
  apply hex_char_iff in D. pose proof (hex_digit_range _ _ D) as DR. destruct s as [|x s].
  - cbn [app hd] in Z. inversion H as [E|s0 v0 c0 d0 H0 D0 E]; [|destruct s0; discriminate].
    subst. apply hex_char_iff in D. unfold hex_char in D. lia.
  - cbn [app hd] in *. specialize (IH ltac:(discriminate) Z). lia.
Qed.
Lemma hex_unique s w : hexadecimal s w -> forall t, hexadecimal t w -> (forall c, In c s -> ~ 65 <= c <= 70) ->
  (forall c, In c t -> ~ 65 <= c <= 70) -> (s <> [] -> hd 0 s <> 48) -> (t <> [] -> hd 0 t <> 48) -> s = t.
Proof.
  induction 1 as [|s v c d H IH D]; intros t T LS LT ZS ZT.
  - destruct t as [|x t]; [reflexivity|]. pose proof (hex_positive _ _ T ltac:(discriminate) (ZT ltac:(discriminate))). lia.
  - remember (v * 16 + d) as w eqn:W. destruct T as [|t v2 c2 d2 T D2].
    + assert (P : 0 < v * 16 + d); [|lia]. apply (hex_positive (s ++ [c])); [now constructor|destruct s; discriminate|]. apply ZS. destruct s; discriminate.
    + pose proof D as E. pose proof D2 as E2. apply hex_char_iff, hex_digit_range in E, E2.
      assert (v = v2 /\ d = d2) as [<- <-] by lia.
      rewrite (small_char _ _ _ D D2); [|apply LS, in_or_app; right; now left|apply LT, in_or_app; right; now left].
      f_equal. apply IH; [exact T|intros; apply LS, in_or_app; now left|intros; apply LT, in_or_app; now left| |].
      * intros N. destruct s as [|x s]; [congruence|]. apply (ZS ltac:(discriminate)).
      * intros N. destruct t as [|x t]; [congruence|]. apply (ZT ltac:(discriminate)).
Qed.
Lemma group_unique s t w : plain_group s w -> plain_group t w -> s = t.
Proof.
  intros ((HS & LS) & CS & ZS) ((HT & LT) & CT & ZT).
  assert (K : forall x v, hexadecimal x v -> (1 <= length x)%nat -> (hd 0 x = 48 -> x = lit "0") -> x = lit "0" \/ (0 < v /\ hd 0 x <> 48)).
  { intros x v H L Z. destruct (Z.eq_dec (hd 0 x) 48) as [E|E]; [left; auto|right]. split; [|exact E].
    apply (hex_positive x); auto. intros ->. cbn in L. lia. }
  assert (Z : forall v, hexadecimal (lit "0") v -> v = 0).
  { intros v H. inversion H as [|s0 v0 c0 d0 H0 D0 E]. destruct s0 as [|? [|]]; try discriminate. injection E as ->.
    inversion H0 as [|s1 v1 c1 d1 H1 D1 E1]; [|destruct s1; discriminate]. unfold hex_char in D0. lia. }
  destruct (K s w HS ltac:(lia) ZS) as [->|[PS NS]]; destruct (K t w HT ltac:(lia) ZT) as [->|[PT NT]].
  - reflexivity.
  - apply Z in HS. lia.
  - apply Z in HT. lia.
  - apply (hex_unique s w HS t HT); auto.
Qed.
Lemma groups_unique ws s : plain_groups ws s -> forall t, plain_groups ws t -> s = t.
Proof.
  induction 1 as [|w s G|w s ws t G N P IH]; intros u U; inversion U; subst; try congruence; try contradiction; try (now destruct ws).
  - eapply group_unique; eauto.
  - rewrite (group_unique _ _ _ G H1). rewrite (IH _ H4). reflexivity.
Qed.
Lemma shortened_unique ws b n b' n' : shortened ws b n -> shortened ws b' n' -> b = b' /\ n = n'.
Proof.
  intros (Z & N & M) (Z' & N' & M'). specialize (M _ _ Z'). specialize (M' _ _ Z). lia.
Qed.
Lemma dotted_unique s t v : dotted s v -> dotted t v -> s = t.
Proof.
  intros S1 T1. destruct (dotted_bytes s v S1) as (a & b & c & d & A & B & C & D & V & ->).
  destruct (dotted_bytes t v T1) as (a' & b' & c' & d' & A' & B' & C' & D' & V' & ->).
  unfold is_byte, quad in *. assert (a = a' /\ b = b' /\ c = c' /\ d = d') as (-> & -> & -> & ->) by lia. reflexivity.
Qed.
Lemma recommended_unique ws s t : recommended ws s -> recommended ws t -> s = t.
Proof.
  intros S1 T1.
  assert (X : forall b n, shortened ws b n -> (forall b n, zeros ws b n -> (n < 2)%nat) -> False).
  { intros b n (Z & N & _) F. specialize (F _ _ Z). lia. }
  destruct S1 as [s F P|b n l r H NE PL PR|d H D|d H M D]; destruct T1 as [s' F' P'|b' n' l' r' H' NE' PL' PR'|d' H' D'|d' H' M' D'];
    try (exfalso; eapply X; eassumption); try (destruct (shortened_unique _ _ _ _ _ H H') as [E1 E2]; try discriminate; subst).
  - eapply groups_unique; eauto.
  - f_equal; [|f_equal]; eapply groups_unique; eauto.
  - exfalso. apply NE. unfold ends_like_ipv4. auto.
  - exfalso. apply NE. unfold ends_like_ipv4. auto.
  - exfalso. apply NE'. unfold ends_like_ipv4. auto.
  - f_equal. eapply dotted_unique; eauto.
  - exfalso. apply NE'. unfold ends_like_ipv4. auto.
  - f_equal. eapply dotted_unique; eauto.
Qed.

(* ---------- words and numbers ---------- *)
Lemma words_value_snoc ws w : words_value (ws ++ [w]) = words_value ws * 2 ^ 16 + w.
Proof. unfold words_value. now rewrite fold_left_app. Qed.
Lemma words_unique a : forall b, length a = length b -> Forall (fun w => 0 <= w < 65536) a -> Forall (fun w => 0 <= w < 65536) b ->
  words_value a = words_value b -> a = b.
Proof.
  induction a as [|x a IH] using rev_ind; intros b L FA FB E.
  - destruct b; [reflexivity|discriminate].
  - destruct b as [|y b _] using rev_ind; [rewrite app_length in L; cbn in L; lia|].
    rewrite !app_length in L. cbn [length] in L. rewrite !words_value_snoc in E. change (2 ^ 16) with 65536 in E.
    apply Forall_app in FA as [FA XA], FB as [FB XB]. inversion XA; inversion XB; subst.
    assert (x = y /\ words_value a = words_value b) as [-> V] by lia. f_equal. apply IH; auto. lia.
Qed.
Lemma text_unique s t v : recommended_text s v -> recommended_text t v -> s = t.
Proof.
  intros (ws & L & F & E & R) (ws' & L' & F' & E' & R').
  assert (ws = ws') as <- by (apply words_unique; auto; congruence). eapply recommended_unique; eauto.
Qed.
Lemma read_unique s ws ws' : ipv6_text s ws -> ipv6_text s ws' -> ws = ws'.
Proof.
  intros T T'. destruct (text_range _ _ T) as [F L], (text_range _ _ T') as [F' L']. apply words_unique; auto; [congruence|].
  apply text_read in T, T'. rewrite <- !num_words by auto. congruence.
Qed.
