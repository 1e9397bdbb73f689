(* Proofs about the texts of IPv6 addresses which are written. *)
From Coq Require Import ZifyBool ZifyNat.
From Verif Require Import Base Addr Spec SpecText Inet SpecIpv6.
From Verif Require Import InetProofs TextProofs Ipv6Proofs.
From Verif Require Import DottedProofs.
From Verif Require ParserProofs2.
Local Open Scope Z_scope.
Ltac Zify.zify_post_hook ::= Z.div_mod_to_equations.

(* ---------- groups ---------- *)
Lemma hex_of_char d : 0 <= d < 16 -> hex_char (hexchar d) d.
Proof. intros H. apply hex_char_iff. now apply hex_digit_char. Qed.
Lemma small d : 0 <= d < 16 -> ~ 65 <= hexchar d <= 70.
Proof. intros H. unfold hexchar. destruct (d <? 10) eqn:E; lia. Qed.
Lemma hexchar_zero d : 0 <= d < 16 -> hexchar d = 48 -> d = 0.
Proof. intros H. unfold hexchar. destruct (d <? 10) eqn:E; lia. Qed.
Lemma hexs1 a : 0 <= a < 16 -> hexadecimal [hexchar a] a.
Proof. intros. replace a with (0 * 16 + a) at 2 by lia. apply (hex_snoc []); [constructor|now apply hex_of_char]. Qed.
Lemma hexs2 a b : 0 <= a < 16 -> 0 <= b < 16 -> hexadecimal [hexchar a; hexchar b] (a * 16 + b).
Proof. intros. apply (hex_snoc [_]); [now apply hexs1|now apply hex_of_char]. Qed.
Lemma hexs3 a b c : 0 <= a < 16 -> 0 <= b < 16 -> 0 <= c < 16 -> hexadecimal [hexchar a; hexchar b; hexchar c] ((a * 16 + b) * 16 + c).
Proof. intros. apply (hex_snoc [_; _]); [now apply hexs2|now apply hex_of_char]. Qed.
Lemma hexs4 a b c d : 0 <= a < 16 -> 0 <= b < 16 -> 0 <= c < 16 -> 0 <= d < 16 ->
  hexadecimal [hexchar a; hexchar b; hexchar c; hexchar d] (((a * 16 + b) * 16 + c) * 16 + d).
Proof. intros. apply (hex_snoc [_; _; _]); [now apply hexs3|now apply hex_of_char]. Qed.

Lemma plain_hex w : 0 <= w < 65536 -> plain_group (hex_string w) w.
Proof.
  intros H. rewrite hex_word by exact H.
  destruct (w <? 16) eqn:E1; [|destruct (w <? 256) eqn:E2; [|destruct (w <? 4096) eqn:E3]].
  - split; [split; [apply hexs1; lia|cbn; lia]|]. split.
    + cbn [In]. intros c [<-|[]]. apply small. lia.
    + cbn [hd]. intros X. apply hexchar_zero in X; [|lia]. now subst w.
  - split; [split; [|cbn; lia]|split].
    + replace w with (w / 16 * 16 + w mod 16) at 3 by lia. apply hexs2; lia.
    + cbn [In]. intros c [<-|[<-|[]]]; apply small; lia.
    + cbn [hd]. intros X. apply hexchar_zero in X; lia.
  - split; [split; [|cbn; lia]|split].
    + replace w with ((w / 256 * 16 + w / 16 mod 16) * 16 + w mod 16) at 4 by lia. apply hexs3; lia.
    + cbn [In]. intros c [<-|[<-|[<-|[]]]]; apply small; lia.
    + cbn [hd]. intros X. apply hexchar_zero in X; lia.
  - split; [split; [|cbn; lia]|split].
    + replace w with (((w / 4096 * 16 + w / 256 mod 16) * 16 + w / 16 mod 16) * 16 + w mod 16) at 5 by lia. apply hexs4; lia.
    + cbn [In]. intros c [<-|[<-|[<-|[<-|[]]]]]; apply small; lia.
    + cbn [hd]. intros X. apply hexchar_zero in X; lia.
Qed.

(* ---------- the run of zeros ---------- *)
Definition zb (zs : list bool) (b n : nat) : bool :=
  (b + n <=? length zs)%nat && forallb (fun i => nth i zs false) (seq b n).
Lemma zeros_zb ws b n : zeros ws b n <-> zb (map (Z.eqb 0) ws) b n = true.
Proof.
  unfold zeros, zb. rewrite map_length, andb_true_iff, forallb_forall, Nat.leb_le.
  assert (N : forall i, (i < length ws)%nat -> nth i (map (Z.eqb 0) ws) false = (0 =? nth i ws 1)).
  { intros i L. rewrite (nth_indep _ false (0 =? 1)) by (now rewrite map_length). apply (map_nth (Z.eqb 0)). }
  split; intros [L H]; (split; [exact L|]); intros i I.
  - apply in_seq in I. rewrite N by lia. rewrite H by lia. reflexivity.
  - specialize (H i ltac:(apply in_seq; lia)). rewrite N in H by lia. lia.
Qed.
Definition all_runs (P : nat -> nat -> bool) : bool := forallb (fun b => forallb (P b) (seq 0 9)) (seq 0 9).
Definition run_ok (zs : list bool) : bool :=
  match best_run zs with
  | Some (b, n) => zb zs b n && (2 <=? n)%nat &&
      all_runs (fun b' n' => implb (zb zs b' n') ((n' <? n)%nat || ((n' =? n)%nat && (b <=? b')%nat)))
  | None => all_runs (fun b' n' => implb (zb zs b' n') (n' <? 2)%nat)
  end.
Lemma runs_ok zs : length zs = 8%nat -> run_ok zs = true.
Proof.
  destruct zs as [|z0 [|z1 [|z2 [|z3 [|z4 [|z5 [|z6 [|z7 [|]]]]]]]]]; try discriminate. intros _.
  destruct z0, z1, z2, z3, z4, z5, z6, z7; vm_compute; reflexivity.
Qed.
Lemma all_runs_ok P b n : all_runs P = true -> (b <= 8)%nat -> (n <= 8)%nat -> P b n = true.
Proof.
  unfold all_runs. rewrite forallb_forall. intros H B N. specialize (H b ltac:(apply in_seq; lia)).
  rewrite forallb_forall in H. apply H. apply in_seq. lia.
Qed.
Lemma run_of ws : length ws = 8%nat ->
  match best_run (map (Z.eqb 0) ws) with
  | Some (b, n) => shortened ws b n
  | None => forall b n, zeros ws b n -> (n < 2)%nat
  end.
Proof.
  intros L. pose proof (runs_ok (map (Z.eqb 0) ws) ltac:(now rewrite map_length)) as R. unfold run_ok in R.
  destruct (best_run (map (Z.eqb 0) ws)) as [[b n]|].
  - apply andb_prop in R. destruct R as [R A]. apply andb_prop in R. destruct R as [Z N]. split; [now apply zeros_zb|]. split; [lia|].
    intros b' n' Z'. pose proof (proj1 Z') as LE. apply zeros_zb in Z'.
    pose proof (all_runs_ok _ b' n' A ltac:(lia) ltac:(lia)) as Q. cbv beta in Q. rewrite Z' in Q. cbn [implb] in Q. lia.
  - intros b' n' Z'. pose proof (proj1 Z') as LE. apply zeros_zb in Z'.
    pose proof (all_runs_ok _ b' n' R ltac:(lia) ltac:(lia)) as Q. cbv beta in Q. rewrite Z' in Q. cbn [implb] in Q. lia.
Qed.

(* ---------- the text ---------- *)
Ltac bytes H := repeat match type of H with Forall _ (_ :: _) => let A := fresh "B" in let F := fresh "F" in inversion H as [|? ? A F]; subst; clear H; rename F into H end.
Fixpoint joined (ws : list Z) : str :=
  match ws with
  | [] => []
  | [w] => hex_string w
  | w :: r => hex_string w ++ 58 :: joined r
  end.
Lemma plain_joined ws : Forall (fun w => 0 <= w < 65536) ws -> plain_groups ws (joined ws).
Proof.
  induction 1 as [|w ws R F IH]; [constructor|]. destruct ws as [|x ws]; [apply plain_one; now apply plain_hex|].
  change (joined (w :: x :: ws)) with (hex_string w ++ lit ":" ++ joined (x :: ws)).
  apply plain_cons; [now apply plain_hex|discriminate|exact IH].
Qed.
Lemma ntop6_recommended b : bytes16 b -> recommended (words b) (inet_ntop6 b).
Proof.
  intros [L F]. assert (LW : length (words b) = 8%nat) by reflexivity.
  pose proof (run_of (words b) LW) as R. unfold inet_ntop6.
  assert (RW : Forall (fun w => 0 <= w < 65536) (words b)
    /\ (exists p q r t, is_byte p /\ is_byte q /\ is_byte r /\ is_byte t /\ skipn 12 b = [p; q; r; t]
        /\ quad p q r t = word b 6 * 2 ^ 16 + word b 7)).
  { destruct b as [|b0 [|b1 [|b2 [|b3 [|b4 [|b5 [|b6 [|b7 [|b8 [|b9 [|b10 [|b11 [|b12 [|b13 [|b14 [|b15 [|]]]]]]]]]]]]]]]]]; try discriminate.
    unfold words, word, at_. cbn [map nth Nat.mul Nat.add skipn].
    bytes F. unfold is_byte in *. change (2 ^ 16) with 65536. split; [repeat constructor; lia|]. exists b12, b13, b14, b15.
    do 4 (split; [lia|]). split; [reflexivity|]. unfold quad. lia. }
  destruct RW as [RW (p & q & r & t & Hp & Hq & Hr & Ht & SK & QD)].
  assert (DT : dotted (inet_ntop4 (skipn 12 b)) (word b 6 * 2 ^ 16 + word b 7)).
  { rewrite SK, <- QD. now apply dotted_ntop4. }
  destruct (best_run (map (Z.eqb 0) (words b))) as [[bb n]|].
  - pose proof R as [[LE Z] [N _]]. rewrite LW in LE. clear Z SK QD.
    assert (SH : forall s, s = joined (firstn bb (words b)) ++ lit "::" ++ joined (skipn (bb + n) (words b)) ->
      ~ ends_like_ipv4 (words b) bb n -> recommended (words b) s).
    { intros s -> NE. apply (rec_short _ bb n); [exact R|exact NE| |]; apply plain_joined.
      - apply Forall_forall. intros x X. rewrite Forall_forall in RW. apply RW. rewrite <- (firstn_skipn bb (words b)). apply in_or_app. now left.
      - apply Forall_forall. intros x X. rewrite Forall_forall in RW. apply RW. rewrite <- (firstn_skipn (bb + n) (words b)). apply in_or_app. now right. }
    unfold words in *. cbn [map] in *.
    assert (BB : bb = 0%nat \/ bb = 1%nat \/ bb = 2%nat \/ bb = 3%nat \/ bb = 4%nat \/ bb = 5%nat \/ bb = 6%nat) by lia.
    assert (NN : n = 2%nat \/ n = 3%nat \/ n = 4%nat \/ n = 5%nat \/ n = 6%nat \/ n = 7%nat \/ n = 8%nat) by lia.
    destruct BB as [->|[->|[->|[->|[->|[->| ->]]]]]]; destruct NN as [->|[->|[->|[->|[->|[->| ->]]]]]];
      try (exfalso; clear - LE; lia).
    all: cbn [ntop6_loop Nat.leb Nat.ltb Nat.eqb Nat.add andb orb app] in *.
    all: try solve [apply SH; [change (lit "::") with [58; 58]; cbn [firstn skipn joined app];
        repeat first [rewrite <- app_assoc | rewrite app_nil_r | progress cbn [app]]; reflexivity
      |unfold ends_like_ipv4; intros [NE1 [NE2|[NE2 _]]]; discriminate]].
    + destruct (word b 5 =? 65535) eqn:W.
      * apply Z.eqb_eq in W. rewrite W in *. change (hex_string 65535) with (lit "ffff"). cbn [app lit].
        apply (rec_mapped _ (inet_ntop4 (skipn 12 b))); [exact R|reflexivity|exact DT].
      * apply Z.eqb_neq in W. apply SH.
        -- change (lit "::") with [58; 58]. cbn [firstn skipn joined app].
           repeat first [rewrite <- app_assoc | rewrite app_nil_r | progress cbn [app]]. reflexivity.
        -- unfold ends_like_ipv4. intros [_ [NE|[_ NE]]]; [discriminate|]. cbn [nth] in NE. contradiction.
    + apply (rec_compatible _ (inet_ntop4 (skipn 12 b))); [exact R|exact DT].
  - apply rec_full; [exact R|]. unfold words in *. cbn [map] in *. cbn [ntop6_loop Nat.eqb app]. rewrite app_nil_r.
    apply (plain_joined _ RW).
Qed.
Lemma bytes_words b : bytes16 b -> word_list_bytes (words b) = b /\ Forall (fun w => 0 <= w < 65536) (words b).
Proof.
  intros [L F]. destruct b as [|b0 [|b1 [|b2 [|b3 [|b4 [|b5 [|b6 [|b7 [|b8 [|b9 [|b10 [|b11 [|b12 [|b13 [|b14 [|b15 [|]]]]]]]]]]]]]]]]]; try discriminate.
  unfold words, word, at_. cbn [map nth Nat.mul Nat.add]. bytes F. unfold is_byte in *.
  split; [|repeat constructor; lia]. unfold word_list_bytes. cbn [map concat word_bytes app]. repeat f_equal; lia.
Qed.
Lemma ntop6_text b : bytes16 b -> recommended_text (inet_ntop6 b) (num b).
Proof.
  intros B. destruct (bytes_words b B) as [E F]. exists (words b). split; [reflexivity|]. split; [exact F|].
  split; [|now apply ntop6_recommended]. rewrite <- num_words by exact F. now rewrite E.
Qed.
