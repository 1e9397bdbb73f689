(* Merging the ranges of the entries, run in another order. *)
From Coq Require Import ZifyBool ZifyNat Permutation Sorted.
From Verif Require Import Base Addr Spec Range SpecRange Inet SpecText Parser SpecParser SpecLanguage.
From Verif Require AddrProofs AddrProofs2 AddrProofs4 RangeProofs ParserProofs ParserProofs2
  ParserProofs3 ParserProofs4 ParserProofs5 ParserProofs6 ParserProofs7 ParserProofs15 PropRange PropParser PropParser2 PropParser3 PropParser15 OrderProofs.
Import AddrProofs AddrProofs2 AddrProofs4 RangeProofs ParserProofs ParserProofs2
  ParserProofs3 ParserProofs4 ParserProofs5 ParserProofs6 ParserProofs7 ParserProofs15 PropParser PropParser2 PropParser3 OrderProofs.
Local Open Scope Z_scope.

(* ---------- masks are only put on the first address ---------- *)
Definition plain_to (r : addr_range) : Prop := f_mask (f_to r) = repeat 255 16.
Lemma apply_masks_to g mask ipv4 : forall l, Forall plain_to l -> yields (apply_masks g mask ipv4 l) (Forall plain_to).
Proof.
  induction l as [|am l IH]; intros F; cbn [apply_masks]; [apply yields_ret; constructor|].
  inversion F as [|? ? F1 F2]; subst. eapply (yields_bind _ _ (fun _ => True)); [intros ? ? ? _; exact I|]. intros m _.
  eapply (yields_bind _ _ (fun _ => True)); [intros ? ? ? _; exact I|]. intros a _.
  eapply yields_bind; [apply IH; exact F2|]. intros rest Hr. apply yields_ret. constructor; [exact F1|exact Hr].
Qed.
Lemma ones_to l : onesl l -> Forall plain_to l.
Proof. apply Forall_impl. now intros r [_ H]. Qed.
Lemma cidr_to y g s : yields (parse_cidr y g s) (Forall plain_to).
Proof.
  unfold parse_cidr. cbv zeta. eapply (yields_bind _ _ (fun _ => True)); [intros ? ? ? _; exact I|]. intros b _. destruct b.
  - destruct (match find_char 47 (trim_string s) with Some p => _ | None => _ end) as [ad mask].
    eapply (yields_bind _ _ (fun _ => True)); [intros ? ? ? _; exact I|]. intros n _.
    eapply yields_bind; [apply address_ones|]. intros [l ipv4] Hl. cbn [fst] in Hl.
    eapply yields_bind; [apply apply_masks_to; now apply ones_to|]. intros l2 H2.
    eapply (yields_bind _ _ (fun _ => True)); [intros ? ? ? _; exact I|]. intros n2 _. destruct (n =? n2); apply yields_ret; [exact H2|constructor].
  - eapply yields_bind; [apply address_ones|]. intros x Hx. apply yields_ret. now apply ones_to.
Qed.
Lemma gave_to y g p0 ts vs : Forall2 (took y g p0) ts vs -> Forall plain_to (gave vs).
Proof.
  induction 1 as [|t v ts vs T F IH]; [constructor|]. unfold gave. cbn [map concat]. apply Forall_app. split; [|exact IH].
  exact (cidr_to y g t _ _ _ (T [] 0)).
Qed.

(* ---------- merging ---------- *)
(* a range which merging may produce or take *)
Record fine (r : addr_range) : Prop := mk_fine {
  fi_wf : range_wf r;
  fi_nonempty : nonempty r;
  fi_to : get_mask_size (f_to r) = 128 }.
Lemma fine_defined r : fine r -> defined r.
Proof. now intros [_ [D _] _]. Qed.
(* the same but for what neither matching nor merging looks at *)
Record alike2 (u v : addr_range) : Prop := mk_alike2 {
  al_u : fine u; al_v : fine v;
  al_from : f_has_from u = true /\ f_has_from v = true;
  al_to : f_has_to u = f_has_to v;
  al_lo : lo u = lo v; al_hi : hi u = hi v;
  al_mask : mask_value (f_from u) = mask_value (f_from v);
  al_size : get_mask_size (f_from u) = get_mask_size (f_from v) }.
Definition alike (u v : addr_range) : Prop := fine u /\ u = v \/ alike2 u v.
Lemma alike_refl u : fine u -> alike u u.
Proof. left. now split. Qed.
Lemma alike_trans a b c : alike a b -> alike b c -> alike a c.
Proof.
  intros [[F ->]|A] [[G ->]|B]; [left; now split|now right|now right|right].
  destruct A as [A1 A2 [A3 A3'] A4 A5 A6 A7 A8], B as [B1 B2 [B3 B3'] B4 B5 B6 B7 B8]. constructor; auto; congruence.
Qed.
Lemma alike_left a b : alike a b -> fine a. Proof. intros [[F _]|[F _]]; exact F. Qed.
Lemma alike_right a b : alike a b -> fine b. Proof. intros [[F <-]|[_ F]]; exact F. Qed.
Lemma alike_full a b : alike a b -> (full a <-> full b).
Proof. intros [[_ ->]|[_ _ [A A'] B _ _ _ _]]; [reflexivity|]. unfold full. rewrite A, A', B. reflexivity. Qed.
Lemma alike_lo a b : alike a b -> lo a = lo b. Proof. intros [[_ ->]|A]; [reflexivity|apply A]. Qed.
Lemma alike_hi a b : alike a b -> hi a = hi b. Proof. intros [[_ ->]|A]; [reflexivity|apply A]. Qed.
Lemma alike_size a b : alike a b -> get_mask_size (f_from a) = get_mask_size (f_from b). Proof. intros [[_ ->]|A]; [reflexivity|apply A]. Qed.
Lemma alike_match a b x : addr_wf x -> alike a b -> range_match a x = range_match b x.
Proof.
  intros Wx [[_ ->]|A]; [reflexivity|]. destruct A as [Fa Fb [Ha Hb] T L H M Z].
  destruct (f_has_to a) eqn:Ta.
  - rewrite !range_match_full by (apply Fa || apply Fb || exact Wx || (split; congruence)). now rewrite L, H.
  - rewrite !range_match_single by (intros [_ X]; congruence). rewrite Ha, Hb. f_equal.
    pose proof (match_land (f_from a) x (wf_from _ (fi_wf _ Fa)) Wx) as Ma. pose proof (match_land (f_from b) x (wf_from _ (fi_wf _ Fb)) Wx) as Mb.
    assert (value (f_from a) = value (f_from b)) as V. { unfold lo in L. now rewrite Ha, Hb in L. }
    rewrite V, M in Ma. rewrite <- Ma in Mb. destruct (match_ (f_from a) x false), (match_ (f_from b) x false); auto; [symmetry|]; now apply Mb.
Qed.

(* what merging does, outcome by outcome *)
Definition alikes (a b : res (list addr_range)) : Prop :=
  match a, b with
  | Ok l, Ok l' => Forall2 alike l l'
  | Throw e, Throw e' => e = e'
  | _, _ => False
  end.
Lemma alikes_trans a b c : alikes a b -> alikes b c -> alikes a c.
Proof.
  destruct a as [a|x| |], b as [b|y| |], c as [c|z| |]; cbn [alikes]; try tauto; try congruence.
  intros F. revert c. induction F as [|u v a b U F IH]; intros c G; inversion G; subst; constructor; [eapply alike_trans; eassumption|now apply IH].
Qed.

Lemma union_fine a b : fine a -> fine b ->
  if touching a b
  then if fitsb (union_from_mask a b) (Z.min (lo a) (lo b))
       then exists u, union_if_possible a b = Ok u /\ fine u /\ is_defined u && negb (is_empty u) = true
         /\ f_has_from u = true /\ (f_has_to u = true <-> full a \/ full b \/ lo a <> lo b)
         /\ lo u = Z.min (lo a) (lo b) /\ hi u = Z.max (hi a) (hi b)
         /\ mask_value (f_from u) = prefix_mask (union_from_mask a b) /\ get_mask_size (f_from u) = union_from_mask a b
       else union_if_possible a b = Throw E_out_of_range
  else exists u, union_if_possible a b = Ok u /\ is_defined u && negb (is_empty u) = false.
Proof.
  intros [Wa [Da Na] Ta] [Wb [Db Nb] Tb]. pose proof (union_spec a b Wa Wb Da Db) as S. destruct (touching a b).
  - destruct (fitsb (union_from_mask a b) _) eqn:F1; cbn [andb] in S; [|exact S].
    assert (fitsb (union_to_mask a b) (Z.max (hi a) (hi b)) = true) as F2.
    { unfold union_to_mask, fitsb. rewrite Ta, Tb. change (Z.min 128 128) with 128. now destruct ((v4_base <=? _) && (_ <? v4_base + _)). }
    rewrite F2 in S. destruct S as (u & E & Wu & HF & HT & L & H & MV & MF & MT). exists u. split; [exact E|].
    assert (nonempty u) as Nu by (split; [now left|lia]). split.
    { constructor; [exact Wu|exact Nu|]. destruct (f_has_to u) eqn:Fu.
      - rewrite MT by reflexivity. unfold union_to_mask. rewrite Ta, Tb. reflexivity.
      - eapply PropParser15.missing_to; eassumption. }
    split. { assert (defined u) as Du by now left. rewrite (proj2 (is_defined_spec u) Du). apply (nonempty_bool u Wu Du) in Nu. now rewrite Nu. }
    auto 10.
  - exists range_new. split; [exact S|]. vm_compute. reflexivity.
Qed.
Lemma touching_lh a b c d : lo a = lo b -> hi a = hi b -> lo c = lo d -> hi c = hi d -> touching a c = touching b d.
Proof. intros A B C D. unfold touching. now rewrite A, B, C, D. Qed.
Lemma same_bool b c : (b = true <-> c = true) -> b = c.
Proof. destruct b, c; auto; intros [A B]; [symmetry|]; auto. Qed.

Lemma merge_step cur n rest : merge_from cur (n :: rest) =
  let! u := union_if_possible cur n in if is_defined u && negb (is_empty u) then merge_from u rest else let! l := merge_from n rest in Ok (cur :: l).
Proof. reflexivity. Qed.
Lemma emit_alike cur cur' a b : alike cur cur' -> alikes a b -> alikes (let! l := a in Ok (cur :: l)) (let! l := b in Ok (cur' :: l)).
Proof. intros A. destruct a as [a|x| |], b as [b|z| |]; cbn [alikes rbind]; try tauto. intros F. now constructor. Qed.

Ltac go := repeat match goal with H : union_if_possible ?a ?b = _ |- context [union_if_possible ?a ?b] => rewrite H end; cbn [rbind];
  repeat match goal with H : is_defined ?u && negb (is_empty ?u) = _ |- context [is_defined ?u && negb (is_empty ?u)] => rewrite H end.
(* going on with the same ranges *)
Lemma step_alike cur cur' n rest rest' : alike cur cur' -> fine n ->
  (forall u u', alike u u' -> alikes (merge_from u rest) (merge_from u' rest')) ->
  alikes (merge_from cur (n :: rest)) (merge_from cur' (n :: rest')).
Proof.
  intros A Fn K. rewrite !merge_step.
  pose proof (union_fine cur n (alike_left _ _ A) Fn) as U. pose proof (union_fine cur' n (alike_right _ _ A) Fn) as U'.
  pose proof (alike_lo _ _ A) as L. pose proof (alike_hi _ _ A) as H. pose proof (alike_size _ _ A) as Z. pose proof (alike_full _ _ A) as FU.
  rewrite <- (touching_lh cur cur' n n L H eq_refl eq_refl) in U'. unfold union_from_mask in *. rewrite <- L, <- Z in U'.
  destruct (touching cur n).
  - destruct (fitsb _ _).
    + destruct U as (u & EU & Fu & DU & HF & HT & Lu & Hu & Mu & Zu). destruct U' as (u' & EU' & Fu' & DU' & HF' & HT' & Lu' & Hu' & Mu' & Zu').
      go. apply K. right. constructor; auto; try congruence. apply same_bool. rewrite HT, HT', FU. reflexivity.
    + go. reflexivity.
  - destruct U as (u & EU & DU). destruct U' as (u' & EU' & DU'). go. apply emit_alike; [exact A|]. apply K. now apply alike_refl.
Qed.
Lemma merge_alike : forall rest cur cur', alike cur cur' -> Forall fine rest -> alikes (merge_from cur rest) (merge_from cur' rest).
Proof.
  induction rest as [|n rest IH]; intros cur cur' A F; [cbn [merge_from alikes]; constructor; [exact A|constructor]|].
  inversion F; subst. apply step_alike; auto.
Qed.

Lemma min_fits a b v : fitsb (Z.min a b) v = true -> a <= 128 -> fitsb a v = true.
Proof. unfold fitsb. destruct ((v4_base <=? v) && (v <? v4_base + 2 ^ 32)); lia. Qed.
Lemma size_le a : addr_wf a -> get_mask_size a <= 128.
Proof. intros W. pose proof (PropParser15.size_range a W). lia. Qed.

Lemma to_flag (A B C : Prop) x y : (true = true /\ (A \/ B \/ x <> y)) \/ C \/ Z.min x y <> y <-> (A \/ B \/ C) \/ x <> y.
Proof.
  assert (Z.min x y <> y -> x <> y) as H by lia. split; [|clear H; tauto]. intros [[_ X]|[X|X]]; [|auto|auto]. destruct X as [X|[X|X]]; auto.
Qed.
(* two neighbours with the same bounds, first in the list *)
Lemma head_swap a b rest : fine a -> fine b -> lo a = lo b -> hi a = hi b -> Forall fine rest ->
  alikes (merge_from a (b :: rest)) (merge_from b (a :: rest)).
Proof.
  intros Fa Fb L H F. rewrite !merge_step. pose proof (union_fine a b Fa Fb) as U. pose proof (union_fine b a Fb Fa) as U'.
  assert (touching a b = true /\ touching b a = true) as [T T'] by (unfold touching; destruct Fa as [_ [_ Na] _], Fb as [_ [_ Nb] _]; lia).
  rewrite T in U. rewrite T' in U'. unfold union_from_mask in *. rewrite (Z.min_comm (get_mask_size (f_from b))), (Z.min_comm (lo b)) in U'.
  destruct (fitsb _ _).
  - destruct U as (u & EU & Fu & DU & HF & HT & Lu & Hu & Mu & Zu). destruct U' as (u' & EU' & Fu' & DU' & HF' & HT' & Lu' & Hu' & Mu' & Zu').
    go. apply merge_alike; [|exact F]. right. constructor; auto; try congruence; [|lia..].
    apply same_bool. rewrite HT, HT'. intuition congruence.
  - go. reflexivity.
Qed.
Lemma later_swap cur a b rest : fine cur -> fine a -> fine b -> lo a = lo b -> hi a = hi b -> Forall fine rest ->
  alikes (merge_from cur (a :: b :: rest)) (merge_from cur (b :: a :: rest)).
Proof.
  intros Fc Fa Fb L H F. rewrite (merge_step cur a), (merge_step cur b). pose proof (union_fine cur a Fc Fa) as U. pose proof (union_fine cur b Fc Fb) as U'.
  rewrite <- (touching_lh cur cur a b eq_refl eq_refl L H) in U'. rewrite <- L, <- H in U'.
  destruct (touching cur a) eqn:T.
  2:{ destruct U as (u & EU & DU). destruct U' as (u' & EU' & DU'). go. apply emit_alike; [now apply alike_refl|]. now apply head_swap. }
  unfold union_from_mask in *.
  set (fc := get_mask_size (f_from cur)) in *. set (fa := get_mask_size (f_from a)) in *. set (fb := get_mask_size (f_from b)) in *.
  assert (fc <= 128 /\ fa <= 128 /\ fb <= 128) as (B1 & B2 & B3).
  { unfold fc, fa, fb. split; [|split]; apply size_le; [apply (wf_from _ (fi_wf _ Fc))|apply (wf_from _ (fi_wf _ Fa))|apply (wf_from _ (fi_wf _ Fb))]. }
  assert (forall u, lo u = Z.min (lo cur) (lo a) -> hi u = Z.max (hi cur) (hi a) -> touching u a = true /\ touching u b = true) as TT.
  { intros u Lu Hu. unfold touching. destruct Fa as [_ [_ Na] _], Fb as [_ [_ Nb] _]. lia. }
  (* after a, then b *)
  assert (forall u, fine u -> f_has_from u = true -> lo u = Z.min (lo cur) (lo a) -> hi u = Z.max (hi cur) (hi a) -> get_mask_size (f_from u) = Z.min fc fa ->
    (f_has_to u = true <-> full cur \/ full a \/ lo cur <> lo a) ->
    if fitsb (Z.min (Z.min fc fa) fb) (Z.min (lo cur) (lo a))
    then exists w, union_if_possible u b = Ok w /\ is_defined w && negb (is_empty w) = true /\ fine w /\ f_has_from w = true
      /\ (f_has_to w = true <-> (full cur \/ full a \/ full b) \/ lo cur <> lo a) /\ lo w = Z.min (lo cur) (lo a) /\ hi w = Z.max (hi cur) (hi a)
      /\ mask_value (f_from w) = prefix_mask (Z.min (Z.min fc fa) fb) /\ get_mask_size (f_from w) = Z.min (Z.min fc fa) fb
    else union_if_possible u b = Throw E_out_of_range) as SB.
  { intros u Fu HF Lu Hu Zu HT. pose proof (union_fine u b Fu Fb) as V. rewrite (proj2 (TT u Lu Hu)) in V. unfold union_from_mask in V. fold fb in V. rewrite Zu in V.
    replace (Z.min (lo u) (lo b)) with (Z.min (lo cur) (lo a)) in V by lia. replace (Z.max (hi u) (hi b)) with (Z.max (hi cur) (hi a)) in V by lia.
    destruct (fitsb (Z.min (Z.min fc fa) fb) (Z.min (lo cur) (lo a))); [|exact V]. destruct V as (w & E & Fw & D & HFw & HTw & Lw & Hw & Mw & Zw). exists w. do 4 (split; [assumption|]).
    split; [|auto]. rewrite HTw. unfold full at 1. rewrite HF, HT. rewrite Lu, <- L. clear. apply to_flag. }
  assert (forall u, fine u -> f_has_from u = true -> lo u = Z.min (lo cur) (lo a) -> hi u = Z.max (hi cur) (hi a) -> get_mask_size (f_from u) = Z.min fc fb ->
    (f_has_to u = true <-> full cur \/ full b \/ lo cur <> lo a) ->
    if fitsb (Z.min (Z.min fc fa) fb) (Z.min (lo cur) (lo a))
    then exists w, union_if_possible u a = Ok w /\ is_defined w && negb (is_empty w) = true /\ fine w /\ f_has_from w = true
      /\ (f_has_to w = true <-> (full cur \/ full a \/ full b) \/ lo cur <> lo a) /\ lo w = Z.min (lo cur) (lo a) /\ hi w = Z.max (hi cur) (hi a)
      /\ mask_value (f_from w) = prefix_mask (Z.min (Z.min fc fa) fb) /\ get_mask_size (f_from w) = Z.min (Z.min fc fa) fb
    else union_if_possible u a = Throw E_out_of_range) as SA.
  { intros u Fu HF Lu Hu Zu HT. pose proof (union_fine u a Fu Fa) as V. rewrite (proj1 (TT u Lu Hu)) in V. unfold union_from_mask in V. fold fa in V. rewrite Zu in V.
    replace (Z.min (lo u) (lo a)) with (Z.min (lo cur) (lo a)) in V by lia. replace (Z.max (hi u) (hi a)) with (Z.max (hi cur) (hi a)) in V by lia.
    replace (Z.min (Z.min fc fb) fa) with (Z.min (Z.min fc fa) fb) in V by lia.
    destruct (fitsb (Z.min (Z.min fc fa) fb) (Z.min (lo cur) (lo a))); [|exact V]. destruct V as (w & E & Fw & D & HFw & HTw & Lw & Hw & Mw & Zw). exists w. do 4 (split; [assumption|]).
    split; [|auto]. rewrite HTw. unfold full at 1. rewrite HF, HT. rewrite Lu. clear. rewrite to_flag. clear. tauto. }
  destruct (fitsb (Z.min (Z.min fc fa) fb) (Z.min (lo cur) (lo a))) eqn:FIT.
  - assert (fitsb (Z.min fc fa) (Z.min (lo cur) (lo a)) = true) as F1 by (apply (min_fits _ fb); [exact FIT|lia]).
    assert (fitsb (Z.min fc fb) (Z.min (lo cur) (lo a)) = true) as F2.
    { apply (min_fits _ fa); [|lia]. now replace (Z.min (Z.min fc fb) fa) with (Z.min (Z.min fc fa) fb) by lia. }
    rewrite F1 in U. rewrite F2 in U'.
    destruct U as (u & EU & Fu & DU & HF & HT & Lu & Hu & Mu & Zu). destruct U' as (u' & EU' & Fu' & DU' & HF' & HT' & Lu' & Hu' & Mu' & Zu').
    go. rewrite (merge_step u b), (merge_step u' a).
    destruct (SB u Fu HF Lu Hu Zu HT) as (w & EW & DW & Fw & A1 & A2 & A3 & A4 & A5 & A6).
    destruct (SA u' Fu' HF' Lu' Hu' Zu' HT') as (w' & EW' & DW' & Fw' & A1' & A2' & A3' & A4' & A5' & A6').
    go. apply merge_alike; [|exact F]. right. constructor; auto; try congruence. apply same_bool. rewrite A2, A2'. reflexivity.
  - destruct (fitsb (Z.min fc fa) (Z.min (lo cur) (lo a))).
    + destruct U as (u & EU & Fu & DU & HF & HT & Lu & Hu & Mu & Zu). go. rewrite (merge_step u b), (SB u Fu HF Lu Hu Zu HT). go.
      destruct (fitsb (Z.min fc fb) (Z.min (lo cur) (lo a))).
      * destruct U' as (u' & EU' & Fu' & DU' & HF' & HT' & Lu' & Hu' & Mu' & Zu'). go. rewrite (merge_step u' a), (SA u' Fu' HF' Lu' Hu' Zu' HT'). reflexivity.
      * go. reflexivity.
    + go. destruct (fitsb (Z.min fc fb) (Z.min (lo cur) (lo a))).
      * destruct U' as (u' & EU' & Fu' & DU' & HF' & HT' & Lu' & Hu' & Mu' & Zu'). go. rewrite (merge_step u' a), (SA u' Fu' HF' Lu' Hu' Zu' HT'). reflexivity.
      * go. reflexivity.
Qed.

(* ---------- exchanging equals ---------- *)
Inductive ties : list addr_range -> list addr_range -> Prop :=
| ties_nil : ties [] []
| ties_skip a l l' : ties l l' -> ties (a :: l) (a :: l')
| ties_swap a b l : lo a = lo b -> hi a = hi b -> ties (a :: b :: l) (b :: a :: l)
| ties_trans l1 l2 l3 : ties l1 l2 -> ties l2 l3 -> ties l1 l3.
Lemma ties_refl l : ties l l.
Proof. induction l; constructor; auto. Qed.
Lemma ties_perm l l' : ties l l' -> Permutation l l'.
Proof. induction 1; [constructor|now constructor|constructor|eapply perm_trans; eassumption]. Qed.
Lemma ties_front a l1 l2 : Forall (fun r => lo r = lo a /\ hi r = hi a) l1 -> ties (a :: l1 ++ l2) (l1 ++ a :: l2).
Proof.
  induction l1 as [|b l1 IH]; intros F; [apply ties_refl|]. inversion F as [|? ? [L H] F2]; subst. cbn [app].
  apply (ties_trans _ (b :: a :: l1 ++ l2)); [now apply ties_swap|]. apply ties_skip. now apply IH.
Qed.
Lemma sorted_ties l : forall l', Forall nonempty l -> StronglySorted in_order l -> StronglySorted in_order l' -> Permutation l l' -> ties l l'.
Proof.
  induction l as [|a l IH]; intros l' N S S' P; [apply Permutation_nil in P; rewrite P; constructor|].
  assert (In a l') as I by (apply (Permutation_in a P); now left). destruct (in_split _ _ I) as (l1 & l2 & ->).
  pose proof (Permutation_Forall P N) as N'. inversion N as [|? ? Na Nl]; subst. inversion S as [|? ? S1 F1]; subst.
  assert (Permutation l (l1 ++ l2)) as P2 by (eapply Permutation_cons_app_inv; exact P).
  apply (ties_trans _ (a :: l1 ++ l2)).
  - apply ties_skip. apply IH; auto. clear - S'. induction l1 as [|x l1 IH]; cbn [app] in *.
    + now inversion S'.
    + inversion S' as [|? ? S F]; subst. constructor; [now apply IH|]. apply Forall_app in F as [Fa Fb]. inversion Fb; subst. apply Forall_app. now split.
  - apply ties_front. apply Forall_forall. intros r Ir.
    assert (in_order a r) as O1. { rewrite Forall_forall in F1. apply F1. apply (Permutation_in r (Permutation_sym P2)). apply in_or_app. now left. }
    assert (in_order r a) as O2.
    { clear - S' Ir. induction l1 as [|x l1 IH]; [destruct Ir|]. cbn [app] in S'. inversion S' as [|? ? S F]; subst. destruct Ir as [->|Ir]; [|now apply IH].
      rewrite Forall_forall in F. apply F. apply in_or_app. right. now left. }
    assert (nonempty r) as Nr. { rewrite Forall_forall in N'. apply N'. apply in_or_app. now left. }
    destruct (O1 Nr) as [_ X]. destruct (O2 Na) as [_ Y]. lia.
Qed.
Lemma ties_fine l l' : ties l l' -> Forall fine l -> Forall fine l'.
Proof. intros T. apply Permutation_Forall. now apply ties_perm. Qed.
Lemma ties_from l l' : ties l l' -> Forall fine l -> forall cur cur', alike cur cur' -> alikes (merge_from cur l) (merge_from cur' l').
Proof.
  induction 1 as [|a l l' T IH|a b l L H|l1 l2 l3 T1 IH1 T2 IH2]; intros F cur cur' A.
  - cbn [merge_from alikes]. constructor; [exact A|constructor].
  - inversion F; subst. apply step_alike; auto.
  - inversion F as [|? ? Fa F2]; subst. inversion F2; subst. eapply alikes_trans; [apply (later_swap cur a b l); auto; now apply (alike_left cur cur')|].
    apply merge_alike; [exact A|]. constructor; [assumption|]. now constructor.
  - eapply alikes_trans; [exact (IH1 F cur cur' A)|]. apply IH2; [now apply (ties_fine l1)|]. apply alike_refl. now apply (alike_right cur).
Qed.
Lemma ties_merge l l' : ties l l' -> Forall fine l -> alikes (merge_all l) (merge_all l').
Proof.
  induction 1 as [|a l l' T IH|a b l L H|l1 l2 l3 T1 IH1 T2 IH2]; intros F.
  - constructor.
  - inversion F; subst. cbn [merge_all]. apply ties_from; auto. now apply alike_refl.
  - inversion F as [|? ? Fa F2]; subst. inversion F2; subst. cbn [merge_all]. now apply head_swap.
  - eapply alikes_trans; [now apply IH1|]. apply IH2. now apply (ties_fine l1).
Qed.

Lemma arrange_other sort l l' : Forall fine l -> Permutation l l' -> Z.land sort SORT_MERGE <> 0 ->
  match arrange sort l, arrange sort l' with
  | Ok a, Ok b => exists a0 b0, Permutation a0 a /\ Permutation b0 b /\ Forall2 alike a0 b0
  | Throw e, Throw e' => e = e'
  | _, _ => False
  end.
Proof.
  intros F P M.
  assert (Forall fine l') as F' by now apply (Permutation_Forall P).
  assert (forall m, Forall fine m -> Forall good m) as G. { intros m. apply Forall_impl. intros r [W [D _] _]. now split. }
  assert (forall m, Forall fine m -> Forall nonempty m) as N. { intros m. apply Forall_impl. now intros r [_ X _]. }
  unfold arrange. rewrite lor_bit. replace (Z.land sort SORT_MERGE =? 0) with false by lia. rewrite andb_false_r. cbn [negb].
  assert (ties (stable_sort range_lt l) (stable_sort range_lt l')) as T.
  { apply sorted_ties; [|now apply sort_in_order, G..|].
    - apply (Permutation_Forall (stable_sort_perm range_lt l)). now apply N.
    - eapply perm_trans; [apply Permutation_sym, stable_sort_perm|]. eapply perm_trans; [exact P|apply stable_sort_perm]. }
  pose proof (ties_merge _ _ T (Permutation_Forall (stable_sort_perm range_lt l) F)) as A.
  destruct (merge_all (stable_sort range_lt l)) as [a|e| |], (merge_all (stable_sort range_lt l')) as [b|e'| |]; cbn [alikes] in A; try contradiction; cbn [rbind]; [|exact A].
  assert (Forall good a /\ Forall good b) as [Ga Gb].
  { clear - A G. split; apply G; induction A as [|u v a b U A IH]; constructor; auto; [now apply (alike_left u v)|now apply (alike_right u v)]. }
  rewrite !family_sort by assumption. exists a, b. split; [apply family_order_perm|]. split; [apply family_order_perm|exact A].
Qed.
