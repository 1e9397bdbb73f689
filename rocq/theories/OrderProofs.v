(* The entries of a text, run in another order. *)
From Coq Require Import ZifyBool ZifyNat Permutation Sorted.
From Verif Require Import Base Addr Spec Range SpecRange Inet SpecText Parser SpecParser SpecLanguage SpecComplaint.
From Verif Require AddrProofs AddrProofs2 AddrProofs4 RangeProofs ParserProofs ParserProofs2
  ParserProofs3 ParserProofs4 ParserProofs5 ParserProofs6 ParserProofs7 ParserProofs15 ParserProofs16 PropRange PropParser PropParser2 PropParser3.
Import AddrProofs AddrProofs2 AddrProofs4 RangeProofs ParserProofs ParserProofs2
  ParserProofs3 ParserProofs4 ParserProofs5 ParserProofs6 ParserProofs7 ParserProofs15 PropParser PropParser2 PropParser3.
Local Open Scope Z_scope.

Section Runs.
Variables (y : sys) (g : resolver) (p0 : parser).

(* what one entry does, whatever was logged before *)
Definition does (t : str) (ms : list str) (r : res (list addr_range)) : Prop :=
  forall e c, parse_cidr y g t (with_errors p0 e c) = (with_errors p0 (e ++ flat ms) (c + Z.of_nat (length ms)), r).
Lemma does_some t : exists ms r, does t ms r.
Proof. destruct (cidr_made y g p0 t) as (ms & r & E & _). exists ms, r. exact E. Qed.
Lemma does_once t ms r ms2 r2 : does t ms r -> does t ms2 r2 -> r = r2 /\ length ms = length ms2.
Proof.
  intros H H2. specialize (H [] 0). specialize (H2 [] 0). rewrite H2 in H. split; [congruence|].
  apply (f_equal fst) in H. apply (f_equal f_error_count) in H. cbn [fst with_errors f_error_count] in H. lia.
Qed.
Lemma does_trim t t2 ms r : trim_string t = trim_string t2 -> does t ms r -> does t2 ms r.
Proof. intros E H e c. rewrite cidr_trim, <- E, <- cidr_trim. apply H. Qed.

Definition took (t : str) (v : list str * list addr_range) : Prop := does t (fst v) (Ok (snd v)).
Lemma took_trim t t2 v : trim_string t = trim_string t2 -> took t v -> took t2 v.
Proof. apply does_trim. Qed.
Definition said (vs : list (list str * list addr_range)) : list str := concat (map fst vs).
Definition gave (vs : list (list str * list addr_range)) : list addr_range := concat (map snd vs).

Lemma run_all es vs : Forall2 took es vs -> forall e c,
  one_after_the_other (parse_cidr y g) es (with_errors p0 e c)
  = (with_errors p0 (e ++ flat (said vs)) (c + Z.of_nat (length (said vs))), Ok (gave vs)).
Proof.
  induction 1 as [|t v es vs H F IH]; intros e c; cbn [one_after_the_other].
  - unfold said, gave, flat. cbn. now rewrite app_nil_r, Z.add_0_r.
  - unfold took, does in H. rewrite H, IH. unfold said, gave. cbn [map concat]. rewrite flat_app, app_length, app_assoc. do 2 f_equal. lia.
Qed.
Lemma ran_all es : forall e c p2 l, one_after_the_other (parse_cidr y g) es (with_errors p0 e c) = (p2, Ok l) ->
  exists vs, Forall2 took es vs.
Proof.
  induction es as [|t es IH]; intros e c p2 l E; [exists []; constructor|]. cbn [one_after_the_other] in E.
  destruct (does_some t) as (ms & r & H). unfold does in H. rewrite H in E. destruct r as [a|x| |]; try discriminate.
  destruct (one_after_the_other (parse_cidr y g) es _) as [p3 [b|x| |]] eqn:E2; try discriminate.
  destruct (IH _ _ _ _ E2) as [vs F]. exists ((ms, a) :: vs). constructor; [exact H|exact F].
Qed.

Lemma took_trims ts es vs : Forall2 (fun t e => trim_string t = trim_string e) ts es -> (Forall2 took ts vs <-> Forall2 took es vs).
Proof.
  intros F. revert vs. induction F as [|t e ts es E F IH]; intros vs; [split; intros H; inversion H; subst; constructor|].
  split; intros H; inversion H as [|? v ? vs2 H1 H2]; subst; (constructor; [|now apply IH]).
  - now apply (took_trim t e).
  - now apply (took_trim e t).
Qed.

Theorem unsorted_run s ts p2 l : unsorted p0 -> entries_of p0 s ts -> parse y g s p0 = (p2, Ok l) ->
  exists vs, Forall2 took ts vs /\ p2 = with_errors p0 (f_error p0 ++ flat (said vs)) (f_error_count p0 + Z.of_nat (length (said vs))) /\ l = gave vs.
Proof.
  intros U E EP. destruct (entries_parsed y g p0 s ts U E) as (es & X & F). rewrite X in EP.
  rewrite <- (with_errors_id p0) in EP. destruct (ran_all _ _ _ _ _ EP) as [vs V]. rewrite (run_all _ _ V) in EP.
  exists vs. split; [now apply (took_trims ts es vs F)|]. split; congruence.
Qed.
Theorem unsorted_runs s ts vs : unsorted p0 -> entries_of p0 s ts -> Forall2 took ts vs ->
  parse y g s p0 = (with_errors p0 (f_error p0 ++ flat (said vs)) (f_error_count p0 + Z.of_nat (length (said vs))), Ok (gave vs)).
Proof.
  intros U E V. destruct (entries_parsed y g p0 s ts U E) as (es & X & F). rewrite X.
  apply (took_trims ts es vs F) in V. pose proof (run_all es vs V (f_error p0) (f_error_count p0)) as R. now rewrite with_errors_id in R.
Qed.
End Runs.

Lemma concat_perm {A} (l l' : list (list A)) : Permutation l l' -> Permutation (concat l) (concat l').
Proof.
  induction 1; cbn [concat]; [auto|now apply Permutation_app_head| |eapply perm_trans; eassumption].
  rewrite !app_assoc. apply Permutation_app_tail, Permutation_app_comm.
Qed.
Lemma said_perm vs vs' : Permutation vs vs' -> Permutation (said vs) (said vs').
Proof. intros P. now apply concat_perm, Permutation_map. Qed.
Lemma gave_perm vs vs' : Permutation vs vs' -> Permutation (gave vs) (gave vs').
Proof. intros P. now apply concat_perm, Permutation_map. Qed.

(* ---------- sorted lists ---------- *)
Definition span (r : addr_range) : Z * Z := (lo r, hi r).
Lemma insert_span l l' : Forall nonempty l -> Forall nonempty l' -> Permutation (map span l) (map span l') -> StronglySorted in_order l -> StronglySorted in_order l' -> map span l = map span l'.
Proof.
  revert l'. induction l as [|a l IH]; intros l' N N' P S S'.
  - cbn [map] in P. apply Permutation_nil in P. now rewrite P.
  - destruct l' as [|b l']; [apply Permutation_sym, Permutation_nil in P; discriminate|].
    inversion N as [|? ? Na Nl]; subst. inversion N' as [|? ? Nb Nl']; subst.
    inversion S as [|? ? S1 F1]; subst. inversion S' as [|? ? S2 F2]; subst.
    assert (span a = span b) as E.
    { assert (In (span b) (map span (a :: l))) as I1 by (apply (Permutation_in _ (Permutation_sym P)); now left).
      assert (In (span a) (map span (b :: l'))) as I2 by (apply (Permutation_in _ P); now left).
      destruct I1 as [I1|I1]; [exact I1|]. destruct I2 as [I2|I2]; [symmetry; exact I2|].
      apply in_map_iff in I1. destruct I1 as (b2 & E1 & I1). apply in_map_iff in I2. destruct I2 as (a2 & E2 & I2).
      rewrite Forall_forall in F1, F2, Nl, Nl'. destruct (F1 b2 I1 (Nl _ I1)) as [_ H1]. destruct (F2 a2 I2 (Nl' _ I2)) as [_ H2].
      unfold span in *. assert (lo b2 = lo b /\ hi b2 = hi b) as [? ?] by (split; congruence). assert (lo a2 = lo a /\ hi a2 = hi a) as [? ?] by (split; congruence).
      f_equal; lia. }
    cbn [map] in *. rewrite E in *. f_equal. apply IH; auto. now apply Permutation_cons_inv in P.
Qed.
Lemma same_spans l l' : Forall nonempty l -> Permutation l l' -> StronglySorted in_order l -> StronglySorted in_order l' -> map span l = map span l'.
Proof.
  intros N P. apply insert_span; [exact N|exact (Permutation_Forall P N)|now apply Permutation_map].
Qed.

(* ---------- merged lists ---------- *)
Lemma pairwise_in {A} (R : A -> A -> Prop) l : (forall a b, R a b -> R b a) -> pairwise R l -> forall a b, In a l -> In b l -> a = b \/ R a b.
Proof.
  intros Sy. induction l as [|x l IH]; intros P a b Ia Ib; [destruct Ia|]. cbn [pairwise] in P. destruct P as [F P]. rewrite Forall_forall in F.
  destruct Ia as [->|Ia], Ib as [->|Ib]; auto.
Qed.
Lemma inside_one l l' : pairwise apart l' -> (forall v, covered l v -> covered l' v) ->
  forall r, In r l -> nonempty r -> exists r', In r' l' /\ nonempty r' /\ lo r' <= lo r /\ hi r <= hi r'.
Proof.
  intros A C r I [D N]. assert (covered l (lo r)) as K by (exists r; split; [exact I|]; split; [exact D|lia]).
  destruct (C _ K) as (r' & I' & D' & B). exists r'. split; [exact I'|]. split; [split; [exact D'|lia]|]. split; [lia|].
  destruct (Z_le_gt_dec (hi r) (hi r')) as [L|L]; [exact L|exfalso].
  assert (covered l (hi r' + 1)) as K2 by (exists r; split; [exact I|]; split; [exact D|lia]).
  destruct (C _ K2) as (r2 & I2 & D2 & B2). destruct (pairwise_in apart l' apart_sym A r' r2 I' I2) as [->|X]; [lia|].
  destruct X as [X|X]; [split; [exact D'|lia]|split; [exact D2|lia]|lia|lia].
Qed.
Lemma same_blocks l l' : pairwise apart l -> pairwise apart l' -> (forall v, covered l v <-> covered l' v) ->
  forall r, In r l -> nonempty r -> exists r', In r' l' /\ span r' = span r.
Proof.
  intros A A' C r I N. destruct (inside_one l l' A' (fun v => proj1 (C v)) r I N) as (r' & I' & N' & L & H).
  destruct (inside_one l' l A (fun v => proj2 (C v)) r' I' N') as (r2 & I2 & N2 & L2 & H2).
  exists r'. split; [exact I'|]. destruct (pairwise_in apart l apart_sym A r r2 I I2) as [<-|X].
  - unfold span. f_equal; lia.
  - destruct (X N N2) as [Y|Y]; destruct N; lia.
Qed.

(* ---------- without_sort ---------- *)
Lemma without_sort_allow p k : get_allow (without_sort p) k = get_allow p k.
Proof. now rewrite without_sort_eq. Qed.
Lemma without_sort_entries p s ts : entries_of p s ts -> entries_of (without_sort p) s ts.
Proof.
  rewrite without_sort_eq. intros E.
  destruct E as [s t NS UP H|b c r NS NE F Sc|s ps ts S C H F|s lines ts C NL H F].
  - now apply one_entry.
  - now apply comment_kept.
  - now apply (each_piece _ s ps ts).
  - now apply (first_of_lines _ s lines ts).
Qed.
Lemma without_sort_unsorted p : unsorted (without_sort p).
Proof. rewrite without_sort_eq. unfold unsorted. cbn [f_sort with_sort]. rewrite <- Z.land_assoc. apply Z.land_0_r. Qed.
