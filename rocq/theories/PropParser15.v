(* C145: when parse() throws although the text is good. *)
From Coq Require Import ZifyBool ZifyNat Permutation.
From Verif Require Import Base Addr Spec Range SpecRange Inet SpecText Parser SpecParser SpecParser2 SpecLanguage.
From Verif Require AddrProofs AddrProofs2 AddrProofs3 AddrProofs4 RangeProofs RangeProofs2 ParserProofs ParserProofs2
  ParserProofs3 ParserProofs4 ParserProofs5 ParserProofs6 ParserProofs7 PropRange PropParser PropParser2 PropParser3 PropParser14.
Import AddrProofs AddrProofs2 AddrProofs3 AddrProofs4 RangeProofs RangeProofs2 ParserProofs ParserProofs2
  ParserProofs3 ParserProofs4 ParserProofs5 ParserProofs6 ParserProofs7 PropParser PropParser2 PropParser3.
Local Open Scope Z_scope.

(* ---------- specification ---------- *)
(* One of the addresses of the ranges of l has this mask: n ones, or -1 when it
   is not a prefix. An end which is missing has the mask of a new address. *)
Definition has_mask (l : list addr_range) (n : Z) : Prop :=
  exists r, In r l /\ (get_mask_size (get_from r) = n \/ get_mask_size (get_to r) = n).
(* One of the ranges of l starts or ends with an IPv4 address. *)
Definition has_four (l : list addr_range) : Prop := exists r, In r l /\ (is_v4_value (lo r) \/ is_v4_value (hi r)).

(* ---------- proofs ---------- *)
Definition sized (l : list addr_range) (n : Z) : Prop := n = 128 \/ has_mask l n.
Definition limits (l : list addr_range) (v : Z) : Prop := exists r, In r l /\ (lo r = v \/ hi r = v).
Record made (l : list addr_range) (r : addr_range) : Prop := mk_made {
  ma_wf : range_wf r;
  ma_defined : defined r;
  ma_from : sized l (get_mask_size (f_from r));
  ma_to : sized l (get_mask_size (f_to r));
  ma_lo : limits l (lo r);
  ma_hi : limits l (hi r) }.
Lemma made_self l r : In r l -> good r -> made l r.
Proof.
  intros I [D W]. constructor; auto.
  - right. exists r. auto. - right. exists r. auto. - exists r. auto. - exists r. auto.
Qed.
Definition cause (l : list addr_range) : Prop := has_mask l (-1) \/ (exists n, 0 <= n < 96 /\ has_mask l n) /\ has_four l.
Lemma size_range a : addr_wf a -> -1 <= get_mask_size a <= 128.
Proof. intros W. destruct (get_mask_size_spec a W) as [(n & H & _ & ->)|[_ ->]]; lia. Qed.
Lemma unfit l n v : sized l n -> limits l v -> -1 <= n <= 128 -> fitsb n v = false -> cause l.
Proof.
  intros S L R F. unfold fitsb in F. destruct S as [->|S].
  { destruct ((v4_base <=? v) && (v <? v4_base + 2 ^ 32)); discriminate. }
  destruct (Z.eq_dec n (-1)) as [->|N]; [now left|right].
  destruct ((v4_base <=? v) && (v <? v4_base + 2 ^ 32)) eqn:V; [|lia].
  split; [exists n; split; [lia|exact S]|]. destruct L as (r & I & X). exists r. split; [exact I|].
  assert (is_v4_value v) by (unfold is_v4_value; lia). destruct X as [<-|<-]; auto.
Qed.
Lemma missing_to l r u : union_if_possible l r = Ok u -> f_has_to u = false -> get_mask_size (f_to u) = 128.
Proof.
  unfold union_if_possible. destruct (negb (is_defined l) && negb (is_defined r)).
  { intros E _. injection E as <-. vm_compute. reflexivity. }
  destruct (_ || _ || _ || _); [|intros E _; injection E as <-; vm_compute; reflexivity].
  destruct (set_mask_count _ _) as [f1 [[]|e| |]]; cbn [rbind]; try discriminate.
  destruct (set_mask_count _ _) as [t1 [[]|e| |]]; cbn [rbind]; try discriminate.
  destruct (_ || _ || _); intros E H; injection E as <-; [discriminate|vm_compute; reflexivity].
Qed.
Lemma min_sized l n m : sized l n -> sized l m -> sized l (Z.min n m).
Proof. intros A B. destruct (Z.min_spec n m) as [[_ ->]|[_ ->]]; assumption. Qed.
Lemma min_limits l n m : limits l n -> limits l m -> limits l (Z.min n m).
Proof. intros A B. destruct (Z.min_spec n m) as [[_ ->]|[_ ->]]; assumption. Qed.
Lemma max_limits l n m : limits l n -> limits l m -> limits l (Z.max n m).
Proof. intros A B. destruct (Z.max_spec n m) as [[_ ->]|[_ ->]]; assumption. Qed.

Lemma union_cause l a b : made l a -> made l b ->
  match union_if_possible a b with
  | Ok u => defined u -> made l u
  | Throw e => e = E_out_of_range /\ cause l
  | _ => False
  end.
Proof.
  intros [Wa Da Fa Ta La Ha] [Wb Db Fb Tb Lb Hb]. pose proof (union_spec a b Wa Wb Da Db) as S.
  destruct (touching a b); [|rewrite S; intros [X|X]; discriminate].
  destruct (fitsb (union_from_mask a b) _) eqn:F1; cbn [andb] in S.
  1:destruct (fitsb (union_to_mask a b) _) eqn:F2; cbn [andb] in S.
  - destruct S as (u & E & Wu & HF & _ & L & H & _ & MF & MT). rewrite E. intros D.
    pose proof (missing_to a b u E) as MM. constructor; auto.
    + rewrite MF. now apply min_sized.
    + destruct (f_has_to u); [rewrite (MT eq_refl); now apply min_sized|rewrite (MM eq_refl); now left].
    + rewrite L. now apply min_limits.
    + rewrite H. now apply max_limits.
  - rewrite S. split; [reflexivity|]. destruct Wa as [_ Wa], Wb as [_ Wb].
    pose proof (size_range _ Wa). pose proof (size_range _ Wb).
    apply (unfit l (union_to_mask a b) (Z.max (hi a) (hi b))); auto; unfold union_to_mask; [now apply min_sized|now apply max_limits|lia].
  - rewrite S. split; [reflexivity|]. destruct Wa as [Wa _], Wb as [Wb _].
    pose proof (size_range _ Wa). pose proof (size_range _ Wb).
    apply (unfit l (union_from_mask a b) (Z.min (lo a) (lo b))); auto; unfold union_from_mask; [now apply min_sized|now apply min_limits|lia].
Qed.
Lemma merge_cause l : forall rest cur, made l cur -> Forall (made l) rest ->
  match merge_from cur rest with
  | Ok _ => True
  | Throw e => e = E_out_of_range /\ cause l
  | _ => False
  end.
Proof.
  induction rest as [|n rest IH]; intros cur Mc Mr; cbn [merge_from]; [exact I|].
  inversion Mr as [|? ? Mn Mr2]; subst. pose proof (union_cause l cur n Mc Mn) as U.
  destruct (union_if_possible cur n) as [u|e| |]; cbn [rbind]; try contradiction; [|exact U].
  destruct (is_defined u && negb (is_empty u)) eqn:D.
  - apply IH; [|exact Mr2]. apply U. apply andb_prop in D as [D _]. now apply is_defined_spec.
  - specialize (IH n Mn Mr2). destruct (merge_from n rest) as [out|e| |]; cbn [rbind]; auto.
Qed.
Lemma arrange_cause sort l : Forall good l ->
  match arrange sort l with
  | Ok _ => True
  | Throw e => e = E_out_of_range /\ Z.land sort SORT_MERGE <> 0 /\ cause l
  | _ => False
  end.
Proof.
  intros G. unfold arrange.
  set (l1 := if negb (Z.land sort (Z.lor SORT_FULL SORT_MERGE) =? 0) then stable_sort range_lt l else l).
  assert (Permutation l l1) as P by (unfold l1; destruct (negb _); [apply stable_sort_perm|auto]).
  clearbody l1.
  assert (Forall (made l) l1) as F.
  { apply (Permutation_Forall P). apply Forall_forall. intros r I. apply made_self; [exact I|]. rewrite Forall_forall in G. now apply G. }
  destruct (Z.eqb_spec (Z.land sort SORT_MERGE) 0) as [M|M]; cbn [negb rbind].
  - now destruct (negb _); [|destruct (negb _)].
  - assert (match merge_all l1 with Ok _ => True | Throw e => e = E_out_of_range /\ cause l | _ => False end) as K.
    { destruct l1 as [|cur rest]; [exact I|]. inversion F; subst. now apply merge_cause. }
    destruct (merge_all l1) as [l2|e| |]; cbn [rbind]; [|destruct K; auto|contradiction..].
    now destruct (negb _); [|destruct (negb _)].
Qed.

(* ---------- theorems ---------- *)
(* A text which is parsed without sorting: with sorting, parse() can only throw
   std::out_of_range, when merging, and when one of the masks is not a prefix,
   or one has less than 96 ones and there is an IPv4 address. *)
Theorem C145_cause_partial : forall y g s p p0 l0 p' e, resolver_ok g ->
  parse y g s (without_sort p) = (p0, Ok l0) -> parse y g s p = (p', Throw e) ->
  e = E_out_of_range /\ Z.land (get_sort_order p) SORT_MERGE <> 0
  /\ (has_mask l0 (-1) \/ (exists n, 0 <= n < 96 /\ has_mask l0 n) /\ has_four l0).
Proof.
  intros y g s p p0 l0 p' e R E0 E.
  destruct (two_parses y g s p R) as (ms & re & E1 & E2 & G).
  rewrite E2 in E0. assert (re = Ok l0) as -> by congruence. cbn [rbind] in E1. specialize (G l0 eq_refl).
  rewrite E1 in E. assert (arrange (f_sort p) l0 = Throw e) as EA by congruence.
  pose proof (arrange_cause (f_sort p) l0 G) as K. rewrite EA in K. exact K.
Qed.
Print Assumptions C145_cause_partial.

(* So lists of IPv6 addresses with prefixes, and lists where each mask has at
   least 96 ones, are always merged. *)
Theorem C145_one_family_partial : forall y g s p p0 l0, resolver_ok g ->
  parse y g s (without_sort p) = (p0, Ok l0) -> ~ has_mask l0 (-1) ->
  ~ has_four l0 \/ (forall n, has_mask l0 n -> 96 <= n) ->
  exists p' l, parse y g s p = (p', Ok l).
Proof.
  intros y g s p p0 l0 R E0 NM F. destruct (PropParser2.C72_parse_is_defined y g s p R) as [[l E]|[e E]]; destruct (parse y g s p) as [p' o] eqn:EP; cbn [snd] in E; subst o.
  - eauto.
  - destruct (C145_cause_partial y g s p p0 l0 p' e R E0 EP) as (_ & _ & [X|[(n & N & X) Y]]); [contradiction|].
    destruct F as [F|F]; [contradiction|]. specialize (F n X). lia.
Qed.
Print Assumptions C145_one_family_partial.

(* A list of two good entries, both numbers with nothing for the resolver to
   do, which cannot be merged. *)
Definition numeric_merge : parser :=
  parser_run ref_sys no_answer [P_set_allow ALLOW_ADDRESS_LOOKUP false; P_set_allow ALLOW_MASK true;
    P_set_allow ALLOW_MULTI_ADDRESSES_COMMAS true; P_set_sort_order SORT_MERGE].
Definition sized_ends (r : parser * res (list addr_range)) : list (Z * Z * Z) :=
  match snd r with Ok l => map (fun r => (lo r, hi r, get_mask_size (get_from r))) l | _ => [] end.
Theorem C145_good_text_refuted : exists y g s p l0, resolver_ok g /\ parser_reachable y g p
  /\ get_allow p ALLOW_ADDRESS_LOOKUP = Ok false /\ get_allow p ALLOW_ADDRESS_MASK = Ok false /\ parser_get_protocol p = -1
  /\ parse y g s (without_sort p) = (without_sort p, Ok l0)
  /\ s = lit "::1:0:0:0/64,255.255.255.255"
  /\ parse y g s p = (p, Throw E_out_of_range).
Proof.
  exists ref_sys, no_answer, (lit "::1:0:0:0/64,255.255.255.255"), numeric_merge. eexists.
  split; [exact no_answer_ok|]. split; [apply run_reachable|]. do 3 (split; [reflexivity|]).
  split; [vm_compute; reflexivity|]. split; [reflexivity|]. vm_compute. reflexivity.
Qed.
Print Assumptions C145_good_text_refuted.

(* The hypotheses are met: by the list which throws, and by one which is
   merged although it has short masks. *)
Example C145_witness :
  (exists l0, parse ref_sys no_answer (lit "::1:0:0:0/64,255.255.255.255") (without_sort numeric_merge) = (without_sort numeric_merge, Ok l0)
     /\ has_mask l0 64 /\ has_four l0)
  /\ (exists l0, parse ref_sys no_answer (lit "fe80::/64,fe80::1/64") (without_sort numeric_merge) = (without_sort numeric_merge, Ok l0)
     /\ ~ has_mask l0 (-1) /\ ~ has_four l0)
  /\ sized_ends (parse ref_sys no_answer (lit "fe80::/64,fe80::1/64") numeric_merge)
     = [(0xfe80 * 2 ^ 112, 0xfe80 * 2 ^ 112 + 1, 64)].
Proof.
  split; [|split; [|vm_compute; reflexivity]].
  - eexists. split; [vm_compute; reflexivity|]. split.
    + eexists. split; [now left|]. left. vm_compute. reflexivity.
    + eexists. split; [right; now left|]. left. vm_compute. split; congruence.
  - eexists. split; [vm_compute; reflexivity|]. split.
    + intros (r & [<-|[<-|[]]] & [X|X]); vm_compute in X; discriminate.
    + intros (r & [<-|[<-|[]]] & [[_ X]|[_ X]]); vm_compute in X; discriminate.
Qed.
