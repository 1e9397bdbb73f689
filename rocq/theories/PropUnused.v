(* Property C173: what is allowed counts only for texts which use it. *)
From Coq Require Import ZifyBool ZifyNat.
From Verif Require Import Base Addr Range Inet AddrText Parser SpecParser SpecSettings SpecUnused.
From Verif Require AddrProofs4 IfaceHeapProofs UnusedProofs PropNumeric PropAllow.
Import AddrProofs4 UnusedProofs PropNumeric PropAllow.
Local Open Scope Z_scope.

Lemma same_but_sim U p q s : same_but U p q -> (forall f, U f -> unused p s f \/ no_mask_in p s f) -> sim s p q.
Proof.
  intros [FL SO A4 A6 PR DP M4 M6] HU.
  assert (K : forall f, In f looked_at -> allow p f = allow q f \/ unused p s f \/ no_mask_in p s f).
  { intros f I. assert (0 <= f < 16) as RG by (cbn in I; decompose [or] I; subst; try contradiction; cbv; split; try discriminate; reflexivity).
    destruct (FL f I) as [E|E]; [left|right; now apply HU]. rewrite !get_allow_nth in E by exact RG. now injection E. }
  assert (GA : forall f, In f looked_at -> get_allow p f = Ok (allow p f)).
  { intros f I. apply get_allow_nth. cbn in I. decompose [or] I; subst; try contradiction; cbv; split; try discriminate; reflexivity. }
  constructor; try assumption.
  - intros f I. assert (In f looked_at) as L by (cbn in I; decompose [or] I; subst; try contradiction; cbn; tauto).
    destruct (K f L) as [E|[[[E _]|[[E _]|[E _]]]|[E _]]]; [exact E|exfalso; subst f; cbn in I; clear - I; decompose [or] I; try discriminate; contradiction..].
  - destruct (K ALLOW_ADDRESS_RANGE) as [E|[[[E N]|[[E _]|[E _]]]|[E _]]]; [cbn; tauto|now left|now right|discriminate E..].
  - destruct (K ALLOW_PORT) as [E|[[[E N]|[(E & N & C)|[E _]]]|[E _]]]; [cbn; tauto|now left|discriminate E| |discriminate E..].
    right. split; [exact N|]. rewrite !GA in C by (cbn; tauto). destruct C as [C|[C|C]]; [now left|right; left; now injection C|right; right; now injection C].
  - destruct (K ALLOW_ADDRESS_MASK) as [E|[[[E N]|[[E _]|[E N]]]|[E _]]]; [cbn; tauto|now left|discriminate E|discriminate E|now right|discriminate E].
  - destruct (K ALLOW_MASK) as [E|[[[E N]|[[E _]|[E N]]]|[E N]]]; [cbn; tauto|now left|discriminate E|discriminate E|discriminate E|now right].
Qed.

(* Ranges, ports and masks written as addresses may be allowed or not: a text
   which does not use them gives the same ranges, the same exception, and the
   same errors. *)
Theorem C173_same : forall y g s p q, same_but (unused p s) p q -> same_answer p (parse y g s p) q (parse y g s q).
Proof.
  intros y g s p q H. pose proof (same_but_sim _ _ _ s H ltac:(auto)) as S.
  destruct (parse_unused y g s p q S) as (t & n & r & r' & E1 & E2 & N & Q). rewrite E1, E2.
  assert (allow p ALLOW_MASK = allow q ALLOW_MASK) as EM.
  { destruct (but_flags _ _ _ H ALLOW_MASK ltac:(cbn; tauto)) as [E|[[E _]|[[E _]|[E _]]]]; try discriminate E.
    rewrite !get_allow_nth in E by (cbv; split; [discriminate|reflexivity]). now injection E. }
  split; [cbn [snd]; apply Q; now right|]. exists t. repeat split. unfold error_count, UnusedProofs.log. cbn [fst f_error_count with_errors]. lia.
Qed.
Print Assumptions C173_same.

(* Masks too: a text which does not use what the two disagree on is good for
   both or for none, and is read as the same ranges. *)
Theorem C173_reads : forall y g s p q, same_but (fun f => unused p s f \/ no_mask_in p s f) p q ->
  (forall rs, reads y g s p rs <-> reads y g s q rs)
  /\ exists messages, error_messages (fst (parse y g s p)) = error_messages p ++ messages
     /\ error_messages (fst (parse y g s q)) = error_messages q ++ messages
     /\ error_count (fst (parse y g s p)) - error_count p = error_count (fst (parse y g s q)) - error_count q.
Proof.
  intros y g s p q H. pose proof (same_but_sim _ _ _ s H ltac:(auto)) as S.
  destruct (parse_unused y g s p q S) as (t & n & r & r' & E1 & E2 & N & Q). unfold reads. rewrite E1, E2. split.
  - intros rs. split; intros (p1 & E & C); injection E as <- ->; unfold error_count, UnusedProofs.log in C; cbn [f_error_count with_errors] in C;
      assert (n = 0) as Z0 by lia; specialize (Q (or_introl Z0)); [rewrite <- Q|rewrite Q]; eexists; split; try reflexivity;
      unfold error_count, UnusedProofs.log; cbn [f_error_count with_errors]; lia.
  - exists t. repeat split. unfold error_count, UnusedProofs.log. cbn [fst f_error_count with_errors]. lia.
Qed.
Print Assumptions C173_reads.

(* With set_allow(): any of these flags set to anything. *)
Lemma same_but_refl U p : same_but U p p.
Proof. constructor; auto. Qed.
Theorem C173_set : forall y g s p flag v q, set_allow p flag v = (q, Ok tt) -> unused p s flag \/ no_mask_in p s flag ->
  (forall rs, reads y g s p rs <-> reads y g s q rs) /\ (unused p s flag -> same_answer p (parse y g s p) q (parse y g s q)).
Proof.
  intros y g s p flag v q E H.
  assert (B : forall U : Z -> Prop, U flag -> same_but U p q).
  { intros U HU. assert (3 <= flag <= 12) as RG by (destruct H as [[[-> _]|[[-> _]|[-> _]]]|[-> _]]; cbv; split; discriminate).
    unfold set_allow, ALLOW_max in E. replace ((flag <? 0) || (flag >=? 16)) with false in E by lia. cbv zeta in E.
    unfold ALLOW_MULTI_ADDRESSES_COMMAS, ALLOW_MULTI_PORTS_COMMAS in E.
    replace (flag =? 2) with false in E by lia. replace (flag =? 14) with false in E by lia. injection E as <-.
    constructor; try reflexivity. intros f I. assert (0 <= f < 16) as RF by (cbn in I; decompose [or] I; subst; try contradiction; cbv; split; try discriminate; reflexivity).
    destruct (Z.eq_dec f flag) as [->|N]; [now right|left]. rewrite !get_allow_nth by exact RF. f_equal. unfold allow. cbn [f_flags with_flags].
    destruct v; (rewrite IfaceHeapProofs.nth_upd_other; [reflexivity|lia]). }
  split; [apply C173_reads, B; exact H|]. intros U. now apply C173_same, B.
Qed.
Print Assumptions C173_set.

(* A usable case: a list with comments and a name which has to be looked up;
   ports, ranges and masks of both kinds are allowed by one parser only. *)
Definition wide : parser := allowing [ALLOW_MULTI_ADDRESSES_COMMAS; ALLOW_COMMENT_HASH; ALLOW_ADDRESS_RANGE; ALLOW_MASK; ALLOW_ADDRESS_MASK; ALLOW_PORT]
  (fst (parser_set_protocol parser_new IPPROTO_TCP)).
Definition narrow : parser := fold_left (fun p f => fst (set_allow p f false)) [ALLOW_ADDRESS_RANGE; ALLOW_MASK; ALLOW_ADDRESS_MASK; ALLOW_PORT] wide.
Definition plain_list : str := lit "10.1.2.3,localhost,[]# no mask here".
Example C173_witness : same_but (fun f => unused wide plain_list f \/ no_mask_in wide plain_list f) wide narrow
  /\ get_allow wide ALLOW_PORT = Ok true /\ get_allow narrow ALLOW_PORT = Ok false
  /\ exists a b c, reads ref_sys any_name plain_list wide [a; b; c] /\ reads ref_sys any_name plain_list narrow [a; b; c].
Proof.
  assert (B : same_but (fun f => unused wide plain_list f \/ no_mask_in wide plain_list f) wide narrow).
  { constructor; try reflexivity. assert (D : no_default_mask wide) by (split; [reflexivity|vm_compute; tauto]).
    assert (C : ~ In 45 plain_list /\ ~ In 58 plain_list /\ ~ In 47 plain_list) by (vm_compute; repeat split; intros X; decompose [or] X; try discriminate; contradiction).
    destruct C as (C1 & C2 & C3).
    intros f I. cbn in I. decompose [or] I; subst; try contradiction; try (left; reflexivity); right; unfold unused, no_mask_in; auto 10. }
  split; [exact B|]. split; [reflexivity|]. split; [reflexivity|].

  assert (exists a b c, reads ref_sys any_name plain_list wide [a; b; c]) as (a & b & c & R).
  { do 4 eexists. split; vm_compute; reflexivity. }
  exists a, b, c. split; [exact R|]. exact (proj1 (proj1 (C173_reads ref_sys any_name plain_list wide narrow B) [a; b; c]) R).
Qed.
