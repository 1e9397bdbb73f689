(* C143: what sorting and merging make the returned addresses of. *)
From Coq Require Import ZifyBool ZifyNat Permutation.
From Verif Require Import Base Addr Spec Range SpecRange Inet SpecText Parser SpecParser.
From Verif Require AddrProofs AddrProofs2 AddrProofs3 AddrProofs4 RangeProofs RangeProofs2 ParserProofs ParserProofs2
  ParserProofs3 ParserProofs4 ParserProofs5 ParserProofs6 ParserProofs7 PropRange PropParser PropParser2 PropParser3.
Import AddrProofs AddrProofs2 AddrProofs3 AddrProofs4 RangeProofs RangeProofs2 ParserProofs ParserProofs2
  ParserProofs3 ParserProofs4 ParserProofs5 ParserProofs6 ParserProofs7 PropParser PropParser2 PropParser3.
Local Open Scope Z_scope.

(* ---------- specification ---------- *)
(* The addresses a range was made of: the one or two ends which are defined. *)
Definition ends_of (r : addr_range) : list addr :=
  (if has_from r then [get_from r] else []) ++ (if has_to r then [get_to r] else []).
(* The same address in all but the mask. *)
Record same_but_mask (a b : addr) : Prop := {
  sb_value : value a = value b;
  sb_port : get_port a = get_port b;
  sb_port_defined : is_port_defined a = is_port_defined b;
  sb_protocol : get_protocol a = get_protocol b;
  sb_protocol_defined : is_protocol_defined a = is_protocol_defined b;
  sb_hostname : get_hostname a = get_hostname b;
  sb_interface : get_interface a = get_interface b;
  sb_ipv6 : get_ipv6 a = get_ipv6 b }.

(* ---------- proofs ---------- *)
(* The ends of r are among those of l. *)
Definition from_list (l : list addr_range) (r : addr_range) : Prop :=
  forall a, In a (ends_of r) -> exists r0 a0, In r0 l /\ In a0 (ends_of r0) /\ same_but_mask a a0.

Lemma sb_refl a : same_but_mask a a.
Proof. now constructor. Qed.
Lemma sb_trans a b c : same_but_mask a b -> same_but_mask b c -> same_but_mask a c.
Proof. intros [] []. constructor; congruence. Qed.
Lemma sb_mask a n b r : set_mask_count a n = (b, r) -> same_but_mask b a.
Proof. unfold set_mask_count. destruct (_ || _); intros E; apply (f_equal fst) in E; cbn [fst] in E; subst b; now constructor. Qed.

Lemma eff_from_end r : defined r -> In (eff_from r) (ends_of r).
Proof.
  unfold defined, eff_from, ends_of, get_from, get_to, has_from, has_to. destruct (f_has_from r); cbn [app]; [now left|].
  destruct (f_has_to r); cbn [app]; [now left|]. intros [H|H]; discriminate H.
Qed.
Lemma eff_to_end r : defined r -> In (eff_to r) (ends_of r).
Proof.
  unfold defined, eff_to, ends_of, get_from, get_to, has_from, has_to. intros D. apply in_or_app.
  destruct (f_has_to r); [right; now left|]. destruct (f_has_from r); [left; now left|]. destruct D; discriminate.
Qed.

Lemma from_self l r : In r l -> from_list l r.
Proof. intros I a A. exists r, a. split; [exact I|]. split; [exact A|apply sb_refl]. Qed.

Lemma union_made l r1 r2 u : defined r1 -> defined r2 -> from_list l r1 -> from_list l r2 ->
  union_if_possible r1 r2 = Ok u -> from_list l u.
Proof.
  intros D1 D2 F1 F2. unfold union_if_possible.
  destruct (negb (is_defined r1) && negb (is_defined r2)).
  { intros E. injection E as <-. intros a []. }
  destruct (_ || _ || _ || _); [|intros E; injection E as <-; intros a []].
  set (f := if lt_ (eff_from r1) (eff_from r2) then eff_from r1 else eff_from r2).
  set (t := if gt_ (eff_to r1) (eff_to r2) then eff_to r1 else eff_to r2).
  assert (exists r0 a0, In r0 l /\ In a0 (ends_of r0) /\ same_but_mask f a0) as Hf.
  { unfold f. destruct (lt_ _ _); [apply F1|apply F2]; now apply eff_from_end. }
  assert (exists r0 a0, In r0 l /\ In a0 (ends_of r0) /\ same_but_mask t a0) as Ht.
  { unfold t. destruct (gt_ _ _); [apply F1|apply F2]; now apply eff_to_end. }
  clearbody f t.
  destruct (set_mask_count f _) as [f1 [[]|e| |]] eqn:Ef; cbn [rbind]; try discriminate.
  destruct (set_mask_count t _) as [t1 [[]|e| |]] eqn:Et; cbn [rbind]; try discriminate.
  apply sb_mask in Ef, Et. destruct Hf as (rf & af & If & Af & Sf), Ht as (rt & at' & It & At & St).
  assert (same_but_mask f1 af) as Sf1 by now apply (sb_trans _ f).
  assert (same_but_mask t1 at') as St1 by now apply (sb_trans _ t).
  destruct (_ || _ || _); intros E; injection E as <-; cbn; intros a; intros [<-|[<-|[]]] || intros [<-|[]]; eauto 10.
Qed.

Lemma merge_made l : forall rest cur out, Forall defined rest -> defined cur ->
  (forall r, In r rest -> from_list l r) -> from_list l cur ->
  merge_from cur rest = Ok out -> forall r, In r out -> from_list l r.
Proof.
  induction rest as [|n rest IH]; intros cur out G Gc F Fc; cbn [merge_from].
  - intros E r H. injection E as <-. destruct H as [<-|[]]. exact Fc.
  - inversion G as [|? ? Gn Gr]; subst. destruct (union_if_possible cur n) as [u|e| |] eqn:U; cbn [rbind]; try discriminate.
    pose proof (union_made l cur n u Gc Gn Fc (F n (or_introl eq_refl)) U) as Fu.
    destruct (is_defined u && negb (is_empty u)) eqn:D.
    + intros E. apply (IH u out); auto; [|intros r H; apply F; now right].
      unfold is_defined in D. unfold defined. destruct (f_has_from u), (f_has_to u); auto.
    + destruct (merge_from n rest) as [out1|e| |] eqn:M; cbn [rbind]; try discriminate.
      intros E r H. injection E as <-. destruct H as [<-|H]; [exact Fc|].
      apply (IH n out1); auto; [intros r' H'; apply F; now right|apply F; now left].
Qed.

Lemma arrange_made sort l out : Forall defined l -> arrange sort l = Ok out -> forall r, In r out -> from_list l r.
Proof.
  intros D. unfold arrange.
  set (l1 := if negb (Z.land sort (Z.lor SORT_FULL SORT_MERGE) =? 0) then stable_sort range_lt l else l).
  assert (Permutation l l1) as P by (unfold l1; destruct (negb _); [apply stable_sort_perm|auto]).
  clearbody l1. pose proof (Permutation_Forall P D) as D1.
  assert (forall r, In r l1 -> from_list l r) as F1.
  { intros r H. apply from_self. now apply (Permutation_in _ (Permutation_sym P)). }
  destruct (if negb (Z.land sort SORT_MERGE =? 0) then merge_all l1 else Ok l1) as [l2|e| |] eqn:M; cbn [rbind]; try discriminate.
  assert (forall r, In r l2 -> from_list l r) as F2.
  { destruct (negb _); [|injection M as <-; exact F1]. destruct l1 as [|cur rest]; cbn [merge_all] in M.
    - injection M as <-. intros r [].
    - inversion D1; subst. apply (merge_made l rest cur l2); auto; intros; apply F1; cbn [In]; auto. }
  destruct (negb (Z.land sort SORT_IPV4_FIRST =? 0)); [|destruct (negb (Z.land sort SORT_IPV6_FIRST =? 0))];
    intros E r H; injection E as <-; apply F2; auto.
  - now apply (Permutation_in _ (Permutation_sym (stable_sort_perm v4_first l2))).
  - now apply (Permutation_in _ (Permutation_sym (stable_sort_perm v6_first l2))).
Qed.

(* Whatever the sort order: each end of what is returned is one of the addresses
   the text stands for, with all that was given with it but the mask. *)
Theorem C143_nothing_invented : forall y g s p p' l p0 l0, resolver_ok g ->
  parse y g s p = (p', Ok l) -> parse y g s (without_sort p) = (p0, Ok l0) ->
  forall r a, In r l -> In a (ends_of r) ->
  exists r0 a0, In r0 l0 /\ In a0 (ends_of r0) /\ same_but_mask a a0.
Proof.
  intros y g s p p' l p0 l0 R E E0 r a H A.
  destruct (two_parses y g s p R) as (ms & re & E1 & E2 & G).
  rewrite E2 in E0. assert (re = Ok l0) as -> by congruence. cbn [rbind] in E1. specialize (G l0 eq_refl).
  rewrite E1 in E. assert (arrange (f_sort p) l0 = Ok l) as EA by congruence.
  apply (arrange_made (f_sort p) l0 l) with (r := r); auto. eapply Forall_impl; [|exact G]. now intros x [D _].
Qed.
Print Assumptions C143_nothing_invented.

(* Without merging, nothing is lost either, not even a mask. *)
Theorem C143_sorting_loses_nothing : forall y g s p p' l p0 l0, resolver_ok g -> Z.land (get_sort_order p) SORT_MERGE = 0 ->
  parse y g s p = (p', Ok l) -> parse y g s (without_sort p) = (p0, Ok l0) ->
  forall r0, In r0 l0 <-> In r0 l.
Proof.
  intros y g s p p' l p0 l0 R M E E0 r0. destruct (C45_same_outcome y g s p p' _ R M E) as (p1 & r1 & E1 & _ & _ & P & _).
  destruct (P l eq_refl) as (l1 & -> & PP). assert (l1 = l0) as -> by congruence.
  split; apply Permutation_in; [exact PP|now apply Permutation_sym].
Qed.
Print Assumptions C143_sorting_loses_nothing.

(* Merging keeps the port when the whole text uses one; what is missing is a text
   with several ports. *)
Theorem C143_one_port_partial : forall y g s p p' l p0 l0 port, resolver_ok g ->
  parse y g s p = (p', Ok l) -> parse y g s (without_sort p) = (p0, Ok l0) ->
  (forall r0 a0, In r0 l0 -> In a0 (ends_of r0) -> get_port a0 = port) ->
  (forall v, covered l v <-> covered l0 v) /\ forall r a, In r l -> In a (ends_of r) -> get_port a = port.
Proof.
  intros y g s p p' l p0 l0 port R E E0 H. split.
  - destruct (Z.eq_dec (Z.land (get_sort_order p) SORT_MERGE) 0) as [M|M].
    + pose proof (C143_sorting_loses_nothing y g s p p' l p0 l0 R M E E0) as K. intros v. unfold covered.
      split; intros (r & I & V); exists r; (split; [|exact V]); now apply K.
    + destruct (C46_merge y g s p p' l R M E) as (p1 & l1 & E1 & _ & C & _). assert (l1 = l0) as -> by congruence. exact C.
  - intros r a I A. destruct (C143_nothing_invented y g s p p' l p0 l0 R E E0 r a I A) as (r0 & a0 & I0 & A0 & [_ P _ _ _ _ _ _]).
    rewrite P. now apply (H r0).
Qed.
Print Assumptions C143_one_port_partial.

(* The parser of the counter-examples: numeric addresses, lists, merging. *)
Definition port_merge : parser := parser_run ref_sys no_answer [P_set_sort_order SORT_MERGE;
  P_set_allow ALLOW_MULTI_ADDRESSES_SPACES true; P_set_allow ALLOW_MULTI_ADDRESSES_COMMAS true;
  P_set_allow ALLOW_ADDRESS_LOOKUP false].

(* Two services of one host: the port of the first one is lost. *)
Theorem C143_ports_refuted : exists y g s p l l0 r0, resolver_ok g /\ parser_reachable y g p
  /\ parse y g s p = (p, Ok l) /\ parse y g s (without_sort p) = (without_sort p, Ok l0)
  /\ In r0 l0 /\ get_port (get_from r0) = 80
  /\ forall r a, In r l -> In a (ends_of r) -> get_port a = 90.
Proof.
  exists ref_sys, no_answer, (lit "10.0.0.1:80,10.0.0.1:90"), port_merge. eexists _, _, _.
  split; [exact no_answer_ok|]. split; [apply run_reachable|].
  split; [vm_compute; reflexivity|]. split; [vm_compute; reflexivity|]. split; [left; reflexivity|].
  split; [vm_compute; reflexivity|]. intros r a [<-|[]] [<-|[]]. vm_compute. reflexivity.
Qed.
Print Assumptions C143_ports_refuted.

(* Three hosts with a port each: they become a range, whose ends have the ports
   of the first and the last one. *)
Example C143_witness : exists l l0, parse ref_sys no_answer (lit "10.0.0.3:90,10.0.0.1:80,10.0.0.2:85") port_merge = (port_merge, Ok l)
  /\ parse ref_sys no_answer (lit "10.0.0.3:90,10.0.0.1:80,10.0.0.2:85") (without_sort port_merge) = (without_sort port_merge, Ok l0)
  /\ map (map get_port) (map ends_of l) = [[80; 90]] /\ map (map get_port) (map ends_of l0) = [[90]; [80]; [85]].
Proof. eexists _, _. split; [vm_compute; reflexivity|]. split; [vm_compute; reflexivity|]. vm_compute. auto. Qed.
(* A text with one port. *)
Example C143_one_port_witness : exists l l0,
  parse ref_sys no_answer (lit "10.0.0.3:80,[2001:db8::1]:80,10.0.0.2:80") port_merge = (port_merge, Ok l)
  /\ parse ref_sys no_answer (lit "10.0.0.3:80,[2001:db8::1]:80,10.0.0.2:80") (without_sort port_merge) = (without_sort port_merge, Ok l0)
  /\ map (map get_port) (map ends_of l) = [[80; 80]; [80]] /\ map (map get_port) (map ends_of l0) = [[80]; [80]; [80]].
Proof. eexists _, _. split; [vm_compute; reflexivity|]. split; [vm_compute; reflexivity|]. vm_compute. auto. Qed.
