(* What the code does in all the cases, for properties of the Unix addresses
   whose full statement is refuted: C55. *)
From Coq Require Import Lia ZifyBool ZifyNat.
From Verif Require Import Base Unix SpecUnix.
From Verif Require UnixProofs UnixProofs2 PropUnix.
Import UnixProofs UnixProofs2.
Local Open Scope Z_scope.

Lemma spells_in s l : spells s l -> forall c, In c (slashed l) -> c = 47 \/ In c s.
Proof.
  unfold slashed. induction 1 as [n|n s m H|n s rest l H S IH]; intros c I; cbn [map concat] in I.
  - destruct I.
  - rewrite app_nil_r in I. destruct I as [I|I]; [now left|]. right. rewrite !in_app_iff. auto.
  - cbn [app In] in I. rewrite in_app_iff in I. destruct I as [I|[I|I]]; [now left| |].
    + right. rewrite !in_app_iff. auto.
    + destruct (IH c I) as [J|J]; [now left|]. right. rewrite !in_app_iff. cbn [In]. auto.
Qed.
Lemma canonical_in s p : canonical s p -> forall c, In c p -> c = 47 \/ In c s.
Proof.
  intros (l & _ & S & [[_ E]|[_ E]]) c I; apply (spells_in s l S).
  - now rewrite <- E.
  - rewrite <- E. now right.
Qed.

(* ---------- C55 ---------- *)
(* Exactly which addresses survive. *)
Theorem C55_exactly : forall decode u v n, keeps_ascii decode ->
  unix_reachable decode u -> unix_reachable decode v -> has_name u n ->
  (exists t w, to_uri u = Ok t /\ set_uri decode v t = (w, Ok tt) /\ has_name w n /\ get_scheme w = get_scheme u)
  <-> uri_scheme (get_scheme u) /\ (forall p, n = File p \/ n = Abstract p -> ~ In 63 p).
Proof.
  intros decode u v n K Ru Rv H. split.
  - intros (t & w & _ & B & N & S).
    pose proof (inv_proper decode v (reachable_inv decode v K Rv)) as P.
    destruct (set_uri_names decode v t w K P B) as (sc & m & U & G & ->).
    pose proof (PropUnix.named_has_name decode _ (set_scheme (named v m) sc) m K G eq_refl) as Hm.
    rewrite (has_name_unique _ n m N Hm) in *. clear n H N Hm.
    assert (US : uri_scheme sc) by (destruct U; assumption).
    rewrite get_scheme_set in S by (destruct US as (c & r & -> & _); discriminate). subst sc. split; [exact US|].
    intros p E I. destruct U as [scheme query _ _|scheme path query q _ Q (C & _) _|scheme path q _ Q (C & _)].
    + destruct E; discriminate.
    + destruct E as [E|E]; [|discriminate]. injection E as <-. destruct (canonical_in _ _ C 63 I); [discriminate|auto].
    + destruct E as [E|E]; [discriminate|]. injection E as <-. destruct (canonical_in _ _ C 63 I); [discriminate|auto].
  - intros [S Q]. destruct (PropUnix.C55_uri_partial decode u v n K Ru Rv S H Q) as (t & w & A & B & N & SC & _).
    exists t, w. auto.
Qed.
Print Assumptions C55_exactly.
