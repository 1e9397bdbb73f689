(* Property C153: what README.md says about the port of an address with colons
   and about lists and ranges of ports. *)
From Coq Require Import ZifyBool ZifyNat.
From Verif Require Import Base Addr Spec Range SpecRange Inet SpecText SpecIpv6 AddrText Parser SpecParser SpecParser2 SpecParser4 SpecLanguage.
From Verif Require AddrProofs4 ParserProofs ParserProofs3 ParserProofs7 ParserProofs8 ParserProofs9 ParserProofs13 PropParser PropParser2 PropParser4 PropParser5 PropParser9.
Import AddrProofs4 PropParser PropParser2 PropParser4.
Local Open Scope Z_scope.

(* The entry b, with a mask or without. *)
Definition the_entry (p : parser) (b s : str) : Prop :=
  ~ In 47 b /\ (s = b \/ get_allow p ALLOW_MASK = Ok true /\ exists m, s = b ++ 47 :: m).
(* No port was read: the port is the default one or, with lookup, the one the
   resolver gave. *)
Definition no_port_read (p : parser) (a : addr) : Prop :=
  is_port_defined a = false
  /\ (get_allow p ALLOW_ADDRESS_LOOKUP = Ok false -> get_port a = Z.max 0 (get_default_port p)).

Lemma first_part p b s b2 m : the_entry p b s -> slashed p s b2 m -> b2 = b.
Proof.
  intros (N & H) C. destruct C as [s AM|s AM N2|b2 m AM N2].
  - destruct H as [->|(X & _)]; [reflexivity|congruence].
  - destruct H as [->|(_ & m & ->)]; [reflexivity|]. elim N2. apply in_or_app. right. now left.
  - destruct H as [H|(_ & m2 & H)].
    + elim N. rewrite <- H. apply in_or_app. right. now left.
    + clear AM. revert b N H. induction b2 as [|c b2 IH]; intros [|d b] N H; cbn [app] in H.
      * reflexivity.
      * injection H as <- _. elim N. now left.
      * injection H as -> _. elim N2. now left.
      * injection H as -> H. f_equal. apply IH; [|intros X; apply N; now right|exact H]. intros X. apply N2. now right.
Qed.

Lemma one_colon A D : ~ In 58 A -> ~ In 58 D -> ~ two_colons (A ++ [58] ++ D).
Proof.
  intros NA ND T. apply ParserProofs8.two_colons_count in T. rewrite ParserProofs7.count_char_app in T. cbn [app] in T.
  rewrite ParserProofs7.count_char_cons, !ParserProofs7.count_char_none in T by assumption. lia.
Qed.
Lemma bare_layout p six b A D : two_colons b -> hd 0 b <> 91 -> layout p six b A D -> A = b /\ D = [].
Proof.
  intros T N L. destruct L as [A T2 _|A N2 _|A D N1 N2 _ _|A _|A D _ _]; try (split; reflexivity); exfalso.
  - now apply (one_colon A D).
  - now apply N.
  - now apply N.
Qed.

Lemma found_no_port y g p six A l : found y g p six A [] l -> -1 <= get_default_port p ->
  Forall (fun r => no_port_read p (get_from r)) l.
Proof.
  intros F DP. destruct F as [H v n given r a L AT PT ST R|H given ais rs L HT AS U F2].
  - constructor; [|constructor]. destruct R as (_ & _ & -> & _). destruct ST.
    inversion PT as [D n0 X| |]; subst; [congruence| |]; (split; [congruence|intros _; lia]).
  - assert (given = false) as ->. { destruct AS as (S & st & pr & SV & _). inversion SV; subst; congruence. }
    clear AS. induction F2 as [|ai r ais rs X F2 IH]; [constructor|]. inversion U; subst. constructor; [|now apply IH].
    destruct X. split; [assumption|congruence].
Qed.
Lemma found_one_no_port y g p six A a : found_one y g p six A [] a -> -1 <= get_default_port p -> no_port_read p a.
Proof.
  intros (_ & r & rest & F & <- & _) DP. apply found_no_port in F; [|exact DP]. now inversion F.
Qed.
Lemma addresses_no_port y g p six A l a : addresses y g p six A [] l -> -1 <= get_default_port p -> an_end l a -> no_port_read p a.
Proof.
  intros X DP E. remember (@nil Z) as D eqn:ED.
  destruct X as [A D l NR F|A B D a1 b1 r AR N F1 F2 V R|A B D a1 b1 AR N F1 F2 V SN|A D a1 r AR N F1 R|B D a1 r AR F1 R]; subst D.
  - pose proof (found_no_port y g p six A l F DP) as P. destruct E as (r & I & [[H ->]|[H ->]]).
    + rewrite Forall_forall in P. now apply P.
    + exfalso. destruct F as [H0 v n given r0 a0 L AT PT ST R|H0 given ais rs L HT AS U F2].
      * destruct I as [<-|[]]. destruct R as (_ & R & _). congruence.
      * clear - F2 I H. induction F2 as [|ai r0 ais rs X F2 IH]; [contradiction|]. destruct I as [<-|I]; [destruct X; congruence|now apply IH].
  - destruct R as (_ & _ & R1 & R2). destruct E as (r0 & [<-|[]] & [[H ->]|[H ->]]).
    + rewrite R1. now apply found_one_no_port in F1.
    + rewrite (R2 b1 eq_refl). now apply found_one_no_port in F2.
  - destruct E as (r0 & [] & _).
  - destruct R as (_ & R0 & R1 & _). destruct E as (r0 & [<-|[]] & [[H ->]|[H ->]]); [|congruence].
    rewrite R1. now apply found_one_no_port in F1.
  - destruct R as (R0 & _ & _ & R2). destruct E as (r0 & [<-|[]] & [[H ->]|[H ->]]); [congruence|].
    rewrite (R2 a1 eq_refl). now apply found_one_no_port in F1.
Qed.

Lemma masked_end m r r2 : masked_with m r r2 -> has_from r2 = has_from r /\ has_to r2 = has_to r
  /\ is_port_defined (get_from r2) = is_port_defined (get_from r) /\ get_port (get_from r2) = get_port (get_from r)
  /\ get_to r2 = get_to r.
Proof. intros (A & B & C & q & D & _). rewrite A, B, C, D. auto. Qed.
Lemma gets_end g p six T r r2 : gets_mask g p six T r r2 -> has_from r2 = has_from r /\ has_to r2 = has_to r
  /\ is_port_defined (get_from r2) = is_port_defined (get_from r) /\ get_port (get_from r2) = get_port (get_from r)
  /\ get_to r2 = get_to r.
Proof. intros H. destruct H; auto; eapply masked_end; eassumption. Qed.

(* ---------- C153 ---------- *)
(* An entry with two colons which does not start with a bracket: whatever it
   is, no port is read from it. *)
Theorem C153_no_port_without_brackets : forall y g p b s p2 l a, takes_one p -> takes_entries p -> converts_decimals y -> resolver_ok g ->
  (get_allow p ALLOW_ADDRESS_LOOKUP = Ok true -> known_protocols g) -> ~ In 0 s -> plain_text s ->
  the_entry p b s -> two_colons b -> hd 0 b <> 91 ->
  parse y g s p = (p2, Ok l) -> error_count p2 = error_count p -> an_end l a -> no_port_read p a.
Proof.
  intros y g p b s p2 l a TO TE HC HG HK N0 PT EN T N91 E EC AE.
  destruct (PropParser9.C122_only_these y g p s p2 l TO TE HC HG HK N0 PT E EC) as [_ AC].
  pose proof (proj1 (te_port p TE)) as DP. clear E EC.
  destruct AC as [s b2 m six A D T0 l1 l2 SL W L AD MK].
  rewrite (first_part _ _ _ _ _ EN SL) in *. destruct (bare_layout _ _ _ _ _ T N91 L) as [-> ->].
  destruct MK as [[_ ->]|(_ & _ & F2)]; [eapply addresses_no_port; eassumption|].
  destruct AE as (r2 & I & K).
  assert (exists r, In r l1 /\ gets_mask g p six T0 r r2) as (r & I1 & G).
  { clear - F2 I. induction F2 as [|x x2 l1 l2 G F2 IH]; [contradiction|]. destruct I as [<-|I].
    - exists x. split; [now left|exact G].
    - destruct (IH I) as (r & I2 & G2). exists r. split; [now right|exact G2]. }
  destruct (gets_end _ _ _ _ _ _ G) as (G1 & G2 & G3 & G4 & G5).
  destruct K as [[H ->]|[H ->]].
  - assert (no_port_read p (get_from r)) as [X1 X2].
    { eapply addresses_no_port; [exact AD|exact DP|]. exists r. split; [exact I1|]. left. split; [congruence|reflexivity]. }
    split; [congruence|]. intros Lk. rewrite G4. now apply X2.
  - rewrite G5. eapply addresses_no_port; [exact AD|exact DP|]. exists r. split; [exact I1|]. right. split; [congruence|reflexivity].
Qed.
Print Assumptions C153_no_port_without_brackets.

(* "Just ::1 will be an error": it is not. *)
Theorem C153_error_refuted : forall y g p A ws, converts_decimals y -> takes_numbers p -> ipv6_text A ws -> two_colons A ->
  get_allow p ALLOW_PORT = Ok true -> get_allow p ALLOW_REQUIRED_PORT = Ok false -> get_default_port p = -1 ->
  exists r, parse y g A p = (p, Ok [r]) /\ has_from r = true /\ has_to r = false
    /\ value (get_from r) = words_value ws /\ get_port (get_from r) = 0 /\ is_port_defined (get_from r) = false.
Proof.
  intros y g p A ws HC TN TX T AP RP DP.
  destruct (PropParser5.C76_one_address y g p A (words_value ws) [] 0 false A HC TN) as (r & E & F & O & S).
  - right. eauto.
  - now constructor.
  - now constructor.
  - exists r. destruct S. repeat split; assumption.
Qed.
Print Assumptions C153_error_refuted.

(* So a port which is put behind an address without brackets becomes a part of
   the address, without an error. *)
Theorem C153_misread_refuted : exists p r, takes_numbers p /\ get_allow p ALLOW_PORT = Ok true
  /\ parse ref_sys no_answer (lit "::1:80") p = (p, Ok [r])
  /\ value (get_from r) = 0x10080 /\ get_port (get_from r) = 0
  /\ exists r2, parse ref_sys no_answer (lit "[::1]:80") p = (p, Ok [r2]) /\ value (get_from r2) = 1 /\ get_port (get_from r2) = 80.
Proof.
  exists bare. eexists. split.
  { constructor; [now apply no_seps|now apply no_comments|reflexivity|reflexivity|now left|right; split; reflexivity]. }
  split; [reflexivity|]. split; [vm_compute; reflexivity|]. split; [vm_compute; reflexivity|]. split; [vm_compute; reflexivity|].
  eexists. split; [vm_compute; reflexivity|]. split; vm_compute; reflexivity.
Qed.
Print Assumptions C153_misread_refuted.

(* "1.2.3.4:80,443 references ports 80 and 443", "1-1023 would define all
   reserved ports": such a text is an error, whatever is allowed. *)
Definition several_ports (D : str) : Prop :=
  exists A B, D = A ++ 44 :: B \/ D = A ++ 45 :: B /\ A <> [].
Definition refuses_several (y : sys) : Prop := forall D, several_ports D -> convert_string y D = None.
Theorem C153_several_ports_refuted : forall y g p A D s, takes_one p -> takes_entries p -> converts_decimals y -> resolver_ok g ->
  get_allow p ALLOW_ADDRESS_LOOKUP = Ok false -> refuses_several y -> several_ports D ->
  ~ In 0 s -> plain_text s -> ~ In 47 s ->
  (s = A ++ [58] ++ D /\ A <> [] /\ ~ In 58 (A ++ D) /\ hd 0 A <> 91 \/ s = [91] ++ A ++ [93; 58] ++ D /\ ~ In 93 A) ->
  forall p2 l, parse y g s p = (p2, Ok l) -> error_count p2 <> error_count p.
Proof.
  intros y g p A D s TO TE HC HG LK RF SP N0 PT N47 WR p2 l E EC.
  destruct (PropParser9.C122_only_these y g p s p2 l TO TE HC HG ltac:(congruence) N0 PT E EC) as [_ AC].
  clear E EC. assert (D <> []) as DN by (destruct SP as ([|] & B & [->|[-> _]]); discriminate).
  assert (forall six A2 D2 l1, D2 = D -> found y g p six A2 D2 l1 -> False) as NF.
  { intros six A2 D2 l1 -> F. destruct F as [H v n given r a L AT PX ST R|H given ais rs L HT AS U F2]; [|congruence].
    inversion PX; subst; try congruence. rewrite RF in *; [discriminate|exact SP]. }
  assert (forall six A2 D2 l1, addresses y g p six A2 D2 l1 -> D2 = D -> False) as NA.
  { intros six A2 D2 l1 AD ED.
    destruct AD as [A2 D2 l1 NR F|A2 B D2 a1 b1 r AR N F1 F2 V R|A2 B D2 a1 b1 AR N F1 F2 V SN|A2 D2 a1 r AR N F1 R|B D2 a1 r AR F1 R];
      try (destruct F1 as (_ & r0 & rest & F & _)); (eapply NF; [exact ED|exact F]). }
  destruct AC as [s b2 m six A2 D2 T0 l1 l2 SL W L AD _].
  assert (b2 = s) as ->.
  { destruct SL; auto. elim N47. apply in_or_app. right. now left. }
  assert (D2 = D) as ->; [|eapply NA; [exact AD|reflexivity]].
  clear - WR L DN. destruct WR as [(-> & AN & N58 & N91)|(-> & N93)].
  - assert (~ In 58 A /\ ~ In 58 D) as [NA ND] by (split; intros X; apply N58, in_or_app; auto).
    remember (A ++ [58] ++ D) as s eqn:ES. destruct L as [B T H|B N H|B D2 N1 N2 H _|B N|B D2 N P].
    + rewrite ES in T. now elim (one_colon A D).
    + elim N. rewrite ES. apply in_or_app. right. now left.
    + clear AN N58 N91 H. revert B N1 ES. induction A as [|c A IH]; intros [|e B] N1 ES; cbn [app] in ES.
      * now injection ES.
      * injection ES as -> _. elim N1. now left.
      * injection ES as <- _. elim NA. now left.
      * injection ES as _ ES. apply (IH ltac:(intros X; apply NA; now right) B); [intros X; apply N1; now right|exact ES].
    + exfalso. destruct A as [|c A]; [congruence|]. injection ES as <- _. now apply N91.
    + exfalso. destruct A as [|c A]; [congruence|]. injection ES as <- _. now apply N91.
  - remember ([91] ++ A ++ [93; 58] ++ D) as s eqn:ES. destruct L as [B T H|B N H|B D2 N1 N2 H _|B N|B D2 N P].
    + rewrite ES in H. now elim H.
    + rewrite ES in H. now elim H.
    + destruct B as [|c B]; [discriminate|]. injection ES as -> _. now elim H.
    + exfalso. injection ES as ES. revert B N ES. induction A as [|c A IH]; intros [|e B] N ES; cbn [app] in ES; try discriminate.
      * injection ES as -> _. elim N. now left.
      * injection ES as <- _. elim N93. now left.
      * injection ES as _ ES. apply (IH ltac:(intros X; apply N93; now right) B); [intros X; apply N; now right|exact ES].
    + injection ES as ES. revert B N ES. induction A as [|c A IH]; intros [|e B] N ES; cbn [app] in ES.
      * now injection ES.
      * injection ES as -> _. elim N. now left.
      * injection ES as <- _. elim N93. now left.
      * injection ES as _ ES. apply (IH ltac:(intros X; apply N93; now right) B); [intros X; apply N; now right|exact ES].
Qed.
Print Assumptions C153_several_ports_refuted.

(* The reference conversion refuses them all. *)
Lemma ref_refuses : refuses_several ref_sys.
Proof.
  intros D (A & B & H). cbn [convert_string ref_sys]. unfold ref_convert.
  assert (forallb is_digit D = false) as X.
  { destruct H as [->|[-> _]]; rewrite forallb_app; cbn [forallb]; apply andb_false_r. }
  destruct D; [reflexivity|]. now rewrite X.
Qed.
Example C153_witness : takes_one bare /\ takes_entries bare /\ converts_decimals ref_sys /\ resolver_ok no_answer
  /\ get_allow bare ALLOW_ADDRESS_LOOKUP = Ok false
  /\ the_entry bare (lit "fe80::1") (lit "fe80::1/64") /\ two_colons (lit "fe80::1")
  /\ (let (p2, r) := parse ref_sys no_answer (lit "fe80::1/64") bare in
      error_count p2 = 0 /\ match r with Ok [r] => is_port_defined (get_from r) = false | _ => False end)
  /\ several_ports (lit "80,443") /\ several_ports (lit "1-1023") /\ refuses_several ref_sys
  /\ (let (p2, r) := parse ref_sys no_answer (lit "1.2.3.4:80,443") bare in error_count p2 = 1 /\ r = Ok []).
Proof.
  split. { constructor; [now apply no_seps|now apply no_comments|reflexivity]. }
  split. { constructor; [intros _; now left|cbv; split; discriminate|repeat split; now apply not_in]. }
  split; [apply ref_sys_converts|]. split; [apply no_answer_ok|]. split; [reflexivity|].
  split. { split; [now apply not_in|]. right. split; [reflexivity|]. now exists (lit "64"). }
  split. { exists (lit "fe80"), [], (lit "1"). reflexivity. }
  split; [vm_compute; split; reflexivity|].
  split. { exists (lit "80"), (lit "443"). now left. } split. { exists (lit "1"), (lit "1023"). right. split; [reflexivity|discriminate]. }
  split; [exact ref_refuses|]. vm_compute. split; reflexivity.
Qed.
