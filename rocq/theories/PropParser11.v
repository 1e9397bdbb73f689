(* Property C124: string_to_addr() from the text to the address. *)
From Coq Require Import ZifyBool ZifyNat.
From Verif Require Import Base Addr Spec Range SpecRange Inet SpecText Parser SpecParser SpecParser2 SpecParser4 SpecLanguage.
From Verif Require AddrProofs AddrProofs4 ParserProofs ParserProofs2 ParserProofs3 ParserProofs4 ParserProofs7 ParserProofs8
  ParserProofs12 ParserProofs13 ParserProofs14 ParserProofs15 PropParser PropParser2 PropParser4 PropParser5 PropParser9 PropParser10.
Import AddrProofs AddrProofs4 ParserProofs ParserProofs2 ParserProofs3 ParserProofs4 ParserProofs7 ParserProofs8
  ParserProofs12 ParserProofs13 ParserProofs14 ParserProofs15 PropParser PropParser2 PropParser4 PropParser5 PropParser9 PropParser10.
Local Open Scope Z_scope.

Lemma inner_in s c : In c (inner s) -> In c s.
Proof.
  unfold inner. intros I. assert (forall n (l : str), In c (firstn n l) -> In c l) as F.
  { induction n as [|n IH]; intros [|d l] H; cbn [firstn] in H; try now destruct H. destruct H as [H|H]; [now left|right; auto]. }
  apply F in I. destruct s; [destruct I|]. now right.
Qed.
Lemma asked_defaults y address port protocol mask p : asked_for y address port protocol mask p -> ~ In 0 address ->
  ~ In 0 (f_default_address4 p) /\ ~ In 0 (f_default_address6 p) /\ f_default_mask4 p = [] /\ f_default_mask6 p = []
  /\ -1 <= f_default_port p <= 65535.
Proof.
  intros (p1 & p2 & p3 & H1 & H2 & H3 & H4) N.
  assert (~ In 0 (f_default_address4 p1) /\ ~ In 0 (f_default_address6 p1) /\ f_default_mask4 p1 = [] /\ f_default_mask6 p1 = [] /\ f_default_port p1 = -1) as K1.
  { destruct H1 as [[_ ->]|[_ H]]; [cbn; tauto|]. revert H. unfold set_default_address. destruct address as [|c a]; [intros H; injection H as <-; cbn; tauto|].
    destruct (c =? 91); [destruct (negb _); [discriminate|]|destruct (find_char _ _)]; intros H; injection H as <-;
      cbn [f_default_address4 f_default_address6 f_default_mask4 f_default_mask6 f_default_port with_default_address4 with_default_address6];
      repeat split; try exact N; try (now intros []); intros I; apply N; now apply inner_in. }
  assert (f_default_address4 p2 = f_default_address4 p1 /\ f_default_address6 p2 = f_default_address6 p1 /\ f_default_mask4 p2 = f_default_mask4 p1
    /\ f_default_mask6 p2 = f_default_mask6 p1 /\ -1 <= f_default_port p2 <= 65535) as K2.
  { destruct H2 as [[_ ->]|[_ H]]; [repeat split; lia|]. revert H. unfold set_default_port. destruct (_ || _) eqn:R; [discriminate|]. intros H. injection H as <-.
    cbn [f_default_address4 f_default_address6 f_default_mask4 f_default_mask6 f_default_port with_default_port]. repeat split; lia. }
  assert (f_default_address4 p3 = f_default_address4 p2 /\ f_default_address6 p3 = f_default_address6 p2 /\ f_default_mask4 p3 = f_default_mask4 p2
    /\ f_default_mask6 p3 = f_default_mask6 p2 /\ f_default_port p3 = f_default_port p2) as K3.
  { destruct H3 as [[_ ->]|[_ H]]; [repeat split|]. revert H. unfold parser_set_protocol_str. destruct (getprotobyname y protocol); try discriminate. intros H. injection H as <-. repeat split. }
  assert (f_default_address4 p = f_default_address4 p3 /\ f_default_address6 p = f_default_address6 p3 /\ f_default_mask4 p = f_default_mask4 p3
    /\ f_default_mask6 p = f_default_mask6 p3 /\ f_default_port p = f_default_port p3) as K4.
  { revert H4. unfold set_allow. destruct (_ || _); [discriminate|]. intros H. injection H as <-. repeat split. }
  destruct K1 as (A1 & A2 & A3 & A4 & A5), K2 as (B1 & B2 & B3 & B4 & B5), K3 as (C1 & C2 & C3 & C4 & C5), K4 as (D1 & D2 & D3 & D4 & D5).
  rewrite D1, C1, B1, D2, C2, B2, D3, C3, B3, D4, C4, B4, D5, C5. auto.
Qed.
Lemma asked_takes y address port protocol mask p : asked_for y address port protocol mask p -> ~ In 0 address ->
  takes_one p /\ takes_entries p /\ get_allow p ALLOW_ADDRESS_LOOKUP = Ok true /\ get_allow p ALLOW_MASK = Ok mask.
Proof.
  intros A N. destruct (asked_defaults _ _ _ _ _ _ A N) as (N4 & N6 & M4 & M6 & DP). apply asked_flags in A. destruct A as [F S].
  assert (get_allow p ALLOW_ADDRESS_LOOKUP = Ok true) as L by (unfold get_allow, allow; rewrite F; destruct mask; reflexivity).
  split; [|split; [|split; [exact L|unfold get_allow, allow; rewrite F; destruct mask; reflexivity]]].
  - split.
    + apply no_seps. unfold separators, allow. rewrite F. destruct mask; reflexivity.
    + apply no_comments. unfold comment_chars, allow. rewrite F. destruct mask; reflexivity.
    + unfold unsorted. rewrite S. reflexivity.
  - split.
    + congruence.
    + exact DP.
    + unfold get_default_address4, get_default_address6, get_default_mask4, get_default_mask6. rewrite M4, M6. cbn. auto.
Qed.
Lemma meant_twin protocol l l2 r : Forall2 twin l l2 -> meant protocol l r -> exists r2, meant protocol l2 r2 /\ twin r r2.
Proof.
  intros F [->|(-> & L & a & b & -> & T & N)].
  - inversion F as [|x r2 l0 l1 TW F2]; subst. inversion F2; subst. exists r2. split; [now left|exact TW].
  - assert (forall x z, twin x z -> for_tcp x -> for_tcp z) as K1 by (unfold for_tcp; intros x z (_ & _ & [(_ & _ & _ & _ & E & _) _] & _) H; congruence).
    assert (forall x z, twin x z -> ~ for_tcp x -> ~ for_tcp z) as K2 by (unfold for_tcp; intros x z (_ & _ & [(_ & _ & _ & _ & E & _) _] & _) H; congruence).
    assert (forall u w, Forall2 twin u w -> Forall (fun x => ~ for_tcp x) u -> Forall (fun x => ~ for_tcp x) w) as K3.
    { induction 1 as [|x z u w TW F2 IH]; intros H; constructor; inversion H; subst; eauto. }
    assert (length l2 = length (a ++ r :: b)) as EL by (clear - F; induction F; cbn [length]; congruence).
    apply Forall2_app_inv_l in F. destruct F as (a2 & rb & FA & FR & ->). inversion FR as [|x r2 l0 b2 TW FB]; subst.
    exists r2. split; [|exact TW]. right. split; [reflexivity|]. split; [congruence|]. exists a2, b2. split; [reflexivity|]. split; [eauto|].
    apply Forall_app in N. destruct N as [NA NB]. apply Forall_app. split; eauto.
Qed.

(* A text of the grammar which means one address gives that address. *)
Theorem C124_accepted : forall y g address port protocol mask p b1 t b2 l r,
  converts_decimals y -> resolver_ok g -> known_protocols g -> ~ In 0 address -> asked_for y address port protocol mask p ->
  Forall blank b1 -> Forall blank b2 -> plain_text t -> ~ In 0 t ->
  accepted y g p t l -> meant protocol l r ->
  exists x, string_to_addr y g (b1 ++ t ++ b2) address port protocol mask = Ok x /\ same_end x (get_from r).
Proof.
  intros y g address port protocol mask p b1 t b2 l r HC HG HK NA AF F1 F2 PT NT A M.
  destruct (asked_takes _ _ _ _ _ _ AF NA) as (TO & TE & L & AM).
  destruct (language_of y g p t TO TE HC HG (fun _ => HK) NT PT) as [(l2 & E & A2)|(X & _)]; [|elim (X l A)].
  destruct (meant_twin protocol l l2 r (twin_meaning y g p TE t l l2 A A2) M) as (r2 & M2 & TW).
  exists (get_from r2). split.
  - apply C49_result_partial; [exact HG|]. exists p, l2, r2. split; [exact AF|]. split; [|split; [exact M2|reflexivity]].
    rewrite C122_blanks; try assumption; [now rewrite E|apply TO|apply TO].
  - destruct TW as (_ & _ & [(V1 & V2 & V3 & V4 & V5 & V6) _] & _). repeat split; congruence.
Qed.
Print Assumptions C124_accepted.

(* With masks nothing else is accepted. *)
Theorem C124_only : forall y g b1 t b2 address port protocol x,
  converts_decimals y -> resolver_ok g -> known_protocols g -> ~ In 0 address ->
  Forall blank b1 -> Forall blank b2 -> plain_text t -> ~ In 0 t ->
  string_to_addr y g (b1 ++ t ++ b2) address port protocol true = Ok x ->
  exists p l r, asked_for y address port protocol true p /\ accepted y g p t l /\ meant protocol l r /\ x = get_from r.
Proof.
  intros y g b1 t b2 address port protocol x HC HG HK NA F1 F2 PT NT E. apply C49_result_partial in E; [|exact HG].
  destruct E as (p & l & r & AF & E & M & ->). destruct (asked_takes _ _ _ _ _ _ AF NA) as (TO & TE & L & AM).
  rewrite C122_blanks in E; try assumption; [|apply TO|apply TO].
  destruct (language_of y g p t TO TE HC HG (fun _ => HK) NT PT) as [(l2 & E2 & A2)|(_ & p2 & l2 & E2 & _ & K)]; rewrite E2 in E; injection E as <-.
  - exists p, l2, r. auto.
  - exfalso. rewrite (K (or_intror AM)) in M. destruct M as [M|(_ & _ & a & b & M & _)]; [discriminate|]. now destruct a.
Qed.
Print Assumptions C124_only.
(* Everything else throws. *)
Theorem C124_otherwise : forall y g b1 t b2 address port protocol,
  converts_decimals y -> resolver_ok g -> known_protocols g -> ~ In 0 address ->
  Forall blank b1 -> Forall blank b2 -> plain_text t -> ~ In 0 t ->
  (forall p l r, asked_for y address port protocol true p -> accepted y g p t l -> ~ meant protocol l r) ->
  exists e, string_to_addr y g (b1 ++ t ++ b2) address port protocol true = Throw e.
Proof.
  intros y g b1 t b2 address port protocol HC HG HK NA F1 F2 PT NT H.
  destruct (C49_or_throws y g (b1 ++ t ++ b2) address port protocol true HG) as [[x E]|X]; [|exact X]. exfalso.
  destruct (C124_only _ _ _ _ _ _ _ _ _ HC HG HK NA F1 F2 PT NT E) as (p & l & r & AF & A & M & _). exact (H p l r AF A M).
Qed.
Print Assumptions C124_otherwise.

(* A name with a port and a mask, the TCP answer being the one meant. *)
Example C124_witness : converts_decimals ref_sys /\ resolver_ok one_name /\ known_protocols one_name
  /\ (exists p l r x, asked_for ref_sys (lit "10.0.0.9") 80 [] true p /\ accepted ref_sys one_name p (lit "host:443/24") l /\ meant [] l r
       /\ string_to_addr ref_sys one_name (lit " host:443/24") (lit "10.0.0.9") 80 [] true = Ok x
       /\ value x = v4_base + 167772161 /\ mask_value x = prefix_mask 120)
  /\ (forall p l r, asked_for ref_sys (lit "10.0.0.9") 80 [] true p -> accepted ref_sys one_name p (lit "host/129") l -> ~ meant [] l r).
Proof.
  split; [exact ref_sys_converts|]. split; [exact one_name_ok|]. split; [exact one_name_known|]. split.
  - destruct (string_to_addr ref_sys one_name (lit " host:443/24") (lit "10.0.0.9") 80 [] true) as [x|e| |] eqn:E; try (vm_compute in E; discriminate).
    destruct (C124_only ref_sys one_name (lit " ") (lit "host:443/24") [] (lit "10.0.0.9") 80 [] x ref_sys_converts one_name_ok one_name_known)
      as (p & l & r & AF & A & M & EX).
    + now apply not_in.
    + repeat constructor.
    + constructor.
    + right. now apply trimmed_lit.
    + now apply not_in.
    + exact E.
    + exists p, l, r, x. split; [exact AF|]. split; [exact A|]. split; [exact M|]. split; [reflexivity|]. clear - E.
      vm_compute in E. injection E as <-. split; vm_compute; reflexivity.
  - intros p l r AF A M. destruct (C124_accepted ref_sys one_name (lit "10.0.0.9") 80 [] true p [] (lit "host/129") [] l r ref_sys_converts one_name_ok one_name_known) as (x & E & _); auto.
    + now apply not_in.
    + right. now apply trimmed_lit.
    + now apply not_in.
    + vm_compute in E. discriminate.
Qed.
