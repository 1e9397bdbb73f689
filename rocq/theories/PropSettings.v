(* Property C130: which settings of a parser have an effect on parse(). *)
From Coq Require Import ZifyBool ZifyNat.
From Verif Require Import Base Addr Spec Range SpecRange Inet SpecText Parser SpecParser SpecParser2 SpecSettings.
From Verif Require AddrProofs4 ParserProofs2 ParserProofs3 PropParser PropParser2 PropParser4 SettingsProofs.
Import AddrProofs4 ParserProofs2 ParserProofs3 PropParser PropParser2 PropParser4 SettingsProofs.
Local Open Scope Z_scope.

(* Parsers with the same settings, as far as they are looked at, answer alike,
   whatever the text and whatever the resolver says. *)
Theorem C130_settings : forall y g s p q, same_settings p q ->
  same_answer p (parse y g s p) q (parse y g s q).
Proof. exact parse_same. Qed.
Print Assumptions C130_settings.

(* These flags are not looked at. *)
Theorem C130_flags_without_effect : forall y g s p p2 flag b,
  In flag [ALLOW_ADDRESS; ALLOW_MULTI_PORTS_SEMICOLONS; ALLOW_PORT_RANGE] ->
  set_allow p flag b = (p2, Ok tt) -> same_answer p (parse y g s p) p2 (parse y g s p2).
Proof.
  intros y g s p p2 flag b I E. apply parse_same.
  assert (F : forall f, In f looked_at -> get_allow p f = get_allow p2 f).
  { intros f J. assert (N : Z.to_nat f <> Z.to_nat flag)
      by (cbn in I, J; decompose [or] I; decompose [or] J; subst; try contradiction; vm_compute; discriminate).
    unfold set_allow in E. destruct ((flag <? 0) || (flag >=? ALLOW_max)); [discriminate|].
    assert (Q : flag =? ALLOW_MULTI_ADDRESSES_COMMAS = false /\ flag =? ALLOW_MULTI_PORTS_COMMAS = false)
      by (cbn in I; decompose [or] I; subst; try contradiction; split; reflexivity).
    destruct Q as [Q1 Q2]. cbv zeta in E. rewrite Q1, Q2 in E.
    assert (X : p2 = with_flags p (upd (f_flags p) (Z.to_nat flag) b)) by (destruct b; injection E; congruence).
    rewrite X. unfold get_allow, allow. cbn [f_flags with_flags].
    destruct ((f <? 0) || (f >=? ALLOW_max)); [reflexivity|]. f_equal.
    clear - N. revert N. generalize (Z.to_nat f) (Z.to_nat flag) (f_flags p). clear. intros i j l.
    revert j l. induction i as [|i IH]; intros [|j] [|x l] N; cbn; try congruence; try reflexivity.
    apply IH. congruence. }
  assert (X : exists v, p2 = with_flags p v).
  { unfold set_allow in E. destruct ((flag <? 0) || (flag >=? ALLOW_max)); [discriminate|]. eexists. injection E as <-. reflexivity. }
  destruct X as [v ->]. constructor; auto.
Qed.
Print Assumptions C130_flags_without_effect.

(* All the other flags have an effect (ALLOW_MULTI_PORTS_COMMAS only through
   the flag it resets). *)
Definition setup (flag : Z) : list parser_op :=
  if flag =? ALLOW_ADDRESS_MASK
  then [P_set_allow ALLOW_MASK true; P_set_allow ALLOW_ADDRESS_LOOKUP false]
  else [P_set_allow ALLOW_ADDRESS_LOOKUP false].
Definition telling (flag : Z) : str :=
  if flag =? ALLOW_REQUIRED_ADDRESS then lit ":80"
  else if flag =? ALLOW_ADDRESS_LOOKUP then lit "localhost"
  else if flag =? ALLOW_MULTI_ADDRESSES_COMMAS then lit "10.0.0.1,10.0.0.2"
  else if flag =? ALLOW_MULTI_ADDRESSES_SPACES then lit "10.0.0.1 10.0.0.2"
  else if flag =? ALLOW_MULTI_ADDRESSES_NEWLINES then lit "10.0.0.1" ++ [10] ++ lit "10.0.0.2"
  else if flag =? ALLOW_ADDRESS_RANGE then lit "10.0.0.1-10.0.0.2"
  else if flag =? ALLOW_PORT then lit "10.0.0.1:80"
  else if flag =? ALLOW_REQUIRED_PORT then lit "10.0.0.1"
  else if flag =? ALLOW_MASK then lit "10.0.0.1/8"
  else if flag =? ALLOW_ADDRESS_MASK then lit "10.0.0.1/255.0.0.0"
  else if flag =? ALLOW_COMMENT_HASH then lit "10.0.0.1#this host" else lit "10.0.0.1;this host".
Definition many (r : res (list addr_range)) : Z := match r with Ok l => Z.of_nat (length l) | _ => -1 end.
Theorem C130_flags_with_effect : forall flag, In flag looked_at -> exists y g p p0 p1 s,
  converts_decimals y /\ resolver_ok g /\ parser_reachable y g p
  /\ set_allow p flag false = (p0, Ok tt) /\ set_allow p flag true = (p1, Ok tt)
  /\ snd (parse y g s p0) <> snd (parse y g s p1).
Proof.
  intros flag I.
  assert (H : exists p0 p1, set_allow (parser_run ref_sys one_name (setup flag)) flag false = (p0, Ok tt)
    /\ set_allow (parser_run ref_sys one_name (setup flag)) flag true = (p1, Ok tt)
    /\ snd (parse ref_sys one_name (telling flag) p0) <> snd (parse ref_sys one_name (telling flag) p1)).
  { cbn in I. repeat destruct I as [<-|I]; try contradiction; do 2 eexists;
      (split; [reflexivity|]; split; [reflexivity|]; intros E; apply (f_equal many) in E; vm_compute in E; discriminate). }
  destruct H as (p0 & p1 & H). exists ref_sys, one_name, (parser_run ref_sys one_name (setup flag)), p0, p1, (telling flag).
  split; [apply ref_sys_converts|]. split; [apply one_name_ok|]. split; [apply run_reachable|]. exact H.
Qed.
Print Assumptions C130_flags_with_effect.

(* The settings which are not flags have an effect as well. *)
Definition seen (r : res (list addr_range)) : list (Z * Z * Z * Z) :=
  match r with
  | Ok l => map (fun r => (value (f_from r), get_port (f_from r), num (f_mask (f_from r)), get_protocol (f_from r))) l
  | _ => []
  end.
Definition choices : list parser_op :=
  [P_set_default_address (lit "10.1.2.3"); P_set_default_address (lit "fe80::1"); P_set_default_port 80;
   P_set_default_mask (lit "8"); P_set_default_mask (lit "[ffff::]"); P_set_protocol IPPROTO_UDP;
   P_set_sort_order SORT_IPV6_FIRST].
Definition telling_text (op : parser_op) : str :=
  match op with
  | P_set_default_address (49 :: _) => lit ":80"
  | P_set_default_address _ => lit "/128"
  | P_set_default_mask (91 :: _) => lit "fe80::1"
  | P_set_sort_order _ => lit "10.0.0.1,fe80::1"
  | _ => lit "10.0.0.1"
  end.
Definition taking : list parser_op :=
  [P_set_allow ALLOW_ADDRESS_LOOKUP false; P_set_allow ALLOW_MASK true; P_set_allow ALLOW_ADDRESS_MASK true;
   P_set_allow ALLOW_MULTI_ADDRESSES_COMMAS true].
Theorem C130_others_with_effect : forall op, In op choices -> exists y g p s,
  converts_decimals y /\ resolver_ok g /\ parser_reachable y g p
  /\ snd (parse y g s p) <> snd (parse y g s (parser_step y g p op)).
Proof.
  intros op I. exists ref_sys, six_mask, (parser_run ref_sys six_mask taking), (telling_text op).
  split; [apply ref_sys_converts|]. split.
  { intros n s b t pr l H. unfold six_mask in H. injection H as <-. split; [discriminate|]. repeat constructor; cbn; try discriminate; try lia. }
  split; [apply run_reachable|].
  cbn in I. repeat destruct I as [<-|I]; try contradiction;
    (intros E; apply (f_equal seen) in E; vm_compute in E; discriminate).
Qed.
Print Assumptions C130_others_with_effect.

(* Two parsers which differ in all that does not count, and a text they read. *)
Definition one : parser := parser_run ref_sys no_answer
  [P_set_default_mask (lit "64"); P_set_default_port 80; P_set_allow ALLOW_REQUIRED_PORT true;
   P_set_allow ALLOW_MASK true; P_set_allow ALLOW_ADDRESS_LOOKUP false].
Definition another : parser := parser_run ref_sys no_answer
  [P_emit_error (lit "before"); P_set_default_mask (lit "100"); P_set_default_port 443; P_set_allow ALLOW_REQUIRED_PORT true;
   P_set_allow ALLOW_MASK true; P_set_allow ALLOW_ADDRESS_LOOKUP false; P_set_allow ALLOW_PORT_RANGE true;
   P_set_allow ALLOW_MULTI_PORTS_SEMICOLONS true; P_set_allow ALLOW_MULTI_PORTS_COMMAS true; P_set_allow ALLOW_ADDRESS false].
Example C130_witness : same_settings one another
  /\ seen (snd (parse ref_sys no_answer (lit "[fe80::1]:53/10") another)) = [(0xfe80 * 2 ^ 112 + 1, 53, 2 ^ 128 - 2 ^ 118, IPPROTO_TCP)]
  /\ seen (snd (parse ref_sys no_answer (lit "[fe80::1]:53") another)) = [(0xfe80 * 2 ^ 112 + 1, 53, 2 ^ 128 - 1, IPPROTO_TCP)]
  /\ error_messages (fst (parse ref_sys no_answer (lit "fe80::1") another)) = lit "before" ++ [10] ++ lit "Required port is missing." ++ [10]
  /\ error_messages (fst (parse ref_sys no_answer (lit "fe80::1") one)) = lit "Required port is missing." ++ [10].
Proof.
  split; [|repeat split; vm_compute; reflexivity].
  constructor; try reflexivity.
  - intros f I. cbn in I. repeat destruct I as [<-|I]; try contradiction; reflexivity.
  - intros H. vm_compute in H. discriminate.
  - intros _. right. split; vm_compute; intuition discriminate.
Qed.

(* ---------- C48 ---------- *)
(* An IPv6 default mask without colon is never applied: it can as well be
   removed. *)
Theorem C48_without_colon : forall y g s p, ~ In 58 (get_default_mask6 p) ->
  exists p2, set_default_mask y p (lit "[]") = (p2, Ok tt) /\ get_default_mask6 p2 = [] /\ get_default_mask4 p2 = get_default_mask4 p
    /\ same_answer p (parse y g s p) p2 (parse y g s p2).
Proof.
  intros y g s p N. exists (with_default_mask6 p []). repeat (split; [reflexivity|]). apply parse_same.
  constructor; auto.
Qed.
Print Assumptions C48_without_colon.
Example C48_witness_colon : get_default_mask6 one = lit "64" /\ ~ In 58 (get_default_mask6 one).
Proof. split; [reflexivity|]. vm_compute. intuition discriminate. Qed.
