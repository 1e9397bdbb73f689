(* Properties C47, C48, C49, C73: masks, string_to_addr() and exceptions. *)
From Coq Require Import ZifyBool ZifyNat.
From Verif Require Import Base Addr Spec Range SpecRange Inet SpecText Parser SpecParser SpecParser2.
From Verif Require AddrProofs AddrProofs4 ParserProofs ParserProofs2
  ParserProofs3 ParserProofs7 ParserProofs8 PropParser PropParser2.
Import AddrProofs AddrProofs4 ParserProofs ParserProofs2 ParserProofs3 ParserProofs7 ParserProofs8 PropParser PropParser2.
Local Open Scope Z_scope.

(* ---------- C47 ---------- *)
(* An entry A which is accepted is given a decimal mask. *)
Theorem C47_numeric_mask : forall y g A D n p four l,
  nobody (separator p) -> nobody (starts_comment p) -> unsorted p -> get_allow p ALLOW_MASK = Ok true ->
  trimmed A -> ~ In 47 A -> has_address A -> syntax four p A -> decimal D n ->
  parse y g A p = (p, Ok l) ->
  (Forall (fun r => n <= limit four r) l -> exists l2, parse y g (A ++ 47 :: D) p = (p, Ok l2)
     /\ Forall2 (fun r1 r2 => masked_by (128 - limit four r1 + n) r1 r2) l l2)
  /\ (Exists (fun r => limit four r < n) l -> exists p2, parse y g (A ++ 47 :: D) p = (p2, Ok [])
     /\ error_count p < error_count p2).
Proof.
  intros y g A D n p four l NS NC U AM T N H Y HD E. allowed AM.
  exact (entry_numeric y g p A four NS NC U AM T N H Y D n l HD E).
Qed.
Print Assumptions C47_numeric_mask.

Definition bare : parser := with_allow (with_allow parser_new ALLOW_ADDRESS_LOOKUP false) ALLOW_MASK true.
Lemma no_seps p : separators p = [] -> nobody (separator p).
Proof. intros E c H. apply mem_separators in H. now rewrite E in H. Qed.
Definition mask_of (r : parser * res (list addr_range)) : list Z :=
  match snd r with Ok l => map (fun r => num (f_mask (f_from r))) l | _ => [-1] end.
Lemma no_two_colons s : count_char 58 s = 0 \/ count_char 58 s = 1 -> ~ two_colons s.
Proof. intros H K. apply two_colons_count in K. lia. Qed.
Example C47_witness :
  nobody (separator bare) /\ nobody (starts_comment bare) /\ unsorted bare /\ get_allow bare ALLOW_MASK = Ok true
  /\ (trimmed (lit "10.1.2.3:80") /\ ~ In 47 (lit "10.1.2.3:80") /\ has_address (lit "10.1.2.3:80")
      /\ syntax true bare (lit "10.1.2.3:80") /\ decimal (lit "24") 24
      /\ (exists l, parse ref_sys no_answer (lit "10.1.2.3:80") bare = (bare, Ok l) /\ Forall (fun r => limit true r = 32) l)
      /\ mask_of (parse ref_sys no_answer (lit "10.1.2.3:80/24") bare) = [2 ^ 128 - 2 ^ 8])
  /\ (trimmed (lit "fe80::1") /\ ~ In 47 (lit "fe80::1") /\ has_address (lit "fe80::1")
      /\ syntax false bare (lit "fe80::1")
      /\ (exists l, parse ref_sys no_answer (lit "fe80::1") bare = (bare, Ok l) /\ Forall (fun r => limit false r = 128) l)
      /\ mask_of (parse ref_sys no_answer (lit "fe80::1/24") bare) = [2 ^ 128 - 2 ^ 104]).
Proof.
  split; [now apply no_seps|]. split; [now apply no_comments|]. split; [reflexivity|]. split; [reflexivity|].
  split.
  - split; [now apply trimmed_lit|]. split; [now apply not_in|]. split; [split; [discriminate|now left]|].
    split; [split; [discriminate|]; split; [now apply not_in|]; split; [apply no_two_colons; now right|right; left; reflexivity]|].
    split; [split; [discriminate|now split]|]. split; [|vm_compute; reflexivity].
    eexists. split; [vm_compute; reflexivity|]. constructor; [reflexivity|constructor].
  - split; [now apply trimmed_lit|]. split; [now apply not_in|]. split; [split; [discriminate|now left]|].
    split; [right; now exists (lit "fe80"), [], (lit "1")|]. split; [|vm_compute; reflexivity].
    eexists. split; [vm_compute; reflexivity|]. constructor; [reflexivity|constructor].
Qed.

(* The mask of an entry which only has the end of a range is not used, and is
   not limited to 32: the entry has an IPv4 address and accepts 64. *)
Definition with_ranges : parser := with_allow bare ALLOW_ADDRESS_RANGE true.
Theorem C47_open_range_refuted : exists r,
  parse ref_sys no_answer (lit "-10.0.0.5/64") with_ranges = (with_ranges, Ok [r])
  /\ has_from r = false /\ has_to r = true /\ is_ipv4 (get_to r) = true /\ num (f_mask (get_to r)) = 2 ^ 128 - 1.
Proof. eexists. split; [vm_compute; reflexivity|]. vm_compute. repeat split. Qed.
Print Assumptions C47_open_range_refuted.

(* ---------- C48 ---------- *)
(* Missing: an IPv6 default mask without colon (see below). *)
Theorem C48_default_mask4_partial : forall y g A p,
  nobody (separator p) -> nobody (starts_comment p) -> unsorted p -> get_allow p ALLOW_MASK = Ok true ->
  trimmed A -> ~ In 47 A -> has_address A -> ipv4_syntax p A ->
  get_default_mask4 p <> [] -> trimmed (A ++ lit "/" ++ get_default_mask4 p) ->
  parse y g A p = parse y g (A ++ lit "/" ++ get_default_mask4 p) p.
Proof.
  intros y g A p NS NC U AM T N H Y NE TM. allowed AM.
  exact (entry_default y g p A true NS NC U AM T N H Y (get_default_mask4 p) eq_refl NE TM).
Qed.
Print Assumptions C48_default_mask4_partial.
Theorem C48_default_mask6_partial : forall y g A p,
  nobody (separator p) -> nobody (starts_comment p) -> unsorted p -> get_allow p ALLOW_MASK = Ok true ->
  trimmed A -> ~ In 47 A -> has_address A -> ipv6_syntax A -> In 58 (get_default_mask6 p) ->
  parse y g A p = parse y g (A ++ lit "/[" ++ get_default_mask6 p ++ lit "]") p.
Proof.
  intros y g A p NS NC U AM T N H Y C. allowed AM.
  apply (entry_default y g p A false NS NC U AM T N H Y ([91] ++ get_default_mask6 p ++ [93])).
  - cbn [effective_mask]. destruct (in_split _ _ C) as (a & b & E). fold (get_default_mask6 p).
    destruct (find_char 58 (get_default_mask6 p)) eqn:F; [reflexivity|].
    apply find_char_count in F. pose proof (count_char_in _ _ C). lia.
  - discriminate.
  - apply (trimmed_mask p A false); [exact T|exact N|exact H|exact Y|discriminate|]. intros c r E. change ([91] ++ get_default_mask6 p ++ [93]) with
      (([91] ++ get_default_mask6 p) ++ [93]) in E. apply app_inj_tail in E. destruct E as [_ <-]. unfold blank. lia.
Qed.
Print Assumptions C48_default_mask6_partial.
Definition mask4_16 : parser := fst (set_default_mask ref_sys bare (lit "16")).
Definition mask6_text : parser :=
  fst (set_default_mask ref_sys (with_allow bare ALLOW_ADDRESS_MASK true) (lit "[ffff:ffff::]")).
Definition six_mask : resolver := fun _ _ _ _ _ =>
  GAI_list [mk_ai AF_INET6 SIZEOF_IN6 IPPROTO_TCP ten_one
    (mk_in6 AF_INET6 0 0 [255; 255; 255; 255; 0; 0; 0; 0; 0; 0; 0; 0; 0; 0; 0; 0] 0)].
Example C48_witness :
  parser_reachable ref_sys no_answer mask4_16 /\ nobody (separator mask4_16) /\ nobody (starts_comment mask4_16)
  /\ unsorted mask4_16 /\ get_allow mask4_16 ALLOW_MASK = Ok true /\ ipv4_syntax mask4_16 (lit "10.1.2.3")
  /\ get_default_mask4 mask4_16 = lit "16" /\ trimmed (lit "10.1.2.3/16")
  /\ mask_of (parse ref_sys no_answer (lit "10.1.2.3") mask4_16) = [2 ^ 128 - 2 ^ 16]
  /\ ipv6_syntax (lit "fe80::1") /\ In 58 (get_default_mask6 mask6_text)
  /\ mask_of (parse ref_sys six_mask (lit "fe80::1") mask6_text) = [2 ^ 128 - 2 ^ 96].
Proof.
  split. { replace mask4_16 with (parser_run ref_sys no_answer [P_set_default_mask (lit "16");
      P_set_allow ALLOW_MASK true; P_set_allow ALLOW_ADDRESS_LOOKUP false]) by (vm_compute; reflexivity). apply run_reachable. }
  split; [now apply no_seps|]. split; [now apply no_comments|]. split; [reflexivity|]. split; [reflexivity|].
  split; [split; [discriminate|]; split; [now apply not_in|]; split; [apply no_two_colons; now left|left; now apply not_in]|].
  split; [reflexivity|]. split; [now apply trimmed_lit|]. split; [vm_compute; reflexivity|].
  split; [right; now exists (lit "fe80"), [], (lit "1")|]. split; [vm_compute; tauto|]. vm_compute; reflexivity.
Qed.

(* A mask in the text replaces the default one (C47). *)
Example C47_default_witness :
  mask_of (parse ref_sys no_answer (lit "10.1.2.3") mask4_16) = [2 ^ 128 - 2 ^ 16]
  /\ mask_of (parse ref_sys no_answer (lit "10.1.2.3/24") mask4_16) = [2 ^ 128 - 2 ^ 8].
Proof. split; vm_compute; reflexivity. Qed.

(* The number 64 is accepted as default mask for IPv6, and is not applied. *)
Theorem C48_numeric_refuted : exists y g p, converts_decimals y /\ resolver_ok g /\ parser_reachable y g p
  /\ get_allow p ALLOW_MASK = Ok true /\ get_default_mask6 p = lit "64"
  /\ mask_of (parse y g (lit "fe80::1") p) = [2 ^ 128 - 1]
  /\ mask_of (parse y g (lit "fe80::1/64") p) = [2 ^ 128 - 2 ^ 64].
Proof.
  exists ref_sys, no_answer, (fst (set_default_mask ref_sys bare (lit "64"))). split; [apply ref_sys_converts|].
  split; [apply no_answer_ok|]. split.
  { replace (fst (set_default_mask ref_sys bare (lit "64"))) with (parser_run ref_sys no_answer [P_set_default_mask (lit "64");
      P_set_allow ALLOW_MASK true; P_set_allow ALLOW_ADDRESS_LOOKUP false]) by (vm_compute; reflexivity). apply run_reachable. }
  vm_compute. repeat split.
Qed.
Print Assumptions C48_numeric_refuted.

(* ---------- C49 ---------- *)
Definition pick (protocol : str) (result : list addr_range) : res addr :=
  let! result :=
    match result with
    | [_] => Ok result
    | _ =>
        let result :=
          match protocol with
          | [] => filter (fun it => negb (has_from it && negb (get_protocol (get_from it) =? IPPROTO_TCP))) result
          | _ => result
          end in
        match result with
        | [_] => Ok result
        | _ => Throw E_invalid_argument
        end
    end in
  match result with
  | [r] =>
      if has_to r || is_range r then Throw E_invalid_argument
      else if negb (has_from r) then Throw E_invalid_argument
      else Ok (get_from r)
  | _ => UB
  end.
Lemma asked_flags y address port protocol mask p : asked_for y address port protocol mask p ->
  f_flags p = f_flags (fst (set_allow parser_new ALLOW_MASK mask)) /\ f_sort p = f_sort parser_new.
Proof.
  intros (p1 & p2 & p3 & H1 & H2 & H3 & H4).
  assert (f_flags p1 = f_flags parser_new /\ f_sort p1 = f_sort parser_new) as [F1 S1].
  { destruct H1 as [[_ ->]|[_ H]]; [now split|]. revert H. unfold set_default_address. destruct address as [|c a].
    { intros H. now injection H as <-. }
    destruct (c =? 91); [destruct (negb _)|destruct (find_char _ _)]; intros H; inversion H; now split. }
  assert (f_flags p2 = f_flags p1 /\ f_sort p2 = f_sort p1) as [F2 S2].
  { destruct H2 as [[_ ->]|[_ H]]; [now split|]. revert H. unfold set_default_port. destruct (_ || _); intros H; inversion H; now split. }
  assert (f_flags p3 = f_flags p2 /\ f_sort p3 = f_sort p2) as [F3 S3].
  { destruct H3 as [[_ ->]|[_ H]]; [now split|]. revert H. unfold parser_set_protocol_str.
    destruct (getprotobyname y protocol); intros H; inversion H; now split. }
  assert (forall q q', f_flags q = f_flags q' -> f_sort q = f_sort q' ->
    f_flags (fst (set_allow q ALLOW_MASK mask)) = f_flags (fst (set_allow q' ALLOW_MASK mask))
    /\ f_sort (fst (set_allow q ALLOW_MASK mask)) = f_sort q') as K.
  { intros q q' E1 E2. unfold set_allow. destruct (_ || _); [now split|]. cbn [fst]. unfold with_allow. cbn.
    rewrite E1, E2. destruct mask; cbn; now split. }
  destruct (K p3 parser_new) as [A B]; [congruence|congruence|]. rewrite H4 in A, B. cbn [fst] in A, B. now split.
Qed.
Lemma asked_only y g address port protocol mask p s l : asked_for y address port protocol mask p ->
  snd (parse y g s p) = Ok l -> onlyl l.
Proof.
  intros H E. apply asked_flags in H. destruct H as [F S].
  assert (separators p = []) as NS by (unfold separators, allow; rewrite F; destruct mask; reflexivity).
  assert (allow p ALLOW_ADDRESS_RANGE = false) as NR by (unfold allow; rewrite F; destruct mask; reflexivity).
  unfold parse, bind at 1 in E. rewrite entries_single in E by exact NS.
  destruct (cidr_gives y g p NR (single_entry (comment_chars p) s)) as (ms & r & E1 & K).
  specialize (E1 (f_error p) (f_error_count p)). rewrite with_errors_self in E1. rewrite E1 in E.
  destruct r as [l0|x| |]; try discriminate. unfold bind, ask, lift in E. cbn [f_sort with_errors] in E. rewrite S in E.
  rewrite arrange_unsorted in E by reflexivity. cbn [snd] in E. injection E as <-. now apply K.
Qed.
Lemma pick_only r : only r ->
  (if has_to r || is_range r then Throw E_invalid_argument
   else if negb (has_from r) then Throw E_invalid_argument else Ok (get_from r)) = Ok (get_from r).
Proof. intros [A B]. unfold is_range, has_to, has_from. now rewrite A, B. Qed.
Lemma tcp_filter l : onlyl l ->
  filter (fun it => negb (has_from it && negb (get_protocol (get_from it) =? IPPROTO_TCP))) l
  = filter (fun it => get_protocol (get_from it) =? IPPROTO_TCP) l.
Proof.
  intros H. induction H as [|r l [A B] H IH]; [reflexivity|]. cbn [filter]. rewrite IH. unfold has_from. rewrite A.
  cbn [andb]. now rewrite negb_involutive.
Qed.
Lemma filter_none {A} (f : A -> bool) l : filter f l = [] <-> Forall (fun x => f x = false) l.
Proof.
  induction l as [|x l IH]; [split; [constructor|reflexivity]|]. cbn [filter]. destruct (f x) eqn:E; split; intros H.
  - discriminate.
  - inversion H; congruence.
  - constructor; [exact E|tauto].
  - inversion H; tauto.
Qed.
Lemma filter_one {A} (f : A -> bool) r l : filter f l = [r] <->
  exists a b, l = a ++ r :: b /\ f r = true /\ Forall (fun x => f x = false) (a ++ b).
Proof.
  split.
  - induction l as [|x l IH]; [discriminate|]. cbn [filter]. destruct (f x) eqn:E; intros H.
    + injection H as <- H. apply filter_none in H. now exists [], l.
    + destruct (IH H) as (a & b & -> & F & K). exists (x :: a), b. split; [reflexivity|]. split; [exact F|]. now constructor.
  - intros (a & b & -> & F & K). apply Forall_app in K. destruct K as [Ka Kb]. rewrite filter_app. cbn [filter]. rewrite F.
    apply filter_none in Ka, Kb. now rewrite Ka, Kb.
Qed.
Lemma meant_many protocol l r : length l <> 1%nat ->
  meant protocol l r <-> protocol = [] /\ filter (fun it => get_protocol (get_from it) =? IPPROTO_TCP) l = [r].
Proof.
  intros N. unfold meant. rewrite filter_one. split.
  - intros [->|(E & _ & a & b & L & T & F)]; [now elim N|]. split; [exact E|]. exists a, b. split; [exact L|].
    split; [now apply Z.eqb_eq|]. eapply Forall_impl; [|exact F]. intros x. apply Z.eqb_neq.
  - intros (E & a & b & L & T & F). right. split; [exact E|]. split; [exact N|]. exists a, b. split; [exact L|].
    split; [now apply Z.eqb_eq|]. eapply Forall_impl; [|exact F]. intros x. apply Z.eqb_neq.
Qed.
Lemma pick_spec protocol l : onlyl l ->
  (exists r, meant protocol l r /\ pick protocol l = Ok (get_from r)
     /\ forall r', meant protocol l r' -> r' = r)
  \/ ((forall r, ~ meant protocol l r) /\ pick protocol l = Throw E_invalid_argument).
Proof.
  intros O. assert (length l = 1%nat \/ length l <> 1%nat) as [L|L] by lia.
  - left. destruct l as [|r [|r' l]]; try discriminate. exists r. split; [now left|]. split.
    + unfold pick. cbn [rbind]. inversion O; subst. now apply pick_only.
    + intros r' [E|(_ & K & _)]; [congruence|now elim K].
  - assert (pick protocol l = let! result :=
        match match protocol with [] => filter (fun it => get_protocol (get_from it) =? IPPROTO_TCP) l | _ => l end with
        | [x] => Ok [x] | _ => Throw E_invalid_argument end in
      match result with [r] => Ok (get_from r) | _ => UB end) as ->.
    { unfold pick. rewrite tcp_filter by exact O.
      assert (onlyl (filter (fun it => get_protocol (get_from it) =? IPPROTO_TCP) l)) as O2
        by (apply Forall_forall; intros x X; apply filter_In in X; apply (proj1 (Forall_forall _ _) O); tauto).
      destruct l as [|r [|r' l]]; [|now elim L|].
      - destruct protocol; reflexivity.
      - destruct protocol as [|c protocol].
        + destruct (filter _ _) as [|x [|x' f]]; try reflexivity. cbn [rbind]. inversion O2; subst. now apply pick_only.
        + reflexivity. }
    destruct protocol as [|c protocol].
    + destruct (filter (fun it => get_protocol (get_from it) =? IPPROTO_TCP) l) as [|r [|r' f]] eqn:F.
      * right. split; [|reflexivity]. intros r M. apply (meant_many _ _ _ L) in M. destruct M. congruence.
      * left. exists r. split; [now apply (meant_many _ _ _ L)|]. split; [reflexivity|]. intros r' M.
        apply (meant_many _ _ _ L) in M. destruct M. congruence.
      * right. split; [|reflexivity]. intros r0 M. apply (meant_many _ _ _ L) in M. destruct M. congruence.
    + right. split; [intros r M; apply (meant_many _ _ _ L) in M; destruct M; discriminate|].
      destruct l as [|r [|r' l]]; try reflexivity. now elim L.
Qed.
Lemma asked_unique y address port protocol mask p q :
  asked_for y address port protocol mask p -> asked_for y address port protocol mask q -> p = q.
Proof.
  intros (p1 & p2 & p3 & H1 & H2 & H3 & H4) (q1 & q2 & q3 & K1 & K2 & K3 & K4).
  assert (p1 = q1) as -> by (destruct H1 as [[? ->]|[? H1]], K1 as [[? ->]|[? K1]]; try tauto; congruence).
  assert (p2 = q2) as -> by (destruct H2 as [[? ->]|[? H2]], K2 as [[? ->]|[? K2]]; try tauto; congruence).
  assert (p3 = q3) as -> by (destruct H3 as [[? ->]|[? H3]], K3 as [[? ->]|[? K3]]; try tauto; congruence).
  congruence.
Qed.
Lemma string_to_addr_steps y g a address port protocol mask :
  (exists p, asked_for y address port protocol mask p
     /\ string_to_addr y g a address port protocol mask = let! l := snd (parse y g a p) in pick protocol l)
  \/ ((forall p, ~ asked_for y address port protocol mask p)
      /\ string_to_addr y g a address port protocol mask = Throw E_invalid_argument).
Proof.
  assert (forall (p : parser), exists q, set_allow p ALLOW_MASK mask = (q, Ok tt)) as SA by (intros p; now eexists).
  unfold string_to_addr.
  set (ra := match address with [] => Ok parser_new | _ => _ end).
  assert ((exists p1, ra = Ok p1 /\ (address = [] /\ p1 = parser_new \/ address <> [] /\ set_default_address parser_new address = (p1, Ok tt)))
    \/ (ra = Throw E_invalid_argument /\ address <> [] /\ forall p1, set_default_address parser_new address <> (p1, Ok tt))) as [(p1 & -> & H1)|(-> & N & H1)].
  { unfold ra. destruct address as [|c t]; [left; exists parser_new; split; [reflexivity|now left]|].
    destruct (set_default_address parser_new (c :: t)) as [p1 r] eqn:E.
    assert (r = Ok tt \/ r = Throw E_invalid_argument) as [->| ->].
    { revert E. unfold set_default_address. destruct (c =? 91); [destruct (negb _)|destruct (find_char _ _)]; intros E; inversion E; auto. }
    - left. exists p1. split; [reflexivity|]. right. split; [discriminate|reflexivity].
    - right. split; [reflexivity|]. split; [discriminate|]. congruence. }
  2:{ right. split; [|reflexivity]. intros p (q1 & ? & ? & [[K _]|[_ K]] & _); [tauto|now apply (H1 q1)]. }
  cbn [rbind].
  set (rp := if negb (port =? -1) then _ else _).
  assert ((exists p2, rp = Ok p2 /\ (port = -1 /\ p2 = p1 \/ port <> -1 /\ set_default_port p1 port = (p2, Ok tt)))
    \/ (rp = Throw E_invalid_argument /\ port <> -1 /\ forall p2, set_default_port p1 port <> (p2, Ok tt))) as [(p2 & -> & H2)|(-> & N & H2)].
  { unfold rp. destruct (port =? -1) eqn:P; cbn [negb]; [left; exists p1; split; [reflexivity|left; split; [lia|reflexivity]]|].
    destruct (set_default_port p1 port) as [p2 r] eqn:E.
    assert (r = Ok tt \/ r = Throw E_invalid_argument) as [->| ->].
    { revert E. unfold set_default_port. destruct (_ || _); intros E; inversion E; auto. }
    - left. exists p2. split; [reflexivity|]. right. split; [lia|reflexivity].
    - right. split; [reflexivity|]. split; [lia|]. congruence. }
  2:{ right. split; [|reflexivity]. intros p (q1 & q2 & ? & K1 & [[K _]|[_ K]] & _); [tauto|].
      assert (q1 = p1) as -> by (destruct H1 as [[? ->]|[? H1]], K1 as [[? ->]|[? K1]]; try tauto; congruence).
      now apply (H2 q2). }
  cbn [rbind].
  set (rt := match protocol with [] => Ok p2 | _ => _ end).
  assert ((exists p3, rt = Ok p3 /\ (protocol = [] /\ p3 = p2 \/ protocol <> [] /\ parser_set_protocol_str y p2 protocol = (p3, Ok tt)))
    \/ (rt = Throw E_invalid_argument /\ protocol <> [] /\ forall p3, parser_set_protocol_str y p2 protocol <> (p3, Ok tt))) as [(p3 & -> & H3)|(-> & N & H3)].
  { unfold rt. destruct protocol as [|c t]; [left; exists p2; split; [reflexivity|now left]|].
    destruct (parser_set_protocol_str y p2 (c :: t)) as [p3 r] eqn:E.
    assert (r = Ok tt \/ r = Throw E_invalid_argument) as [->| ->].
    { revert E. unfold parser_set_protocol_str. destruct (getprotobyname _ _); intros E; inversion E; auto. }
    - left. exists p3. split; [reflexivity|]. right. split; [discriminate|reflexivity].
    - right. split; [reflexivity|]. split; [discriminate|]. congruence. }
  2:{ right. split; [|reflexivity]. intros p (q1 & q2 & q3 & K1 & K2 & [[K _]|[_ K]] & _); [tauto|].
      assert (q1 = p1) as -> by (destruct H1 as [[? ->]|[? H1]], K1 as [[? ->]|[? K1]]; try tauto; congruence).
      assert (q2 = p2) as -> by (destruct H2 as [[? ->]|[? H2]], K2 as [[? ->]|[? K2]]; try tauto; congruence).
      now apply (H3 q3). }
  cbn [rbind]. destruct (SA p3) as [p E]. left. exists p. split; [exists p1, p2, p3; auto|].
  rewrite E. reflexivity.
Qed.

(* An address is returned if and only if the parameters are accepted, the
   parser returns ranges and exactly one of them can be meant. *)
Theorem C49_result_partial : forall y g a address port protocol mask x, resolver_ok g ->
  string_to_addr y g a address port protocol mask = Ok x
  <-> exists p l r, asked_for y address port protocol mask p /\ snd (parse y g a p) = Ok l
      /\ meant protocol l r /\ x = get_from r.
Proof.
  intros y g a address port protocol mask x R.
  destruct (string_to_addr_steps y g a address port protocol mask) as [(p & A & ->)|(N & ->)].
  2:{ split; [discriminate|]. intros (p & l & r & A & _). now elim (N p). }
  split.
  - destruct (snd (parse y g a p)) as [l|e| |] eqn:E; try discriminate. cbn [rbind]. intros P.
    destruct (pick_spec protocol l (asked_only _ _ _ _ _ _ _ _ _ A E)) as [(r & M & K & _)|(_ & K)]; [|congruence].
    exists p, l, r. repeat split; auto. congruence.
  - intros (q & l & r & A2 & E & M & ->). rewrite (asked_unique _ _ _ _ _ _ _ A A2), E. cbn [rbind].
    destruct (pick_spec protocol l (asked_only _ _ _ _ _ _ _ _ _ A2 E)) as [(r' & _ & K & U)|(K & _)]; [|now elim (K r)].
    now rewrite (U r M).
Qed.
Print Assumptions C49_result_partial.
(* There is no third outcome: an exception otherwise. *)
Theorem C49_or_throws : forall y g a address port protocol mask, resolver_ok g ->
  (exists x, string_to_addr y g a address port protocol mask = Ok x)
  \/ (exists e, string_to_addr y g a address port protocol mask = Throw e).
Proof.
  intros y g a address port protocol mask R.
  destruct (string_to_addr_steps y g a address port protocol mask) as [(p & A & ->)|(N & ->)]; [|right; now eexists].
  destruct (C72_parse_is_defined y g a p R) as [[l E]|[e E]]; rewrite E; cbn [rbind]; [|right; now eexists].
  destruct (pick_spec protocol l (asked_only _ _ _ _ _ _ _ _ _ A E)) as [(r & _ & -> & _)|(_ & ->)]; [left|right]; now eexists.
Qed.
Print Assumptions C49_or_throws.

(* Missing: without masks, an error which the parser recorded does not matter
   when one range is left; here the resolver knows the name under a family
   which the library does not handle, too. *)
Definition odd_family : resolver := fun _ _ _ _ _ =>
  GAI_list [mk_ai 1 16 6 ten_one two_thousand_one; mk_ai AF_INET 16 6 ten_one two_thousand_one].
Lemma odd_family_ok : resolver_ok odd_family.
Proof.
  intros n s b t pr l H. assert (l = [mk_ai 1 16 6 ten_one two_thousand_one; mk_ai AF_INET 16 6 ten_one two_thousand_one])
    as -> by (cbv [odd_family] in H; congruence).
  split; [discriminate|]. repeat constructor; cbn; try discriminate; try lia.
Qed.
Theorem C49_error_ignored_refuted : exists y g a p x, resolver_ok g /\ asked_for y [] (-1) [] false p
  /\ error_count p < error_count (fst (parse y g a p))
  /\ string_to_addr y g a [] (-1) [] false = Ok x.
Proof.
  exists ref_sys, odd_family, (lit "host"), (with_allow parser_new ALLOW_MASK false). eexists. split; [apply odd_family_ok|].
  split; [exists parser_new, parser_new, parser_new; repeat split; now left|]. split; [vm_compute; reflexivity|].
  vm_compute. reflexivity.
Qed.
Print Assumptions C49_error_ignored_refuted.

(* one_name answers with a TCP and a UDP address *)
Example C49_witness : resolver_ok one_name
  /\ asked_for ref_sys (lit "10.0.0.9") 80 [] true
       (with_allow (fst (set_default_port (fst (set_default_address parser_new (lit "10.0.0.9"))) 80)) ALLOW_MASK true)
  /\ (exists r1 r2, snd (parse ref_sys one_name (lit "host") (with_allow (fst (set_default_port
          (fst (set_default_address parser_new (lit "10.0.0.9"))) 80)) ALLOW_MASK true)) = Ok [r1; r2]
        /\ meant [] [r1; r2] r1)
  /\ (exists x, string_to_addr ref_sys one_name (lit "host") (lit "10.0.0.9") 80 [] true = Ok x
        /\ is_ipv4 x = true)
  /\ string_to_addr ref_sys no_answer (lit "host") [] (-1) [] true = Throw E_invalid_argument.
Proof.
  split; [apply one_name_ok|]. split.
  { eexists _, _, _. split; [right; split; [discriminate|reflexivity]|]. split; [right; split; [lia|reflexivity]|].
    split; [left; now split|reflexivity]. }
  split; [eexists _, _; split; [vm_compute; reflexivity|]; right; split; [reflexivity|]; split; [discriminate|];
    eexists [], _; split; [reflexivity|]; split; [reflexivity|]; repeat constructor; discriminate|].
  split; [eexists; split; vm_compute; reflexivity|]. vm_compute. reflexivity.
Qed.

(* ---------- C73 ---------- *)
(* Without lookup or with lookups which only give protocols addr knows, with a
   protocol which addr knows or none, and unless the parser merges ranges
   which may have masks, parse() always returns. *)
Theorem C73_no_exception : forall y g s p, resolver_ok g ->
  (get_allow p ALLOW_ADDRESS_LOOKUP = Ok false \/ known_protocols g) ->
  (p_protocol p = -1 \/ protocol_ok (p_protocol p)) ->
  (Z.land (get_sort_order p) SORT_MERGE = 0 \/ get_allow p ALLOW_MASK = Ok false) ->
  exists l, snd (parse y g s p) = Ok l.
Proof.
  intros y g s p R L P O.
  assert (allow p ALLOW_ADDRESS_LOOKUP = false \/ known_protocols g) as L'.
  { destruct L as [L|L]; [left|now right]. now allowed L. }
  destruct (C72_parse_is_defined y g s p R) as [K|[e E]]; [exact K|].
  assert (Z.land (f_sort p) SORT_MERGE = 0 \/ allow p ALLOW_MASK = false) as O'.
  { destruct O as [O|O]; [now left|right]. now allowed O. }
  now elim (parse_calm y g s p L' P R O' e).
Qed.
Print Assumptions C73_no_exception.
Example C73_witness : get_allow bare ALLOW_ADDRESS_LOOKUP = Ok false /\ p_protocol bare = -1
  /\ Z.land (get_sort_order bare) SORT_MERGE = 0
  /\ (exists l, snd (parse ref_sys no_answer (lit "999.1.1.1/77") bare) = Ok l)
  /\ 0 < error_count (fst (parse ref_sys no_answer (lit "999.1.1.1/77") bare))
  /\ get_allow parser_new ALLOW_ADDRESS_LOOKUP = Ok true /\ known_protocols one_name
  /\ (exists r1 r2, snd (parse ref_sys one_name (lit "host:80") parser_new) = Ok [r1; r2]).
Proof.
  repeat split; try reflexivity; [eexists; vm_compute; reflexivity| |eexists _, _; vm_compute; reflexivity].
  intros node service n t q l E. unfold one_name in E. injection E as <-.
  constructor; [right; left; reflexivity|]. constructor; [right; right; reflexivity|constructor].
Qed.
