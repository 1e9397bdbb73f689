(* Property C157: lookups and numeric texts. *)
From Coq Require Import ZifyBool ZifyNat.
From Verif Require Import Base Addr Range Inet AddrText Parser SpecParser SpecNumeric.
From Verif Require AddrProofs4 ParserProofs ParserProofs3 NumericProofs.
Import AddrProofs4 ParserProofs ParserProofs3 NumericProofs.
Local Open Scope Z_scope.

(* p2 is the parser p with lookups allowed. *)
Definition lookups_on (p p2 : parser) : Prop :=
  get_allow p ALLOW_ADDRESS_LOOKUP = Ok false /\ set_allow p ALLOW_ADDRESS_LOOKUP true = (p2, Ok tt)
  /\ get_allow p2 ALLOW_ADDRESS_LOOKUP = Ok true.
(* s is read without an error. *)
Definition reads (y : sys) (g : resolver) (s : str) (p : parser) (rs : list addr_range) : Prop :=
  exists p1, parse y g s p = (p1, Ok rs) /\ error_count p1 = error_count p.
Definition known_protocol (p : parser) : Prop := In (parser_get_protocol p) [-1; IPPROTO_IP; IPPROTO_TCP; IPPROTO_UDP].

Lemma lookups_on_parts p p2 : lookups_on p p2 -> allow p ALLOW_ADDRESS_LOOKUP = false
  /\ p2 = with_flags p (upd (f_flags p) 5 true) /\ allow (with_flags p (upd (f_flags p) 5 true)) ALLOW_ADDRESS_LOOKUP = true.
Proof.
  intros (H1 & H2 & H3). change (Ok (allow p ALLOW_ADDRESS_LOOKUP) = Ok false) in H1. injection H1 as H1.
  change ((with_flags p (upd (f_flags p) 5 true), Ok tt) = (p2, Ok tt)) in H2. injection H2 as <-.
  match type of H3 with get_allow ?q _ = _ => change (Ok (allow q ALLOW_ADDRESS_LOOKUP) = Ok true) in H3 end. injection H3 as H3. auto.
Qed.
Lemma reads_entries y g s p rs : reads y g s p rs ->
  exists l, parse_entries y g s p = (p, Ok l) /\ arrange (f_sort p) l = Ok rs.
Proof.
  intros (p1 & E & C). unfold parse, bind, ask, lift in E. destruct (grows_entries y g s p) as (ms & EM).
  destruct (parse_entries y g s p) as [p0 [l|x| |]]; try discriminate. cbn [fst] in EM. injection E as -> E2. subst p1.
  unfold error_count, log in C. cbn in C. destruct ms; [|cbn in C; lia]. rewrite log_nil in *. exists l. split; [reflexivity|exact E2].
Qed.
Lemma entries_reads y g s p l rs : parse_entries y g s p = (p, Ok l) -> arrange (f_sort p) l = Ok rs -> reads y g s p rs.
Proof. intros E A. exists p. split; [|reflexivity]. unfold parse, bind, ask, lift. now rewrite E, A. Qed.

(* With TCP or UDP chosen, allowing lookups changes nothing for a text which is
   good without: all entries, ranges, masks, defaults, ports, and all sort
   orders. *)
Theorem C157_same_partial : forall y g p p2 s rs, posix y g -> lookups_on p p2 ->
  parser_get_protocol p = IPPROTO_TCP \/ parser_get_protocol p = IPPROTO_UDP -> clean s ->
  reads y g s p rs -> reads y g s p2 rs.
Proof.
  intros y g p p2 s rs G L K C R. destruct (lookups_on_parts _ _ L) as (OFF & -> & ON).
  destruct (reads_entries _ _ _ _ _ R) as (l & E & A).
  assert (In (p_protocol p) [-1; IPPROTO_IP; IPPROTO_TCP; IPPROTO_UDP]) as KN
    by (unfold parser_get_protocol in K; destruct K as [->| ->]; cbn; auto).
  destruct (sim_entries y g p G OFF ON KN s C l E) as (b & EB & ls & F & ->).
  apply (entries_reads _ _ _ _ (concat ls)); [exact EB|]. replace (concat ls) with l; [exact A|]. clear - F K.
  unfold parser_get_protocol in K. induction F as [|r grp l ls H F IH]; [reflexivity|]. cbn [concat]. rewrite <- IH. unfold instead in H.
  replace ((p_protocol p =? IPPROTO_TCP) || (p_protocol p =? IPPROTO_UDP)) with true in H by (destruct K as [->| ->]; reflexivity).
  now subst grp.
Qed.
Print Assumptions C157_same_partial.

(* Without a protocol, or with IP, every address comes back three times, for
   TCP, UDP and IP, and every range with a dash once, for TCP. *)
Theorem C157_each_kind : forall y g p p2 s rs, posix y g -> lookups_on p p2 -> known_protocol p ->
  get_sort_order p = SORT_NO \/ get_sort_order p = SORT_NO_EMPTY -> clean s -> reads y g s p rs ->
  exists l, reads y g s p2 l /\ spread (parser_get_protocol p) rs l.
Proof.
  intros y g p p2 s rs G L K S C R. destruct (lookups_on_parts _ _ L) as (OFF & -> & ON).
  destruct (reads_entries _ _ _ _ _ R) as (l & E & A).
  destruct (sim_entries y g p G OFF ON K s C l E) as (b & EB & SP).
  assert (forall x, arrange (f_sort p) x = Ok x) as AR by (intros x; unfold get_sort_order in S; destruct S as [->| ->]; reflexivity).
  rewrite AR in A. injection A as ->. exists b. split; [|exact SP]. apply (entries_reads _ _ _ _ b); [exact EB|apply AR].
Qed.
Print Assumptions C157_each_kind.

(* So the same addresses match. *)
Lemma set_match k r t x : range_set k r t -> range_match t x = range_match r x.
Proof.
  intros (H1 & H2 & H3 & H4). unfold range_match, is_empty, is_in, is_range. unfold has_from, has_to, get_from, get_to in *. rewrite H1, H2.
  assert (forall h a b, end_set h k a b -> match_ b x true = match_ a x true /\ match_ b x false = match_ a x false /\ s6 b = s6 a) as K.
  { intros h a b E. destruct h; cbn [end_set] in E; [|subst; auto]. assert (s6 b = s6 a) as S by exact (same_s6 _ _ _ E).
    pose proof (ps_mask _ _ _ E) as MM. pose proof (ps_address _ _ _ E) as AA. unfold get_mask, get_ipv6 in *.
    unfold match_, is_default, s6 in *. rewrite AA, MM. auto. }
  destruct (K _ _ _ H3) as (A1 & A2 & A3). destruct (K _ _ _ H4) as (B1 & B2 & B3).
  unfold le_, ge_, gt_, lt_, eq_. rewrite ?A1, ?A2, ?A3, ?B1, ?B2, ?B3. reflexivity.
Qed.
Lemma instead_match k r l x : instead k r l -> forall rest, address_match_ranges (l ++ rest) x = address_match_ranges (r :: rest) x.
Proof.
  unfold instead. destruct (_ || _); [now intros -> rest|]. intros (t & T & _ & H) rest. pose proof (set_match _ _ _ x T) as ET.
  destruct H as [->|(u & i & -> & U & I & _)]; cbn [app address_match_ranges]; rewrite ET; [reflexivity|].
  rewrite (set_match _ _ _ x U), (set_match _ _ _ x I). destruct (range_match r x) as [[|]|e| |]; reflexivity.
Qed.
Theorem C157_same_addresses : forall y g p p2 s rs, posix y g -> lookups_on p p2 -> known_protocol p ->
  get_sort_order p = SORT_NO \/ get_sort_order p = SORT_NO_EMPTY -> clean s -> reads y g s p rs ->
  exists l, reads y g s p2 l /\ forall x, address_match_ranges l x = address_match_ranges rs x.
Proof.
  intros y g p p2 s rs G L K S C R. destruct (C157_each_kind _ _ _ _ _ _ G L K S C R) as (l & E & ls & F & ->). exists (concat ls).
  split; [exact E|]. intros x. clear - F. induction F as [|r grp l ls H F IH]; [reflexivity|]. cbn [concat].
  rewrite (instead_match _ _ _ x H). cbn [address_match_ranges]. now rewrite IH.
Qed.
Print Assumptions C157_same_addresses.

(* string_to_addr(), which always allows lookups, gives the address the parser
   without lookups gives: of the three answers the one for TCP. *)
Definition numeric_parser (default_port : Z) (mask : bool) : parser :=
  fst (set_allow (fst (set_allow (fst (set_default_port parser_new default_port)) ALLOW_ADDRESS_LOOKUP false)) ALLOW_MASK mask).
Theorem C157_string_to_addr : forall y g s default_port mask r, posix y g -> clean s -> -1 <= default_port <= 65535 ->
  reads y g s (numeric_parser default_port mask) [r] -> has_from r = true -> has_to r = false ->
  string_to_addr y g s [] default_port [] mask = Ok (get_from r).
Proof.
  intros y g s d mask r G C D R HF HT. set (p := numeric_parser d mask) in *.
  assert (set_default_port parser_new d = (with_default_port parser_new d, Ok tt)) as ED.
  { unfold set_default_port. replace ((d <? -1) || (d >? 65535)) with false by lia. reflexivity. }
  set (p2 := fst (set_allow (with_default_port parser_new d) ALLOW_MASK mask)).
  assert (lookups_on p p2) as L.
  { unfold p, p2, numeric_parser. rewrite ED. destruct mask; repeat split. }
  assert (exists l, reads y g s p2 l /\ spread (-1) [r] l) as (l & (p1 & E & _) & ls & F & ->).
  { change (-1) with (parser_get_protocol p) at 1 || idtac.
    assert (parser_get_protocol p = -1) as PP by (unfold p, numeric_parser; rewrite ED; destruct mask; reflexivity).
    rewrite <- PP. apply (C157_each_kind y g p p2 s [r]); auto.
    - unfold known_protocol. rewrite PP. cbn. auto.
    - left. unfold p, numeric_parser. rewrite ED. destruct mask; reflexivity. }
  unfold string_to_addr. cbv zeta.
  assert (forall f : parser -> res addr, (let! q := (if negb (d =? -1)
     then let '(p', r) := set_default_port parser_new d in let! _ := r in Ok p' else Ok parser_new) in f q) = f (with_default_port parser_new d)) as EP.
  { intros f. destruct (d =? -1) eqn:X; cbn [negb]; [|rewrite ED; reflexivity]. apply Z.eqb_eq in X. subst d. reflexivity. }
  match goal with |- (let! p := Ok parser_new in @?f p) = _ => change (f parser_new = Ok (get_from r)) end. cbv beta.
  rewrite EP. match goal with |- (let! p := Ok ?q in @?f p) = _ => change (f q = Ok (get_from r)) end. cbv beta. fold p2. rewrite E. cbn [snd].
  inversion F as [|? grp ? ls' IN F' Q1 Q2]. inversion F'. subst. cbn [concat]. rewrite app_nil_r. unfold instead in IN. cbn in IN.
  destruct IN as (t & T & T1 & H). specialize (T1 eq_refl). subst t.
  assert (get_protocol (get_from r) = IPPROTO_TCP) as PT by (destruct T as (_ & _ & T & _); rewrite HF in T; apply T).
  assert (forall k z, range_set k r z -> k <> IPPROTO_TCP ->
    negb (has_from z && negb (get_protocol (get_from z) =? IPPROTO_TCP)) = false) as DROP.
  { intros k z (Z1 & _ & Z3 & _) NK. rewrite Z1, HF in *. cbn [end_set] in Z3. rewrite (ps_protocol _ _ _ Z3).
    replace (k =? IPPROTO_TCP) with false by (symmetry; now apply Z.eqb_neq). reflexivity. }
  assert (negb (has_from r && negb (get_protocol (get_from r) =? IPPROTO_TCP)) = true) as KEEP by (rewrite PT, HF; reflexivity).
  assert (has_to r || is_range r = false) as NR by (unfold is_range, has_to in *; rewrite HT, andb_false_r; reflexivity).
  destruct H as [->|(u & i & -> & U & I & _)].
  - cbn. rewrite NR, HF. reflexivity.
  - assert (filter (fun it => negb (has_from it && negb (get_protocol (get_from it) =? IPPROTO_TCP))) [r; u; i] = [r]) as EF
      by (cbn [filter]; now rewrite KEEP, (DROP _ _ U), (DROP _ _ I) by discriminate).
    match goal with |- (let! p := Ok ?q in @?f p) = _ => change (f q = Ok (get_from r)) end. cbv beta iota. rewrite EF. cbn. rewrite NR, HF. reflexivity.
Qed.
Print Assumptions C157_string_to_addr.

(* ---------- a resolver which only knows numbers ---------- *)
Definition entry_of4 (q : list Z) (n k : Z) : addrinfo := mk_ai AF_INET SIZEOF_IN k (mk_in AF_INET (bswap16 n) (load32 q 0)) init_in6.
Definition entry_of6 (q : list Z) (n k : Z) : addrinfo :=
  mk_ai AF_INET6 SIZEOF_IN6 k (mk_in AF_INET 0 0) (mk_in6 AF_INET6 (bswap16 n) 0 q 0).
Definition kinds_of (st : Z) : list Z :=
  if st =? SOCK_STREAM then [IPPROTO_TCP] else if st =? SOCK_DGRAM then [IPPROTO_UDP] else [IPPROTO_TCP; IPPROTO_UDP; IPPROTO_IP].
Definition numbers_only : resolver := fun A t _ st pr =>
  match convert_string ref_sys t with
  | None => GAI_error (lit "no service names")
  | Some n =>
      match inet_pton4 A, inet_pton6 A with
      | Some q, _ => GAI_list (map (entry_of4 q n) (kinds_of st))
      | None, Some q => GAI_list (map (entry_of6 q n) (kinds_of st))
      | None, None => GAI_error (lit "no host names")
      end
  end.
Lemma kinds_list st pr ks : kinds st pr ks -> kinds_of st = ks.
Proof. intros []; reflexivity. Qed.
Lemma port_number t n : reads_port ref_sys t n -> convert_string ref_sys t = Some n.
Proof. intros [[-> ->]|(H & _)]; [vm_compute; reflexivity|exact H]. Qed.
Lemma entries_of4 q n ks : Forall2 (entry4 q n) ks (map (entry_of4 q n) ks).
Proof. induction ks; constructor; [repeat split|assumption]. Qed.
Lemma entries_of6 q n ks : Forall2 (entry6 q n) ks (map (entry_of6 q n) ks).
Proof. induction ks; constructor; [repeat split|assumption]. Qed.
Lemma numbers_only_posix : posix ref_sys numbers_only.
Proof.
  constructor.
  - intros A t n st pr ks q RP K E. unfold numbers_only. rewrite (port_number _ _ RP), E, (kinds_list _ _ _ K). eexists. split; [reflexivity|]. apply entries_of4.
  - intros A t n st pr ks q RP K E E2. unfold numbers_only. rewrite (port_number _ _ RP), E, E2, (kinds_list _ _ _ K). eexists. split; [reflexivity|]. apply entries_of6.
  - intros m t st pr ks st' pr' ks' a l K K'. unfold numbers_only. destruct (convert_string ref_sys t) as [n|]; [|discriminate].
    destruct (inet_pton4 m) as [q|]; [|destruct (inet_pton6 m) as [q|]; [|discriminate]]; rewrite (kinds_list _ _ _ K), (kinds_list _ _ _ K');
      intros H; injection H as H; destruct K; cbn [map] in H; injection H as <- _; destruct K'; cbn [map]; eexists _, _; (split; [reflexivity|]); repeat split.
Qed.

(* Refuted: "allowing lookups changes nothing for a numeric text".  One
   address becomes three; and a parser told to use IP gives addresses for TCP
   and UDP as well. *)
Definition plain_parser : parser := fst (set_allow parser_new ALLOW_ADDRESS_LOOKUP false).
Definition ip_parser : parser := fst (parser_set_protocol plain_parser IPPROTO_IP).
Theorem C157_unchanged_refuted : forall p, p = plain_parser \/ p = ip_parser ->
  exists p2 rs l, posix ref_sys numbers_only /\ lookups_on p p2 /\ known_protocol p /\ clean (lit "10.0.0.1:80")
  /\ reads ref_sys numbers_only (lit "10.0.0.1:80") p rs /\ reads ref_sys numbers_only (lit "10.0.0.1:80") p2 l
  /\ length rs = 1%nat /\ map (fun r => get_protocol (get_from r)) l = [IPPROTO_TCP; IPPROTO_UDP; IPPROTO_IP].
Proof.
  intros p H. exists (fst (set_allow p ALLOW_ADDRESS_LOOKUP true)).
  set (rs := match parse ref_sys numbers_only (lit "10.0.0.1:80") p with (_, Ok rs) => rs | _ => [] end).
  set (l := match parse ref_sys numbers_only (lit "10.0.0.1:80") (fst (set_allow p ALLOW_ADDRESS_LOOKUP true)) with (_, Ok rs) => rs | _ => [] end).
  exists rs, l. split; [apply numbers_only_posix|]. subst rs l.
  assert (clean (lit "10.0.0.1:80")) as C by (unfold clean; repeat split; intros I; vm_compute in I; intuition discriminate).
  destruct H as [->| ->]; (split; [vm_compute; auto|]); (split; [vm_compute; auto|]); (split; [exact C|]);
    (split; [eexists; split; vm_compute; reflexivity|]); (split; [eexists; split; vm_compute; reflexivity|]);
    (split; [vm_compute; reflexivity|]); vm_compute; reflexivity.
Qed.
Print Assumptions C157_unchanged_refuted.

(* Usable cases: a list with a mask, a range and an IPv6 address, for UDP and
   without protocol. *)
Definition case_parser (proto : Z) : parser :=
  let p := fst (set_allow plain_parser ALLOW_MULTI_ADDRESSES_COMMAS true) in
  let p := fst (set_allow p ALLOW_MASK true) in
  let p := fst (set_allow p ALLOW_ADDRESS_RANGE true) in
  if proto =? -1 then p else fst (parser_set_protocol p proto).
Definition case_text : str := lit "10.0.0.0/8,192.168.1.1-192.168.1.9,[2001:db8::1]:443".
Example C157_witness : forall proto, proto = IPPROTO_UDP \/ proto = -1 ->
  exists rs, posix ref_sys numbers_only /\ lookups_on (case_parser proto) (fst (set_allow (case_parser proto) ALLOW_ADDRESS_LOOKUP true))
  /\ known_protocol (case_parser proto) /\ parser_get_protocol (case_parser proto) = proto /\ get_sort_order (case_parser proto) = SORT_NO
  /\ clean case_text /\ reads ref_sys numbers_only case_text (case_parser proto) rs /\ length rs = 3%nat.
Proof.
  intros proto H. exists (match parse ref_sys numbers_only case_text (case_parser proto) with (_, Ok rs) => rs | _ => [] end).
  split; [apply numbers_only_posix|].
  assert (clean case_text) as C by (unfold clean; repeat split; intros I; vm_compute in I; intuition discriminate).
  destruct H as [->| ->]; (split; [vm_compute; auto|]); (split; [vm_compute; auto|]); (split; [reflexivity|]); (split; [reflexivity|]);
    (split; [exact C|]); (split; [eexists; split; vm_compute; reflexivity|]); vm_compute; reflexivity.
Qed.
(* string_to_addr() of "10.0.0.1:80" *)
Example C157_string_witness : exists r, reads ref_sys numbers_only (lit "10.0.0.1:80") (numeric_parser 25 true) [r]
  /\ has_from r = true /\ has_to r = false /\ get_port (get_from r) = 80.
Proof.
  exists (match parse ref_sys numbers_only (lit "10.0.0.1:80") (numeric_parser 25 true) with (_, Ok [r]) => r | _ => range_new end).
  split; [eexists; split; vm_compute; reflexivity|]. vm_compute. auto.
Qed.
