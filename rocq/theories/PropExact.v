(* What the code does in all the cases, for properties whose full statement
   is refuted: C13, C15, C26, C27, C39, C88, C89, C90 and C105. *)
From Coq Require Import Lia ZifyBool ZifyNat.
From Verif Require Import Base Addr Spec Range SpecRange Parser Iface SpecIface SpecExact.
From Verif Require Import SpecText Inet AddrText Route SpecRoute NameInfo TableTools SpecTools.
From Verif Require AddrProofs AddrProofs2 AddrProofs3 AddrProofs4 RangeProofs IfaceProofs ExactProofs PropAddr PropRange PropIface PropText PropRoute PropTools RouteProofs ToolsProofs ToolsProofs2.
Import AddrProofs AddrProofs2 AddrProofs3 AddrProofs4 RangeProofs IfaceProofs ExactProofs RouteProofs ToolsProofs ToolsProofs2.
Local Open Scope Z_scope.
Ltac Zify.zify_post_hook ::= Z.div_mod_to_equations.

(* ---------- C13 ---------- *)
(* The type is the one of the address the object had when it was asked for
   the first time since the address (or the protocol) was last set. *)
Theorem C13_remembered_type : forall y a m, history y a m ->
  snd (get_network_type a) = spec_network_type (match m with Some v => v | None => value a end).
Proof. intros y a m H. destruct (history_inv y a m H) as [W M]. now apply memo_type. Qed.
Print Assumptions C13_remembered_type.

(* Every object a program can get has such a history. *)
Theorem C13_histories : forall y a, reachable y a <-> exists m, history y a m.
Proof.
  intros y a. split.
  - induction 1 as [|a op a' r R [m H] O E N]; [exists None; constructor|].
    eexists. eapply history_step; eauto.
  - intros [m H]. induction H as [|a m op a' r H IH O E N]; [constructor|]. eapply reach_step; eauto.
Qed.
Print Assumptions C13_histories.

(* 127.0.0.1, whose type is asked, becomes 8.8.8.8 and then ::1. *)
Example C13_witness_history : forall y,
  history y stale_3 (Some (v4_base + quad 127 0 0 1))
  /\ value stale_3 = v4_base + quad 8 8 8 8
  /\ snd (get_network_type stale_3) = NETWORK_TYPE_LOOPBACK
  /\ spec_network_type (v4_base + quad 8 8 8 8) = NETWORK_TYPE_PUBLIC
  /\ history y (fst (set_ipv6_loopback stale_3)) None.
Proof.
  intros y.
  assert (H : history y stale_3 (Some (v4_base + quad 127 0 0 1))).
  { apply (history_step y stale_2 (Some (v4_base + quad 127 0 0 1)) (Op_ip_from_uint128 (v4_base + quad 8 8 8 8)) stale_3 (Ok tt));
      [|cbn [addr_op_ok]; unfold v4_base, quad; lia|reflexivity|discriminate].
    apply (history_step y stale_1 None Op_get_network_type stale_2 (Ok tt));
      [|exact I|reflexivity|discriminate].
    apply (history_step y addr_new None Op_set_ipv4_loopback stale_1 (Ok tt));
      [constructor|exact I|reflexivity|discriminate]. }
  split; [exact H|]. split; [vm_compute; reflexivity|]. split; [vm_compute; reflexivity|]. split; [vm_compute; reflexivity|].
  exact (history_step y stale_3 _ Op_set_ipv6_loopback _ (Ok tt) H I eq_refl ltac:(discriminate)).
Qed.

(* ---------- C15 ---------- *)
Lemma decimal_pos s v : decimal s v -> 0 <= v.
Proof.
  intros (_ & D & <-). unfold decimal_value.
  assert (G : forall l acc, forallb is_digit l = true -> 0 <= acc ->
    0 <= fold_left (fun v c => v * 10 + (c - 48)) l acc).
  { induction l as [|c r IH]; intros acc F A; cbn [fold_left]; auto.
    cbn [forallb] in F. apply andb_true_iff in F. destruct F as [F1 F2].
    apply IH; auto. unfold is_digit in F1. lia. }
  apply G; auto. lia.
Qed.

(* A number counts modulo 2^32. *)
Theorem C15_any_number : forall y a s v, converts_decimals y -> addr_wf a ->
  decimal s v -> v < 2 ^ 63 ->
  (v mod 2 ^ 32 <= 65535 -> exists b, set_port_str y a s = (b, Ok true)
     /\ get_port b = v mod 2 ^ 32 /\ is_port_defined b = true)
  /\ (v mod 2 ^ 32 > 65535 -> set_port_str y a s = (a, Throw E_invalid_argument)).
Proof.
  intros y a s v C W D H. pose proof (decimal_pos _ _ D). unfold set_port_str. rewrite (C s v D H).
  pose proof (set_port_spec a (s32 v) W) as S.
  assert (s32 v = v mod 2 ^ 32 \/ s32 v = v mod 2 ^ 32 - 2 ^ 32 /\ v mod 2 ^ 32 >= 2 ^ 31) as K by (unfold s32; lia).
  assert (0 <= v mod 2 ^ 32 < 2 ^ 32) as B by (apply Z.mod_pos_bound; lia).
  remember (v mod 2 ^ 32) as k. clear Heqk.
  split; intros R; destruct (_ && _) eqn:E in S; try (exfalso; lia).
  - destruct S as (b & -> & _ & G & P & _). exists b. split; [reflexivity|]. split; [lia|exact P].
  - now rewrite S.
Qed.
Print Assumptions C15_any_number.

Example C15_witness_any : converts_decimals ref_sys /\ decimal (lit "4294975376") 4294975376
  /\ 4294975376 mod 2 ^ 32 = 8080
  /\ get_port (fst (set_port_str ref_sys PropAddr.w4 (lit "4294975376"))) = 8080
  /\ set_port_str ref_sys PropAddr.w4 (lit "4295032832") = (PropAddr.w4, Throw E_invalid_argument).
Proof. split; [apply ref_sys_converts|]. split; [split; [discriminate|split; reflexivity]|]. vm_compute. auto. Qed.

(* ---------- C39 ---------- *)
(* The same of the default port, except that 2^32 - 1 (as -1) is no default
   port. *)
Theorem C39_any_number : forall y p s v, converts_decimals y -> decimal s v -> v < 2 ^ 63 ->
  (v mod 2 ^ 32 <= 65535 -> snd (set_default_port_str y p s) = Ok tt
     /\ get_default_port (fst (set_default_port_str y p s)) = v mod 2 ^ 32)
  /\ (v mod 2 ^ 32 = 2 ^ 32 - 1 -> snd (set_default_port_str y p s) = Ok tt
     /\ get_default_port (fst (set_default_port_str y p s)) = -1)
  /\ (65535 < v mod 2 ^ 32 < 2 ^ 32 - 1 -> set_default_port_str y p s = (p, Throw E_invalid_argument)).
Proof.
  intros y p s v C D H. pose proof (decimal_pos _ _ D). unfold set_default_port_str.
  destruct s as [|c s]; [destruct D as [D _]; now elim D|]. rewrite (C _ v D H). unfold set_default_port.
  assert (s32 v = v mod 2 ^ 32 /\ v mod 2 ^ 32 < 2 ^ 31 \/ s32 v = v mod 2 ^ 32 - 2 ^ 32 /\ v mod 2 ^ 32 >= 2 ^ 31) as K by (unfold s32; lia).
  assert (0 <= v mod 2 ^ 32 < 2 ^ 32) as B by (apply Z.mod_pos_bound; lia).
  remember (v mod 2 ^ 32) as k. clear Heqk.
  split; [|split]; intros R; destruct (_ || _) eqn:E; try (exfalso; lia); try reflexivity;
    (split; [reflexivity|cbn [fst get_default_port with_default_port f_default_port]; lia]).
Qed.
Print Assumptions C39_any_number.

Example C39_witness_any : decimal (lit "4294967295") (2 ^ 32 - 1)
  /\ get_default_port (fst (set_default_port_str ref_sys parser_new (lit "8080"))) = 8080
  /\ get_default_port (fst (set_default_port_str ref_sys
       (fst (set_default_port_str ref_sys parser_new (lit "8080"))) (lit "4294967295"))) = -1
  /\ set_default_port_str ref_sys parser_new (lit "4294967294") = (parser_new, Throw E_invalid_argument).
Proof. split; [split; [discriminate|split; reflexivity]|]. vm_compute. auto. Qed.

(* ---------- C26 ---------- *)
(* size() of any range with both ends: the distance between the ends, plus
   one, modulo 2^128, and no more than the largest std::size_t; undefined
   when the distance is the largest __int128. *)
Theorem C26_any_size : forall r, range_wf r -> full r ->
  let n := (value (f_to r) - value (f_from r) + 1) mod 2 ^ 128 in
  size r = if n =? 2 ^ 127 then UB else Ok (Z.min n (2 ^ 64 - 1)).
Proof.
  intros r W F n. destruct (full_lo_hi r F) as [L H]. subst n. rewrite <- L, <- H.
  pose proof (lo_range r W). pose proof (hi_range r W).
  destruct (size_general r W F) as (d & D & M & ->). unfold LAST, u128, SIZE_MAX in *.
  remember (hi r - lo r) as k. clear Heqk L H.
  assert ((k + 1) mod 2 ^ 128 = (d + 1) mod 2 ^ 128) as -> by (rewrite <- (Z.add_mod_idemp_l k), <- (Z.add_mod_idemp_l d) by lia; now rewrite M).
  clear M. assert ((d =? 2 ^ 127 - 1) = ((d + 1) mod 2 ^ 128 =? 2 ^ 127)) as -> by lia. reflexivity.
Qed.
Print Assumptions C26_any_size.

Example C26_witness_any : range_wf PropRange.r_empty /\ full PropRange.r_empty
  /\ (let r := PropRange.range_of (PropRange.net LAST 128) (PropRange.net 4 128) in
      range_wf r /\ full r /\ value (f_from r) > value (f_to r) /\ size r = Ok 6).
Proof.
  split; [PropRange.wfr|]. split; [split; reflexivity|]. cbv zeta.
  split; [PropRange.wfr|]. split; [split; reflexivity|]. split; vm_compute; reflexivity.
Qed.

(* ---------- C27 ---------- *)
(* to_addresses() of any range with both ends. *)
Theorem C27_any_range : forall r limit, range_wf r -> full r -> 0 <= limit < 2 ^ 64 ->
  let first := value (f_from r) in
  let last := value (f_to r) in
  let n := (last - first + 1) mod 2 ^ 128 in
  (n = 2 ^ 127 -> forall fuel, to_addresses fuel r limit = UB)
  /\ (n <> 2 ^ 127 -> Z.min n (2 ^ 64 - 1) > limit -> forall fuel, to_addresses fuel r limit = Throw E_out_of_range)
  /\ (n <> 2 ^ 127 -> Z.min n (2 ^ 64 - 1) <= limit ->
      (last = LAST -> forall fuel, to_addresses fuel r limit = OutOfFuel)
      /\ (last < LAST -> first <= last -> forall fuel, last - first < Z.of_nat fuel ->
          exists l, to_addresses fuel r limit = Ok l
          /\ map value l = map (fun i => first + Z.of_nat i) (seq 0 (Z.to_nat (last - first + 1)))
          /\ Forall (fun a => addr_wf a /\ same_but_ip (f_from r) a) l)
      /\ (last < first -> forall fuel, to_addresses (S fuel) r limit = Ok [f_from r])).
Proof.
  intros r limit W F B first last n. pose proof (C26_any_size r W F) as S. cbv zeta in S. fold first last n in S.
  destruct F as [F1 F2]. destruct W as [W1 W2]. unfold to_addresses. rewrite S.
  split; [|split].
  - intros E fuel. rewrite E. reflexivity.
  - intros E G fuel. destruct (n =? 2 ^ 127) eqn:Q; [lia|]. cbn [rbind].
    replace (Z.min n (2 ^ 64 - 1) >? limit) with true by lia. reflexivity.
  - intros E G. destruct (n =? 2 ^ 127) eqn:Q; [lia|]. cbn [rbind].
    replace (Z.min n (2 ^ 64 - 1) >? limit) with false by lia.
    unfold has_from, has_to. rewrite F1, F2. cbn [andb].
    split; [|split].
    + intros T fuel. now apply loop_forever.
    + intros T N fuel K. rewrite (loop_enum (f_to r) W2 T (Z.to_nat (last - first))); [|assumption|exact N|subst first last; lia|lia].
      eexists; split; [reflexivity|].
      replace (Datatypes.S (Z.to_nat (last - first))) with (Z.to_nat (last - first + 1)) by lia.
      apply enum_spec; auto. subst first. lia.
    + intros T fuel. cbn [to_addresses_loop]. pose proof (value_range _ W1) as V1. pose proof (value_range _ W2) as V2.
      destruct (incr_moved _ W1) as (Wi & _ & Vi). rewrite le_value, Vi by auto. unfold clamp.
      replace (_ <=? _) with false; [reflexivity|]. subst first last. clear S E G Q n. unfold LAST in *. lia.
Qed.
Print Assumptions C27_any_range.

(* And of a vector: the total counts modulo 2^64. *)
Theorem C27_any_vector : forall ranges sizes limit fuel,
  Forall2 (fun r s => size r = Ok s) ranges sizes ->
  (fold_right Z.add 0 sizes mod 2 ^ 64 > limit -> to_addresses_vector fuel ranges limit = Throw E_out_of_range)
  /\ (fold_right Z.add 0 sizes mod 2 ^ 64 <= limit -> forall ls,
      Forall2 (fun r l => to_addresses fuel r limit = Ok l) ranges ls ->
      to_addresses_vector fuel ranges limit = Ok (concat ls)).
Proof.
  intros ranges sizes limit fuel H.
  assert (T : forall acc, 0 <= acc < 2 ^ 64 -> total_size ranges acc = Ok ((acc + fold_right Z.add 0 sizes) mod 2 ^ 64)).
  { induction H as [|r s rs ss E H IH]; intros acc A; cbn [total_size fold_right].
    - f_equal. rewrite Z.add_0_r. rewrite Z.mod_small by lia. reflexivity.
    - rewrite E. cbn [rbind]. unfold u64. rewrite IH by (apply Z.mod_pos_bound; lia).
      rewrite Z.add_mod_idemp_l by lia. now rewrite Z.add_assoc. }
  unfold to_addresses_vector. rewrite T by lia. cbn [rbind]. rewrite Z.add_0_l.
  split; intros L.
  - destruct (_ >? _) eqn:E; [reflexivity|lia].
  - intros ls F. destruct (_ >? _) eqn:E; [lia|]. clear -F.
    induction F as [|r l rs ls E F IH]; [reflexivity|]. cbn [to_addresses_all concat].
    rewrite E. cbn [rbind]. rewrite IH. reflexivity.
Qed.
Print Assumptions C27_any_vector.

Example C27_witness_any :
  let r := PropRange.range_of (PropRange.net LAST 128) (PropRange.net 4 128) in
  range_wf r /\ full r /\ to_addresses 1 r 10 = Ok [f_from r] /\ to_addresses 1 r 5 = Throw E_out_of_range
  /\ Forall2 (fun r s => size r = Ok s) [r; PropRange.r1] [6; 16]
  /\ to_addresses_vector 99 [r; PropRange.r1] 21 = Throw E_out_of_range.
Proof.
  cbv zeta. split; [PropRange.wfr|]. split; [split; reflexivity|]. split; [vm_compute; reflexivity|].
  split; [vm_compute; reflexivity|]. split; [repeat (constructor; [vm_compute; reflexivity|]); constructor|vm_compute; reflexivity].
Qed.

(* ---------- C88 ---------- *)
(* The has functions say what the device can do; the addresses are those the
   kernel gave for it, or the null address. *)
Theorem C88_any_entry : forall e i, says e i ->
  has_broadcast_address i = flag e 1 /\ has_destination_address i = flag e 4 /\
  value (get_broadcast_address i) = match ifa_ifu e with Some b => if flag e 1 then ip_of b else 0 | None => 0 end /\
  value (get_iface_destination_address i) = match ifa_ifu e with Some d => if flag e 4 then ip_of d else 0 | None => 0 end.
Proof.
  intros e i S. split; [|split; [|split; [apply (says_broadcast _ _ S)|apply (says_destination _ _ S)]]].
  - unfold has_broadcast_address. change IFF_BROADCAST with (2 ^ 1). rewrite flag_bit by lia.
    unfold flag. now rewrite <- (says_flags _ _ S).
  - unfold has_destination_address. change IFF_POINTOPOINT with (2 ^ 4). rewrite flag_bit by lia.
    unfold flag. now rewrite <- (says_flags _ _ S).
Qed.
Print Assumptions C88_any_entry.
Example C88_witness_any : exists i, make_iface PropIface.eth6 = Ok (Some i) /\ says PropIface.eth6 i
  /\ flag PropIface.eth6 1 = true /\ ifa_ifu PropIface.eth6 = None.
Proof.
  destruct (entry_some PropIface.eth6) as (i & E & S).
  - PropIface.ok_tac.
  - reflexivity.
  - exists i. split; [exact E|]. split; [exact S|]. split; reflexivity.
Qed.

(* ---------- C89 ---------- *)
(* The names listed are those before the first index without a name,
   whatever comes after. *)
Theorem C89_any_numbers : forall names k, 0 < k -> names k = None -> (forall i, 0 < i < k -> names i <> None) ->
  forall fuel, k <= Z.of_nat fuel ->
  exists l, get_interface_name_index fuel names = Ok l /\
    map fst l = map (fun i => Z.of_nat i) (seq 1 (Z.to_nat (k - 1))) /\
    Forall (fun e => names (fst e) = Some (snd e)) l.
Proof.
  intros names k K N S.
  assert (G : forall fuel m j acc, Z.of_nat m + j = k -> 0 < j -> (m < fuel)%nat -> exists l,
    name_index_loop fuel names j acc = Ok (acc ++ l) /\
    map fst l = map (fun i => Z.of_nat i) (seq (Z.to_nat j) m) /\ Forall (fun e => names (fst e) = Some (snd e)) l).
  { induction fuel as [|fuel IH]; intros m j acc E J M; [lia|]. cbn [name_index_loop]. destruct m as [|m].
    - replace j with k by lia. rewrite N. exists []. rewrite app_nil_r. repeat split. constructor.
    - destruct (names j) as [name|] eqn:X; [|exfalso; apply (S j); [lia|exact X]].
      destruct (IH m (j + 1) (acc ++ [(j, name)]) ltac:(lia) ltac:(lia) ltac:(lia)) as (l & L1 & L2 & L3).
      exists ((j, name) :: l). rewrite <- app_assoc in L1. split; [exact L1|]. split.
      + cbn [map seq fst]. rewrite L2. f_equal; [lia|]. do 2 f_equal. lia.
      + constructor; [exact X|exact L3]. }
  intros fuel F. destruct (G fuel (Z.to_nat (k - 1)) 1 [] ltac:(lia) ltac:(lia) ltac:(lia)) as (l & L1 & L2 & L3).
  exists l. auto.
Qed.
Print Assumptions C89_any_numbers.
Example C89_witness_any : PropIface.hole 2 = None /\ (forall i, 0 < i < 2 -> PropIface.hole i <> None) /\ PropIface.hole 3 <> None.
Proof. split; [reflexivity|]. split; [|discriminate]. intros i I. assert (i = 1) as -> by lia. discriminate. Qed.

(* ---------- C90 ---------- *)
(* Only the first interface whose network has the address counts. *)
Theorem C90_first_network : forall ifaces a, Forall iface_wf ifaces -> addr_wf a ->
  is_broadcast_address (Some ifaces) a = Ok true <->
  is_v4_value (value a) /\ exists before i after, ifaces = before ++ i :: after
    /\ Forall (fun j => ~ in_network a j) before /\ in_network a i /\ value (get_broadcast_address i) = value a.
Proof.
  intros ifaces a WI WA. unfold is_broadcast_address.
  assert (V4 := is_ipv4_value a WA). destruct (is_ipv4 a); cbn [negb].
  2:{ split; [discriminate|]. intros [V _]. apply V4 in V. discriminate. }
  assert (F1 : forall i, In i ifaces -> (match_ (get_address i) a false = true <-> in_network a i)).
  { intros i I. rewrite Forall_forall in WI. destruct (WI i I) as [W _]. unfold in_network.
    rewrite match_land by auto. split; congruence. }
  assert (F := find_first (in_network a) _ ifaces F1). unfold find_addr_interface.
  destruct (find _ ifaces) as [i|].
  - pose proof F as (b & c & E & X & N). cbn [rbind]. assert (I : In i ifaces) by (rewrite E; apply in_elt).
    pose proof WI as WI'. rewrite Forall_forall in WI'. destruct (WI' i I) as (_ & WB & _). rewrite eq_value by auto. split.
    + intros Y. injection Y as Y. apply Z.eqb_eq in Y. split; [now apply V4|]. exists b, i, c. auto.
    + intros [_ (b' & j & c' & J1 & J2 & J3 & J4)].
      assert (first (in_network a) ifaces j) as FJ by (exists b', c'; auto).
      rewrite (first_unique _ _ _ _ F FJ), J4. now rewrite Z.eqb_refl.
  - cbn [negb rbind]. split; [discriminate|]. intros [_ (b' & j & c' & J1 & J2 & J3 & J4)]. unfold none in F.
    rewrite Forall_forall in F. exfalso. apply (F j); [rewrite J1; apply in_elt|exact J3].
Qed.
Print Assumptions C90_first_network.
Example C90_witness_first : exists is a, make_ifaces
    [PropIface.net (lit "eth0") 0x0500000A 0x000000FF 0xFFFFFF0A; PropIface.net (lit "eth1") 0x0500010A 0x0000FFFF 0xFFFF010A] = Ok is
  /\ a = PropIface.at4 10 255 255 255 /\ is_broadcast_address (Some is) a = Ok true.
Proof. do 2 eexists. split; [vm_compute; reflexivity|]. split; [reflexivity|vm_compute; reflexivity]. Qed.

(* ---------- C105 ---------- *)
Import PropRoute PropIface PropTools.
(* The interfaces printed are those with an address whose host name, empty
   when there is none, is the name of the interface of the default route. *)
Theorem C105_any_names : forall y ni version hs rows file l argv0 args answer,
  Forall entry_ok l -> existsb has_ip l = true -> only args iface_settings -> by_default_route args = true ->
  given args opt_name_only = true -> table hs rows file -> incl columns hs -> rows <> [] ->
  (forall e, In e l -> has_ip e = true -> forall port udp, resolver_answers ni false (entry_ip e) port udp (answer e)) ->
  ifaces y ni version (Some file) (Some l) argv0 args =
  mk_run (lines (once (map ifa_name (filter (fun e => has_ip e && str_eqb (text_of (answer e)) (last_default rows)) l)))) [] (Ok 0).
Proof.
  intros y ni version hs rows file l argv0 args answer OK HAS O D N T I NE H.
  destruct (entries_tell l OK) as (is & E & F). pose proof (table_ok _ _ _ T) as K.
  destruct (table_routes hs rows file [] T I (fun x => x)) as (rs & ER & FR).
  rewrite app_nil_r in ER. change (get_ipv4_routes (@Some str file) = Ok rs) in ER.
  assert (DI : default_interface rs = last_default rows).
  { apply default_interface_ok; [exact K|]. clear - FR. induction FR as [|k r ks rs [A _] FR IH]; constructor; auto. }
  assert (F2 : Forall2 tells (filter (fun e => has_ip e && str_eqb (text_of (answer e)) (last_default rows)) l)
    (filter (keeps ni FILTER_DEFAULT (last_default rows)) is)).
  { replace (filter (fun e => has_ip e && str_eqb (text_of (answer e)) (last_default rows)) l)
      with (filter (fun e => str_eqb (text_of (answer e)) (last_default rows)) (filter has_ip l)).
    - apply Forall2_filter; [exact F|]. intros e i IN (S & _ & V). apply filter_In in IN as [IN HI].
      cbn [keeps]. f_equal.
      destruct (C100_names ni (get_address i) (answer e)) as (C & _); [apply (says_wf _ _ S)|].
      apply C. rewrite V. now apply H.
    - rewrite filter_filter. apply filter_same. intros e. now rewrite andb_comm. }
  unfold ifaces. pose proof (ifaces_arguments_ok version argv0 args [] (mk_ifaces_options FILTER_ALL false false false) O) as A.
  rewrite app_nil_r in A. rewrite A. cbn [ifaces_arguments io_filter io_hide_headers io_asterisk io_name_only orb get_local_addresses].
  rewrite E. cbn [rbind]. destruct is as [|i is].
  { exfalso. inversion F as [X|]; subst. apply existsb_exists in HAS as (e & IE & Q).
    assert (In e (filter has_ip l)) by (apply filter_In; auto). rewrite <- X in H0. destruct H0. }
  assert (FD : filter_of (the_filter args) FILTER_ALL = FILTER_DEFAULT).
  { unfold by_default_route in D. unfold filter_of. now rewrite D. }
  rewrite FD, ER, N, orb_true_r. destruct rs as [|r rs]; [inversion FR; subst; congruence|]. rewrite DI.
  rewrite iface_names_ok by reflexivity. cbn [io_filter app]. rewrite (tells_names _ _ F2). do 2 f_equal.
  rewrite <- (filter_all (once _)) at 2. apply filter_same. reflexivity.
Qed.
Print Assumptions C105_any_names.
Example C105_witness_any : table hs [k1; k2] text2 /\ last_default [k1; k2] = lit "eth0"
  /\ (forall e, In e entries -> has_ip e = true -> forall port udp,
        resolver_answers (fun x _ _ => if num (sin6_addr x) =? 1 then Some (lit "eth0") else None) false (entry_ip e) port udp
          (if entry_ip e =? 1 then Some (lit "eth0") else None))
  /\ ifaces PropText.y0 (fun x _ _ => if num (sin6_addr x) =? 1 then Some (lit "eth0") else None) (lit "1.0")
       (Some text2) (Some entries) (lit "i") [lit "--default"; lit "--name-only"] =
     mk_run (lit "lo" ++ [10]) [] (Ok 0).
Proof.
  split; [exact text2_table|]. split; [reflexivity|]. split; [|vm_compute; reflexivity].
  intros e I H port udp x flags _ E _ _ _. now rewrite E.
Qed.
