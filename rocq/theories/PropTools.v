(* Properties C100-C106: names of addresses and services, the tools
   ipv4-routes and ifaces. *)
From Coq Require Import Lia ZifyBool ZifyNat.
From Verif Require Import Base Addr Spec SpecText Inet AddrText Route Iface SpecRoute SpecIface NameInfo TableTools SpecTools.
From Verif Require AddrProofs3 RouteProofs IfaceProofs PropText PropAddr PropRoute PropIface ToolsProofs ToolsProofs2.
Import AddrProofs3 RouteProofs IfaceProofs ToolsProofs ToolsProofs2.
Local Open Scope Z_scope.

(* ---------- C100 ---------- *)
(* Asked for the name (or for the service) of this IP address and this port,
   and for names only (flag 8, bit 3), the resolver answers so; bit 4 of the
   flags says that it is about UDP. *)
Definition resolver_answers (ni : name_info) (service : bool) (ip port : Z) (udp : bool) (answer : option str) : Prop :=
  forall x flags, sin6_family x = AF_INET6 -> num (sin6_addr x) = ip -> bswap16 (sin6_port x) = port ->
    Z.testbit flags 3 = true -> Z.testbit flags 4 = udp -> ni x service flags = answer.
Definition text_of (answer : option str) : str := match answer with Some s => s | None => [] end.
Lemma flags_bits a : Z.testbit (name_flags a) 3 = true /\ Z.testbit (name_flags a) 4 = (f_protocol a =? IPPROTO_UDP).
Proof. unfold name_flags. destruct (f_protocol a =? IPPROTO_UDP); split; reflexivity. Qed.
Theorem C100_names : forall ni a answer, addr_wf a ->
  (resolver_answers ni false (value a) (get_port a) (get_protocol a =? IPPROTO_UDP) answer ->
   host_name ni a = text_of answer)
  /\ (resolver_answers ni true (value a) (get_port a) (get_protocol a =? IPPROTO_UDP) answer ->
      get_port a <> 0 -> service_name ni a = text_of answer)
  /\ (get_port a = 0 -> service_name ni a = []).
Proof.
  intros ni a answer W. destruct (flags_bits a) as [B3 B4].
  split; [|split].
  - intros R. unfold host_name. rewrite (R (f_address a) (name_flags a) (wf_family _ W) eq_refl eq_refl B3 B4). reflexivity.
  - intros R P. unfold service_name. replace (get_port a =? 0) with false by lia.
    rewrite (R (f_address a) (name_flags a) (wf_family _ W) eq_refl eq_refl B3 B4). reflexivity.
  - intros E. unfold service_name. rewrite E. reflexivity.
Qed.
Print Assumptions C100_names.
(* 192.168.3.17 has a name; port 443 has one with TCP. *)
Definition one_resolver : name_info := fun x service flags =>
  if num (sin6_addr x) =? v4_base + quad 192 168 3 17 then
    if service then if (bswap16 (sin6_port x) =? 443) && negb (Z.testbit flags 4) then Some (lit "https") else None
    else Some (lit "host.example")
  else None.
Example C100_witness : addr_wf PropAddr.w4
  /\ resolver_answers one_resolver false (value PropAddr.w4) (get_port PropAddr.w4) (get_protocol PropAddr.w4 =? IPPROTO_UDP) (Some (lit "host.example"))
  /\ resolver_answers one_resolver true (value PropAddr.w4) (get_port PropAddr.w4) (get_protocol PropAddr.w4 =? IPPROTO_UDP) (Some (lit "https"))
  /\ host_name one_resolver PropAddr.w4 = lit "host.example" /\ service_name one_resolver PropAddr.w4 = lit "https"
  /\ host_name one_resolver PropAddr.w6 = [] /\ service_name one_resolver addr_new = [].
Proof.
  split; [apply PropAddr.w4_wf|]. split; [|split; [|vm_compute; auto]].
  - intros x flags _ E _ _ _. unfold one_resolver. rewrite E. reflexivity.
  - intros x flags _ E P _ F. unfold one_resolver. rewrite E, P, F. reflexivity.
Qed.

(* ---------- C101 ---------- *)
(* One line for each route of the kernel, in its order, with all the values;
   only the default routes if asked so. *)
Definition columns : list str := [lit "Iface"; lit "Destination"; lit "Gateway"].
Lemma routes_header_ok : exists h, routes_header = h ++ [10] /\ laid_out h route_headers.
Proof.
  eexists. split; [reflexivity|].
  assert (E : lit "Iface   Destination     Gateway         Flags   RefCnt  Use     Metric  Mask            MTU     Window  IRTT    " =
    cols [(8%nat, lit "Iface"); (16%nat, lit "Destination"); (16%nat, lit "Gateway"); (8%nat, lit "Flags"); (8%nat, lit "RefCnt");
          (8%nat, lit "Use"); (8%nat, lit "Metric"); (16%nat, lit "Mask"); (8%nat, lit "MTU"); (8%nat, lit "Window"); (8%nat, lit "IRTT")])
    by (vm_compute; reflexivity).
  rewrite E. apply cols_laid.
  repeat (apply Forall_cons; [cbn [fst snd]; split; [apply PropRoute.word_check; reflexivity|vm_compute; lia]|]). constructor.
Qed.
Lemma misread_range f : 0 <= misread f < 16666.
Proof.
  unfold misread. cbv zeta.
  repeat match goal with |- context [10 <=? ?x] => destruct (Z.leb_spec 10 x) end;
    repeat match goal with |- context [?x mod 16] => pose proof (Z.mod_pos_bound x 16 ltac:(lia)); generalize dependent (x mod 16); intros end; lia.
Qed.
Lemma routes_run_header y hs rows file argv0 args (P : kernel_route -> str -> Prop) :
  table hs rows file -> incl columns hs -> rows <> [] -> only args route_settings ->
  (forall k r, In k rows -> k_ok k -> describes k r -> ((get_flags r = k_flags k <-> k_flags k < 10) /\ get_flags r = misread (k_flags k)) ->
     exists l, route_line y r = Ok (l ++ [10]) /\ P k l) ->
  exists header ls, (laid_out header route_headers /\ routes_header = header ++ [10])
    /\ ipv4_routes y (Some file) argv0 args = mk_run (lines ((if given args opt_hide then [] else [header]) ++ ls)) [] (Ok 0)
    /\ Forall2 P (wanted_routes args rows) ls.
Proof.
  intros T I N O H. destruct routes_header_ok as (h & EH & LH). exists h.
  pose proof (table_ok _ _ _ T) as K. destruct (table_routes hs rows file [] T I (fun x => x)) as (rs & E & F).
  rewrite app_nil_r in E. change (get_ipv4_routes (@Some str file) = Ok rs) in E.
  assert (F1 : Forall2 (fun k r => In k rows /\ k_ok k /\ describes k r /\ ((get_flags r = k_flags k <-> k_flags k < 10) /\ get_flags r = misread (k_flags k))) rows rs).
  { clear - F K. assert (G : forall l, incl rows l -> Forall2 (fun k r => In k l /\ k_ok k /\ describes k r /\ ((get_flags r = k_flags k <-> k_flags k < 10) /\ get_flags r = misread (k_flags k))) rows rs).
    { induction F as [|k r ks rs [D1 D2] F IH]; intros l S; constructor.
      - inversion K; subst. split; [apply S; now left|]. auto.
      - inversion K; subst. apply IH; auto. intros x X. apply S. now right. }
    apply G. apply incl_refl. }
  assert (F2 : Forall2 (fun k r => In k rows /\ k_ok k /\ describes k r /\ ((get_flags r = k_flags k <-> k_flags k < 10) /\ get_flags r = misread (k_flags k)))
    (wanted_routes args rows) (filter (fun r => negb (given args opt_default) || is_default (get_destination_address r)) rs)).
  { unfold wanted_routes. destruct (given args opt_default); cbn [negb orb].
    - apply Forall2_filter; [exact F1|]. intros k r _ (_ & (_ & Q & _) & D & _). now apply describes_default.
    - now rewrite filter_all. }
  destruct (Forall2_build _ P (fun r l => route_line y r = Ok (l ++ [10])) _ _ F2) as (ls & L1 & L2).
  { intros k r _ (X1 & X2 & X3 & X4). auto. }
  exists ls. split; [split; [exact LH|exact EH]|]. split; [|exact L2].
  unfold ipv4_routes. pose proof (routes_arguments_ok argv0 args [] (mk_routes_options false false) O) as A.
  rewrite app_nil_r in A. rewrite A. cbn [routes_arguments show_default ro_hide_headers orb]. rewrite E.
  destruct rs as [|r rs]; [inversion F; subst; congruence|].
  rewrite (route_lines_ok y _ (r :: rs) ls _ L1). f_equal.
  destruct (given args opt_hide); [reflexivity|]. rewrite EH. unfold lines. cbn [app map concat]. reflexivity.
Qed.
Lemma routes_run y hs rows file argv0 args (P : kernel_route -> str -> Prop) :
  table hs rows file -> incl columns hs -> rows <> [] -> only args route_settings ->
  (forall k r, In k rows -> k_ok k -> describes k r -> ((get_flags r = k_flags k <-> k_flags k < 10) /\ get_flags r = misread (k_flags k)) ->
     exists l, route_line y r = Ok (l ++ [10]) /\ P k l) ->
  exists header ls, laid_out header route_headers
    /\ ipv4_routes y (Some file) argv0 args = mk_run (lines ((if given args opt_hide then [] else [header]) ++ ls)) [] (Ok 0)
    /\ Forall2 P (wanted_routes args rows) ls.
Proof. intros T I N O H. destruct (routes_run_header y hs rows file argv0 args P T I N O H) as (h & ls & [A _] & B). exists h, ls. split; [exact A|exact B]. Qed.
Theorem C101_one_line_each : forall y hs rows file argv0 args,
  table hs rows file -> incl columns hs -> rows <> [] -> only args route_settings ->
  exists header ls, laid_out header route_headers
    /\ ipv4_routes y (Some file) argv0 args = mk_run (lines ((if given args opt_hide then [] else [header]) ++ ls)) [] (Ok 0)
    /\ Forall2 (fun k l => ~ In 10 l /\ exists ws, shows_route k (letters (misread (k_flags k))) ws /\ fields l ws) (wanted_routes args rows) ls.
Proof.
  intros y hs rows file argv0 args T I N O. apply (routes_run y hs); auto.
  intros k r _ K D [_ G]. destruct (route_line_ok y k r K D) as (l & ws & E & FI & NN & S & _).
  exists l. split; [exact E|]. split; [exact NN|]. exists ws. split; [|exact FI].
  pose proof (misread_range (k_flags k)).
  rewrite PropRoute.C85_flag_letters in S by (rewrite G; change (2 ^ 31) with 2147483648; lia). rewrite G in S. exact S.
Qed.
Print Assumptions C101_one_line_each.
(* The words of each line are the values of the route, when they fit. *)
Theorem C101_words_partial : forall y hs rows file argv0 args,
  table hs rows file -> incl columns hs -> rows <> [] -> only args route_settings -> Forall fits_columns rows ->
  exists header ls, laid_out header route_headers
    /\ ipv4_routes y (Some file) argv0 args = mk_run (lines ((if given args opt_hide then [] else [header]) ++ ls)) [] (Ok 0)
    /\ Forall2 (fun k l => exists ws, shows_route k (letters (k_flags k)) ws /\ laid_out l ws) (wanted_routes args rows) ls.
Proof.
  intros y hs rows file argv0 args T I N O FIT. apply (routes_run y hs); auto.
  intros k r IN K D [FL _]. destruct (route_line_ok y k r K D) as (l & ws & E & FI & NN & S & LO).
  rewrite Forall_forall in FIT. destruct (FIT k IN) as [F1 F2 F3 F4 F5 F6 F7 F8].
  assert (G : get_flags r = k_flags k) by (apply FL; lia).
  assert (LT : flags_to_string r = letters (k_flags k)).
  { rewrite PropRoute.C85_flag_letters by (rewrite G; change (2 ^ 31) with 2147483648; lia). rewrite G. reflexivity. }
  exists l. split; [exact E|]. exists ws. rewrite <- LT. split; [exact S|]. apply LO; auto.
  - rewrite LT. assert (C : k_flags k = 1 \/ k_flags k = 2 \/ k_flags k = 3 \/ k_flags k = 4 \/ k_flags k = 5 \/ k_flags k = 6
      \/ k_flags k = 7 \/ k_flags k = 8 \/ k_flags k = 9) by lia.
    decompose [or] C; match goal with X : k_flags k = _ |- _ => rewrite X end; vm_compute; discriminate.
  - rewrite LT. assert (C : k_flags k = 1 \/ k_flags k = 2 \/ k_flags k = 3 \/ k_flags k = 4 \/ k_flags k = 5 \/ k_flags k = 6
      \/ k_flags k = 7 \/ k_flags k = 8 \/ k_flags k = 9) by lia.
    decompose [or] C; match goal with X : k_flags k = _ |- _ => rewrite X end; vm_compute; lia.
Qed.
Print Assumptions C101_words_partial.
(* The table with the routes k1 and k2 of PropRoute. *)
Import PropRoute.
Definition text2 : str := concat (map (fun l => line l ++ [10]) [hs; row1; row2]).
Lemma text2_table : table hs [k1; k2] text2.
Proof.
  exists (line hs), [line row1; line row2]. split; [apply words_check; reflexivity|]. split.
  - repeat constructor; cbn; intuition discriminate.
  - split; [|reflexivity]. pose proof rows_ok as R. inversion R as [|? ? ? ? A R1]; subst.
    inversion R1 as [|? ? ? ? B R2]; subst. repeat constructor; assumption.
Qed.
Example C101_witness : table hs [k1; k2] text2 /\ incl columns hs /\ Forall fits_columns [k1; k2]
  /\ only [lit "--hide-headers"; lit "-d"] route_settings
  /\ ipv4_routes PropText.y0 (Some text2) (lit "r") [lit "--hide-headers"; lit "-d"] =
     mk_run (lit "eth0    0.0.0.0         192.0.2.1       UG      0       0       100     0.0.0.0         1500    0       0       " ++ [10]) [] (Ok 0).
Proof.
  split; [exact text2_table|]. split; [intros x I; cbn in I |- *; tauto|]. split; [|split].
  - repeat constructor; cbn; unfold seven; lia.
  - intros x I. cbn in I |- *. tauto.
  - vm_compute. reflexivity.
Qed.
(* The name of a real interface: it runs into the destination. *)
Definition row4 := lit "enp0s31f6" :: tl row1.
Definition k4 := mk_kroute (lit "enp0s31f6") (0, 0, 0, 0) (192, 0, 2, 1) (0, 0, 0, 0) 3 0 0 100 1500 0 0.
Definition text4 : str := concat (map (fun l => line l ++ [10]) [hs; row4]).
Lemma text4_table : table hs [k4] text4.
Proof.
  exists (line hs), [line row4]. split; [apply words_check; reflexivity|]. split.
  - repeat constructor; cbn; intuition discriminate.
  - split; [|reflexivity]. pose proof rows_ok as R. inversion R as [|? ? ? ? (ws & L & S) R1]; subst.
    constructor; [|constructor]. exists row4. split; [apply words_check; reflexivity|].
    assert (W : ws = row1).
    { assert (L1 : laid_out (line row1) row1) by (apply words_check; reflexivity).
      pose proof (read_line _ _ L [] []) as E1. pose proof (read_line _ _ L1 [] []) as E2. cbn [app] in E1, E2. congruence. }
    subst ws. destruct S as [A1 A2 A3 A4 A5 A6 A7 A8 A9 A10 A11].
    assert (G : forall n w, n <> lit "Iface" -> column hs row1 n w -> column hs row4 n w).
    { intros n w NE (i & I1 & I2). exists i. split; [exact I1|]. destruct i as [|i]; [|exact I2].
      change (Some (lit "Iface") = Some n) in I1. congruence. }
    assert (GE : forall n (Q : str -> Prop), n <> lit "Iface" -> (exists w, column hs row1 n w /\ Q w) ->
      exists w, column hs row4 n w /\ Q w).
    { intros n Q NE (w & C & X). exists w. auto. }
    constructor.
    + exists 0%nat. split; reflexivity.
    + apply GE; [discriminate|exact A2].
    + apply GE; [discriminate|exact A3].
    + destruct A4 as [X Y]. split; [exact X|]. apply G; [discriminate|exact Y].
    + destruct A5 as [X Y]. split; [exact X|]. apply GE; [discriminate|exact Y].
    + destruct A6 as [X Y]. split; [exact X|]. apply GE; [discriminate|exact Y].
    + destruct A7 as [X Y]. split; [exact X|]. apply GE; [discriminate|exact Y].
    + apply GE; [discriminate|exact A8].
    + destruct A9 as [X Y]. split; [exact X|]. apply GE; [discriminate|exact Y].
    + destruct A10 as [X Y]. split; [exact X|]. apply GE; [discriminate|exact Y].
    + destruct A11 as [X Y]. split; [exact X|]. apply GE; [discriminate|exact Y].
Qed.
Theorem C101_words_refuted : forall y argv0, table hs [k4] text4 /\
  ipv4_routes y (Some text4) argv0 [lit "--hide-headers"] =
  mk_run (lit "enp0s31f60.0.0.0         192.0.2.1       UG      0       0       100     0.0.0.0         1500    0       0       " ++ [10]) [] (Ok 0).
Proof. intros y argv0. split; [exact text4_table|vm_compute; reflexivity]. Qed.
Print Assumptions C101_words_refuted.

(* ---------- C102 ---------- *)
(* Without routes, with --help and with anything unknown: status 1, and a
   message. The first such argument decides. *)
Theorem C102_no_routes : forall y hs file argv0 args, table hs [] file -> incl columns hs -> only args route_settings ->
  ipv4_routes y (Some file) argv0 args = mk_run [] (lit "error: no routes found, is your network up?" ++ [10]) (Ok 1)
  /\ ipv4_routes y None argv0 args = mk_run [] (lit "error: no routes found, is your network up?" ++ [10]) (Ok 1).
Proof.
  intros y hs file argv0 args T I O. unfold ipv4_routes.
  pose proof (routes_arguments_ok argv0 args [] (mk_routes_options false false) O) as A.
  rewrite app_nil_r in A. rewrite A. cbn [routes_arguments].
  destruct (table_routes hs [] file [] T I (fun x => x)) as (rs & E & F). rewrite app_nil_r in E. change (get_ipv4_routes (@Some str file) = Ok rs) in E. inversion F; subst.
  rewrite E. split; reflexivity.
Qed.
Print Assumptions C102_no_routes.
Theorem C102_options : forall y file argv0 before a after, only before route_settings ->
  (In a opt_help ->
     ipv4_routes y file argv0 (before ++ a :: after) = mk_run (routes_usage argv0) [] (Ok 1))
  /\ (~ In a (opt_help ++ route_settings) ->
     ipv4_routes y file argv0 (before ++ a :: after) =
     mk_run [] (lit "error: unknown command line option """ ++ a ++ lit """. Try --help for additional info." ++ [10]) (Ok 1)).
Proof.
  intros y file argv0 before a after O. unfold ipv4_routes. rewrite (routes_arguments_ok argv0 before _ _ O).
  cbn [routes_arguments]. split.
  - intros [<-|[<-|[]]]; reflexivity.
  - intros N. unfold opt_help, route_settings, opt_default, opt_hide in N. cbn [app In] in N.
    rewrite !str_eqb_neq by (intros X; subst a; tauto). reflexivity.
Qed.
Print Assumptions C102_options.
Example C102_witness : table hs [] (line hs ++ [10]) /\ ~ In (lit "-x") (opt_help ++ route_settings)
  /\ ipv4_routes PropText.y0 None (lit "r") [lit "-d"; lit "-x"; lit "-h"] =
     mk_run [] (lit "error: unknown command line option ""-x"". Try --help for additional info." ++ [10]) (Ok 1).
Proof.
  split; [|split; [cbn; intuition discriminate|vm_compute; reflexivity]].
  exists (line hs), []. split; [apply words_check; reflexivity|]. split.
  - repeat constructor; cbn; intuition discriminate.
  - split; [constructor|]. cbn [map concat]. now rewrite app_nil_r.
Qed.

(* ---------- C103 ---------- *)
(* One line for each address of the wanted type, in the order of the kernel.
   The last of several filters counts. *)
Lemma ifaces_header_ok : exists h, ifaces_header = h ++ [10] /\ laid_out h iface_headers.
Proof.
  eexists. split; [reflexivity|].
  assert (E : lit "Iface            Flags Address                                  Broadcast                                Destination                              " =
    cols [(17%nat, lit "Iface"); (6%nat, lit "Flags"); (41%nat, lit "Address"); (41%nat, lit "Broadcast"); (41%nat, lit "Destination")])
    by (vm_compute; reflexivity).
  rewrite E. apply cols_laid.
  repeat (apply Forall_cons; [cbn [fst snd]; split; [apply PropRoute.word_check; reflexivity|vm_compute; lia]|]). constructor.
Qed.
Lemma ifaces_run_header y ni version file l argv0 args (P : ifaddrs -> str -> Prop) :
  Forall entry_ok l -> existsb has_ip l = true -> only args iface_settings -> by_default_route args = false ->
  given args opt_name_only = false ->
  (forall e i, In e l -> tells e i -> exists s, iface_line y (given args opt_asterisk) i = Ok (s ++ [10]) /\ P e s) ->
  exists header ls, (laid_out header iface_headers /\ ifaces_header = header ++ [10])
    /\ ifaces y ni version file (Some l) argv0 args = mk_run (lines ((if given args opt_hide then [] else [header]) ++ ls)) [] (Ok 0)
    /\ Forall2 P (filter (wanted_entry args) l) ls.
Proof.
  intros OK HAS O D N H. destruct ifaces_header_ok as (h & EH & LH). exists h.
  destruct (entries_tell l OK) as (is & E & F).
  assert (F2 : Forall2 tells (filter (wanted_entry args) l)
    (filter (keeps ni (filter_of (the_filter args) FILTER_ALL) []) is)).
  { replace (filter (wanted_entry args) l) with (filter (wanted_entry args) (filter has_ip l)).
    - apply Forall2_filter; [exact F|]. intros e i IN T. apply filter_In in IN as [_ IN]. now apply keeps_wanted.
    - rewrite filter_filter. apply filter_same. intros e. unfold wanted_entry. now destruct (has_ip e); rewrite ?andb_false_r, ?andb_true_r. }
  destruct (Forall2_build _ P (fun i s => iface_line y (given args opt_asterisk) i = Ok (s ++ [10])) _ _ F2) as (ls & L1 & L2).
  { intros e i IN T. apply filter_In in IN as [IN _]. auto. }
  exists ls. split; [split; [exact LH|exact EH]|]. split; [|exact L2].
  unfold ifaces. pose proof (ifaces_arguments_ok version argv0 args [] (mk_ifaces_options FILTER_ALL false false false) O) as A.
  rewrite app_nil_r in A. rewrite A. cbn [ifaces_arguments io_filter io_hide_headers io_asterisk io_name_only orb get_local_addresses]. rewrite E. cbn [rbind].
  destruct is as [|i is].
  { exfalso. inversion F as [X|]; subst. apply existsb_exists in HAS as (e & I & Q).
    assert (In e (filter has_ip l)) by (apply filter_In; auto). rewrite <- X in H0. destruct H0. }
  unfold by_default_route in D. rewrite N, orb_false_r.
  assert (ND : filter_of (the_filter args) FILTER_ALL <> FILTER_DEFAULT).
  { unfold filter_of. rewrite D. repeat match goal with |- context [if ?b then _ else _] => destruct b end; discriminate. }
  assert (R : iface_lines y ni (mk_ifaces_options (filter_of (the_filter args) FILTER_ALL) (given args opt_hide)
      (given args opt_asterisk) false) [] (i :: is) [] (if given args opt_hide then [] else ifaces_header) =
    mk_run (lines ((if given args opt_hide then [] else [h]) ++ ls)) [] (Ok 0)).
  { erewrite iface_lines_ok; [|reflexivity|exact L1]. f_equal.
    destruct (given args opt_hide); [reflexivity|]. rewrite EH. unfold lines. cbn [app map concat]. reflexivity. }
  destruct (filter_of (the_filter args) FILTER_ALL); try exact R. now exfalso.
Qed.
Lemma ifaces_run y ni version file l argv0 args (P : ifaddrs -> str -> Prop) :
  Forall entry_ok l -> existsb has_ip l = true -> only args iface_settings -> by_default_route args = false ->
  given args opt_name_only = false ->
  (forall e i, In e l -> tells e i -> exists s, iface_line y (given args opt_asterisk) i = Ok (s ++ [10]) /\ P e s) ->
  exists header ls, laid_out header iface_headers
    /\ ifaces y ni version file (Some l) argv0 args = mk_run (lines ((if given args opt_hide then [] else [header]) ++ ls)) [] (Ok 0)
    /\ Forall2 P (filter (wanted_entry args) l) ls.
Proof. intros OK HAS O D N H. destruct (ifaces_run_header y ni version file l argv0 args P OK HAS O D N H) as (h & ls & [A _] & B). exists h, ls. split; [exact A|exact B]. Qed.
Theorem C103_one_line_each : forall y ni version file l argv0 args,
  Forall entry_ok l -> existsb has_ip l = true -> only args iface_settings -> by_default_route args = false ->
  given args opt_name_only = false ->
  exists header ls, laid_out header iface_headers
    /\ ifaces y ni version file (Some l) argv0 args = mk_run (lines ((if given args opt_hide then [] else [header]) ++ ls)) [] (Ok 0)
    /\ Forall2 (fun e s => exists ws, shows_entry (given args opt_asterisk) e ws /\ fields s ws
         /\ (~ In 10 (ifa_name e) -> ~ In 10 s)) (filter (wanted_entry args) l) ls.
Proof.
  intros y ni version file l argv0 args OK HAS O D N. apply ifaces_run; auto.
  intros e i _ T. destruct (iface_line_ok y (given args opt_asterisk) e i T) as (s & ws & E & FI & NN & S & _).
  exists s. split; [exact E|]. exists ws. auto.
Qed.
Print Assumptions C103_one_line_each.
Theorem C103_words_partial : forall y ni version file l argv0 args,
  Forall entry_ok l -> existsb has_ip l = true -> only args iface_settings -> by_default_route args = false ->
  given args opt_name_only = false -> Forall entry_fits l ->
  exists header ls, laid_out header iface_headers
    /\ ifaces y ni version file (Some l) argv0 args = mk_run (lines ((if given args opt_hide then [] else [header]) ++ ls)) [] (Ok 0)
    /\ Forall2 (fun e s => exists ws, shows_entry (given args opt_asterisk) e ws /\ laid_out s ws) (filter (wanted_entry args) l) ls.
Proof.
  intros y ni version file l argv0 args OK HAS O D N FIT. apply ifaces_run; auto.
  intros e i IN T. destruct (iface_line_ok y (given args opt_asterisk) e i T) as (s & ws & E & _ & _ & S & LO).
  exists s. split; [exact E|]. exists ws. split; [exact S|]. apply LO. rewrite Forall_forall in FIT. auto.
Qed.
Print Assumptions C103_words_partial.
Import PropIface.
Definition no_names : name_info := fun _ _ _ => None.
Example C103_witness : Forall entry_ok entries /\ existsb has_ip entries = true /\ Forall entry_fits entries
  /\ only [lit "--public"; lit "--asterisk"; lit "--loopback"] iface_settings
  /\ by_default_route [lit "--public"; lit "--asterisk"; lit "--loopback"] = false
  /\ ifaces PropText.y0 no_names (lit "1.0") None (Some entries) (lit "i") [lit "--public"; lit "--hide-headers"; lit "--asterisk"; lit "--loopback"] =
     mk_run (lit "lo               73    ::1                                      *                                        *                                        " ++ [10]) [] (Ok 0).
Proof.
  split; [exact entries_are_ok|]. split; [reflexivity|]. split; [|split; [|split; [reflexivity|vm_compute; reflexivity]]].
  - repeat (apply Forall_cons; [split; [apply PropRoute.word_check; reflexivity|split; cbn; lia]|]). constructor.
  - intros x I. cbn in I |- *. tauto.
Qed.
(* The flags IFF_DORMANT and IFF_LOWER_UP: six digits fill the column. *)
Definition dormant : ifaddrs := mk_ifaddrs (lit "wlan0") 0x31043 (Some (SN_in (mk_in AF_INET 0 0x010200C0))) None None.
Theorem C103_words_refuted : forall y ni version file argv0, entry_ok dormant /\
  ifaces y ni version file (Some [dormant]) argv0 [lit "--hide-headers"] =
  mk_run (lit "wlan0            200771192.0.2.1                                0.0.0.0                                  0.0.0.0                                  " ++ [10]) [] (Ok 0).
Proof. intros. split; [ok_tac|vm_compute; reflexivity]. Qed.
Print Assumptions C103_words_refuted.

(* ---------- C104 ---------- *)
(* Each name once, without headers. *)
Lemma tells_names es is : Forall2 tells es is -> map get_name is = map ifa_name es.
Proof. induction 1 as [|e i es is (S & _) F IH]; [reflexivity|]. cbn [map]. now rewrite IH, (says_name _ _ S). Qed.
Theorem C104_names : forall y ni version file l argv0 args,
  Forall entry_ok l -> existsb has_ip l = true -> only args iface_settings -> by_default_route args = false ->
  given args opt_name_only = true ->
  ifaces y ni version file (Some l) argv0 args = mk_run (lines (once (map ifa_name (filter (wanted_entry args) l)))) [] (Ok 0).
Proof.
  intros y ni version file l argv0 args OK HAS O D N.
  destruct (entries_tell l OK) as (is & E & F).
  assert (F2 : Forall2 tells (filter (wanted_entry args) l)
    (filter (keeps ni (filter_of (the_filter args) FILTER_ALL) []) is)).
  { replace (filter (wanted_entry args) l) with (filter (wanted_entry args) (filter has_ip l)).
    - apply Forall2_filter; [exact F|]. intros e i IN T. apply filter_In in IN as [_ IN]. now apply keeps_wanted.
    - rewrite filter_filter. apply filter_same. intros e. unfold wanted_entry. now destruct (has_ip e); rewrite ?andb_false_r, ?andb_true_r. }
  assert (NM : map get_name (filter (keeps ni (filter_of (the_filter args) FILTER_ALL) []) is) = map ifa_name (filter (wanted_entry args) l)).
  { now apply tells_names. }
  unfold ifaces. pose proof (ifaces_arguments_ok version argv0 args [] (mk_ifaces_options FILTER_ALL false false false) O) as A.
  rewrite app_nil_r in A. rewrite A. cbn [ifaces_arguments io_filter io_hide_headers io_asterisk io_name_only orb get_local_addresses]. rewrite E. cbn [rbind].
  destruct is as [|i is].
  { exfalso. inversion F as [X|]; subst. apply existsb_exists in HAS as (e & I & Q).
    assert (In e (filter has_ip l)) by (apply filter_In; auto). rewrite <- X in H. destruct H. }
  unfold by_default_route in D. rewrite N, orb_true_r.
  assert (ND : filter_of (the_filter args) FILTER_ALL <> FILTER_DEFAULT).
  { unfold filter_of. rewrite D. repeat match goal with |- context [if ?b then _ else _] => destruct b end; discriminate. }
  assert (R : iface_lines y ni (mk_ifaces_options (filter_of (the_filter args) FILTER_ALL) (given args opt_hide)
      (given args opt_asterisk) true) [] (i :: is) [] [] =
    mk_run (lines (once (map ifa_name (filter (wanted_entry args) l)))) [] (Ok 0)).
  { rewrite iface_names_ok by reflexivity. cbn [io_filter app]. rewrite NM. do 2 f_equal.
    rewrite <- (filter_all (once _)) at 2. apply filter_same. reflexivity. }
  destruct (filter_of (the_filter args) FILTER_ALL); try exact R. now exfalso.
Qed.
Print Assumptions C104_names.
(* [once] says what it should: each name, and no name twice. *)
Lemma once_in l x : In x (once l) <-> In x l.
Proof.
  induction l as [|z l IH]; [tauto|]. cbn [once In]. rewrite filter_In, IH.
  destruct (str_eqb x z) eqn:E; [apply str_eqb_true in E; intuition congruence|cbn; intuition].
Qed.
Lemma once_nodup l : NoDup (once l).
Proof.
  induction l as [|z l IH]; [constructor|]. cbn [once]. constructor.
  - rewrite filter_In. intros [_ H]. rewrite str_eqb_refl in H. discriminate.
  - now apply NoDup_filter.
Qed.
Example C104_witness : given [lit "--name-only"] opt_name_only = true
  /\ ifaces PropText.y0 no_names (lit "1.0") None (Some (entries ++ [eth6])) (lit "i") [lit "--name-only"] =
     mk_run (lit "eth0" ++ [10] ++ lit "lo" ++ [10]) [] (Ok 0).
Proof. split; [reflexivity|vm_compute; reflexivity]. Qed.

(* ---------- C105 ---------- *)
(* The interface with the default route is compared with the host name of the
   address: unless an address is called like an interface, nothing is
   printed. *)
Theorem C105_default_refuted : forall y ni version argv0, (forall x s f, ni x s f <> Some (lit "eth0")) ->
  table PropRoute.hs [k1; k2] text2 /\ k_destination k1 = (0, 0, 0, 0) /\ k_iface k1 = lit "eth0" /\ In eth0 entries
  /\ ifa_name eth0 = lit "eth0"
  /\ ifaces y ni version (Some text2) (Some entries) argv0 [lit "--default"; lit "--name-only"] = mk_run [] [] (Ok 0).
Proof.
  intros y ni version argv0 H. split; [exact text2_table|]. split; [reflexivity|]. split; [reflexivity|].
  split; [right; now left|]. split; [reflexivity|].
  assert (HN : forall a, str_eqb (host_name ni a) (lit "eth0") = false).
  { intros a. unfold host_name. destruct (ni (f_address a) false (name_flags a)) eqn:E; [|reflexivity].
    apply str_eqb_neq. intros ->. exact (H _ _ _ E). }
  unfold ifaces. change (ifaces_arguments version argv0 [lit "--default"; lit "--name-only"] _) with
    (inl run (mk_ifaces_options FILTER_DEFAULT false false true)). cbv iota beta. cbn [io_filter io_hide_headers io_name_only orb].
  cbn [get_local_addresses]. rewrite two_ok. cbn [rbind].
  destruct two as [|i1 [|i2 []]] eqn:ET; try discriminate ET.
  destruct (get_ipv4_routes (Some text2)) as [rs| | |] eqn:ER; try (vm_compute in ER; discriminate ER).
  assert (DI : default_interface rs = lit "eth0" /\ rs <> []).
  { vm_compute in ER. injection ER as <-. split; [vm_compute; reflexivity|discriminate]. }
  destruct DI as [DI NE]. destruct rs as [|r rs]; [congruence|]. rewrite DI.
  cbn [iface_lines keeps io_filter]. rewrite !HN. reflexivity.
Qed.
Print Assumptions C105_default_refuted.

(* The interface of the last default route. *)
Definition last_default (rows : list kernel_route) : str :=
  last (map k_iface (filter (fun k => match k_destination k with (0, 0, 0, 0) => true | _ => false end) rows)) [].
Lemma default_interface_ok rows rs : Forall k_ok rows -> Forall2 describes rows rs -> default_interface rs = last_default rows.
Proof.
  intros K F. unfold default_interface, last_default.
  assert (G : forall acc, fold_left (fun name r => if is_default (get_destination_address r) then get_interface_name r else name) rs acc =
    last (map k_iface (filter (fun k => match k_destination k with (0, 0, 0, 0) => true | _ => false end) rows)) acc).
  { induction F as [|k r ks rs D F IH]; intros acc; [reflexivity|]. inversion K as [|? ? (_ & Q & _) K2]; subst.
    cbn [fold_left filter]. rewrite (describes_default k r Q D).
    destruct (match k_destination k with (0, 0, 0, 0) => true | _ => false end); [|now apply IH].
    rewrite (IH K2), (d_iface _ _ D). cbn [map]. clear. generalize (map k_iface (filter
      (fun k0 => match k_destination k0 with (0, 0, 0, 0) => true | _ => false end) ks)) as l.
    intros l. revert acc. generalize (k_iface k) as x. induction l as [|z l IH]; intros x acc; [reflexivity|].
    cbn [last]. destruct l; [reflexivity|]. rewrite (IH x acc). cbn [last]. destruct l; reflexivity. }
  apply G.
Qed.
(* It works where each address is called like its interface. *)
Theorem C105_default_partial : forall y ni version hs rows file l argv0 args,
  Forall entry_ok l -> existsb has_ip l = true -> only args iface_settings -> by_default_route args = true ->
  given args opt_name_only = true -> table hs rows file -> incl columns hs -> rows <> [] ->
  (forall e, In e l -> has_ip e = true -> forall port udp, resolver_answers ni false (entry_ip e) port udp (Some (ifa_name e))) ->
  ifaces y ni version (Some file) (Some l) argv0 args =
  mk_run (lines (once (map ifa_name (filter (fun e => has_ip e && str_eqb (ifa_name e) (last_default rows)) l)))) [] (Ok 0).
Proof.
  intros y ni version hs rows file l argv0 args OK HAS O D N T I NE H.
  destruct (entries_tell l OK) as (is & E & F). pose proof (table_ok _ _ _ T) as K.
  destruct (table_routes hs rows file [] T I (fun x => x)) as (rs & ER & FR).
  rewrite app_nil_r in ER. change (get_ipv4_routes (@Some str file) = Ok rs) in ER.
  assert (DI : default_interface rs = last_default rows).
  { apply default_interface_ok; [exact K|]. clear - FR. induction FR as [|k r ks rs [A _] FR IH]; constructor; auto. }
  assert (F2 : Forall2 tells (filter (fun e => has_ip e && str_eqb (ifa_name e) (last_default rows)) l)
    (filter (keeps ni FILTER_DEFAULT (last_default rows)) is)).
  { replace (filter (fun e => has_ip e && str_eqb (ifa_name e) (last_default rows)) l)
      with (filter (fun e => str_eqb (ifa_name e) (last_default rows)) (filter has_ip l)).
    - apply Forall2_filter; [exact F|]. intros e i IN (S & _ & V). apply filter_In in IN as [IN HI].
      cbn [keeps]. f_equal.
      destruct (C100_names ni (get_address i) (Some (ifa_name e))) as (C & _); [apply (says_wf _ _ S)|].
      apply C. rewrite V. now apply H.
    - rewrite filter_filter. apply filter_same. intros e. now rewrite andb_comm. }
  unfold ifaces. pose proof (ifaces_arguments_ok version argv0 args [] (mk_ifaces_options FILTER_ALL false false false) O) as A.
  rewrite app_nil_r in A. rewrite A. cbn [ifaces_arguments io_filter io_hide_headers io_asterisk io_name_only orb get_local_addresses].
  rewrite E. cbn [rbind]. destruct is as [|i is].
  { exfalso. inversion F as [X|]; subst. apply existsb_exists in HAS as (e & IE & Q).
    assert (In e (filter has_ip l)) by (apply filter_In; auto). rewrite <- X in H0. destruct H0. }
  assert (FD : filter_of (the_filter args) FILTER_ALL = FILTER_DEFAULT).
  { unfold by_default_route in D. unfold filter_of. now rewrite D. }
  rewrite FD, ER, N, orb_true_r. destruct rs as [|r rs]; [inversion FR; subst; congruence|]. rewrite DI.
  rewrite iface_names_ok by reflexivity. cbn [io_filter app]. rewrite (tells_names _ _ F2). do 2 f_equal.
  rewrite <- (filter_all (once _)) at 2. apply filter_same. reflexivity.
Qed.
Print Assumptions C105_default_partial.
Definition named : name_info := fun x service flags =>
  if num (sin6_addr x) =? 1 then Some (lit "lo") else Some (lit "eth0").
Example C105_witness : table PropRoute.hs [k1; k2] text2 /\ incl columns PropRoute.hs /\ last_default [k1; k2] = lit "eth0"
  /\ (forall e, In e entries -> has_ip e = true -> forall port udp, resolver_answers named false (entry_ip e) port udp (Some (ifa_name e)))
  /\ ifaces PropText.y0 named (lit "1.0") (Some text2) (Some entries) (lit "i") [lit "--default"; lit "--name-only"] =
     mk_run (lit "eth0" ++ [10]) [] (Ok 0).
Proof.
  split; [exact text2_table|]. split; [intros x I; cbn in I |- *; tauto|]. split; [reflexivity|].
  split; [|vm_compute; reflexivity].
  intros e [<-|[<-|[<-|[]]]] HI port udp x flags _ E _ _ _; [discriminate HI| |]; unfold named; rewrite E; reflexivity.
Qed.
(* Without a default route every address without a name is printed. *)
Definition text3 : str := concat (map (fun l => line l ++ [10]) [PropRoute.hs; row2]).
Lemma text3_table : table PropRoute.hs [k2] text3.
Proof.
  exists (line PropRoute.hs), [line row2]. split; [apply words_check; reflexivity|]. split.
  - repeat constructor; cbn; intuition discriminate.
  - split; [|reflexivity]. pose proof rows_ok as R. inversion R as [|? ? ? ? A R1]; subst.
    inversion R1 as [|? ? ? ? B R2]; subst. repeat constructor; assumption.
Qed.
Theorem C105_no_default_refuted : forall y ni version argv0, (forall x s f, ni x s f = None) ->
  table PropRoute.hs [k2] text3 /\ last_default [k2] = []
  /\ ifaces y ni version (Some text3) (Some entries) argv0 [lit "--default"; lit "--name-only"] =
     mk_run (lines [lit "eth0"; lit "lo"]) [] (Ok 0).
Proof.
  intros y ni version argv0 H. split; [exact text3_table|]. split; [reflexivity|].
  assert (HN : forall a, host_name ni a = []) by (intros a; unfold host_name; now rewrite H).
  unfold ifaces. change (ifaces_arguments version argv0 [lit "--default"; lit "--name-only"] _) with
    (inl run (mk_ifaces_options FILTER_DEFAULT false false true)). cbv iota beta. cbn [io_filter io_hide_headers io_name_only orb].
  cbn [get_local_addresses]. rewrite two_ok. cbn [rbind].
  destruct (get_ipv4_routes (Some text3)) as [rs| | |] eqn:ER; try (vm_compute in ER; discriminate ER).
  assert (DI : default_interface rs = [] /\ rs <> []).
  { vm_compute in ER. injection ER as <-. split; [vm_compute; reflexivity|discriminate]. }
  destruct DI as [DI NE]. destruct rs as [|r rs]; [congruence|]. rewrite DI.
  assert (TN : map get_name two = [lit "eth0"; lit "lo"]) by (vm_compute; reflexivity).
  destruct two as [|i1 is] eqn:ET; [discriminate ET|]. rewrite iface_names_ok by reflexivity. cbn [io_filter].
  assert (KE : filter (keeps ni FILTER_DEFAULT []) (i1 :: is) = i1 :: is).
  { rewrite <- (filter_all (i1 :: is)) at 2. apply filter_same. intros i. cbn [keeps]. now rewrite HN. }
  rewrite KE, TN. reflexivity.
Qed.
Print Assumptions C105_no_default_refuted.

(* ---------- C106 ---------- *)
Theorem C106_options : forall y ni version file kernel argv0 before a after, only before iface_settings ->
  (In a opt_help ->
     ifaces y ni version file kernel argv0 (before ++ a :: after) = mk_run (ifaces_usage argv0) [] (Ok 1))
  /\ (In a opt_version ->
     ifaces y ni version file kernel argv0 (before ++ a :: after) = mk_run (lines [version]) [] (Ok 0))
  /\ (~ In a (opt_help ++ opt_version ++ iface_settings) ->
     ifaces y ni version file kernel argv0 (before ++ a :: after) =
     mk_run [] (lit "error: unknown command line option """ ++ a ++ lit """. Try --help for additional info." ++ [10]) (Ok 1)).
Proof.
  intros y ni version file kernel argv0 before a after O. unfold ifaces. rewrite (ifaces_arguments_ok version argv0 before _ _ O).
  cbn [ifaces_arguments]. split; [|split].
  - intros [<-|[<-|[]]]; reflexivity.
  - unfold lines. cbn [map concat]. rewrite app_nil_r. intros [<-|[<-|[]]]; reflexivity.
  - intros N. unfold opt_help, opt_version, iface_settings, opt_filters, opt_default, opt_hide, opt_public, opt_private,
      opt_loopback, opt_asterisk, opt_name_only in N. cbn [app In] in N.
    rewrite !str_eqb_neq by (intros X; subst a; tauto). reflexivity.
Qed.
Print Assumptions C106_options.
(* No interface with an IP address; no route when the default one is asked
   for. *)
Theorem C106_nothing_found : forall y ni version file l argv0 args, Forall entry_ok l -> only args iface_settings ->
  (existsb has_ip l = false ->
     ifaces y ni version file (Some l) argv0 args = mk_run [] (lit "error: no interfaces found, is your network up?" ++ [10]) (Ok 1))
  /\ (existsb has_ip l = true -> by_default_route args = true -> get_ipv4_routes file = Ok [] ->
     exists header, laid_out header iface_headers /\
     ifaces y ni version file (Some l) argv0 args =
     mk_run (lines (if given args opt_hide || given args opt_name_only then [] else [header]))
       (lit "error: unknown default route." ++ [10]) (Ok 1)).
Proof.
  intros y ni version file l argv0 args OK O. destruct (entries_tell l OK) as (is & E & F).
  pose proof (ifaces_arguments_ok version argv0 args [] (mk_ifaces_options FILTER_ALL false false false) O) as A.
  rewrite app_nil_r in A. split.
  - intros N. unfold ifaces. rewrite A. cbn [ifaces_arguments get_local_addresses]. rewrite E. cbn [rbind].
    destruct is as [|i is]; [reflexivity|]. exfalso. inversion F as [|e ? es ? _ _ X]; subst.
    assert (IN : In e (filter has_ip l)) by (rewrite <- X; now left). apply filter_In in IN as [I1 I2].
    assert (Y : existsb has_ip l = true) by (apply existsb_exists; eauto). congruence.
  - intros HAS D R. destruct ifaces_header_ok as (h & EH & LH). exists h. split; [exact LH|].
    unfold ifaces. rewrite A. cbn [ifaces_arguments io_filter io_hide_headers io_asterisk io_name_only orb get_local_addresses].
    rewrite E. cbn [rbind]. destruct is as [|i is].
    { exfalso. inversion F as [X|]; subst. apply existsb_exists in HAS as (e & IE & Q).
      assert (In e (filter has_ip l)) by (apply filter_In; auto). rewrite <- X in H. destruct H. }
    assert (FD : filter_of (the_filter args) FILTER_ALL = FILTER_DEFAULT).
    { unfold by_default_route in D. unfold filter_of. now rewrite D. }
    rewrite FD, R. f_equal. destruct (given args opt_hide || given args opt_name_only); [reflexivity|].
    rewrite EH. unfold lines. cbn [map concat]. now rewrite app_nil_r.
Qed.
Print Assumptions C106_nothing_found.
(* When the kernel does not give the interfaces, the null pointer is used. *)
Theorem C106_kernel_failure_refuted : forall y ni version file argv0 args, only args iface_settings ->
  ifaces y ni version file None argv0 args = mk_run [] [] UB.
Proof.
  intros y ni version file argv0 args O. unfold ifaces.
  pose proof (ifaces_arguments_ok version argv0 args [] (mk_ifaces_options FILTER_ALL false false false) O) as A.
  rewrite app_nil_r in A. rewrite A. reflexivity.
Qed.
Print Assumptions C106_kernel_failure_refuted.
Example C106_witness : ~ In (lit "--all") (opt_help ++ opt_version ++ iface_settings)
  /\ only [lit "--hide-headers"; lit "-d"] iface_settings /\ by_default_route [lit "--hide-headers"; lit "-d"] = true
  /\ existsb has_ip [raw] = false /\ get_ipv4_routes None = Ok []
  /\ ifaces PropText.y0 no_names (lit "1.0") None (Some entries) (lit "i") [lit "--hide-headers"; lit "-V"; lit "-h"] =
     mk_run (lit "1.0" ++ [10]) [] (Ok 0).
Proof.
  split; [cbn; intuition discriminate|]. split; [intros x I; cbn in I |- *; tauto|]. repeat split; vm_compute; reflexivity.
Qed.
