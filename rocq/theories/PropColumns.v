(* Properties C101 and C103 for values of any length. *)
From Coq Require Import Lia ZifyBool ZifyNat.
From Verif Require Import Base Addr Spec SpecText Inet AddrText Route Iface SpecRoute SpecIface NameInfo TableTools SpecTools SpecColumns.
From Verif Require AddrProofs3 RouteProofs IfaceProofs PropText PropRoute PropIface DottedProofs AddrProofs2 ToolsProofs ToolsProofs2 PropTools.
Import AddrProofs3 RouteProofs IfaceProofs ToolsProofs ToolsProofs2 PropTools.
Local Open Scope Z_scope.

Lemma spaces_blank b : Forall (fun c => c = 32) b -> Forall blank b.
Proof. apply Forall_impl. intros c ->. now right. Qed.
Lemma laid_after b l ws : Forall blank b -> laid_out (b ++ l) ws -> laid_out l ws.
Proof.
  intros FB. induction FB as [|c b C FB IH]; intros L; [exact L|]. apply IH. clear IH. cbn [app] in L.
  remember (c :: b ++ l) as t eqn:E. destruct L as [d F|d w e rest ws F W B L].
  - subst. inversion F; subst. now constructor.
  - destruct d as [|d0 d]; cbn [app] in E.
    + destruct W as [N W]. destruct w as [|x w]; [congruence|]. injection E as -> _. inversion W as [|? ? [X _] _]. elim X. exact C.
    + injection E as -> <-. inversion F; subst. now constructor.
Qed.
Lemma laid_before b l ws : Forall blank b -> laid_out l ws -> laid_out (b ++ l) ws.
Proof.
  intros FB L. destruct L as [d F|d w e rest ws F W B L].
  - constructor. now apply Forall_app.
  - rewrite app_assoc. constructor; auto. now apply Forall_app.
Qed.
Lemma laid_word l ws w : laid_out l (w :: ws) -> word w.
Proof. intros L. inversion L; subst. assumption. Qed.
Lemma laid_first l ws w : laid_out (w ++ l) (w :: ws) -> exists c rest, blank c /\ l = c :: rest /\ laid_out rest ws.
Proof.
  intros L. inversion L as [|b w0 c rest ws0 F W B L1 E E2]; subst. exists c, rest. split; [exact B|]. split; [|exact L1].
  destruct b as [|b0 b]; cbn [app] in E.
  - now apply app_inv_head in E.
  - destruct W as [N W]. destruct w as [|x w]; [congruence|]. injection E as -> _. inversion W as [|? ? [X _] _]; subst. inversion F; subst. now elim X.
Qed.
Lemma words_fit widths ws l : in_columns widths ws l -> (words_are l ws <-> fit widths ws).
Proof.
  unfold words_are. intros C. split.
  - induction C as [|n widths w ws sp l SP LEN C IH]; intros L; [split; constructor|].
    rewrite <- !app_assoc in L. pose proof (laid_word _ _ _ L) as W. apply laid_first in L as (c & rest & B & E & L).
    assert (laid_out (l ++ [32]) ws /\ (ws <> [] -> sp <> [])) as [L2 NE].
    { destruct sp as [|s0 sp]; cbn [app] in E.
      - split; [rewrite E; exact (laid_before [c] rest ws (Forall_cons _ B (Forall_nil _)) L)|]. intros N.
        inversion C as [|m ? v vs sp2 l2 SP2 LEN2 C2]; subst; [congruence|]. rewrite <- app_assoc in E. pose proof (laid_word _ _ _ L) as [N2 W2].
        destruct v as [|x v]; [congruence|]. injection E as -> _. inversion W2 as [|? ? [X _] _]; subst. now elim X.
      - injection E as <- <-. inversion SP; subst. split; [|discriminate]. eapply laid_after; [|exact L]. now apply spaces_blank. }
    destruct (IH L2) as [F1 F2]. split; [now constructor|].
    destruct ws as [|v vs].
    + inversion C; subst. constructor.
    + inversion C as [|m widths2 ? ? ? ? ? ? C2]; subst. cbn [removelast]. constructor; [|exact F2].
      specialize (NE ltac:(discriminate)). rewrite app_length in LEN. destruct sp; [congruence|]. cbn [length] in LEN. lia.
  - induction C as [|n widths w ws sp l SP LEN C IH]; intros [F1 F2]; [constructor; constructor; [now right|constructor]|].
    inversion F1 as [|? ? W F3]; subst. rewrite <- !app_assoc.
    destruct ws as [|v vs].
    + inversion C; subst. cbn [app]. assert (exists c r, sp ++ [32] = c :: r /\ Forall blank (c :: r)) as (c & r & -> & FB).
      { pose proof (spaces_blank _ SP) as S. destruct sp as [|c sp]; cbn [app]; do 2 eexists; (split; [reflexivity|]).
        - constructor; [now right|constructor].
        - inversion S; subst. constructor; [assumption|]. apply Forall_app. split; [assumption|]. constructor; [now right|constructor]. }
      inversion FB; subst. apply (laid_out_word [] w c r []); [constructor|exact W|assumption|now constructor].
    + inversion C as [|m widths2 ? ? ? ? ? ? C2]; subst. cbn [removelast] in F2. inversion F2 as [|? ? ? ? LT F4]; subst.
      rewrite app_length in LEN. destruct sp as [|c sp]; [cbn [length] in LEN; lia|]. inversion SP; subst. cbn [app].
      apply (laid_out_word [] w 32); [constructor|exact W|now right|]. apply laid_before; [now apply spaces_blank|]. apply IH. split; [exact F3|exact F4].
Qed.
Lemma cols_in l : in_columns (map fst l) (map snd l) (cols l).
Proof.
  induction l as [|[n w] l IH]; [constructor|]. unfold cols in *. cbn [map concat fst snd]. unfold setw. rewrite <- app_assoc. constructor; [|rewrite app_length, repeat_length; lia|exact IH].
  apply Forall_forall. intros c I. now apply repeat_spec in I.
Qed.

(* ---------- ipv4-routes ---------- *)
Lemma route_in_columns y k r l : k_ok k -> describes k r -> route_line y r = Ok (l ++ [10]) ->
  exists ws, shows_route k (flags_to_string r) ws /\ in_columns route_widths ws l.
Proof.
  intros (WI & QD & QG & QM) D EL.
  destruct (quad_text_ok y _ _ (proj1 (d_wf _ _ D)) QD (d_destination _ _ D)) as (d & ED & TD & WD & LD).
  destruct (quad_text_ok y _ _ (proj2 (d_wf _ _ D)) QG (d_gateway _ _ D)) as (g & EG & TG & WG & LG).
  assert (TM : quad_text (dotted_mask (get_destination_address r)) (k_mask k)).
  { pose proof (proj2 (d_mask _ _ D)) as M. destruct (k_mask k) as [[[x z] t] u]. apply dotted_mask_ok; auto. apply (d_wf _ _ D). }
  assert (l = cols (route_cols r d g)) as ->.
  { unfold route_line in EL. rewrite ED in EL. cbn [rbind] in EL. rewrite EG in EL. cbn [rbind] in EL.
    assert (H : cols (route_cols r d g) ++ [10] = l ++ [10]); [|now apply app_inv_tail in H].
    assert (Z : forall a b : str, Ok a = Ok b -> a = b) by (intros a b [= ->]; reflexivity).
    rewrite <- (Z _ _ EL). unfold cols, route_cols. cbn [map concat fst snd]. now rewrite app_nil_r, !app_assoc. }
  exists (map snd (route_cols r d g)). split; [|exact (cols_in (route_cols r d g))].
  unfold route_cols. cbn [map snd]. rewrite (d_iface _ _ D).
  rewrite (d_refcnt _ _ D), (d_use _ _ D), (d_metric _ _ D), (d_mtu _ _ D), (d_window _ _ D), (d_irtt _ _ D).
  do 9 eexists. split; [reflexivity|]. repeat (split; [solve [assumption | apply to_string_integer]|]). apply to_string_integer.
Qed.
Lemma routes_header_columns h : routes_header = h ++ [10] -> in_columns route_widths route_headers h.
Proof.
  intros E. assert (h = cols (combine route_widths route_headers)) as ->; [|exact (cols_in (combine route_widths route_headers))].
  apply (app_inv_tail [10]). rewrite <- E. vm_compute. reflexivity.
Qed.
(* The lines of any routes, byte by byte; the values are separate words exactly
   when they fit. *)
Theorem C101_any_values : forall y hs rows file argv0 args,
  table hs rows file -> incl columns hs -> rows <> [] -> only args route_settings ->
  exists header ls, in_columns route_widths route_headers header
    /\ ipv4_routes y (Some file) argv0 args = mk_run (lines ((if given args opt_hide then [] else [header]) ++ ls)) [] (Ok 0)
    /\ Forall2 (fun k l => exists ws, shows_route k (letters (misread (k_flags k))) ws /\ in_columns route_widths ws l
                  /\ (words_are l ws <-> fit route_widths ws)) (wanted_routes args rows) ls.
Proof.
  intros y hs rows file argv0 args T I N O.
  destruct (routes_run_header y hs rows file argv0 args (fun k l => exists ws, shows_route k (letters (misread (k_flags k))) ws /\ in_columns route_widths ws l
                  /\ (words_are l ws <-> fit route_widths ws)) T I N O) as (h & ls & [LH EH] & E & F).
  { intros k r _ K D [_ G]. destruct (route_line_ok y k r K D) as (l & _ & E & _). exists l. split; [exact E|].
    destruct (route_in_columns y k r l K D E) as (ws & S & C). exists ws. split; [|split; [exact C|now apply words_fit]].
    pose proof (misread_range (k_flags k)).
    rewrite PropRoute.C85_flag_letters in S by (rewrite G; change (2 ^ 31) with 2147483648; lia). rewrite G in S. exact S. }
  exists h, ls. split; [now apply routes_header_columns|]. split; [exact E|exact F].
Qed.
Print Assumptions C101_any_values.
Lemma one_line a l e r : mk_run (a ++ [10]) e r = mk_run (lines [l]) e r -> a = l.
Proof. intros E. apply (app_inv_tail [10]). assert (a ++ [10] = lines [l]) as -> by congruence. unfold lines. cbn [map concat]. apply app_nil_r. Qed.
(* The route of a real interface and the line it gives. *)
Example C101_any_witness : table PropRoute.hs [k4] text4 /\ exists ws l,
  shows_route k4 (letters (misread (k_flags k4))) ws /\ in_columns route_widths ws l /\ ~ fit route_widths ws
  /\ (exists rest, l = lit "enp0s31f60.0.0.0         192.0.2.1       UG      0  " ++ rest)
  /\ ipv4_routes PropText.y0 (Some text4) (lit "r") [lit "--hide-headers"] = mk_run (lines [l]) [] (Ok 0).
Proof.
  split; [exact text4_table|].
  destruct (C101_any_values PropText.y0 PropRoute.hs [k4] text4 (lit "r") [lit "--hide-headers"] text4_table) as (h & ls & _ & E & F).
  - intros x I. cbn in I |- *. tauto.
  - discriminate.
  - intros x I. cbn in I |- *. tauto.
  - change (wanted_routes [lit "--hide-headers"] [k4]) with [k4] in F. inversion F as [|? l ? ? (ws & S & C & _) F2]; subst. inversion F2; subst.
    exists ws, l. split; [exact S|]. split; [exact C|]. split.
    + intros [_ F3]. destruct S as (d & g & rc & u & me & m & mt & wi & ir & -> & _). cbn [removelast] in F3. inversion F3 as [|? ? ? ? LT]; subst. vm_compute in LT. lia.
    + change (given [lit "--hide-headers"] opt_hide) with true in E. cbn [app] in E. split; [|exact E].
      destruct (C101_words_refuted PropText.y0 (lit "r")) as [_ E2]. rewrite E2 in E. apply one_line in E. rewrite <- E. vm_compute. eexists. reflexivity.
Qed.

(* ---------- ifaces ---------- *)
Lemma iface_in_columns y asterisk e i l : tells e i -> iface_line y asterisk i = Ok (l ++ [10]) ->
  exists ws, shows_entry asterisk e ws /\ in_columns iface_widths ws l.
Proof.
  intros (S & _ & VI) EL. pose proof (says_wf _ _ S) as (W1 & W2 & W3).
  assert (V4 : is_ipv4 (get_address i) = entry_v4 e).
  { unfold entry_v4. rewrite <- VI. apply AddrProofs2.is_ipv4_bool, W1. }
  destruct (ip_text_ok y _ W1) as (a & EA & TA & WA & LA).
  destruct (other_text_ok y _ asterisk (entry_v4 e) W2) as (b & EB & TB & WB & LB).
  destruct (other_text_ok y _ asterisk (entry_v4 e) W3) as (d & ED & TD & WD & LD).
  assert (l = cols (iface_cols i a b d)) as ->.
  { unfold iface_line in EL. rewrite V4 in EL. fold (mode_of asterisk (entry_v4 e)) in EL. cbv zeta in EL.
    rewrite EA in EL. cbn [rbind] in EL. rewrite EB in EL. cbn [rbind] in EL. rewrite ED in EL. cbn [rbind] in EL.
    assert (H : cols (iface_cols i a b d) ++ [10] = l ++ [10]); [|now apply app_inv_tail in H].
    assert (Z : forall a b : str, Ok a = Ok b -> a = b) by (intros ? ? [= ->]; reflexivity).
    rewrite <- (Z _ _ EL). unfold cols, iface_cols. cbn [map concat fst snd]. now rewrite app_nil_r, !app_assoc. }
  exists (map snd (iface_cols i a b d)). split; [|exact (cols_in (iface_cols i a b d))].
  unfold iface_cols. cbn [map snd]. rewrite (says_name _ _ S). do 4 eexists. split; [reflexivity|].
  split; [rewrite (says_flags _ _ S); apply to_string_integer|].
  split; [rewrite <- VI; exact TA|]. split.
  - rewrite (says_broadcast _ _ S) in TB. exact TB.
  - rewrite (says_destination _ _ S) in TD. exact TD.
Qed.
Lemma ifaces_header_columns h : ifaces_header = h ++ [10] -> in_columns iface_widths iface_headers h.
Proof.
  intros E. assert (h = cols (combine iface_widths iface_headers)) as ->; [|exact (cols_in (combine iface_widths iface_headers))].
  apply (app_inv_tail [10]). rewrite <- E. vm_compute. reflexivity.
Qed.
Theorem C103_any_values : forall y ni version file l argv0 args,
  Forall entry_ok l -> existsb has_ip l = true -> only args iface_settings -> by_default_route args = false ->
  given args opt_name_only = false ->
  exists header ls, in_columns iface_widths iface_headers header
    /\ ifaces y ni version file (Some l) argv0 args = mk_run (lines ((if given args opt_hide then [] else [header]) ++ ls)) [] (Ok 0)
    /\ Forall2 (fun e s => exists ws, shows_entry (given args opt_asterisk) e ws /\ in_columns iface_widths ws s
                  /\ (words_are s ws <-> fit iface_widths ws)) (filter (wanted_entry args) l) ls.
Proof.
  intros y ni version file l argv0 args OK HAS O D N.
  destruct (ifaces_run_header y ni version file l argv0 args (fun e s => exists ws, shows_entry (given args opt_asterisk) e ws /\ in_columns iface_widths ws s
                  /\ (words_are s ws <-> fit iface_widths ws)) OK HAS O D N) as (h & ls & [LH EH] & E & F).
  { intros e i _ T. destruct (iface_line_ok y (given args opt_asterisk) e i T) as (s & _ & E & _). exists s. split; [exact E|].
    destruct (iface_in_columns y _ e i s T E) as (ws & S & C). exists ws. split; [exact S|]. split; [exact C|now apply words_fit]. }
  exists h, ls. split; [now apply ifaces_header_columns|]. split; [exact E|exact F].
Qed.
Print Assumptions C103_any_values.
Example C103_any_witness : entry_ok dormant /\ exists ws l,
  shows_entry false dormant ws /\ in_columns iface_widths ws l /\ ~ fit iface_widths ws /\ (exists rest, l = lit "wlan0            200771192.0.2.1  " ++ rest)
  /\ ifaces PropText.y0 no_names (lit "1.0") None (Some [dormant]) (lit "i") [lit "--hide-headers"] = mk_run (lines [l]) [] (Ok 0).
Proof.
  destruct (C103_words_refuted PropText.y0 no_names (lit "1.0") None (lit "i")) as [OK E2]. split; [exact OK|].
  destruct (C103_any_values PropText.y0 no_names (lit "1.0") None [dormant] (lit "i") [lit "--hide-headers"]) as (h & ls & _ & E & F).
  - constructor; [exact OK|constructor].
  - reflexivity.
  - intros x I. cbn in I |- *. tauto.
  - reflexivity.
  - reflexivity.
  - change (filter (wanted_entry [lit "--hide-headers"]) [dormant]) with [dormant] in F. inversion F as [|? l ? ? (ws & S & C & _) F2]; subst. inversion F2; subst.
    change (given [lit "--hide-headers"] opt_asterisk) with false in *. change (given [lit "--hide-headers"] opt_hide) with true in E. cbn [app] in E.
    exists ws, l. split; [exact S|]. split; [exact C|]. split; [|split; [rewrite E2 in E; apply one_line in E; rewrite <- E; vm_compute; eexists; reflexivity|exact E]].
    intros [F1 F3]. destruct S as (f & a & b & d & -> & IF & _). cbn [removelast] in F3.
    inversion F3 as [|? ? ? ? _ F4]; subst. inversion F4 as [|? ? ? ? LT]; subst.
    destruct IF as [[_ P]|[X _]]; [|vm_compute in X; discriminate].
    rewrite (DottedProofs.plain_unique f (lit "200771") _ P) in LT; [vm_compute in LT; lia|].
    split; [split; [discriminate|split; vm_compute; reflexivity]|]. split; vm_compute; discriminate.
Qed.
