(* Lemmas about ifaces. *)
From Coq Require Import Lia ZifyBool ZifyNat.
From Verif Require Import Base Addr Spec SpecText Inet AddrText Route Iface SpecRoute SpecIface NameInfo TableTools SpecTools.
From Verif Require InetProofs InetProofs2 TextProofs AddrProofs AddrProofs2 AddrProofs3 AddrProofs4 RouteProofs IfaceProofs PropText PropAddr ToolsProofs Ipv6Proofs2.
Import InetProofs InetProofs2 TextProofs AddrProofs AddrProofs2 AddrProofs3 AddrProofs4 RouteProofs IfaceProofs PropText ToolsProofs.
Local Open Scope Z_scope.
Ltac Zify.zify_post_hook ::= Z.div_mod_to_equations.

(* ---------- the interfaces ---------- *)
Lemma make_iface_memo e i : make_iface e = Ok (Some i) -> f_private_network (get_address i) = NETWORK_TYPE_UNDEFINED.
Proof.
  unfold make_iface, get_address, set_ipv4_from, set_ipv6_from. intros H.
  assert (M : forall p a b f, when true p a (fun a s => let! m := f s in Ok (set_mask a m)) = Ok b ->
    f_private_network b = f_private_network a).
  { intros p a b f E. unfold when in E. destruct p as [s|]; [|congruence].
    destruct (f s); cbn [rbind] in E; try discriminate. injection E as <-. reflexivity. }
  destruct (ifa_addr e) as [[x|x|]|]; try discriminate.
  - destruct (set_ipv4 addr_new x) as [a r] eqn:E. destruct r as [[]| | |]; cbn [rbind] in H; try discriminate.
    apply set_ipv4_memo in E.
    destruct (when (negb (Z.land (ifa_flags e) IFF_BROADCAST =? 0)) _ _ _) as [b| | |]; cbn [rbind] in H; try discriminate.
    destruct (when (negb (Z.land (ifa_flags e) IFF_POINTOPOINT =? 0)) _ _ _) as [d| | |]; cbn [rbind] in H; try discriminate.
    destruct (when true _ _ _) as [a'| | |] eqn:E'; cbn [rbind] in H; try discriminate.
    injection H as <-. cbn [f_iaddress]. apply M in E'. congruence.
  - destruct (set_ipv6 addr_new x) as [a r] eqn:E. destruct r as [[]| | |]; cbn [rbind] in H; try discriminate.
    apply set_ipv6_memo in E.
    destruct (when (negb (Z.land (ifa_flags e) IFF_BROADCAST =? 0)) _ _ _) as [b| | |]; cbn [rbind] in H; try discriminate.
    destruct (when (negb (Z.land (ifa_flags e) IFF_POINTOPOINT =? 0)) _ _ _) as [d| | |]; cbn [rbind] in H; try discriminate.
    destruct (when true _ _ _) as [a'| | |] eqn:E'; cbn [rbind] in H; try discriminate.
    injection H as <-. cbn [f_iaddress]. apply M in E'. congruence.
Qed.
Lemma make_ifaces_memo : forall l is, make_ifaces l = Ok is ->
  Forall (fun i => f_private_network (get_address i) = NETWORK_TYPE_UNDEFINED) is.
Proof.
  induction l as [|e l IH]; intros is H; cbn [make_ifaces] in H; [injection H as <-; constructor|].
  destruct (make_iface e) as [o| | |] eqn:E; cbn [rbind] in H; try discriminate.
  destruct (make_ifaces l) as [r| | |]; cbn [rbind] in H; try discriminate. injection H as <-.
  specialize (IH r eq_refl). destruct o as [i|]; [|assumption]. constructor; [|assumption]. now apply (make_iface_memo e).
Qed.
Definition tells (e : ifaddrs) (i : iface) : Prop :=
  says e i /\ snd (get_network_type (get_address i)) = spec_network_type (entry_ip e)
  /\ value (get_address i) = entry_ip e.
Lemma entries_tell l : Forall entry_ok l -> exists is, make_ifaces l = Ok is /\ Forall2 tells (filter has_ip l) is.
Proof.
  intros F. destruct (entries_ok l F) as (is & E & S). exists is. split; [exact E|].
  pose proof (make_ifaces_memo l is E) as M. clear E F.
  induction S as [|e i es is S F IH]; constructor.
  - inversion M as [|? ? M1 M2]; subst. destruct (says_ip _ _ S) as (x & X & V).
    assert (V' : value (get_address i) = entry_ip e) by (unfold entry_ip; now rewrite X).
    split; [exact S|]. split; [|exact V']. rewrite <- V'.
    apply network_type_spec; [apply (says_wf _ _ S)|exact M1].
  - inversion M; subst; auto.
Qed.

(* ---------- one line ---------- *)
Lemma v6_text y a : addr_wf a -> ~ is_v4_value (value a) ->
  exists s, to_ipv4or6_string y a STRING_IP_ADDRESS = Ok s /\ ip_shown (value a) s /\ word s /\ (length s <= 39)%nat.
Proof.
  intros W V. assert (I : is_ipv4 a = false).
  { destruct (is_ipv4 a) eqn:I; [|reflexivity]. apply is_ipv4_value in I; auto. contradiction. }
  exists (inet_ntop6 (s6 a)). unfold to_ipv4or6_string. rewrite I.
  assert (N : value a <> v4_base) by (intros N; apply V; unfold is_v4_value, v4_base in *; lia).
  rewrite text6_address_only by auto. pose proof (ntop6_pton6 _ (wf_ip _ W)) as P.
  split; [reflexivity|]. split; [right; split; [exact V|]; apply Ipv6Proofs2.ntop6_text, (wf_ip _ W)|].
  split; [|apply ntop6_len, (wf_ip _ W)].
  apply (chars_word ip_char); try reflexivity; [|apply ntop6_chars, (wf_ip _ W)].
  intros E. rewrite E in P. discriminate.
Qed.
Lemma ip_text_ok y a : addr_wf a ->
  exists s, to_ipv4or6_string y a STRING_IP_ADDRESS = Ok s /\ ip_shown (value a) s /\ word s /\ (length s <= 39)%nat.
Proof.
  intros W. assert (C : is_v4_value (value a) \/ ~ is_v4_value (value a)) by (unfold is_v4_value; lia).
  destruct C as [V|V]; [|now apply v6_text].
  destruct (v4_text y a W V) as (s & E & D & X & L). exists s. split; [exact E|]. split; [left; auto|]. split; [exact X|lia].
Qed.
Definition mode_of (asterisk v4 : bool) : Z :=
  Z.lor (Z.lor STRING_IP_ADDRESS (if asterisk then STRING_IP_DEFAULT_AS_ASTERISK else 0))
    (if v4 then STRING_IP_DEFAULT_AS_IPV4 else 0).
Lemma mode_text y a asterisk v4 : is_default a = false ->
  to_ipv4or6_string y a (mode_of asterisk v4) = to_ipv4or6_string y a STRING_IP_ADDRESS.
Proof.
  intros D. unfold to_ipv4or6_string. destruct (is_ipv4 a) eqn:I.
  - rewrite text4_address_only, I. unfold to_ipv4_string. rewrite I, D.
    generalize (inet_ntop4 (skipn 12 (s6 a))). intros t.
    transitivity (Ok (t ++ [])); [destruct asterisk, v4; reflexivity|now rewrite app_nil_r].
  - unfold to_ipv6_string, ip_text6. rewrite D.
    generalize (inet_ntop6 (s6 a)). intros t. destruct asterisk, v4; reflexivity.
Qed.
Lemma mode_default y a asterisk v4 : addr_wf a -> is_default a = true ->
  to_ipv4or6_string y a (mode_of asterisk v4) =
  Ok (if asterisk then lit "*" else if v4 || (value a =? v4_base) then lit "0.0.0.0" else lit "::").
Proof.
  intros W D. pose proof (proj1 (is_default_value a W) D) as V.
  unfold to_ipv4or6_string. destruct (is_ipv4 a) eqn:I.
  - apply is_ipv4_value in I as I'; auto.
    assert (V0 : value a = v4_base) by (unfold is_v4_value, v4_base in *; lia).
    destruct (skip12_value a W I) as (p & q & r & t & Hp & Hq & Hr & Ht & E & N).
    assert (Z : p = 0 /\ q = 0 /\ r = 0 /\ t = 0) by (unfold quad, is_byte in *; clear - V0 N Hp Hq Hr Ht; lia).
    destruct Z as (-> & -> & -> & ->).
    unfold to_ipv4_string. rewrite I, D, V0, Z.eqb_refl, orb_true_r. rewrite E. destruct asterisk, v4; reflexivity.
  - assert (V0 : value a =? v4_base = false).
    { destruct (value a =? v4_base) eqn:X; [|reflexivity]. exfalso.
      assert (is_ipv4 a = true) by (apply is_ipv4_value; auto; unfold is_v4_value, v4_base in *; lia). congruence. }
    rewrite V0, orb_false_r. unfold to_ipv6_string, ip_text6. rewrite D. destruct asterisk, v4; reflexivity.
Qed.
Lemma other_text_ok y a asterisk v4 : addr_wf a ->
  exists s, to_ipv4or6_string y a (mode_of asterisk v4) = Ok s /\ other_shown asterisk v4 (value a) s
    /\ word s /\ (length s <= 39)%nat.
Proof.
  intros W. destruct (is_default a) eqn:D.
  - rewrite mode_default by auto. eexists. split; [reflexivity|]. apply is_default_value in D; auto.
    unfold other_shown. replace ((value a =? 0) || (value a =? v4_base)) with true by (unfold v4_base in *; lia).
    split; [reflexivity|].
    destruct asterisk; [|destruct (v4 || (value a =? v4_base))];
      (split; [apply (chars_word (fun c => 32 <? c)); [discriminate|reflexivity..]|cbn; lia]).
  - rewrite mode_text by auto. destruct (ip_text_ok y a W) as (s & E & S & X).
    exists s. split; [exact E|]. split; [|exact X]. unfold other_shown.
    replace ((value a =? 0) || (value a =? v4_base)) with false; [exact S|].
    pose proof (is_default_value a W) as N. unfold v4_base in *. symmetry. apply orb_false_iff. split; apply Z.eqb_neq; intros Q;
      assert (is_default a = true) by (apply N; auto); congruence.
Qed.

Definition iface_cols (i : iface) (a b d : str) : list (nat * str) :=
  [(17%nat, get_name i); (6%nat, to_string_int (get_iface_flags i)); (41%nat, a); (41%nat, b); (41%nat, d)].
Lemma iface_line_ok y asterisk e i : tells e i ->
  exists l ws, iface_line y asterisk i = Ok (l ++ [10]) /\ fields l ws /\ (no_newline (ifa_name e) -> no_newline l)
    /\ shows_entry asterisk e ws /\ (entry_fits e -> laid_out l ws).
Proof.
  intros (S & _ & VI). pose proof (says_wf _ _ S) as (W1 & W2 & W3).
  assert (V4 : is_ipv4 (get_address i) = entry_v4 e).
  { unfold entry_v4. rewrite <- VI. apply is_ipv4_bool, W1. }
  destruct (ip_text_ok y _ W1) as (a & EA & TA & WA & LA).
  destruct (other_text_ok y _ asterisk (entry_v4 e) W2) as (b & EB & TB & WB & LB).
  destruct (other_text_ok y _ asterisk (entry_v4 e) W3) as (d & ED & TD & WD & LD).
  exists (cols (iface_cols i a b d)), (map snd (iface_cols i a b d)).
  split; [|split; [|split; [|split]]].
  - unfold iface_line. rewrite V4. fold (mode_of asterisk (entry_v4 e)). cbv zeta.
    rewrite EA. cbn [rbind]. rewrite EB. cbn [rbind]. rewrite ED. cbn [rbind]. f_equal.
    unfold cols, iface_cols. cbn [map concat fst snd]. rewrite app_nil_r, !app_assoc. reflexivity.
  - apply cols_fields.
  - intros NN. apply cols_no_newline. unfold iface_cols. rewrite (says_name _ _ S).
    repeat (apply Forall_cons; [cbn [snd]; first [exact NN | apply word_no_newline; solve [assumption | apply to_string_word]]|]).
    constructor.
  - unfold iface_cols. cbn [map snd]. rewrite (says_name _ _ S). do 4 eexists. split; [reflexivity|].
    split; [rewrite (says_flags _ _ S); apply to_string_integer|].
    split; [rewrite <- VI; exact TA|]. split.
    + rewrite (says_broadcast _ _ S) in TB. exact TB.
    + rewrite (says_destination _ _ S) in TD. exact TD.
  - intros (WN & LN & FL). apply cols_laid. unfold iface_cols. rewrite (says_name _ _ S), (says_flags _ _ S).
    repeat (apply Forall_cons; [cbn [fst snd]; split; [solve [assumption | apply to_string_word]|]|]); try lia; [|constructor].
    unfold to_string_int. replace (ifa_flags e <? 0) with false by lia.
    pose proof (dec_len 4 (ifa_flags e)). change (10 ^ Z.of_nat 5) with 100000 in H. lia.
Qed.

(* ---------- the options ---------- *)
Definition filter_of (s : str) (f : filter_t) : filter_t :=
  if existsb (str_eqb s) opt_default then FILTER_DEFAULT
  else if str_eqb s opt_public then FILTER_PUBLIC
  else if str_eqb s opt_private then FILTER_PRIVATE
  else if str_eqb s opt_loopback then FILTER_LOOPBACK
  else f.
Lemma the_filter_snoc args a : the_filter (args ++ [a]) =
  if existsb (str_eqb a) opt_filters then a else the_filter args.
Proof.
  unfold the_filter. rewrite filter_app. cbn [filter]. destruct (existsb (str_eqb a) opt_filters).
  - apply last_last.
  - now rewrite app_nil_r.
Qed.
Lemma given_snoc args a os : given (args ++ [a]) os = given args os || existsb (str_eqb a) os.
Proof. unfold given. rewrite existsb_app. cbn [existsb]. now rewrite orb_false_r. Qed.
Lemma ifaces_arguments_ok version argv0 : forall args rest o, only args iface_settings ->
  ifaces_arguments version argv0 (args ++ rest) o = ifaces_arguments version argv0 rest
    (mk_ifaces_options (filter_of (the_filter args) (io_filter o)) (io_hide_headers o || given args opt_hide)
       (io_asterisk o || given args opt_asterisk) (io_name_only o || given args opt_name_only)).
Proof.
  intros args. induction args as [|a args IH] using rev_ind; intros rest o H.
  - unfold given. cbn. rewrite !orb_false_r. now destruct o.
  - assert (A : In a iface_settings) by (apply H, in_or_app; right; now left).
    assert (H' : only args iface_settings) by (intros x I; apply H, in_or_app; now left).
    rewrite <- app_assoc. cbn [app]. rewrite (IH _ _ H'). rewrite the_filter_snoc, !given_snoc.
    generalize (the_filter args) (given args opt_hide) (given args opt_asterisk) (given args opt_name_only).
    intros tf g1 g2 g3. clear IH H H'.
    unfold iface_settings, opt_filters, opt_default, opt_hide, opt_asterisk, opt_name_only in A. cbn [app] in A.
    destruct A as [<-|[<-|[<-|[<-|[<-|[<-|[<-|[<-|[]]]]]]]]];
      cbn [ifaces_arguments io_filter io_hide_headers io_asterisk io_name_only];
      vm_compute (existsb _ _); cbn [orb];
      repeat match goal with |- context [str_eqb (lit ?a) ?b] => 
        let v := eval vm_compute in (str_eqb (lit a) b) in change (str_eqb (lit a) b) with v end;
      cbn [orb]; rewrite ?orb_false_r, ?orb_true_r; reflexivity.
Qed.

(* ---------- the loop ---------- *)
Lemma iface_lines_ok y ni opts dn : io_name_only opts = false -> forall is ls found o,
  Forall2 (fun i l => iface_line y (io_asterisk opts) i = Ok (l ++ [10])) (filter (keeps ni (io_filter opts) dn) is) ls ->
  iface_lines y ni opts dn is found o = mk_run (o ++ lines ls) [] (Ok 0).
Proof.
  intros N. induction is as [|i is IH]; intros ls found o F; cbn [filter iface_lines] in *.
  - inversion F; subst. unfold lines. cbn. now rewrite app_nil_r.
  - destruct (keeps ni (io_filter opts) dn i); cbn [negb]; [|now apply IH].
    inversion F as [|? l ? ls' E1 F']; subst. rewrite N, E1. rewrite (IH ls' _ _ F').
    unfold lines. cbn [map concat]. now rewrite <- !app_assoc.
Qed.
Lemma filter_filter {A} (p q : A -> bool) l : filter p (filter q l) = filter (fun x => p x && q x) l.
Proof.
  induction l as [|x l IH]; [reflexivity|]. cbn [filter]. destruct (q x) eqn:Q; cbn [filter]; rewrite IH.
  - now rewrite andb_true_r.
  - now rewrite andb_false_r.
Qed.
Lemma filter_same {A} (p q : A -> bool) l : (forall x, p x = q x) -> filter p l = filter q l.
Proof. intros H. induction l as [|x l IH]; [reflexivity|]. cbn [filter]. now rewrite H, IH. Qed.
Lemma iface_names_ok y ni opts dn : io_name_only opts = true -> forall is found o,
  iface_lines y ni opts dn is found o =
  mk_run (o ++ lines (filter (fun n => negb (existsb (str_eqb n) found))
    (once (map get_name (filter (keeps ni (io_filter opts) dn) is))))) [] (Ok 0).
Proof.
  intros N. induction is as [|i is IH]; intros found o; cbn [filter iface_lines].
  - unfold lines. cbn. now rewrite app_nil_r.
  - destruct (keeps ni (io_filter opts) dn i); cbn [negb]; [|apply IH].
    rewrite N. cbn [map once]. set (X := once (map get_name (filter (keeps ni (io_filter opts) dn) is))) in *.
    destruct (existsb (str_eqb (get_name i)) found) eqn:E.
    + rewrite IH. cbn [filter]. rewrite E. cbn [negb]. rewrite filter_filter.
      do 3 f_equal. apply filter_same. intros n. destruct (str_eqb n (get_name i)) eqn:Q; [|now rewrite andb_true_r].
      apply str_eqb_true in Q. subst n. now rewrite E.
    + rewrite IH. cbn [filter]. rewrite E. cbn [negb]. rewrite filter_filter. cbn [existsb].
      replace (filter (fun n => negb (str_eqb n (get_name i) || existsb (str_eqb n) found)) X)
        with (filter (fun n => negb (existsb (str_eqb n) found) && negb (str_eqb n (get_name i))) X).
      * unfold lines. cbn [map concat]. now rewrite <- !app_assoc.
      * apply filter_same. intros n. rewrite negb_orb. apply andb_comm.
Qed.
Lemma filter_all {A} (l : list A) : filter (fun _ => true) l = l.
Proof. induction l as [|x l IH]; [reflexivity|]. cbn. now rewrite IH. Qed.

(* What is kept, by the type of the network. *)
Lemma keeps_wanted ni args dn e i : by_default_route args = false -> tells e i -> has_ip e = true ->
  keeps ni (filter_of (the_filter args) FILTER_ALL) dn i = wanted_entry args e.
Proof.
  intros B (S & T & _) H. unfold by_default_route in B. unfold filter_of, wanted_entry, wanted_type. rewrite B, H.
  destruct (str_eqb (the_filter args) opt_public); [|destruct (str_eqb (the_filter args) opt_private);
    [|destruct (str_eqb (the_filter args) opt_loopback)]]; cbn [keeps andb]; [| | |reflexivity];
    rewrite T; destruct (spec_network_type (entry_ip e)); reflexivity.
Qed.
(* Two lists filtered alike. *)
Lemma Forall2_filter {A B} (R : A -> B -> Prop) p q l m : Forall2 R l m ->
  (forall a b, In a l -> R a b -> q b = p a) -> Forall2 R (filter p l) (filter q m).
Proof.
  induction 1 as [|a b l m H F IH]; intros E; [constructor|]. cbn [filter].
  rewrite (E a b (or_introl eq_refl) H).
  destruct (p a); [constructor; auto|]; apply IH; intros; apply E; auto; now right.
Qed.
Lemma Forall2_build {A B C} (R : A -> B -> Prop) (Q : A -> C -> Prop) (P : B -> C -> Prop) l m : Forall2 R l m ->
  (forall a b, In a l -> R a b -> exists c, P b c /\ Q a c) -> exists k, Forall2 P m k /\ Forall2 Q l k.
Proof.
  induction 1 as [|a b l m H F IH]; intros E; [exists []; split; constructor|].
  destruct (E a b (or_introl eq_refl) H) as (c & X & Y). destruct IH as (k & K1 & K2); [intros; apply E; auto; now right|].
  exists (c :: k). split; now constructor.
Qed.
