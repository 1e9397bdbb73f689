(* Properties C37-C46, C50, C51, C69-C71: the address parser. *)
From Coq Require Import ZifyBool ZifyNat Permutation Sorted.
From Verif Require Import Base Addr Spec Range SpecRange Inet SpecText Parser SpecParser.
From Verif Require AddrProofs AddrProofs2 AddrProofs4 RangeProofs InetProofs ParserProofs ParserProofs2
  ParserProofs3 ParserProofs4 ParserProofs5 ParserProofs6 PropText.
Import AddrProofs AddrProofs2 AddrProofs4 RangeProofs InetProofs ParserProofs ParserProofs2
  ParserProofs3 ParserProofs4 ParserProofs5 ParserProofs6.
Local Open Scope Z_scope.

(* Parsers and resolvers for the examples. *)
Definition with_allow (p : parser) (flag : Z) (b : bool) : parser := fst (set_allow p flag b).
Definition numeric : parser := with_allow parser_new ALLOW_ADDRESS_LOOKUP false.
Definition no_answer : resolver := fun _ _ _ _ _ => GAI_error (lit "no answer").
(* every name is 10.0.0.1 and 2001:: *)
Definition ten_one : sockaddr_in := mk_in AF_INET 0 (load32 [10; 0; 0; 1] 0).
Definition two_thousand_one : sockaddr_in6 :=
  mk_in6 AF_INET6 0 0 (32 :: 1 :: repeat 0 14) 0.
Definition one_name : resolver := fun _ _ _ _ _ =>
  GAI_list [mk_ai AF_INET 16 6 ten_one (mk_in6 0 0 0 [] 0);
            mk_ai AF_INET6 28 17 ten_one two_thousand_one].
Lemma no_answer_ok : resolver_ok no_answer.
Proof. intros ? ? ? ? ? ?. discriminate. Qed.
Lemma one_name_ok : resolver_ok one_name.
Proof.
  intros n s b t pr l H. assert (l = [mk_ai AF_INET 16 6 ten_one (mk_in6 0 0 0 [] 0);
            mk_ai AF_INET6 28 17 ten_one two_thousand_one]) as -> by (cbv [one_name] in H; congruence).
  split; [discriminate|]. repeat constructor; cbn; try discriminate; try lia.
Qed.

(* ---------- C37 ---------- *)
Lemma flags_length (l : list bool) n v : length (upd l n v) = length l.
Proof. revert n. induction l as [|x l IH]; intros [|n]; cbn [upd length]; auto. Qed.
Lemma flags_other (l : list bool) a b v : 0 <= a -> 0 <= b -> a <> b ->
  nth (Z.to_nat a) (upd l (Z.to_nat b) v) false = nth (Z.to_nat a) l false.
Proof.
  intros Ha Hb N. assert (Z.to_nat a <> Z.to_nat b) as M by lia. revert M. generalize (Z.to_nat a) (Z.to_nat b).
  clear. induction l as [|x l IH]; intros [|n] [|m] M; cbn [upd nth]; auto; congruence.
Qed.
Lemma flags_same (l : list bool) a v : 0 <= a < Z.of_nat (length l) -> nth (Z.to_nat a) (upd l (Z.to_nat a) v) false = v.
Proof.
  intros H. assert (Z.to_nat a < length l)%nat as M by lia. revert M. generalize (Z.to_nat a).
  clear. induction l as [|x l IH]; intros [|n] M; cbn [upd nth length] in *; auto; try lia. apply IH. lia.
Qed.
Lemma flags_step y g p op : length (f_flags p) = 16%nat ->
  length (f_flags (parser_step y g p op)) = 16%nat
  /\ (forall flag, 0 <= flag < 16 ->
       (exists b, op = P_set_allow flag b /\ allow (parser_step y g p op) flag = b)
       \/ (exists f, excludes f flag /\ op = P_set_allow f true /\ allow (parser_step y g p op) flag = false)
       \/ (forall b, op <> P_set_allow flag b) /\ (forall f, excludes f flag -> op <> P_set_allow f true)
          /\ allow (parser_step y g p op) flag = allow p flag).
Proof.
  intros L.
  assert (forall q, f_flags q = f_flags p -> (forall f b, op <> P_set_allow f b) ->
    length (f_flags q) = 16%nat /\ (forall flag, 0 <= flag < 16 ->
       (exists b, op = P_set_allow flag b /\ allow q flag = b)
       \/ (exists f, excludes f flag /\ op = P_set_allow f true /\ allow q flag = false)
       \/ (forall b, op <> P_set_allow flag b) /\ (forall f, excludes f flag -> op <> P_set_allow f true)
          /\ allow q flag = allow p flag)) as K.
  { intros q E N. split; [congruence|]. intros flag _. right. right. split; [auto|]. split; [auto|]. unfold allow. congruence. }
  destruct op; try (apply K; [|discriminate]); cbn [parser_step].
  - unfold set_allow. destruct (_ || _) eqn:B; cbn [fst].
    { split; [exact L|]. unfold ALLOW_max in B. intros fl H. right. right. split; [intros b'; injection 1; lia|].
      split; [|reflexivity]. intros f X. injection 1. intros _ ->. unfold excludes, ALLOW_MULTI_ADDRESSES_COMMAS, ALLOW_MULTI_PORTS_COMMAS in X. lia. }
    unfold ALLOW_max in B. split.
    + cbn [f_flags with_flags]. destruct b; [destruct (flag =? _); [|destruct (flag =? _)]|]; rewrite ?flags_length; exact L.
    + intros fl H. unfold allow. cbn [f_flags with_flags]. unfold excludes, ALLOW_MULTI_ADDRESSES_COMMAS, ALLOW_MULTI_PORTS_COMMAS in *.
      destruct (Z.eq_dec flag fl) as [->|N]; [left; exists b; split; [reflexivity|]|right].
      * destruct b; [destruct (fl =? 2) eqn:E2; [|destruct (fl =? 14) eqn:E14]|];
          rewrite ?flags_other by (rewrite ?flags_length; lia); apply flags_same; lia.
      * destruct b.
        -- destruct (flag =? 2) eqn:E2; [|destruct (flag =? 14) eqn:E14].
           ++ destruct (Z.eq_dec fl 14) as [->|N3]; [left; exists flag; split; [left; apply Z.eqb_eq in E2; auto|]; split; [reflexivity|]; apply flags_same; rewrite ?flags_length; lia|].
              right. split; [intros b'; injection 1; lia|]. split; [intros f X; injection 1; lia|]. rewrite !flags_other by lia. reflexivity.
           ++ destruct (Z.eq_dec fl 2) as [->|N3]; [left; exists flag; split; [right; apply Z.eqb_eq in E14; auto|]; split; [reflexivity|]; apply flags_same; rewrite ?flags_length; lia|].
              right. split; [intros b'; injection 1; lia|]. split; [intros f X; injection 1; lia|]. rewrite !flags_other by lia. reflexivity.
           ++ right. split; [intros b'; injection 1; lia|]. split; [intros f X; injection 1; lia|]. rewrite !flags_other by lia. reflexivity.
        -- right. split; [intros b'; injection 1; lia|]. split; [intros f _; discriminate|]. rewrite !flags_other by lia. reflexivity.
  - unfold set_sort_order. destruct (_ =? _); reflexivity.
  - unfold set_default_address. destruct s; [reflexivity|]. destruct (_ =? _); [destruct (negb _); reflexivity|].
    destruct (find_char _ _); reflexivity.
  - unfold set_default_port. destruct (_ || _); reflexivity.
  - unfold set_default_port_str, set_default_port. destruct s; [destruct (_ || _); reflexivity|].
    destruct (convert_string _ _); [destruct (_ || _); reflexivity|reflexivity].
  - unfold set_default_mask. destruct s; [reflexivity|]. destruct (_ && _); [reflexivity|]. destruct (_ || _); [reflexivity|].
    destruct (find_char _ _); [reflexivity|]. destruct (convert_string _ _); [|reflexivity].
    destruct (_ || _); [reflexivity|]. destruct (_ >? _); reflexivity.
  - unfold parser_set_protocol. destruct (_ || _); reflexivity.
  - unfold parser_set_protocol_str. destruct (getprotobyname _ _); reflexivity.
  - reflexivity.
  - reflexivity.
  - reflexivity.
  - apply parse_config.
Qed.
Lemma run_reachable y g ops : parser_reachable y g (parser_run y g ops).
Proof. induction ops as [|op ops IH]; [constructor|]. now apply pr_step. Qed.
Lemma reachable_run y g p : parser_reachable y g p -> exists ops, p = parser_run y g ops.
Proof. induction 1 as [|p op H [ops ->]]; [now exists []|]. now exists (op :: ops). Qed.
Lemma run_flags y g ops : length (f_flags (parser_run y g ops)) = 16%nat.
Proof. induction ops as [|op ops IH]; [reflexivity|]. cbn [parser_run]. now apply flags_step. Qed.

(* The value of a flag is the last one set, unless the companion was turned on
   later; everything else leaves it alone. *)
Theorem C37_last_value : forall y g ops flag, 0 <= flag < ALLOW_max ->
  exists v, get_allow (parser_run y g ops) flag = Ok v /\ setting flag ops v.
Proof.
  intros y g ops flag H. exists (allow (parser_run y g ops) flag). split.
  { unfold get_allow, ALLOW_max in *. now replace ((flag <? 0) || (flag >=? 16)) with false by lia. }
  induction ops as [|op ops IH].
  - replace (allow (parser_run y g []) flag)
      with ((flag =? ALLOW_ADDRESS) || (flag =? ALLOW_ADDRESS_LOOKUP) || (flag =? ALLOW_PORT)); [constructor|].
    unfold ALLOW_max in H. assert (exists n : nat, flag = Z.of_nat n /\ (n < 16)%nat) as (n & -> & Hn) by (exists (Z.to_nat flag); lia).
    clear H. do 16 (destruct n as [|n]; [reflexivity|]). lia.
  - cbn [parser_run]. destruct (flags_step y g _ op (run_flags y g ops)) as [_ K].
    destruct (K flag H) as [(b & -> & ->)|[(f & X & -> & ->)|(N1 & N2 & ->)]].
    + apply setting_own.
    + now apply setting_excluded.
    + now apply setting_earlier.
Qed.
Print Assumptions C37_last_value.

Theorem C37_setting_unique : forall flag ops v w, setting flag ops v -> setting flag ops w -> v = w.
Proof.
  intros flag ops v w H. revert w. induction H as [|b e|f e X|op e v N1 N2 H IH]; intros w K.
  - now inversion K.
  - remember (P_set_allow flag b :: e) as o eqn:E. destruct K as [|b' e'|f e' X|op e' v' N1 N2 K].
    + discriminate.
    + congruence.
    + injection E. intros _ _ ->. unfold excludes in X. exfalso. destruct X as [[-> X]|[-> X]]; discriminate.
    + exfalso. apply (N1 b). congruence.
  - remember (P_set_allow f true :: e) as o eqn:E. destruct K as [|b' e'|f' e' X'|op e' v' N1 N2 K].
    + discriminate.
    + injection E. intros _ _ ->. unfold excludes in X. exfalso. destruct X as [[-> X]|[-> X]]; discriminate.
    + reflexivity.
    + exfalso. apply (N2 f X). congruence.
  - remember (op :: e) as o eqn:E. destruct K as [|b' e'|f' e' X'|op' e' v' N1' N2' K].
    + discriminate.
    + exfalso. apply (N1 b'). congruence.
    + exfalso. apply (N2 f' X'). congruence.
    + apply IH. assert (e' = e) as <- by congruence. exact K.
Qed.
Print Assumptions C37_setting_unique.

Theorem C37_commas_exclusive : forall y g p, parser_reachable y g p ->
  ~ (get_allow p ALLOW_MULTI_ADDRESSES_COMMAS = Ok true /\ get_allow p ALLOW_MULTI_PORTS_COMMAS = Ok true).
Proof.
  intros y g p R. destruct (reachable_run y g p R) as [ops ->]. clear R. intros [H1 H2].
  unfold get_allow in H1, H2. cbn in H1, H2.
  assert (allow (parser_run y g ops) 2 = true) as A1 by (unfold ALLOW_MULTI_ADDRESSES_COMMAS in *; congruence).
  assert (allow (parser_run y g ops) 14 = true) as A2 by (unfold ALLOW_MULTI_PORTS_COMMAS in *; congruence). clear H1 H2.
  induction ops as [|op ops IH]; [discriminate|]. cbn [parser_run] in *.
  destruct (flags_step y g _ op (run_flags y g ops)) as [_ K].
  pose proof (K 2 ltac:(lia)) as K1. pose proof (K 14 ltac:(lia)) as K2. clear K.
  rewrite A1 in K1. rewrite A2 in K2.
  destruct K1 as [(b & -> & E1)|[(f & X & -> & E1)|(N1 & N2 & E1)]]; try discriminate.
  - destruct K2 as [(b' & E & E2)|[(f & X & E & E2)|(M1 & M2 & E2)]]; try discriminate; subst.
    apply (M2 2); [now left|reflexivity].
  - destruct K2 as [(b' & -> & E2)|[(f & X & E & E2)|(M1 & M2 & E2)]]; try discriminate; subst.
    + apply (N2 14); [now right|reflexivity].
    + now apply IH.
Qed.
Print Assumptions C37_commas_exclusive.

Theorem C37_invalid_flags : forall p flag b, flag < 0 \/ flag >= 16 ->
  set_allow p flag b = (p, Throw E_invalid_argument) /\ get_allow p flag = Throw E_invalid_argument.
Proof.
  intros p flag b H. unfold set_allow, get_allow, ALLOW_max.
  now replace ((flag <? 0) || (flag >=? 16)) with true by lia.
Qed.
Print Assumptions C37_invalid_flags.

Example C37_witness :
  let p := with_allow (with_allow parser_new ALLOW_MULTI_ADDRESSES_COMMAS true) ALLOW_MULTI_PORTS_COMMAS true in
  get_allow p ALLOW_MULTI_ADDRESSES_COMMAS = Ok false /\ get_allow p ALLOW_MULTI_PORTS_COMMAS = Ok true
  /\ get_allow p ALLOW_PORT = Ok true
  /\ p = parser_run PropText.y0 no_answer
       [P_set_allow ALLOW_MULTI_PORTS_COMMAS true; P_set_allow ALLOW_MULTI_ADDRESSES_COMMAS true].
Proof. vm_compute. auto. Qed.

(* ---------- C38 ---------- *)
Theorem C38_families_exclusive : forall y g p, parser_reachable y g p ->
  Z.testbit (get_sort_order p) 0 = false \/ Z.testbit (get_sort_order p) 1 = false.
Proof.
  intros y g p H. induction H as [|p op H IH]; [now left|]. destruct op; cbn [parser_step]; try exact IH.
  - unfold set_allow. destruct (_ || _); exact IH.
  - unfold set_sort_order. destruct (_ =? _) eqn:E; [exact IH|]. cbn [fst get_sort_order with_sort f_sort].
    apply Z.eqb_neq in E. destruct (Z.testbit sort 0) eqn:B0; [|now left]. destruct (Z.testbit sort 1) eqn:B1; [|now right].
    exfalso. apply E. change (Z.lor SORT_IPV6_FIRST SORT_IPV4_FIRST) with 3. apply Z.bits_inj'. intros i Hi.
    rewrite Z.land_spec. destruct (Z.eq_dec i 0) as [->|N0]; [now rewrite B0|].
    destruct (Z.eq_dec i 1) as [->|N1]; [now rewrite B1|].
    assert (Z.testbit 3 i = false) as -> by (apply Z.bits_above_log2; [lia|change (Z.log2 3) with 1; lia]).
    now destruct (Z.testbit sort i).
  - unfold set_default_address. destruct s; [exact IH|]. destruct (_ =? _); [destruct (negb _); exact IH|].
    destruct (find_char _ _); exact IH.
  - unfold set_default_port. destruct (_ || _); exact IH.
  - unfold set_default_port_str, set_default_port. destruct s; [destruct (_ || _); exact IH|].
    destruct (convert_string _ _); [destruct (_ || _); exact IH|exact IH].
  - unfold set_default_mask. destruct s; [exact IH|]. destruct (_ && _); [exact IH|]. destruct (_ || _); [exact IH|].
    destruct (find_char _ _); [exact IH|]. destruct (convert_string _ _); [|exact IH].
    destruct (_ || _); [exact IH|]. destruct (_ >? _); exact IH.
  - unfold parser_set_protocol. destruct (_ || _); exact IH.
  - unfold parser_set_protocol_str. destruct (getprotobyname _ _); exact IH.
  - unfold get_sort_order. rewrite (sc_sort _ _ (parse_config y g s p)). exact IH.
Qed.
Print Assumptions C38_families_exclusive.

(* Rejected exactly when both families are to be first; otherwise kept as is,
   and nothing else changes. *)
Theorem C38_accepted_or_rejected : forall p sort,
  (Z.testbit sort 0 = true /\ Z.testbit sort 1 = true ->
     set_sort_order p sort = (p, Throw E_invalid_argument))
  /\ (Z.testbit sort 0 = false \/ Z.testbit sort 1 = false ->
     snd (set_sort_order p sort) = Ok tt
     /\ get_sort_order (fst (set_sort_order p sort)) = sort
     /\ set_sort_order (fst (set_sort_order p sort)) (get_sort_order p) 
        = (if Z.testbit (get_sort_order p) 0 && Z.testbit (get_sort_order p) 1
           then (fst (set_sort_order p sort), Throw E_invalid_argument) else (p, Ok tt))).
Proof.
  assert (forall sort, (Z.land sort (Z.lor SORT_IPV6_FIRST SORT_IPV4_FIRST) =? Z.lor SORT_IPV6_FIRST SORT_IPV4_FIRST)
    = Z.testbit sort 0 && Z.testbit sort 1) as B.
  { intros sort. change (Z.lor SORT_IPV6_FIRST SORT_IPV4_FIRST) with 3.
    change 3 with (Z.ones 2). rewrite Z.land_ones by lia. change (Z.ones 2) with 3. change (2 ^ 2) with 4.
    rewrite !Z.testbit_odd. change (Z.shiftr sort 0) with sort. rewrite Z.shiftr_div_pow2 by lia. change (2 ^ 1) with 2.
    pose proof (Zmod_odd sort) as M1. pose proof (Zmod_odd (sort / 2)) as M2.
    pose proof (Z.div_mod sort 2 ltac:(lia)).
    pose proof (Z.div_mod sort 4 ltac:(lia)). pose proof (Z.mod_pos_bound sort 4 ltac:(lia)).
    pose proof (Z.div_mod (sort / 2) 2 ltac:(lia)).
    assert (sort / 2 / 2 = sort / 4) as E by (rewrite Z.div_div by lia; reflexivity).
    rewrite E in *. destruct (Z.odd sort), (Z.odd (sort / 2)); cbn [andb]; lia. }
  intros p sort. unfold set_sort_order. rewrite !B. split.
  - intros [-> ->]. reflexivity.
  - intros H. replace (Z.testbit sort 0 && Z.testbit sort 1) with false by (destruct H as [-> | ->]; [reflexivity|now rewrite andb_false_r]).
    cbn [fst snd]. split; [reflexivity|]. split; [reflexivity|].
    destruct (_ && _); [reflexivity|]. destruct p; reflexivity.
Qed.
Print Assumptions C38_accepted_or_rejected.

Example C38_witness :
  snd (set_sort_order numeric (Z.lor SORT_IPV4_FIRST SORT_MERGE)) = Ok tt
  /\ set_sort_order numeric (Z.lor SORT_IPV4_FIRST SORT_IPV6_FIRST) = (numeric, Throw E_invalid_argument).
Proof. vm_compute. auto. Qed.

(* ---------- C39 ---------- *)
Theorem C39_default_port_in_range : forall y g p, parser_reachable y g p ->
  -1 <= get_default_port p <= 65535.
Proof.
  intros y g p H. induction H as [|p op H IH]; [now cbv|]. destruct op; cbn [parser_step]; try exact IH.
  - unfold set_allow. destruct (_ || _); exact IH.
  - unfold set_sort_order. destruct (_ =? _); exact IH.
  - unfold set_default_address. destruct s; [exact IH|]. destruct (_ =? _); [destruct (negb _); exact IH|].
    destruct (find_char _ _); exact IH.
  - unfold set_default_port. destruct (_ || _) eqn:E; [exact IH|]. cbn. lia.
  - unfold set_default_port_str, set_default_port. destruct s; [destruct (_ || _) eqn:E; [exact IH|cbn; lia]|].
    destruct (convert_string _ _); [|exact IH]. destruct (_ || _) eqn:E; [exact IH|]. cbn [fst get_default_port with_default_port f_default_port]. lia.
  - unfold set_default_mask. destruct s; [exact IH|]. destruct (_ && _); [exact IH|]. destruct (_ || _); [exact IH|].
    destruct (find_char _ _); [exact IH|]. destruct (convert_string _ _); [|exact IH].
    destruct (_ || _); [exact IH|]. destruct (_ >? _); exact IH.
  - unfold parser_set_protocol. destruct (_ || _); exact IH.
  - unfold parser_set_protocol_str. destruct (getprotobyname _ _); exact IH.
  - unfold get_default_port. rewrite (sc_port _ _ (parse_config y g s p)). exact IH.
Qed.
Print Assumptions C39_default_port_in_range.

Theorem C39_numbers : forall p n,
  (-1 <= n <= 65535 -> snd (set_default_port p n) = Ok tt /\ get_default_port (fst (set_default_port p n)) = n)
  /\ (n < -1 \/ n > 65535 -> set_default_port p n = (p, Throw E_invalid_argument)).
Proof.
  intros p n. unfold set_default_port. split; intros H.
  - now replace ((n <? -1) || (n >? 65535)) with false by lia.
  - now replace ((n <? -1) || (n >? 65535)) with true by lia.
Qed.
Print Assumptions C39_numbers.

(* Missing: strings of digits with a value of 2^31 or more, see below. *)
Theorem C39_numeric_strings_partial : forall y p s v, converts_decimals y -> decimal s v -> v < 2 ^ 31 ->
  (v <= 65535 -> snd (set_default_port_str y p s) = Ok tt
     /\ get_default_port (fst (set_default_port_str y p s)) = v)
  /\ (v > 65535 -> set_default_port_str y p s = (p, Throw E_invalid_argument)).
Proof.
  intros y p s v C D V. unfold set_default_port_str. rewrite (C s v D) by lia.
  assert (0 <= v) as P.
  { destruct D as (_ & F & <-). unfold decimal_value. assert (forall s n, forallb is_digit s = true -> 0 <= n ->
      0 <= fold_left (fun v c => v * 10 + (c - 48)) s n) as K; [|apply K; [exact F|lia]].
    clear. induction s as [|c s IH]; cbn [forallb fold_left]; intros n H Hn; [exact Hn|].
    apply andb_true_iff in H. destruct H as [H1 H2]. unfold is_digit in H1. apply IH; [exact H2|lia]. }
  assert (s32 v = v) as -> by (unfold s32; rewrite Z.mod_small; lia).
  destruct s as [|c s]; [destruct D; congruence|]. split; intros H.
  - apply (proj1 (C39_numbers p v)). lia.
  - apply (proj2 (C39_numbers p v)). lia.
Qed.
Print Assumptions C39_numeric_strings_partial.

(* "4294967376" is accepted and becomes port 80. *)
Theorem C39_numeric_strings_refuted : exists y s v, converts_decimals y /\ decimal s v /\ v > 65535
  /\ forall p, snd (set_default_port_str y p s) = Ok tt
     /\ get_default_port (fst (set_default_port_str y p s)) = 80.
Proof.
  exists ref_sys, (lit "4294967376"), 4294967376. split; [apply ref_sys_converts|].
  split; [split; [discriminate|now vm_compute]|]. split; [lia|]. intros p. now vm_compute.
Qed.
Print Assumptions C39_numeric_strings_refuted.

Example C39_witness : converts_decimals ref_sys /\ decimal (lit "8080") 8080
  /\ get_default_port (fst (set_default_port_str ref_sys parser_new (lit "8080"))) = 8080
  /\ set_default_port_str ref_sys parser_new (lit "65536") = (parser_new, Throw E_invalid_argument).
Proof. split; [apply ref_sys_converts|]. split; [split; [discriminate|now vm_compute]|]. now vm_compute. Qed.
