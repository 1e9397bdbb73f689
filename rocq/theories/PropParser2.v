(* Properties C40-C44, C50, C51, C70-C73: what parse() returns. *)
From Coq Require Import ZifyBool ZifyNat Permutation Sorted.
From Verif Require Import Base Addr Spec Range SpecRange Inet SpecText Parser SpecParser.
From Verif Require AddrProofs AddrProofs2 AddrProofs4 RangeProofs InetProofs ParserProofs ParserProofs2
  ParserProofs3 ParserProofs4 ParserProofs5 ParserProofs6 ParserProofs7 PropText PropParser.
Import AddrProofs AddrProofs2 AddrProofs4 RangeProofs InetProofs ParserProofs ParserProofs2
  ParserProofs3 ParserProofs4 ParserProofs5 ParserProofs6 ParserProofs7 PropParser.
Local Open Scope Z_scope.

(* ---------- C40 ---------- *)
(* The pieces of a string exist and are unique, so that the theorems below say
   something about every string. *)
Theorem C40_pieces_exist : forall p s, exists ps, pieces (separator p) s ps
  /\ forall ps', pieces (separator p) s ps' -> ps' = ps.
Proof.
  intros p s. destruct (pieces_total (separators p) (length s) s (le_n _)) as [ps H].
  exists ps. assert (pieces (separator p) s ps) as H'.
  { apply (pieces_ext _ _ _ _ (fun c => mem_separators p c) H). }
  split; [exact H'|]. intros ps' K. now apply (pieces_fun (separator p) s ps H' ps').
Qed.
Print Assumptions C40_pieces_exist.

Lemma nonempty_pieces sep s ps : pieces sep s ps -> filter nonempty_str ps = ps.
Proof.
  intros H. apply pieces_words in H. induction H as [|w l [N _] H IH]; [reflexivity|].
  destruct w; [congruence|]. cbn [filter nonempty_str]. now rewrite IH.
Qed.
Lemma no_comment p ps : nobody (starts_comment p) -> Forall2 (up_to (starts_comment p)) ps ps.
Proof.
  intros N. induction ps as [|w ps IH]; constructor; auto. split; [|now left].
  apply Forall_forall. intros c _. apply N.
Qed.

(* Each piece is parsed by itself, and the results are put together. *)
Theorem C40_pieces : forall y g s ps p, unsorted p -> (exists c, separator p c) ->
  nobody (starts_comment p) -> pieces (separator p) s ps ->
  parse y g s p = one_after_the_other (parse y g) ps p.
Proof.
  intros y g s ps p U S N H. rewrite <- (nonempty_pieces _ _ _ H).
  apply (parse_is_pieces y g s ps ps p U S (or_introl N) H). now apply no_comment.
Qed.
Print Assumptions C40_pieces.

Lemma pieces_app_sep (sep : Z -> Prop) a c b pb : forall pa, sep c -> pieces sep a pa -> pieces sep b pb ->
  pieces sep (a ++ c :: b) (pa ++ pb).
Proof.
  intros pa Sc Ha Hb. induction Ha as [s F|seps piece rest l F N P R H IH].
  - cbn [app]. replace (s ++ c :: b) with ((s ++ [c]) ++ b) by now rewrite <- app_assoc.
    assert (Forall sep (s ++ [c])) as F' by (apply Forall_app; auto).
    revert F'. generalize (s ++ [c]). intros t F'. inversion Hb as [s0 G|seps piece rest l G N P R H]; subst.
    + constructor. apply Forall_app; auto.
    + rewrite app_assoc. constructor; auto. apply Forall_app; auto.
  - rewrite <- !app_assoc, <- app_comm_cons. constructor; auto. right. destruct R as [->|(d & r & -> & Sd)].
    + exists c, b. now split.
    + exists d, (r ++ c :: b). now split.
Qed.
Lemma one_app {A} (f : str -> M (list A)) l2 : forall l1 p,
  one_after_the_other f (l1 ++ l2) p
  = match one_after_the_other f l1 p with
    | (p1, Ok a) => match one_after_the_other f l2 p1 with
                    | (p2, Ok b) => (p2, Ok (a ++ b))
                    | other => other
                    end
    | other => other
    end.
Proof.
  induction l1 as [|s l1 IH]; intros p.
  - cbn [app]. change (one_after_the_other f [] p) with (p, @Ok (list A) []). cbv iota.
    destruct (one_after_the_other f l2 p) as [p2 [b|x| |]]; reflexivity.
  - cbn [app]. rewrite !one_cons. destruct (f s p) as [p1 [a|x| |]]; try reflexivity.
    rewrite IH. destruct (one_after_the_other f l1 p1) as [p2 [b|x| |]]; try reflexivity.
    destruct (one_after_the_other f l2 p2) as [p3 [d|x| |]]; try reflexivity. now rewrite app_assoc.
Qed.
Lemma nobody_config p q : same_config p q -> nobody (starts_comment p) -> nobody (starts_comment q).
Proof. intros C N c H. apply (N c). apply mem_comments. rewrite (comment_chars_config _ _ C). now apply mem_comments. Qed.
Lemma separator_config p q c : same_config p q -> separator p c -> separator q c.
Proof. intros C H. apply mem_separators. rewrite <- (separators_config _ _ C). now apply mem_separators. Qed.

(* A separator can be put anywhere: both sides are parsed by themselves. *)
Theorem C40_separator_cuts : forall y g a c b p, unsorted p -> separator p c -> nobody (starts_comment p) ->
  parse y g (a ++ c :: b) p = one_after_the_other (parse y g) [a; b] p.
Proof.
  intros y g a c b p U S N. destruct (C40_pieces_exist p a) as (pa & Ha & _).
  destruct (C40_pieces_exist p b) as (pb & Hb & _).
  rewrite (C40_pieces y g _ (pa ++ pb) p) by (eauto using pieces_app_sep).
  rewrite one_app, one_cons. rewrite <- (C40_pieces y g a pa p) by eauto.
  pose proof (parse_config y g a p) as C. destruct (parse y g a p) as [p1 [la|x| |]]; try reflexivity. cbn [fst] in C.
  assert (one_after_the_other (parse y g) pb p1 = parse y g b p1) as ->.
  { symmetry. apply C40_pieces.
    - now apply (unsorted_config p p1), U; apply same_config_sym.
    - exists c. apply (separator_config p); [now apply same_config_sym|exact S].
    - apply (nobody_config p); [now apply same_config_sym|exact N].
    - eapply pieces_ext; [|exact Hb]. intros d. split; apply separator_config; auto using same_config_sym. }
  rewrite one_cons. change (one_after_the_other (parse y g) [] ) with (fun p : parser => (p, @Ok (list addr_range) [])). cbv beta.
  destruct (parse y g b p1) as [p2 [lb|x| |]]; try reflexivity. now rewrite app_nil_r.
Qed.
Print Assumptions C40_separator_cuts.

(* Nothing but separators: no range, no error. *)
Theorem C40_only_separators : forall y g s p, unsorted p -> (exists c, separator p c) ->
  Forall (separator p) s -> nobody (starts_comment p) -> parse y g s p = (p, Ok []).
Proof. intros y g s p U S F N. rewrite (C40_pieces y g s [] p); auto. now constructor. Qed.
Print Assumptions C40_only_separators.

Definition commas : parser := with_allow (with_allow numeric ALLOW_MULTI_ADDRESSES_COMMAS true)
  ALLOW_MULTI_ADDRESSES_SPACES true.
Definition ips (r : parser * res (list addr_range)) : list Z :=
  match snd r with Ok l => map (fun r => value (f_from r) - v4_base) l | _ => [-1] end.
Lemma no_comments p : comment_chars p = [] -> nobody (starts_comment p).
Proof. intros E c H. apply mem_comments in H. now rewrite E in H. Qed.
Example C40_witness : unsorted commas /\ separator commas 44 /\ separator commas 32
  /\ nobody (starts_comment commas)
  /\ pieces (separator commas) (lit ", 1.2.3.4,,5.6.7.8 ") [lit "1.2.3.4"; lit "5.6.7.8"]
  /\ ips (parse ref_sys no_answer (lit ", 1.2.3.4,,5.6.7.8 ") commas) = [quad 1 2 3 4; quad 5 6 7 8].
Proof.
  split; [reflexivity|]. split; [left; now split|]. split; [right; left; now split|].
  split; [now apply no_comments|].
  assert (forall s, forallb (fun c => mem c (separators commas)) s = true -> Forall (separator commas) s) as F.
  { intros s H. apply Forall_forall. intros c Hc. rewrite forallb_forall in H. now apply mem_separators, H. }
  assert (forall s, forallb (fun c => negb (mem c (separators commas))) s = true ->
    Forall (fun c => ~ separator commas c) s) as G.
  { intros s H. apply Forall_forall. intros c Hc X. rewrite forallb_forall in H. specialize (H c Hc).
    apply mem_separators in X. now rewrite X in H. }
  split; [|vm_compute; reflexivity].
  apply (pieces_one _ (lit ", ") (lit "1.2.3.4") (lit ",,5.6.7.8 ")); [now apply F|discriminate|now apply G| |].
  { right. exists 44, (lit ",5.6.7.8 "). split; [reflexivity|]. left; now split. }
  apply (pieces_one _ (lit ",,") (lit "5.6.7.8") (lit " ")); [now apply F|discriminate|now apply G| |].
  { right. exists 32, []. split; [reflexivity|]. right; left; now split. }
  constructor. now apply F.
Qed.

(* ---------- C41 ---------- *)
(* Missing from the three theorems: an entry of blanks followed by a comment
   without separators, and the entries after the first one of a line when
   newlines are mixed with other separators; both are refuted below. *)
Theorem C41_entries_partial : forall y g s ps texts p, unsorted p -> (exists c, separator p c) ->
  (~ separator p 10 \/ forall c, separator p c -> newline c) ->
  pieces (separator p) s ps -> Forall2 (up_to (starts_comment p)) ps texts ->
  parse y g s p = one_after_the_other (parse y g) (filter nonempty_str texts) p.
Proof. intros y g s ps texts p U S N H F. apply (parse_is_pieces y g s ps texts p); auto. Qed.
Print Assumptions C41_entries_partial.

Theorem C41_single_entry_partial : forall y g s t p, nobody (separator p) -> up_to (starts_comment p) s t ->
  t = [] \/ Exists (fun c => ~ blank c) t ->
  parse y g s p = parse y g t p.
Proof. intros y g s t p N U H. now apply parse_comment. Qed.
Print Assumptions C41_single_entry_partial.

(* With newlines and comments: what is used of each line, exactly. *)
Theorem C41_lines_partial : forall y g s lines firsts p, unsorted p ->
  (exists c, starts_comment p c) -> separator p 10 ->
  pieces newline s lines -> Forall2 (line_entry (separator p) (starts_comment p)) lines firsts ->
  parse y g s p = one_after_the_other (parse y g) (filter nonempty_str (concat firsts)) p.
Proof. intros y g s lines firsts p U C N H F. now apply (parse_is_lines y g s lines firsts p). Qed.
Print Assumptions C41_lines_partial.

(* " #c" is not the same as " ": the comment is read as an address. *)
Definition hash : parser := with_allow numeric ALLOW_COMMENT_HASH true.
Theorem C41_single_entry_refuted : exists y g s t p, parser_reachable y g p /\ nobody (separator p)
  /\ up_to (starts_comment p) s t /\ snd (parse y g s p) <> snd (parse y g t p)
  /\ error_count (fst (parse y g s p)) = 1 /\ error_count (fst (parse y g t p)) = 0.
Proof.
  exists ref_sys, no_answer, (lit " #c"), (lit " "), hash. split.
  { apply (run_reachable ref_sys no_answer [P_set_allow ALLOW_COMMENT_HASH true; P_set_allow ALLOW_ADDRESS_LOOKUP false]). }
  split. { intros c H. apply mem_separators in H. discriminate. }
  split. { split; [|right; exists 35, (lit "c"); split; [reflexivity|left; now split]].
    constructor; [|constructor]. intros H. apply mem_comments in H. discriminate. }
  split; [vm_compute; discriminate|]. vm_compute. auto.
Qed.
Print Assumptions C41_single_entry_refuted.

(* There is no comment at all in the text, yet 2.2.2.2 is lost. *)
Definition lines_and_commas : parser :=
  with_allow (with_allow hash ALLOW_MULTI_ADDRESSES_COMMAS true) ALLOW_MULTI_ADDRESSES_NEWLINES true.
Theorem C41_entries_refuted : exists y g s ps p, parser_reachable y g p /\ unsorted p /\ (exists c, separator p c)
  /\ pieces (separator p) s ps /\ Forall (Forall (fun c => ~ starts_comment p c)) ps
  /\ length ps = 2%nat /\ error_count (fst (parse y g s p)) = 0
  /\ exists r, snd (parse y g s p) = Ok [r].
Proof.
  exists ref_sys, no_answer, (lit "1.1.1.1,2.2.2.2"), [lit "1.1.1.1"; lit "2.2.2.2"], lines_and_commas.
  split. { apply (run_reachable ref_sys no_answer [P_set_allow ALLOW_MULTI_ADDRESSES_NEWLINES true;
      P_set_allow ALLOW_MULTI_ADDRESSES_COMMAS true;
      P_set_allow ALLOW_COMMENT_HASH true; P_set_allow ALLOW_ADDRESS_LOOKUP false]). }
  split; [reflexivity|]. split; [exists 10; right; right; now split|].
  assert (forall s, forallb (fun c => negb (mem c (separators lines_and_commas))) s = true ->
    Forall (fun c => ~ separator lines_and_commas c) s) as G.
  { intros s H. apply Forall_forall. intros c Hc X. rewrite forallb_forall in H. specialize (H c Hc).
    apply mem_separators in X. now rewrite X in H. }
  assert (forall s, forallb (fun c => negb (mem c (comment_chars lines_and_commas))) s = true ->
    Forall (fun c => ~ starts_comment lines_and_commas c) s) as G'.
  { intros s H. apply Forall_forall. intros c Hc X. rewrite forallb_forall in H. specialize (H c Hc).
    apply mem_comments in X. now rewrite X in H. }
  split.
  { apply (pieces_one _ [] (lit "1.1.1.1") (lit ",2.2.2.2")); [constructor|discriminate|now apply G| |].
    { right. exists 44, (lit "2.2.2.2"). split; [reflexivity|]. left; now split. }
    apply (pieces_one _ (lit ",") (lit "2.2.2.2") []); [constructor; [left; now split|constructor]|discriminate|now apply G|now left|].
    constructor. constructor. }
  split. { constructor; [now apply G'|]. constructor; [now apply G'|constructor]. }
  split; [reflexivity|]. vm_compute. eauto.
Qed.
Print Assumptions C41_entries_refuted.

Definition hash_commas : parser := with_allow hash ALLOW_MULTI_ADDRESSES_COMMAS true.
Example C41_witness :
  ips (parse ref_sys no_answer (lit "1.1.1.1#one,#two,3.3.3.3") hash_commas) = [quad 1 1 1 1; quad 3 3 3 3]
  /\ ips (parse ref_sys no_answer (lit " 1.1.1.1 # one") hash) = [quad 1 1 1 1]
  /\ ips (parse ref_sys no_answer (lit "1.1.1.1") hash) = [quad 1 1 1 1]
  /\ ips (parse ref_sys no_answer (lit "1.1.1.1#x" ++ [10] ++ lit "#" ++ [10] ++ lit "2.2.2.2") lines_and_commas)
     = [quad 1 1 1 1; quad 2 2 2 2].
Proof. vm_compute. auto. Qed.

(* ---------- C42 ---------- *)
Definition log_ok (p : parser) : Prop :=
  0 <= f_error_count p /\ (f_error p = [] <-> f_error_count p = 0).
Lemma flat_nil ms : flat ms = [] <-> ms = [].
Proof.
  split; [|intros ->; reflexivity]. destruct ms as [|m ms]; [reflexivity|]. unfold flat. cbn [map concat].
  destruct m; discriminate.
Qed.
Lemma log_append p ms : log_ok p -> log_ok (with_errors p (f_error p ++ flat ms) (f_error_count p + Z.of_nat (length ms))).
Proof.
  intros [P H]. unfold log_ok. cbn [f_error f_error_count with_errors]. split; [lia|]. split.
  - intros E. apply app_eq_nil in E. destruct E as [E1 E2]. apply H in E1. apply flat_nil in E2. subst. cbn [length]. lia.
  - intros E. assert (f_error_count p = 0) as E1 by lia. apply H in E1. rewrite E1.
    destruct ms; [reflexivity|cbn [length] in E; lia].
Qed.
Lemma parse_appends y g s p : exists ms, fst (parse y g s p)
  = with_errors p (f_error p ++ flat ms) (f_error_count p + Z.of_nat (length ms)).
Proof.
  destruct (wp_run p _ _ p (parse_made y g p s) (same_config_refl p)) as (ms & r & E & _).
  exists ms. now rewrite E.
Qed.

Theorem C42_has_errors : forall y g p, parser_reachable y g p ->
  0 <= error_count p /\ (has_errors p = true <-> error_count p > 0).
Proof.
  intros y g p H. assert (log_ok p) as [P L].
  { assert (forall q r, f_error q = f_error r -> f_error_count q = f_error_count r -> log_ok r -> log_ok q) as K.
    { intros q r E1 E2. unfold log_ok. now rewrite E1, E2. }
    induction H as [|p op H IH]; [split; [now cbv|now cbv]|]. destruct op; cbn [parser_step].
    - apply (K _ p); auto; unfold set_allow; destruct (_ || _); reflexivity.
    - apply (K _ p); auto; unfold set_sort_order; destruct (_ =? _); reflexivity.
    - apply (K _ p); auto; unfold set_default_address; (destruct s; [reflexivity|]; destruct (_ =? _); [destruct (negb _); reflexivity|];
      destruct (find_char _ _); reflexivity).
    - apply (K _ p); auto; unfold set_default_port; destruct (_ || _); reflexivity.
    - apply (K _ p); auto; unfold set_default_port_str, set_default_port; (destruct s; [destruct (_ || _); reflexivity|];
      destruct (convert_string _ _); [destruct (_ || _); reflexivity|reflexivity]).
    - apply (K _ p); auto; unfold set_default_mask; (destruct s; [reflexivity|]; destruct (_ && _); [reflexivity|];
      destruct (_ || _); [reflexivity|]; destruct (find_char _ _); [reflexivity|]; destruct (convert_string _ _); [|reflexivity];
      destruct (_ || _); [reflexivity|]; destruct (_ >? _); reflexivity).
    - apply (K _ p); auto; unfold parser_set_protocol; destruct (_ || _); reflexivity.
    - apply (K _ p); auto; unfold parser_set_protocol_str; destruct (getprotobyname _ _); reflexivity.
    - exact IH.
    - destruct IH as [P L]. unfold log_ok, emit_error. cbn [f_error f_error_count with_errors]. split; [lia|].
      split; [|lia]. intros E. apply app_eq_nil in E. destruct E as [_ E]. destruct s; discriminate.
    - split; [now cbv|now cbv].
    - destruct (parse_appends y g s p) as [ms ->]. now apply log_append. }
  unfold error_count, has_errors. split; [exact P|]. destruct (f_error p) as [|c e].
  - assert (f_error_count p = 0) by now apply L. split; [discriminate|lia].
  - split; [|reflexivity]. intros _. destruct (Z.eq_dec (f_error_count p) 0) as [E|N]; [|lia].
    apply L in E. discriminate.
Qed.
Print Assumptions C42_has_errors.

(* Parsing only ever adds to the log. *)
Theorem C42_log_grows : forall y g s p p' r, parse y g s p = (p', r) ->
  exists n added, 0 <= n /\ error_count p' = error_count p + n
    /\ error_messages p' = error_messages p ++ added /\ (n = 0 <-> added = []).
Proof.
  intros y g s p p' r E. destruct (parse_appends y g s p) as [ms K]. rewrite E in K. cbn [fst] in K. subst p'.
  exists (Z.of_nat (length ms)), (flat ms). split; [lia|]. split; [reflexivity|]. split; [reflexivity|].
  rewrite flat_nil. destruct ms; cbn [length]; split; try reflexivity; try discriminate; lia.
Qed.
Print Assumptions C42_log_grows.

Lemma cidr_result y g s p p' l : resolver_ok g -> parse_cidr y g s p = (p', Ok l) ->
  f_error_count p <= f_error_count p'
  /\ Forall (ends (made y p)) l
  /\ (Z.land (f_sort p) SORT_NO_EMPTY = 0 -> 1 <= Z.of_nat (length l) + (f_error_count p' - f_error_count p))
  /\ (allow p ALLOW_MASK = true -> f_error_count p' <> f_error_count p -> l = []).
Proof.
  intros R E. destruct (wp_run p _ _ p (cidr_made y g p s) (same_config_refl p)) as (ms & r & E2 & (_ & K) & M).
  rewrite E2 in E. assert (r = Ok l) as -> by congruence. apply (f_equal fst) in E. cbn [fst] in E. subst p'.
  destruct (K R) as [_ K']. destruct (K' l eq_refl) as [F C]. cbn [f_error_count with_errors].
  split; [lia|]. split; [exact F|]. split.
  - intros Z0. specialize (C Z0). lia.
  - intros AM N. apply (M AM); [|reflexivity]. intros ->. cbn [length] in N. lia.
Qed.
Lemma merge_from_nonempty : forall rest cur, merge_from cur rest <> Ok [].
Proof.
  induction rest as [|n rest IH]; intros cur; cbn [merge_from]; [discriminate|].
  destruct (union_if_possible cur n) as [u|x| |]; cbn [rbind]; try discriminate.
  destruct (is_defined u && negb (is_empty u)); [apply IH|].
  destruct (merge_from n rest); cbn [rbind]; discriminate.
Qed.
Lemma arrange_nonempty sort l : arrange sort l = Ok [] -> l = [].
Proof.
  intros E. unfold arrange in E.
  set (l1 := if negb (Z.land sort (Z.lor SORT_FULL SORT_MERGE) =? 0) then stable_sort range_lt l else l) in E.
  assert (l1 = [] -> l = []) as K.
  { unfold l1. destruct (negb _); [|auto]. intros X. apply Permutation_nil. rewrite <- X. apply Permutation_sym, stable_sort_perm. }
  clearbody l1.
  assert (forall l2, (if negb (Z.land sort SORT_IPV4_FIRST =? 0) then Ok (stable_sort v4_first l2)
      else if negb (Z.land sort SORT_IPV6_FIRST =? 0) then Ok (stable_sort v6_first l2) else Ok l2) = Ok [] -> l2 = []) as K2.
  { intros l2 X. destruct (negb (Z.land sort SORT_IPV4_FIRST =? 0)); [|destruct (negb (Z.land sort SORT_IPV6_FIRST =? 0))].
    - apply Permutation_nil. assert (stable_sort v4_first l2 = []) as <- by congruence. apply Permutation_sym, stable_sort_perm.
    - apply Permutation_nil. assert (stable_sort v6_first l2 = []) as <- by congruence. apply Permutation_sym, stable_sort_perm.
    - congruence. }
  apply K. destruct (negb (Z.land sort SORT_MERGE =? 0)).
  - destruct (merge_all l1) as [m|x| |] eqn:E2; cbn [rbind] in E; try discriminate. apply K2 in E. subst m.
    destruct l1 as [|c l1]; [reflexivity|]. now apply merge_from_nonempty in E2.
  - cbn [rbind] in E. now apply K2.
Qed.

(* One entry: no range means at least one error (unless empty ranges are to be
   dropped silently). *)
Theorem C42_single_entry : forall y g s p p', resolver_ok g -> nobody (separator p) ->
  Z.land (get_sort_order p) SORT_NO_EMPTY = 0 ->
  parse y g s p = (p', Ok []) -> error_count p < error_count p'.
Proof.
  intros y g s p p' R N NE E. apply nobody_separators in N. unfold parse, bind at 1 in E.
  rewrite entries_single in E by exact N.
  destruct (parse_cidr y g _ p) as [p1 [l|x| |]] eqn:C; try discriminate.
  unfold bind, ask, lift in E. assert (p1 = p') as -> by congruence.
  destruct (cidr_result y g _ p p' l R C) as (G & _ & K & _).
  assert (arrange (f_sort p') l = Ok []) as A by congruence. apply arrange_nonempty in A. subst l.
  specialize (K NE). cbn [length] in K. unfold error_count. lia.
Qed.
Print Assumptions C42_single_entry.

(* Several entries: there are at least as many ranges and errors together as
   entries. *)
Theorem C42_every_entry : forall y g s ps p p' l, resolver_ok g -> unsorted p ->
  Z.land (get_sort_order p) SORT_NO_EMPTY = 0 ->
  (exists c, separator p c) -> nobody (starts_comment p) -> pieces (separator p) s ps ->
  parse y g s p = (p', Ok l) ->
  Z.of_nat (length ps) <= Z.of_nat (length l) + (error_count p' - error_count p).
Proof.
  intros y g s ps p p' l R U NE S N H E. rewrite (C40_pieces y g s ps p U S N H) in E.
  assert (forall w, In w ps -> w <> [] /\ Forall (fun c => mem c (separators p) = false) w) as W.
  { apply pieces_words in H. rewrite Forall_forall in H. intros w Hw. destruct (H w Hw) as [W1 W2]. split; [exact W1|].
    eapply Forall_impl; [|exact W2]. intros c Hc. destruct (mem c (separators p)) eqn:M; [|reflexivity].
    exfalso. now apply Hc, mem_separators. }
  assert (separators p <> []) as SN.
  { destruct S as [c Sc]. apply mem_separators in Sc. intros X. now rewrite X in Sc. }
  clear H S. revert p p' l U NE N E W SN. induction ps as [|w ps IH]; intros p p' l U NE N E W SN.
  - cbn in E. assert (p' = p) as -> by congruence. cbn [length]. lia.
  - rewrite one_cons in E. destruct (W w (or_introl eq_refl)) as [W1 W2].
    pose proof (parse_config y g w p) as C.
    rewrite (parse_piece y g w p U SN W1 W2) in E, C
      by (rewrite (nobody_comments _ N); apply Forall_forall; reflexivity).
    destruct (parse_cidr y g w p) as [p1 [a|x| |]] eqn:Ec; try discriminate. cbn [fst] in C.
    destruct (one_after_the_other (parse y g) ps p1) as [p2 [b|x| |]] eqn:Eo; try discriminate.
    assert (p2 = p') as -> by congruence. assert (l = a ++ b) as -> by congruence.
    destruct (cidr_result y g w p p1 a R Ec) as (_ & _ & K & _). specialize (K NE).
    pose proof (same_config_sym _ _ C) as C'.
    assert (Z.of_nat (length ps) <= Z.of_nat (length b) + (error_count p' - error_count p1)) as I.
    { apply IH; auto.
      - now apply (unsorted_config p).
      - unfold get_sort_order in *. now rewrite (sc_sort _ _ C).
      - now apply (nobody_config p).
      - intros w' Hw. destruct (W w' (or_intror Hw)) as [A1 A2]. split; [exact A1|]. now rewrite (separators_config _ _ C).
      - now rewrite (separators_config _ _ C). }
    rewrite app_length. cbn [length]. unfold error_count in *. lia.
Qed.
Print Assumptions C42_every_entry.

(* With masks allowed an entry with an error contributes no range. *)
Theorem C42_no_range_with_an_error : forall y g s p p' l, resolver_ok g -> nobody (separator p) ->
  get_allow p ALLOW_MASK = Ok true -> parse y g s p = (p', Ok l) ->
  error_count p' <> error_count p -> l = [].
Proof.
  intros y g s p p' l R N AM E D. apply nobody_separators in N. unfold parse, bind at 1 in E.
  rewrite entries_single in E by exact N.
  destruct (parse_cidr y g _ p) as [p1 [l0|x| |]] eqn:C; try discriminate.
  unfold bind, ask, lift in E. assert (p1 = p') as -> by congruence.
  destruct (cidr_result y g _ p p' l0 R C) as (G & _ & _ & K).
  assert (l0 = []) as -> by (apply K; [unfold get_allow in AM; cbn in AM; congruence|exact D]).
  assert (arrange (f_sort p') [] = Ok []) as A.
  { unfold arrange. cbn. repeat match goal with |- context [if ?b then _ else _] => destruct b end; reflexivity. }
  congruence.
Qed.
Print Assumptions C42_no_range_with_an_error.

Definition masks : parser := with_allow numeric ALLOW_MASK true.
Example C42_witness : resolver_ok no_answer /\ nobody (separator masks)
  /\ get_allow masks ALLOW_MASK = Ok true
  /\ Z.land (get_sort_order masks) SORT_NO_EMPTY = 0
  /\ (let r := parse ref_sys no_answer (lit "10.0.0.1/33") masks in snd r = Ok [] /\ error_count (fst r) = 1
      /\ has_errors (fst r) = true)
  /\ (let r := parse ref_sys no_answer (lit "10.0.0.1,x,10.0.0.2") commas in
      ips r = [quad 10 0 0 1; quad 10 0 0 2] /\ error_count (fst r) = 1).
Proof.
  split; [apply no_answer_ok|]. split; [intros c H; apply mem_separators in H; discriminate|].
  vm_compute. repeat split.
Qed.

(* ---------- C43 ---------- *)
Theorem C43_defined_ranges : forall y g s p p' l, resolver_ok g -> parse y g s p = (p', Ok l) ->
  Forall (fun r => (has_from r = true \/ has_to r = true)
    /\ (has_from r = true -> addr_wf (get_from r) /\ 0 <= get_port (get_from r) <= 65535)
    /\ (has_to r = true -> addr_wf (get_to r) /\ 0 <= get_port (get_to r) <= 65535)) l.
Proof.
  intros y g s p p' l R E.
  destruct (wp_run p _ _ p (parse_made y g p s) (same_config_refl p)) as (ms & r & E2 & _ & K).
  assert (r = Ok l) as -> by congruence. destruct (K R) as [_ K']. specialize (K' l eq_refl).
  eapply Forall_impl; [|exact K']. cbv beta. intros a (D & [W1 W2] & _).
  assert (forall b, addr_wf b -> 0 <= get_port b <= 65535) as P.
  { intros b W. unfold get_port, bswap16. pose proof (wf_port _ W). pose proof (Z.mod_pos_bound (sin6_port (f_address b)) 256 ltac:(lia)).
    pose proof (Z.mod_pos_bound (sin6_port (f_address b) / 256) 256 ltac:(lia)). lia. }
  split; [exact D|]. split; intros _; split; auto.
Qed.
Print Assumptions C43_defined_ranges.

Example C43_witness : resolver_ok one_name
  /\ (let r := parse ref_sys one_name (lit "name:80") parser_new in
      exists a b, snd r = Ok [a; b] /\ value (f_from a) = v4_base + quad 10 0 0 1
        /\ value (f_from b) = group0 0x2001).
Proof. split; [apply one_name_ok|]. vm_compute. eauto. Qed.

(* ---------- C44 ---------- *)
(* The ends of the ranges returned, by what the parser allows. *)
Lemma parse_ends y g s p p' l : resolver_ok g -> parse y g s p = (p', Ok l) ->
  forall r, In r l -> (has_from r = true -> made y p (get_from r)) /\ (has_to r = true -> made y p (get_to r)).
Proof.
  intros R E r Hr.
  destruct (wp_run p _ _ p (parse_made y g p s) (same_config_refl p)) as (ms & r0 & E2 & _ & K).
  assert (r0 = Ok l) as -> by congruence. destruct (K R) as [_ K']. specialize (K' l eq_refl).
  rewrite Forall_forall in K'. destruct (K' r Hr) as (_ & _ & A & B). now split.
Qed.
Lemma allow_get p flag b : 0 <= flag < 16 -> (get_allow p flag = Ok b <-> allow p flag = b).
Proof.
  intros H. unfold get_allow, ALLOW_max. replace ((flag <? 0) || (flag >=? 16)) with false by lia.
  split; congruence.
Qed.
Ltac allowed H := apply allow_get in H; [|split; reflexivity || discriminate].

(* an end of one of the ranges *)
Definition an_end (l : list addr_range) (a : addr) : Prop :=
  exists r, In r l /\ ((has_from r = true /\ a = get_from r) \/ (has_to r = true /\ a = get_to r)).
Lemma parse_an_end y g s p p' l a : resolver_ok g -> parse y g s p = (p', Ok l) -> an_end l a -> made y p a.
Proof.
  intros R E (r & Hr & [[H ->]|[H ->]]); destruct (parse_ends y g s p p' l R E r Hr); auto.
Qed.

Theorem C44_ports_forbidden : forall y g s p p' l a, resolver_ok g ->
  get_allow p ALLOW_ADDRESS_LOOKUP = Ok false -> get_allow p ALLOW_PORT = Ok false ->
  get_allow p ALLOW_REQUIRED_PORT = Ok false ->
  parse y g s p = (p', Ok l) -> an_end l a ->
  is_port_defined a = false /\ get_port a = 0.
Proof.
  intros y g s p p' l a R L P Q E H. destruct (parse_an_end y g s p p' l a R E H) as [_ F _ _].
  apply F; now apply allow_get.
Qed.
Print Assumptions C44_ports_forbidden.

Theorem C44_ports_required : forall y g s p p' l a, resolver_ok g ->
  get_allow p ALLOW_REQUIRED_PORT = Ok true ->
  parse y g s p = (p', Ok l) -> an_end l a -> is_port_defined a = true.
Proof.
  intros y g s p p' l a R Q E H. destruct (parse_an_end y g s p p' l a R E H) as [F _ _ _].
  apply F; now apply allow_get.
Qed.
Print Assumptions C44_ports_required.

(* The entry is the text s, possibly followed by a mask. *)
Definition entry_of (p : parser) (s entry : str) : Prop :=
  ~ In 47 s /\ trimmed entry
  /\ (entry = s \/ get_allow p ALLOW_MASK = Ok true /\ exists m, entry = s ++ 47 :: m).

Lemma entry_fails y g p s entry : entry_of p s entry -> (forall mask, addr_fails y g p s mask) ->
  fails p (parse_cidr y g entry).
Proof.
  intros (N & T & H) K. destruct (allow p ALLOW_MASK) eqn:AM.
  - destruct H as [->|(_ & m & ->)].
    + apply (cidr_fails y g p s s []); [|apply K]. left. rewrite trimmed_trim by exact T. now rewrite split_mask_none.
    + apply (cidr_fails y g p _ s m); [|apply K]. left. rewrite trimmed_trim by exact T. now rewrite split_mask_some.
  - destruct H as [->|(A & _)]; [|apply allow_get in A; [congruence|now cbv]].
    apply (cidr_fails y g p s s []); [|apply K]. right. now rewrite trimmed_trim by exact T.
Qed.

(* A port in the text where none is allowed is an error; a is anything without
   a colon, or anything between brackets. *)
Theorem C44_forbidden_port_rejected : forall y g p a port entry,
  nobody (separator p) -> nobody (starts_comment p) ->
  get_allow p ALLOW_ADDRESS_LOOKUP = Ok false -> get_allow p ALLOW_PORT = Ok false ->
  get_allow p ALLOW_REQUIRED_PORT = Ok false ->
  (a <> [] /\ hd 0 a <> 91 /\ ~ In 58 a) \/ (exists x, a = [91] ++ x ++ [93] /\ ~ In 93 x) ->
  port <> [] -> ~ In 58 port -> entry_of p (a ++ [58] ++ port) entry ->
  exists p', parse y g entry p = (p', Ok []) /\ error_count p < error_count p'.
Proof.
  intros y g p a port entry N C L P Q A NP N58 T.
  allowed L. allowed P. allowed Q. apply single_fails; auto; [apply T|].
  eapply entry_fails; [exact T|]. intros mask. destruct A as [(A1 & A2 & A3)|(x & -> & X)].
  - now apply address_no_port4.
  - cbn [app]. rewrite <- app_assoc. now apply address_no_port6.
Qed.
Print Assumptions C44_forbidden_port_rejected.

(* An entry without a port where one is required is an error, whatever the
   default port: no colon, at least two colons, or everything between
   brackets. *)
Theorem C44_missing_port_rejected : forall y g p a entry,
  nobody (separator p) -> nobody (starts_comment p) ->
  get_allow p ALLOW_REQUIRED_PORT = Ok true ->
  ~ In 58 a \/ (hd 0 a <> 91 /\ exists x z t, a = x ++ 58 :: z ++ 58 :: t)
    \/ (exists x, a = [91] ++ x ++ [93] /\ ~ In 93 x) ->
  entry_of p a entry ->
  exists p', parse y g entry p = (p', Ok []) /\ error_count p < error_count p'.
Proof.
  intros y g p a entry N C Q A T. allowed Q. apply single_fails; auto; [apply T|].
  eapply entry_fails; [exact T|]. intros mask. apply address_required; [exact Q|].
  destruct A as [A|[(A & x & z & t & ->)|(x & -> & X)]]; [now left|right; left|right; right; now exists x].
  split; [|exact A]. rewrite count_char_app, count_char_cons, count_char_app, count_char_cons.
  unfold count_char. lia.
Qed.
Print Assumptions C44_missing_port_rejected.

Definition no_ports : parser := with_allow masks ALLOW_PORT false.
Definition needs_port : parser := with_allow masks ALLOW_REQUIRED_PORT true.
Lemma trimmed_lit s : match s with c :: _ => negb (isspace c) && negb (isspace (last s 0)) | [] => false end = true -> trimmed s.
Proof.
  destruct s as [|c r]; [discriminate|]. intros H. apply andb_true_iff in H. destruct H as [H1 H2].
  apply negb_true_iff in H1, H2. split; [discriminate|]. split.
  - intros d t E B. apply isspace_spec in B. congruence.
  - intros d t E B. apply isspace_spec in B. rewrite E, last_last in H2. congruence.
Qed.
Lemma not_in c s : forallb (fun d => negb (d =? c)) s = true -> ~ In c s.
Proof. intros H I. rewrite forallb_forall in H. specialize (H c I). rewrite Z.eqb_refl in H. discriminate. Qed.
Example C44_witness :
  entry_of no_ports (lit "1.2.3.4" ++ [58] ++ lit "80") (lit "1.2.3.4:80/24")
  /\ entry_of no_ports (([91] ++ lit "::1" ++ [93]) ++ [58] ++ lit "80") (lit "[::1]:80")
  /\ entry_of needs_port (lit "1.2.3.4") (lit "1.2.3.4")
  /\ nobody (separator no_ports) /\ nobody (starts_comment no_ports)
  /\ snd (parse ref_sys no_answer (lit "1.2.3.4:80") no_ports) = Ok []
  /\ ips (parse ref_sys no_answer (lit "1.2.3.4") no_ports) = [quad 1 2 3 4]
  /\ snd (parse ref_sys no_answer (lit "1.2.3.4") needs_port) = Ok []
  /\ ips (parse ref_sys no_answer (lit "1.2.3.4:80") needs_port) = [quad 1 2 3 4].
Proof.
  split. { split; [now apply not_in|]. split; [now apply trimmed_lit|]. right. split; [reflexivity|]. exists (lit "24"). reflexivity. }
  split. { split; [now apply not_in|]. split; [now apply trimmed_lit|]. now left. }
  split. { split; [now apply not_in|]. split; [now apply trimmed_lit|]. now left. }
  split; [intros c H; apply mem_separators in H; discriminate|].
  split; [now apply no_comments|]. vm_compute. auto.
Qed.

(* ---------- C50, C51 ---------- *)
Theorem C50_numeric_mode_ignores_the_resolver : forall y g1 g2 s p,
  get_allow p ALLOW_ADDRESS_LOOKUP = Ok false -> get_allow p ALLOW_ADDRESS_MASK = Ok false ->
  parse y g1 s p = parse y g2 s p.
Proof.
  intros y g1 g2 s p L A. allowed L. allowed A.
  destruct (both_parse p p y g1 g2 s (same_config_refl p) (or_intror (conj L A))) as (ms & r & E1 & E2).
  rewrite <- (with_errors_id p). now rewrite E1, E2.
Qed.
Print Assumptions C50_numeric_mode_ignores_the_resolver.

Example C50_witness :
  get_allow masks ALLOW_ADDRESS_LOOKUP = Ok false /\ get_allow masks ALLOW_ADDRESS_MASK = Ok false
  /\ parse ref_sys one_name (lit "name") parser_new <> parse ref_sys no_answer (lit "name") parser_new.
Proof. split; [reflexivity|]. split; [reflexivity|]. vm_compute. discriminate. Qed.

(* Everything but the error log is as before; a second call, or a call on a
   parser with another log, has the same result and adds the same messages. *)
Theorem C51_configuration_unchanged : forall y g s p, same_config (fst (parse y g s p)) p.
Proof. intros y g s p. apply parse_config. Qed.
Print Assumptions C51_configuration_unchanged.

Theorem C51_same_again : forall y g s p q, same_config p q ->
  snd (parse y g s p) = snd (parse y g s q)
  /\ exists added n, error_messages (fst (parse y g s p)) = error_messages p ++ added
    /\ error_messages (fst (parse y g s q)) = error_messages q ++ added
    /\ error_count (fst (parse y g s p)) = error_count p + n
    /\ error_count (fst (parse y g s q)) = error_count q + n.
Proof.
  intros y g s p q C. destruct (both_parse p q y g g s C (or_introl eq_refl)) as (ms & r & E1 & E2).
  specialize (E1 (f_error p) (f_error_count p)). specialize (E2 (f_error q) (f_error_count q)).
  rewrite with_errors_id in E1, E2. rewrite E1, E2. cbn [fst snd]. split; [reflexivity|].
  exists (flat ms), (Z.of_nat (length ms)). auto.
Qed.
Print Assumptions C51_same_again.

Example C51_witness : let p := fst (parse ref_sys no_answer (lit "x") numeric) in
  same_config p numeric /\ p <> numeric
  /\ error_count (fst (parse ref_sys no_answer (lit "x") p)) = 2.
Proof. split; [apply parse_config|]. split; [vm_compute; discriminate|]. reflexivity. Qed.

(* ---------- C70, C71 ---------- *)
(* Without lookup, an address given without a port has the default port, or 0
   when there is none. *)
Theorem C70_default_port : forall y g s p p' l a, converts_decimals y -> resolver_ok g ->
  parser_reachable y g p -> get_allow p ALLOW_ADDRESS_LOOKUP = Ok false ->
  parse y g s p = (p', Ok l) -> an_end l a -> is_port_defined a = false ->
  get_port a = Z.max 0 (get_default_port p).
Proof.
  intros y g s p p' l a C R Re L E H D. allowed L.
  destruct (parse_an_end y g s p p' l a R E H) as [_ _ F _]. specialize (F L D).
  pose proof (C39_default_port_in_range y g p Re) as B. unfold get_default_port in *.
  destruct (f_default_port p =? -1) eqn:M; [lia|].
  unfold to_string_int in F. replace (f_default_port p <? 0) with false in F by lia.
  rewrite (C _ (f_default_port p)) in F; [|apply PropText.plain_dec_string|]; [|lia|lia].
  assert (f_default_port p = get_port a) by congruence. lia.
Qed.
Print Assumptions C70_default_port.

Definition with_port : parser := fst (set_default_port numeric 8080).
Definition ports (r : parser * res (list addr_range)) : list Z :=
  match snd r with Ok l => map (fun r => get_port (f_from r)) l | _ => [-1] end.
Example C70_witness : parser_reachable ref_sys no_answer with_port
  /\ ports (parse ref_sys no_answer (lit "1.2.3.4") with_port) = [8080]
  /\ ports (parse ref_sys no_answer (lit "1.2.3.4:80") with_port) = [80]
  /\ ports (parse ref_sys no_answer (lit "1.2.3.4") numeric) = [0].
Proof.
  split; [apply (run_reachable ref_sys no_answer [P_set_default_port 8080; P_set_allow ALLOW_ADDRESS_LOOKUP false])|].
  vm_compute. auto.
Qed.

(* Without lookup every address gets the protocol of the parser, TCP when none
   was set. *)
Theorem C71_protocol : forall y g s p p' l a, resolver_ok g ->
  get_allow p ALLOW_ADDRESS_LOOKUP = Ok false -> parse y g s p = (p', Ok l) -> an_end l a ->
  get_protocol a = (if parser_get_protocol p =? -1 then IPPROTO_TCP else parser_get_protocol p).
Proof.
  intros y g s p p' l a R L E H. allowed L.
  destruct (parse_an_end y g s p p' l a R E H) as [_ _ _ F]. now apply F.
Qed.
Print Assumptions C71_protocol.

Definition with_udp : parser := fst (parser_set_protocol numeric IPPROTO_UDP).
Definition protocols (r : parser * res (list addr_range)) : list Z :=
  match snd r with Ok l => map (fun r => get_protocol (f_from r)) l | _ => [-1] end.
Example C71_witness :
  protocols (parse ref_sys no_answer (lit "1.2.3.4") with_udp) = [IPPROTO_UDP]
  /\ protocols (parse ref_sys no_answer (lit "1.2.3.4") numeric) = [IPPROTO_TCP].
Proof. vm_compute. auto. Qed.

(* ---------- C72 ---------- *)
(* parse() ends with ranges or an exception, whatever it is given. *)
Theorem C72_parse_is_defined : forall y g s p, resolver_ok g ->
  (exists l, snd (parse y g s p) = Ok l) \/ (exists x, snd (parse y g s p) = Throw x).
Proof.
  intros y g s p R. destruct (wp_run p _ _ p (parse_made y g p s) (same_config_refl p)) as (ms & r & E & N & K).
  rewrite E. cbn [snd]. destruct (K R) as [U _]. destruct r; eauto; congruence.
Qed.
Print Assumptions C72_parse_is_defined.
