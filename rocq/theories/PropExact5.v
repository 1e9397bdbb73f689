(* Which entries with a port are accepted by a parser which allows lookups and
   no ports, for C118. *)
From Coq Require Import Lia ZifyBool ZifyNat.
From Verif Require Import Base Addr Spec Range Inet SpecText Parser SpecParser SpecParser2.
From Verif Require AddrProofs4 ParserProofs ParserProofs2 ParserProofs3 ParserProofs7 ParserProofs12 PropParser PropParser2 PropParser4 PropParser8 PropAllow.
Import AddrProofs4 ParserProofs ParserProofs2 ParserProofs3 ParserProofs7 ParserProofs12 PropParser PropParser2 PropParser4 PropParser8 PropAllow.
Local Open Scope Z_scope.

(* The port is not noticed when there is no dot before it, or a bracket
   anywhere, and without an address when there is a default IPv6 address
   only. *)
Definition unnoticed (p : parser) (a port : str) : Prop :=
  match a with
  | [] => get_default_address4 p = [] /\ get_default_address6 p <> []
  | _ => In 93 (a ++ port) \/ ~ In 46 a
  end.

(* ---------- two runs, with and without ALLOW_PORT ---------- *)
Section Runs.
Variables (y : sys) (g : resolver) (G F : list bool).
Definition flag_in (l : list bool) (f : Z) : bool := nth (Z.to_nat f) l false.
Hypothesis FL : forall f, 1 <= f <= 12 -> f <> ALLOW_PORT -> flag_in F f = flag_in G f.
Hypothesis LOOK : flag_in G ALLOW_ADDRESS_LOOKUP = true.
Definition ign {A} (m m' : M A) : Prop := forall p, f_flags p = G ->
  m' (with_flags p F) = (with_flags (fst (m p)) F, snd (m p)) /\ f_flags (fst (m p)) = G.
Lemma ign_ret {A} (a : A) : ign (ret a) (ret a).
Proof. intros p E. split; [reflexivity|exact E]. Qed.
Lemma ign_lift {A} (r : res A) : ign (lift r) (lift r).
Proof. intros p E. split; [reflexivity|exact E]. Qed.
Lemma ign_emit s : ign (emit s) (emit s).
Proof. intros p E. split; [reflexivity|exact E]. Qed.
Lemma ign_bind {A B} (m m' : M A) (f f' : A -> M B) : ign m m' -> (forall a, ign (f a) (f' a)) -> ign (bind m f) (bind m' f').
Proof.
  intros Hm Hf p E. destruct (Hm p E) as [X Y]. unfold bind. rewrite X. destruct (m p) as [q r]. cbn [fst snd] in *.
  destruct r as [a|e| |]; [exact (Hf a q Y)|split; [reflexivity|exact Y]..].
Qed.
Lemma ign_fail {A} s : ign (fail s : M (list A)) (fail s).
Proof. apply ign_bind; [apply ign_emit|intros; apply ign_ret]. Qed.
Lemma ign_ask {A} (f : parser -> A) : (forall p, f (with_flags p F) = f p) -> ign (ask f) (ask f).
Proof. intros H p E. unfold ask. rewrite H. split; [reflexivity|exact E]. Qed.
Lemma ign_skip {A B} (f f' : parser -> B) (m m' : M A) : ign m m' -> ign (bind (ask f) (fun _ => m)) (bind (ask f') (fun _ => m')).
Proof. intros H p E. exact (H p E). Qed.
Lemma ign_allowed f : 1 <= f <= 12 -> f <> ALLOW_PORT -> ign (allowed f) (allowed f).
Proof.
  intros R N p E. unfold allowed, ask. cbn [fst snd]. split; [|exact E]. f_equal. f_equal.
  pose proof (FL f R N) as X. unfold allow, flag_in in *. cbn [f_flags with_flags]. now rewrite E.
Qed.
Lemma ign_look {A} (k k' : bool -> M A) : ign (k true) (k' true) -> ign (bind (allowed ALLOW_ADDRESS_LOOKUP) k) (bind (allowed ALLOW_ADDRESS_LOOKUP) k').
Proof.
  intros H p E. unfold bind, allowed, ask.
  assert (allow p ALLOW_ADDRESS_LOOKUP = true) as -> by (unfold allow; rewrite E; exact LOOK).
  assert (allow (with_flags p F) ALLOW_ADDRESS_LOOKUP = true) as ->.
  { unfold allow. cbn [f_flags with_flags]. rewrite <- LOOK. apply (FL ALLOW_ADDRESS_LOOKUP); [cbv; split; discriminate|discriminate]. }
  exact (H p E).
Qed.
Ltac rg := first [cbv; split; discriminate | discriminate | reflexivity].
Ltac step := match goal with
  | |- ign (bind (allowed ALLOW_ADDRESS_LOOKUP) _) _ => apply ign_look
  | |- ign (bind _ _) _ => apply ign_bind; [|intros]
  | |- ign (ret _) _ => apply ign_ret
  | |- ign (lift _) _ => apply ign_lift
  | |- ign (emit _) _ => apply ign_emit
  | |- ign (fail _) _ => apply ign_fail
  | |- ign (allowed _) _ => apply ign_allowed; rg
  | |- ign (ask _) _ => apply ign_ask; reflexivity
  | |- ign (if ?b then _ else _) _ => destruct b
  | |- ign (match ?x with _ => _ end) _ => destruct x
  end.
Lemma ign_use l : forall first host d, ign (use_addrinfo l first host d) (use_addrinfo l first host d).
Proof. induction l as [|ai l IH]; intros first host d; cbn [use_addrinfo]; repeat (first [apply IH|step]). Qed.
(* Which of the two defaults would be used only counts without an address. *)
Lemma ign_port a P v v' : a <> [] \/ v = v' -> ign (parse_address_port y g a P v) (parse_address_port y g a P v').
Proof.
  intros H. unfold parse_address_port. cbv zeta. step; [step|]. step; [step|]. step; [step|]. step; [step|]. step; [step|].
  destruct a as [|c a].
  - destruct H as [H| ->]; [congruence|]. step; [step|]. step. step; [step|]. step; [step|]. apply ign_use.
  - apply ign_skip. step. step; [step|]. step; [step|]. apply ign_use.
Qed.
Lemma ign_ignore a P v v' : a <> [] \/ v = v' -> ign (parse_address_port_ignore_duplicates y g a P v) (parse_address_port_ignore_duplicates y g a P v').
Proof. intros H. unfold parse_address_port_ignore_duplicates. step; [now apply ign_port|]. repeat step. Qed.
Lemma ign_end t P m v v' : ign (range_end y g t P m v) (range_end y g t P m v').
Proof.
  unfold range_end. destruct t as [|c t]; [step|]. step; [apply ign_ignore; left; discriminate|]. repeat step.
Qed.
Lemma ign_range a P v v' : a <> [] \/ v = v' -> ign (parse_address_range_port y g a P v) (parse_address_range_port y g a P v').
Proof.
  intros H. unfold parse_address_range_port. cbv zeta. step; [step|].
  match goal with |- ign (match ?x with _ => _ end) _ => destruct x end; [|now apply ign_port].
  step; [step|]. step; [apply ign_end|]. step; [|step]. step; [apply ign_end|]. repeat step.
Qed.
End Runs.

Lemma find_char_after c a b : ~ In c a -> match find_char c (a ++ 58 :: b) with Some d => (length a <? d)%nat | None => true end = true \/ c = 58.
Proof.
  intros H. destruct (Z.eq_dec c 58) as [->|N]; [now right|left]. induction a as [|x a IH].
  - cbn [app find_char length]. replace (58 =? c) with false by lia. destruct (find_char c b); reflexivity.
  - cbn [app find_char length]. cbn [In] in H. replace (x =? c) with false by lia. specialize (IH ltac:(tauto)).
    destruct (find_char c (a ++ 58 :: b)) as [d|]; [|reflexivity]. lia.
Qed.
Lemma find_char_absent c s : find_char c s = None -> ~ In c s.
Proof.
  induction s as [|x s IH]; [intros _ []|]. cbn [find_char In]. destruct (x =? c) eqn:E; [discriminate|].
  destruct (find_char c s); [discriminate|]. intros _ [X|X]; [lia|]. now apply IH.
Qed.
Theorem C118_exactly : forall y g p p2 a port, also_allows p ALLOW_PORT p2 ->
  nobody (separator p) -> nobody (starts_comment p) ->
  get_allow p ALLOW_ADDRESS_LOOKUP = Ok true -> get_allow p ALLOW_MASK = Ok false ->
  get_allow p ALLOW_PORT = Ok false -> get_allow p ALLOW_REQUIRED_PORT = Ok false ->
  hd 0 a <> 91 -> ~ In 58 (a ++ port) -> trimmed (a ++ [58] ++ port) ->
  (* the same as when ports are allowed: addresses, ports and messages *)
  (unnoticed p a port ->
     snd (parse y g (a ++ [58] ++ port) p2) = snd (parse y g (a ++ [58] ++ port) p)
     /\ error_messages (fst (parse y g (a ++ [58] ++ port) p2)) = error_messages (fst (parse y g (a ++ [58] ++ port) p))
     /\ error_count (fst (parse y g (a ++ [58] ++ port) p2)) = error_count (fst (parse y g (a ++ [58] ++ port) p)))
  (* or an error *)
  /\ (~ unnoticed p a port -> exists p', parse y g (a ++ [58] ++ port) p = (p', Ok []) /\ error_count p < error_count p').
Proof.
  intros y g p p2 a port AL N C L MK P Q H91 H58 T. cbn [app] in *.
  destruct (also_parts p ALLOW_PORT p2 AL ltac:(cbv; split; discriminate)) as (F & -> & FL).
  allowed L. allowed MK. allowed P. allowed Q.
  assert (~ In 58 a /\ ~ In 58 port) as [HA HP] by (rewrite in_app_iff in H58; tauto).
  assert (count_char 58 (a ++ 58 :: port) = 1) as C1 by (rewrite count_char_app, count_char_cons, !count_char_none by assumption; lia).
  assert (find_char 58 (a ++ 58 :: port) = Some (length a)) as F58 by now apply find_char_first.
  assert (skipn (length a + 1) (a ++ 58 :: port) = port) as SK by apply skipn_length_app.
  assert (firstn (length a) (a ++ 58 :: port) = a) as FI by (rewrite firstn_app, firstn_all, Nat.sub_diag; apply app_nil_r).
  assert (forall q, allow q ALLOW_MASK = false ->
    parse_cidr y g (a ++ 58 :: port) q = (do! am <- parse_address y g (a ++ 58 :: port) [] in ret (fst am)) q) as CIDR.
  { intros q M. unfold parse_cidr. cbv zeta. unfold bind at 1, allowed at 1, ask at 1. rewrite M, trimmed_trim by exact T. reflexivity. }
  assert (hd 0 (a ++ 58 :: port) <> 91) as H91' by (destruct a; [discriminate|exact H91]).
  assert (forall q, (do! am <- (do! l <- parse_address6 y g (a ++ 58 :: port) 1 in ret (l, false)) in ret (fst am)) q
    = (do! l <- parse_address_range_port y g a port true in ret l) q) as SIX.
  { intros q. unfold bind at 1 2. unfold parse_address6, bind at 1, allowed at 1, ask at 1. unfold bind at 1, allowed at 1, ask at 1.
    replace (match a ++ 58 :: port with [] => false | c :: _ => c =? 91 end) with false by (destruct (a ++ 58 :: port); [reflexivity|cbn [hd] in H91'; lia]).
    cbn [Z.eqb Pos.eqb]. rewrite F58, SK, FI. unfold bind. destruct (parse_address_range_port y g a port true q) as [z [l|e| |]]; reflexivity. }
  assert (forall q, allow q ALLOW_PORT = true -> (do! am <- (do! l <- parse_address4 y g (a ++ 58 :: port) in ret (l, true)) in ret (fst am)) q
    = (do! l <- parse_address_range_port y g a port false in ret l) q) as FOUR.
  { intros q X. unfold bind at 1 2. unfold parse_address4, bind at 1, allowed at 1, ask at 1. unfold bind at 1, allowed at 1, ask at 1.
    rewrite F58, SK, FI, X. cbn [orb]. unfold bind. destruct (parse_address_range_port y g a port false q) as [z [l|e| |]]; reflexivity. }
  assert (forall q (m : M (list addr_range * bool)), parse_address y g (a ++ 58 :: port) [] q = m q ->
    (do! am <- parse_address y g (a ++ 58 :: port) [] in ret (fst am)) q = (do! am <- m in ret (fst am)) q) as K.
  { intros q m X. unfold bind. now rewrite X. }
  split.
  - intros U.
    assert (parse_cidr y g (a ++ 58 :: port) p = (do! l <- parse_address_range_port y g a port true in ret l) p) as E1.
    { rewrite CIDR, <- SIX by exact MK. apply K. unfold parse_address. cbv zeta. rewrite C1.
      cbn [Z.geb Z.compare Pos.compare Pos.compare_cont]. destruct a as [|c a].
      - destruct U as [U1 U2]. cbn [app Z.eqb Pos.eqb]. unfold bind at 1, ask at 1. unfold bind at 1, ask at 1.
        unfold get_default_address4, get_default_address6 in *. rewrite U1. destruct (f_default_address6 p); [congruence|reflexivity].
      - cbn [app] in *. replace (c =? 58) with false by (symmetry; apply Z.eqb_neq; intros ->; apply HA; now left).
        cbn [hd] in H91. replace (c =? 91) with false by lia. cbn [orb].
        destruct (find_char 93 (c :: a ++ 58 :: port)) eqn:F93; [reflexivity|].
        unfold bind at 1, allowed at 1, ask at 1. unfold bind at 1, allowed at 1, ask at 1. rewrite P, Q, F58. cbn [negb andb].
        destruct U as [U|U].
        { exfalso. apply (find_char_absent _ _ F93).
          change (c :: a ++ 58 :: port) with ((c :: a) ++ 58 :: port). change (c :: a ++ port) with ((c :: a) ++ port) in U.
          rewrite in_app_iff in *. cbn [In]. tauto. }
        destruct (find_char_after 46 (c :: a) port U) as [X|X]; [|discriminate].
        change ((c :: a) ++ 58 :: port) with (c :: a ++ 58 :: port) in X. rewrite X. reflexivity. }
    assert (exists v, (a <> [] \/ true = v)
      /\ parse_cidr y g (a ++ 58 :: port) (with_flags p F) = (do! l <- parse_address_range_port y g a port v in ret l) (with_flags p F)) as (v & V & E2).
    { assert (allow (with_flags p F) ALLOW_PORT = true) as P2 by (rewrite FL by (cbv; split; discriminate); reflexivity).
      rewrite CIDR by (rewrite FL by (cbv; split; discriminate); exact MK).
      destruct a as [|c a].
      - exists true. split; [now right|]. rewrite <- SIX. apply K. destruct U as [U1 U2]. unfold parse_address. cbv zeta. rewrite C1.
        cbn [Z.geb Z.compare Pos.compare Pos.compare_cont app Z.eqb Pos.eqb]. unfold bind at 1, ask at 1. unfold bind at 1, ask at 1.
        unfold get_default_address4, get_default_address6 in *. cbn [f_default_address4 f_default_address6 with_flags]. rewrite U1.
        destruct (f_default_address6 p); [congruence|reflexivity].
      - destruct (find_char 93 ((c :: a) ++ 58 :: port)) eqn:F93; [exists true|exists false]; (split; [left; discriminate|]).
        + rewrite <- SIX. apply K. unfold parse_address. cbv zeta. rewrite C1. cbn [Z.geb Z.compare Pos.compare Pos.compare_cont].
          cbn [app] in *. replace (c =? 58) with false by (symmetry; apply Z.eqb_neq; intros ->; apply HA; now left).
          rewrite F93, orb_true_r. reflexivity.
        + rewrite <- FOUR by exact P2. apply K. unfold parse_address. cbv zeta. rewrite C1. cbn [Z.geb Z.compare Pos.compare Pos.compare_cont].
          cbn [app] in *. replace (c =? 58) with false by (symmetry; apply Z.eqb_neq; intros ->; apply HA; now left).
          cbn [hd] in H91. replace (c =? 91) with false by lia. rewrite F93. cbn [orb].
          unfold bind at 1, allowed at 1, ask at 1. unfold bind at 1, allowed at 1, ask at 1. rewrite P2. reflexivity. }
    assert (separators (with_flags p F) = separators p /\ comment_chars (with_flags p F) = comment_chars p) as [SP CC].
    { unfold separators, comment_chars. rewrite !FL by (cbv; split; discriminate). split; reflexivity. }
    assert (forall q, separators q = separators p -> comment_chars q = comment_chars p ->
      parse y g (a ++ 58 :: port) q = (do! l <- parse_cidr y g (a ++ 58 :: port) in do! sort <- ask f_sort in lift (arrange sort l)) q) as ONE.
    { apply nobody_separators in N. apply nobody_comments in C. intros q X1 X2.
      unfold parse, bind at 1. rewrite entries_single, X2, C, trimmed_single by (rewrite ?X1; assumption). reflexivity. }
    assert (forall q v, parse_cidr y g (a ++ 58 :: port) q = (do! l <- parse_address_range_port y g a port v in ret l) q ->
      (do! l <- parse_cidr y g (a ++ 58 :: port) in do! sort <- ask f_sort in lift (arrange sort l)) q
      = (do! l <- parse_address_range_port y g a port v in do! sort <- ask f_sort in lift (arrange sort l)) q) as K2.
    { intros q w X. unfold bind at 1. rewrite X. unfold bind. destruct (parse_address_range_port y g a port w q) as [z [l|e| |]]; reflexivity. }
    rewrite (ONE _ SP CC), (ONE _ eq_refl eq_refl), (K2 _ _ E1), (K2 _ _ E2).
    assert (ign (f_flags p) F (do! l <- parse_address_range_port y g a port true in do! sort <- ask f_sort in lift (arrange sort l))
      (do! l <- parse_address_range_port y g a port v in do! sort <- ask f_sort in lift (arrange sort l))) as I.
    { apply ign_bind; [apply ign_range; [|exact L|exact V]|intros l; apply ign_bind; [apply ign_ask; reflexivity|intros; apply ign_lift]].
      intros f R NP. pose proof (FL f R) as X. unfold allow in X. cbn [f_flags with_flags] in X. unfold flag_in. rewrite X.
      replace (f =? ALLOW_PORT) with false by lia. reflexivity. }
    destruct (I p eq_refl) as [X _]. rewrite X. split; [reflexivity|]. split; reflexivity.
  - intros U. apply single_fails; auto. apply (cidr_fails y g p _ (a ++ 58 :: port) []); [right; split; [exact MK|split; [now apply trimmed_trim|reflexivity]]|].
    destruct a as [|c a].
    + unfold addr_fails, parse_address. cbv zeta. rewrite C1. cbn [Z.geb Z.compare Pos.compare Pos.compare_cont app Z.eqb Pos.eqb].
      assert (wp p (do! l <- parse_address4 y g (58 :: port) in ret (l, true)) (fun r ms => exists b, r = Ok ([], b) /\ ms <> [])) as X.
      { eapply wp_conseq; [apply pair_fails|intros r ms H; exists true; exact H].
        unfold parse_address4. wallow. wallow. cbn [app length] in F58. rewrite F58, P, Q. apply fails_fail. }
      wask. wask. unfold unnoticed, get_default_address4, get_default_address6 in U.
      destruct (f_default_address4 p), (f_default_address6 p); try exact X. exfalso. apply U. split; [reflexivity|discriminate].
    + unfold unnoticed in U.
      assert (In 46 (c :: a)) as D by (destruct (in_dec Z.eq_dec 46 (c :: a)); tauto).
      apply address_dotted; try assumption; [discriminate|tauto].
Qed.
Print Assumptions C118_exactly.

(* "localhost:80" comes back with its port, "example.com:80" and ":80" are
   refused; with a default IPv6 address ":80" is not. *)
Example C118_exactly_witness :
  let p := with_allow parser_new ALLOW_PORT false in
  let q := fst (set_default_address p (lit "[::1]")) in
  also_allows p ALLOW_PORT parser_new /\ nobody (separator p) /\ nobody (starts_comment p)
  /\ get_allow p ALLOW_ADDRESS_LOOKUP = Ok true /\ get_allow p ALLOW_MASK = Ok false
  /\ get_allow p ALLOW_PORT = Ok false /\ get_allow p ALLOW_REQUIRED_PORT = Ok false
  /\ trimmed (lit "localhost:80") /\ unnoticed p (lit "localhost") (lit "80") /\ ~ unnoticed p (lit "example.com") (lit "80")
  /\ ~ unnoticed p [] (lit "80") /\ unnoticed q [] (lit "80")
  /\ (exists r, parse ref_sys web (lit "localhost:80") p = (p, Ok [r]) /\ get_port (get_from r) = 80)
  /\ snd (parse ref_sys web (lit "example.com:80") p) = Ok [] /\ snd (parse ref_sys web (lit ":80") p) = Ok []
  /\ exists r, parse ref_sys web (lit ":80") q = (q, Ok [r]) /\ get_port (get_from r) = 80.
Proof.
  cbv zeta. split; [split; reflexivity|]. split; [now apply no_seps|]. split; [now apply no_comments|].
  split; [reflexivity|]. split; [reflexivity|]. split; [reflexivity|]. split; [reflexivity|]. split; [now apply trimmed_lit|].
  split; [right; now apply not_in|]. split.
  { intros [X|X]; [revert X; now apply not_in|]. apply X. vm_compute. tauto. }
  split; [intros [_ X]; apply X; reflexivity|]. split; [split; [reflexivity|vm_compute; discriminate]|].
  split; [eexists; split; vm_compute; reflexivity|]. split; [vm_compute; reflexivity|]. split; [vm_compute; reflexivity|].
  eexists; split; vm_compute; reflexivity.
Qed.
