(* Property C127: the messages about a text which is not accepted. *)
From Coq Require Import ZifyBool ZifyNat.
From Verif Require Import Base Addr Spec Range SpecRange Inet SpecText Parser SpecParser SpecParser2 SpecParser4 SpecLanguage SpecComplaint.
From Verif Require AddrProofs AddrProofs4 ParserProofs ParserProofs2 ParserProofs3 ParserProofs4 ParserProofs7 ParserProofs8
  ParserProofs13 ParserProofs14 ParserProofs15 ParserProofs16 PropParser PropParser2 PropParser4 PropParser5 PropParser9 PropParser10.
Import AddrProofs AddrProofs4 ParserProofs ParserProofs2 ParserProofs3 ParserProofs4 ParserProofs7 ParserProofs8
  ParserProofs13 ParserProofs14 ParserProofs15 ParserProofs16 PropParser PropParser2 PropParser4 PropParser5 PropParser9 PropParser10.
Local Open Scope Z_scope.

(* What is assumed of the answers about names, when names are looked up. *)
Definition lookup_good (g : resolver) (p : parser) : Prop :=
  get_allow p ALLOW_ADDRESS_LOOKUP = Ok true -> known_protocols g /\ answers_usable g.
Lemma good_known g p : lookup_good g p -> allow p ALLOW_ADDRESS_LOOKUP = true -> known_protocols g.
Proof. intros H A. apply H. apply allowed_is; [unfold ALLOW_ADDRESS_LOOKUP; lia|exact A]. Qed.
Lemma good_usable g p : lookup_good g p -> allow p ALLOW_ADDRESS_LOOKUP = true -> answers_usable g.
Proof. intros H A. apply H. apply allowed_is; [unfold ALLOW_ADDRESS_LOOKUP; lia|exact A]. Qed.
Lemma message_of y g p s : takes_one p -> takes_entries p -> converts_decimals y -> resolver_ok g -> sizes_ok g ->
  lookup_good g p -> ~ In 0 s -> plain_text s ->
  (exists l, parse y g s p = (p, Ok l) /\ accepted y g p s l /\ forall ms, ~ complaint y g p s ms)
  \/ exists ms p2, parse y g s p = (p2, Ok []) /\ (forall l, ~ accepted y g p s l) /\ ms <> [] /\ (forall m2, complaint y g p s m2 <-> m2 = ms) /\ logged p ms p2.
Proof.
  intros TO TE HC HG HS HK N0 PT. apply one_entry_message; auto; intros A; [exact (good_known g p HK A)|exact (good_usable g p HK A)].
Qed.

(* A text which is not accepted gives no range and is reported with the
   messages which say what is wrong with it. *)
Theorem C127_messages : forall y g p s, takes_one p -> takes_entries p -> converts_decimals y -> resolver_ok g -> sizes_ok g ->
  lookup_good g p -> ~ In 0 s -> plain_text s ->
  (forall l, ~ accepted y g p s l) ->
  exists ms p2, parse y g s p = (p2, Ok []) /\ ms <> [] /\ complaint y g p s ms /\ logged p ms p2.
Proof.
  intros y g p s TO TE HC HG HS HK N0 PT F. destruct (message_of y g p s TO TE HC HG HS HK N0 PT) as [(l & _ & A & _)|(ms & p2 & E & _ & NE & U & L)]; [elim (F l A)|].
  exists ms, p2. split; [exact E|]. split; [exact NE|]. split; [now apply U|exact L].
Qed.
Print Assumptions C127_messages.

(* Without lookup, or without masks, it is one message. *)
Theorem C127_one_message : forall y g p s, takes_one p -> takes_entries p -> converts_decimals y -> resolver_ok g -> sizes_ok g ->
  lookup_good g p -> ~ In 0 s -> plain_text s ->
  get_allow p ALLOW_ADDRESS_LOOKUP = Ok false \/ get_allow p ALLOW_MASK = Ok false ->
  (forall l, ~ accepted y g p s l) ->
  exists msg p2, parse y g s p = (p2, Ok []) /\ complaint y g p s [msg] /\ logged p [msg] p2.
Proof.
  intros y g p s TO TE HC HG HS HK N0 PT O F. destruct (C127_messages y g p s TO TE HC HG HS HK N0 PT F) as (ms & p2 & E & _ & C & L).
  destruct (complaint_one y g p s ms O C) as (msg & ->). eauto.
Qed.
Print Assumptions C127_one_message.

(* Whatever can be said against a text is what the parser says; such a text is
   not accepted. *)
Theorem C127_these_messages : forall y g p s ms, takes_one p -> takes_entries p -> converts_decimals y -> resolver_ok g -> sizes_ok g ->
  lookup_good g p -> ~ In 0 s -> plain_text s ->
  complaint y g p s ms ->
  exists p2, parse y g s p = (p2, Ok []) /\ logged p ms p2 /\ forall l, ~ accepted y g p s l.
Proof.
  intros y g p s ms TO TE HC HG HS HK N0 PT C. destruct (message_of y g p s TO TE HC HG HS HK N0 PT) as [(l & _ & _ & N)|(m & p2 & E & NA & _ & U & L)]; [elim (N ms C)|].
  apply U in C. subst m. exists p2. auto.
Qed.
Print Assumptions C127_these_messages.

(* There is never something else to say. *)
Theorem C127_one_reason : forall y g p s m1 m2, takes_one p -> takes_entries p -> converts_decimals y -> resolver_ok g -> sizes_ok g ->
  lookup_good g p -> ~ In 0 s -> plain_text s ->
  complaint y g p s m1 -> complaint y g p s m2 -> m1 = m2.
Proof.
  intros y g p s m1 m2 TO TE HC HG HS HK N0 PT C1 C2. destruct (message_of y g p s TO TE HC HG HS HK N0 PT) as [(l & _ & _ & N)|(m & p2 & _ & _ & _ & U & _)]; [elim (N m1 C1)|].
  apply U in C1. apply U in C2. congruence.
Qed.
Print Assumptions C127_one_reason.

(* The log of a text with several entries: the messages about each entry which
   is not accepted, in the order of the entries. *)
Theorem C127_log : forall y g p s ts, unsorted p -> takes_entries p -> converts_decimals y -> resolver_ok g -> sizes_ok g ->
  lookup_good g p -> ~ In 0 s -> entries_of p s ts ->
  exists p2 l mss, parse y g s p = (p2, Ok l) /\ Forall2 (report y g p) ts mss /\ logged p (concat mss) p2.
Proof.
  intros y g p s ts U TE HC HG HS HK N0 E. apply reports; auto; intros A; [exact (good_known g p HK A)|exact (good_usable g p HK A)].
Qed.
Print Assumptions C127_log.

(* Five reasons, and a text with three entries of which the second is wrong. *)
Lemma numbers_sizes : sizes_ok numbers.
Proof.
  intros node service b st pr l H. unfold numbers in H. destruct (inet_pton4 node) as [q|].
  - injection H as <-. constructor; [|constructor]. split; [discriminate|reflexivity].
  - destruct (inet_pton6 node) as [q|]; [|discriminate]. injection H as <-. constructor; [|constructor]. split; [discriminate|reflexivity].
Qed.
Lemma everything_good : lookup_good numbers everything.
Proof. intros H. revert H. vm_compute. discriminate. Qed.
Definition answer_to (g : resolver) (p : parser) (s : str) : list addr_range * str :=
  match parse ref_sys g s p with (p2, Ok l) => (l, error_messages p2) | (p2, _) => ([], []) end.
Lemma says s msg : ~ In 0 s -> plain_text s -> error_count (fst (parse ref_sys numbers s everything)) <> error_count everything ->
  answer_to numbers everything s = ([], msg ++ [10]) -> complaint ref_sys numbers everything s [msg] /\ forall l, ~ accepted ref_sys numbers everything s l.
Proof.
  intros N PT EC E. pose proof (no s N PT EC) as NA. split; [|exact NA].
  destruct (C127_one_message ref_sys numbers everything s everything_one everything_takes ref_sys_converts numbers_ok numbers_sizes everything_good N PT ltac:(left; vm_compute; reflexivity) NA)
    as (m & p2 & EP & C & _ & L & _). unfold answer_to in E. rewrite EP in E. injection E as E. rewrite L in E. cbn [map concat] in E. rewrite app_nil_r in E.
  change (error_messages everything) with (@nil Z) in E. cbn [app] in E. apply app_inj_tail in E. destruct E as [-> _]. exact C.
Qed.
Example C127_witness : takes_one everything /\ takes_entries everything /\ converts_decimals ref_sys /\ resolver_ok numbers /\ sizes_ok numbers
  /\ lookup_good numbers everything /\ get_allow everything ALLOW_ADDRESS_LOOKUP = Ok false
  /\ (complaint ref_sys numbers everything (lit "10.0.0.1/33") [lit "Unsupported mask size (33, expected 32 at the most for an IPv4)."]
      /\ forall l, ~ accepted ref_sys numbers everything (lit "10.0.0.1/33") l)
  /\ complaint ref_sys numbers everything (lit "10.0.0.1-ten:80") [lit "Unknown address in ""ten"" (no DNS lookup was allowed)."]
  /\ complaint ref_sys numbers everything (lit "[::1") [lit "IPv6 is missing the ']' ([::1)."]
  /\ complaint ref_sys numbers everything (lit "10.0.0.1:99999") [lit "invalid port in ""99999"" (no service name lookup allowed)."]
  /\ complaint ref_sys numbers everything (lit "10.0.0.1/[::1]") [lit "The address uses the IPv4 syntax, the mask cannot use IPv6."]
  /\ unsorted listing /\ takes_entries listing /\ lookup_good numbers listing
  /\ (exists mss, Forall2 (report ref_sys numbers listing) [lit "10.0.0.1"; lit " 1.2.3.4/99"; lit "::1:5 "] mss
      /\ concat mss = [lit "Unsupported mask size (99, expected 32 at the most for an IPv4)."]).
Proof.
  assert (lookup_good numbers listing) as LG by (intros H; revert H; vm_compute; discriminate).
  split; [exact everything_one|]. split; [exact everything_takes|]. split; [exact ref_sys_converts|]. split; [exact numbers_ok|]. split; [exact numbers_sizes|].
  split; [exact everything_good|]. split; [vm_compute; reflexivity|].
  split; [apply says; [now apply not_in|right; now apply trimmed_lit|vm_compute; discriminate|vm_compute; reflexivity]|].
  do 4 (split; [apply says; [now apply not_in|right; now apply trimmed_lit|vm_compute; discriminate|vm_compute; reflexivity]|]).
  split; [vm_compute; reflexivity|]. split; [exact listing_takes|]. split; [exact LG|].
  destruct C123_witness as (_ & _ & _ & _ & _ & E & _).
  assert (~ In 0 (lit "10.0.0.1, 1.2.3.4/99,::1:5 # six")) as N0 by now apply not_in.
  destruct (C127_log ref_sys numbers listing _ _ ltac:(vm_compute; reflexivity) listing_takes ref_sys_converts numbers_ok numbers_sizes LG
    N0 E) as (p2 & l & mss & EP & R & _ & L & C). exists mss. split; [exact R|].
  destruct (concat mss) as [|m [|m2 r]].
  - exfalso. revert EP C. vm_compute. intros EP. injection EP as <- _. discriminate.
  - cbn [map concat] in L. rewrite app_nil_r in L. assert (error_messages p2 = lit "Unsupported mask size (99, expected 32 at the most for an IPv4)." ++ [10]) as L2.
    { clear L C R. revert EP. vm_compute. intros EP. injection EP as <- _. reflexivity. }
    rewrite L2 in L. change (error_messages listing) with (@nil Z) in L. cbn [app] in L. change (lit "Unsupported mask size (99, expected 32 at the most for an IPv4)." ++ [10] = m ++ [10]) in L.
    apply app_inj_tail in L. destruct L as [<- _]. reflexivity.
  - exfalso. cbn [length] in C. assert (error_count p2 = error_count listing + 1) as X by (clear L C R; revert EP; vm_compute; intros EP; injection EP as <- _; reflexivity). lia.
Qed.

(* Names: "two" has two addresses, other names are not known. *)
Definition names : resolver := fun node service numeric_host socktype protocol =>
  if str_eqb node (lit "two")
  then GAI_list [mk_ai AF_INET SIZEOF_IN 6 (mk_in AF_INET 0 (load32 [10; 0; 0; 1] 0)) init_in6;
                 mk_ai AF_INET SIZEOF_IN 6 (mk_in AF_INET 0 (load32 [10; 0; 0; 2] 0)) init_in6]
  else numbers node service numeric_host socktype protocol.
Lemma names_ok : resolver_ok names.
Proof.
  intros node service b st pr l H. unfold names in H. destruct (str_eqb node (lit "two")); [|exact (numbers_ok _ _ _ _ _ _ H)].
  injection H as <-. split; [discriminate|]. repeat constructor; cbn; try discriminate; try lia.
Qed.
Lemma names_sizes : sizes_ok names.
Proof.
  intros node service b st pr l H. unfold names in H. destruct (str_eqb node (lit "two")); [|exact (numbers_sizes _ _ _ _ _ _ H)].
  injection H as <-. constructor; [split; [discriminate|reflexivity]|]. constructor; [split; [discriminate|reflexivity]|constructor].
Qed.
Lemma names_known : known_protocols names.
Proof.
  intros node service b st pr l H. unfold names, numbers in H. destruct (str_eqb node (lit "two")).
  - injection H as <-. do 2 (constructor; [right; left; reflexivity|]); constructor.
  - destruct (inet_pton4 node); [injection H as <-; (constructor; [right; left; reflexivity|constructor])|]. destruct (inet_pton6 node); [injection H as <-; (constructor; [right; left; reflexivity|constructor])|discriminate].
Qed.
Lemma names_usable : answers_usable names.
Proof.
  intros node service st pr l H. unfold names, numbers in H. destruct (str_eqb node (lit "two")).
  - injection H as <-. repeat constructor.
  - destruct (inet_pton4 node); [injection H as <-; repeat constructor|]. destruct (inet_pton6 node); [injection H as <-; repeat constructor|discriminate].
Qed.
Definition lookups : parser :=
  parser_run ref_sys numbers [P_set_allow ALLOW_MASK true; P_set_allow ALLOW_ADDRESS_RANGE true].
Lemma lookups_one : takes_one lookups.
Proof. split; [apply no_seps; vm_compute; reflexivity|apply no_comments; vm_compute; reflexivity|vm_compute; reflexivity]. Qed.
Lemma lookups_takes : takes_entries lookups.
Proof. split; [intros _; left; vm_compute; reflexivity|vm_compute; split; discriminate|vm_compute; tauto]. Qed.
Lemma looked s n text : ~ In 0 s -> plain_text s -> 0 < n -> error_count (fst (parse ref_sys names s lookups)) = n ->
  answer_to names lookups s = ([], text) ->
  exists ms, complaint ref_sys names lookups s ms /\ Z.of_nat (length ms) = n /\ concat (map (fun m => m ++ [10]) ms) = text.
Proof.
  intros N PT NP EC E.
  assert (lookup_good names lookups) as LG by exact (fun _ => conj names_known names_usable).
  assert (error_count lookups = 0) as Z0 by (vm_compute; reflexivity). assert (error_messages lookups = []) as E0 by (vm_compute; reflexivity).
  destruct (message_of ref_sys names lookups s lookups_one lookups_takes ref_sys_converts names_ok names_sizes LG N PT) as [(l & EP & _)|(ms & p2 & EP & _ & _ & U & _ & L1 & L2)].
  - exfalso. rewrite EP in EC. cbn [fst] in EC. lia.
  - exists ms. split; [now apply U|]. unfold answer_to in E. rewrite EP in E, EC. cbn [fst] in EC. injection E as E. rewrite L1, E0 in E. rewrite L2, Z0 in EC.
    split; [lia|exact E].
Qed.
Lemma looked_one s msg : ~ In 0 s -> plain_text s -> error_count (fst (parse ref_sys names s lookups)) = 1 ->
  answer_to names lookups s = ([], msg ++ [10]) -> complaint ref_sys names lookups s [msg].
Proof.
  intros N PT EC E. destruct (looked s 1 _ N PT ltac:(lia) EC E) as (ms & C & L & T). destruct ms as [|m [|m2 ms]]; try (cbn [length] in L; lia).
  cbn [map concat] in T. rewrite app_nil_r in T. apply app_inj_tail in T. destruct T as [<- _]. exact C.
Qed.
Example C127_witness_names : takes_one lookups /\ takes_entries lookups /\ converts_decimals ref_sys /\ resolver_ok names /\ sizes_ok names
  /\ get_allow lookups ALLOW_ADDRESS_LOOKUP = Ok true /\ known_protocols names /\ answers_usable names
  /\ complaint ref_sys names lookups (lit "nowhere:80") [lit "Invalid address in ""nowhere:80"" error Name or service not known"]
  /\ complaint ref_sys names lookups (lit "nowhere/8") [lit "Invalid address in ""nowhere"" error Name or service not known"]
  /\ complaint ref_sys names lookups (lit "two-10.0.0.9") [lit "The ""from"" of an address range must be exactly one address."]
  /\ complaint ref_sys names lookups (lit "10.0.0.1-two") [lit "The ""to"" of an address range must be exactly one address."]
  /\ (exists m1 m2, complaint ref_sys names lookups (lit "two/33") [m1; m2])
  /\ exists l, accepted ref_sys names lookups (lit "two/24") l /\ length l = 2%nat.
Proof.
  split; [exact lookups_one|]. split; [exact lookups_takes|]. split; [exact ref_sys_converts|]. split; [exact names_ok|]. split; [exact names_sizes|].
  split; [vm_compute; reflexivity|]. split; [exact names_known|]. split; [exact names_usable|].
  do 4 (split; [apply looked_one; [now apply not_in|right; now apply trimmed_lit|vm_compute; reflexivity|vm_compute; reflexivity]|]).
  split.
  - assert (~ In 0 (lit "two/33")) as N by now apply not_in. assert (plain_text (lit "two/33")) as PT by (right; now apply trimmed_lit).
    destruct (looked (lit "two/33") 2 (snd (answer_to names lookups (lit "two/33"))) N PT ltac:(lia) ltac:(vm_compute; reflexivity) ltac:(vm_compute; reflexivity)) as (ms & C & L & _).
    destruct ms as [|m1 [|m2 [|m3 ms]]]; try (cbn [length] in L; lia). eauto.
  - assert (~ In 0 (lit "two/24")) as N by now apply not_in. assert (plain_text (lit "two/24")) as PT by (right; now apply trimmed_lit).
    assert (lookup_good names lookups) as LG by exact (fun _ => conj names_known names_usable).
    destruct (message_of ref_sys names lookups (lit "two/24") lookups_one lookups_takes ref_sys_converts names_ok names_sizes LG N PT) as [(l & EP & A & _)|(ms & p2 & EP & _)].
    + exists l. split; [exact A|]. clear A. revert EP. vm_compute. intros EP. injection EP as <-. reflexivity.
    + exfalso. revert EP. vm_compute. discriminate.
Qed.
