(* Properties C128 and C129: the error of validator_address and the messages of
   validate-ip say what is wrong with the entries which are refused. *)
From Coq Require Import ZifyBool ZifyNat.
From Verif Require Import Base Addr Spec Range SpecRange Inet SpecText AddrText Parser SpecParser SpecParser2 SpecParser4 SpecLanguage SpecComplaint
  Validator SpecValidator TableTools ValidateTool SpecTools SpecValidate.
From Verif Require AddrProofs4 InetProofs TextProofs ParserProofs ParserProofs3 ParserProofs9 ParserProofs10 ParserProofs16 ToolsProofs ValidatorProofs ValidatorProofs2
  PropText PropParser PropParser2 PropParser4 PropParser5 PropParser9 PropParser10 PropParser11 PropParser12 PropValidator PropValidate PropGrammar.
Import AddrProofs4 ParserProofs ParserProofs3 ParserProofs9 ParserProofs10 ValidatorProofs ValidatorProofs2
  PropParser PropParser2 PropParser4 PropParser5 PropParser9 PropParser10 PropParser11 PropParser12 PropValidator PropGrammar.
Local Open Scope Z_scope.

(* The messages, one per line. *)
Definition lines (ms : list str) : str := concat (map (fun m => m ++ [10]) ms).
(* Each message is about one of the entries, in order. *)
Definition about (y : sys) (g : resolver) (p : parser) (ts ms : list str) : Prop :=
  exists mss, Forall2 (report y g p) ts mss /\ ms = concat mss.
(* What is assumed of the answers about names. *)
Definition answers_good (g : resolver) : Prop := resolver_ok g /\ sizes_ok g /\ known_protocols g /\ answers_usable g.

(* ---------- C128 ---------- *)
(* A value is refused exactly when there is something to say about one of its
   entries, and the error is what there is to say. *)
Theorem C128_error_of_a_refusal : forall split y0 g0 data v log w y g value ts,
  construct split y0 g0 data = Ok (v, log) -> resolver_ok g0 -> validated v w ->
  converts_decimals y -> answers_good g -> ~ In 0 value -> entries_of (f_parser v) value ts ->
  exists ms, about y g (f_parser v) ts ms
    /\ (ms = [] -> snd (validate y g w value) = Ok true /\ last_error (fst (validate y g w value)) = last_error w)
    /\ (ms <> [] -> snd (validate y g w value) = Ok false /\ last_error (fst (validate y g w value)) = lines ms).
Proof.
  intros split y0 g0 data v lg w y g value ts H R0 V HC (R & HS & K & HU) N0 ES. destruct (validator_takes _ _ _ _ _ _ R0 H) as (U & TE & EC).
  destruct (construct_tidy _ _ _ _ _ _ H) as [_ _ _ _ [EM _]].
  destruct (C63_verdict _ _ _ _ _ _ H w y g value V) as [E L].
  destruct (C127_log y g (f_parser v) value ts U TE HC R HS (fun _ => conj K HU) N0 ES) as (p2 & l & mss & EP & RS & (_ & L1 & L2)).
  rewrite EP in E, L. cbn [SpecValidator.verdict fst] in E, L. rewrite EC in L2. unfold error_messages in L1 at 2. rewrite EM in L1. cbn [app] in L1.
  exists (concat mss). split; [exists mss; now split|]. split; intros X.
  - rewrite X in L2. cbn [length] in L2. assert (snd (validate y g w value) = Ok true) as T by (rewrite E; now rewrite L2). split; [exact T|].
    revert T. unfold validate. destruct (parse y g value (clear_errors (f_parser w))) as [p3 [l3|e| |]]; try discriminate. destruct (has_errors p3); [discriminate|reflexivity].
  - assert (snd (validate y g w value) = Ok false) as F.
    { rewrite E. destruct (Z.eqb_spec (error_count p2) 0) as [Z0|Z0]; [|reflexivity]. destruct (concat mss); [congruence|]. cbn [length] in L2. lia. }
    split; [exact F|]. rewrite (L F). exact L1.
Qed.
Print Assumptions C128_error_of_a_refusal.

(* ---------- C129 ---------- *)
(* The part of stderr which is about the argument s with the entries ts. *)
Inductive block (y : sys) (g : resolver) (o : validate_options) (p : parser) (s : str) (ts : list str) : str -> Prop :=
| block_fine : about y g p ts [] -> block y g o p s ts []
| block_quiet ms : about y g p ts ms -> vo_quiet o = true -> block y g o p s ts []
| block_one m : about y g p ts [m] -> vo_quiet o = false ->
    block y g o p s ts (lit "address """ ++ s ++ lit """ generated 1 error: " ++ m ++ [10; 10])
| block_more ms d : about y g p ts ms -> (1 < length ms)%nat -> plain_decimal d (Z.of_nat (length ms)) -> vo_quiet o = false ->
    block y g o p s ts (lit "address """ ++ s ++ lit """ generated " ++ d ++ lit " errors: " ++ lines ms ++ [10]).
Theorem C129_stderr : forall y g what o ps p inputs tss,
  validates y g o ps p -> all_printable y g o p inputs -> converts_decimals y -> sizes_ok g -> answers_usable g -> ~ In 0 (vo_default_address o) ->
  Forall2 (fun s ts => ~ In 0 s /\ entries_of p s ts) inputs tss ->
  exists blocks, err (validate_ip y g what o inputs) = concat blocks
    /\ Forall2 (fun i b => block y g o p (fst i) (snd i) b) (combine inputs tss) blocks.
Proof.
  intros y g what o ps p inputs tss V AP HC HS HU N F. destruct (validates_takes _ _ _ _ _ V N) as [U TE].
  destruct (PropValidate.C109_stderr_partial y g what o ps p inputs V AP) as (texts & E & M). rewrite E. clear E AP. exists texts. split; [reflexivity|].
  revert texts M. induction F as [|s ts inputs tss [N0 ES] F IH]; intros texts M; inversion M as [|x text l0 texts' MA MR]; subst.
  { constructor. }
  cbn [combine]. constructor; [|now apply IH]. cbn [fst snd]. clear - V HC HS HU U TE N0 ES MA.
  destruct (C127_log y g p s ts U TE HC (va_resolver _ _ _ _ _ V) HS (fun _ => conj (va_known _ _ _ _ _ V) HU) N0 ES) as (p2 & l & mss & EP & RS & (_ & L1 & L2)).
  destruct (va_set_up _ _ _ _ _ V) as [_ _ _ _ _ _ _ _ CO ME]. rewrite CO in L2. rewrite ME in L1. cbn [app] in L1.
  assert (about y g p ts (concat mss)) as AB by (exists mss; now split).
  unfold message_about, SpecValidate.accepted, SpecValidate.complaint in MA. rewrite EP in MA. cbn [fst] in MA. rewrite L1, L2 in MA.
  destruct MA as [(Q & NA & d & I & ->)|([Q|A] & ->)].
  - destruct (concat mss) as [|m [|m2 ms]].
    + elim NA. reflexivity.
    + cbn [length map concat]. change (0 + Z.of_nat 1) with 1 in I. change (0 + Z.of_nat 1 =? 1) with true. cbv iota.
      assert (d = lit "1") as ->.
      { destruct I as [[_ I]|[I _]]; [|lia]. apply (plain_unique d (lit "1") 1 I). exact (PropText.plain_dec_string 1 ltac:(lia)). }
      replace (lit "address """ ++ s ++ lit """ generated " ++ lit "1" ++ lit " error" ++ [] ++ lit ": " ++ ((m ++ [10]) ++ []) ++ [10])
        with (lit "address """ ++ s ++ lit """ generated 1 error: " ++ m ++ [10; 10]); [now apply block_one|].
      rewrite app_nil_r, <- (app_assoc m). reflexivity.
    + assert (0 + Z.of_nat (length (m :: m2 :: ms)) =? 1 = false) as -> by (cbn [length]; lia).
      replace (lit "address """ ++ s ++ lit """ generated " ++ d ++ lit " error" ++ lit "s" ++ lit ": " ++ concat (map (fun m0 => m0 ++ [10]) (m :: m2 :: ms)) ++ [10])
        with (lit "address """ ++ s ++ lit """ generated " ++ d ++ lit " errors: " ++ lines (m :: m2 :: ms) ++ [10]) by reflexivity.
      apply block_more; [exact AB|cbn [length]; lia| |exact Q]. destruct I as [[_ I]|[I _]]; [exact I|lia].
  - eapply block_quiet; eassumption.
  - destruct (concat mss); [now apply block_fine|]. cbn [length] in A. lia.
Qed.
Print Assumptions C129_stderr.

(* ---------- concrete cases ---------- *)
Lemma names_good : answers_good names.
Proof. split; [exact names_ok|]. split; [exact names_sizes|]. split; [exact names_known|exact names_usable]. Qed.
Example C128_witness : exists v w ts,
  construct words ref_sys names [lit "address=commas lookup"; lit "port=required"] = Ok (v, [])
  /\ resolver_ok names /\ validated v w /\ w <> v /\ converts_decimals ref_sys /\ answers_good names
  /\ entries_of (f_parser v) (lit "nowhere:80, 10.0.0.1") ts /\ length ts = 2%nat
  /\ snd (validate ref_sys names w (lit "nowhere:80, 10.0.0.1")) = Ok false
  /\ last_error (fst (validate ref_sys names w (lit "nowhere:80, 10.0.0.1")))
     = lit "Invalid address in ""nowhere:80"" error Name or service not known" ++ [10] ++ lit "Required port is missing." ++ [10]
  /\ snd (validate ref_sys names w (lit "two:80")) = Ok true.
Proof.
  eexists _, _, _. split; [vm_compute; reflexivity|]. split; [apply names_ok|].
  split; [eapply (one_more _ _ ref_sys names (lit "300.0.0.1")), no_call|].
  split; [intros E; apply (f_equal last_error) in E; revert E; vm_compute; discriminate|].
  split; [apply ref_sys_converts|]. split; [apply names_good|].
  split. { change (lit "nowhere:80, 10.0.0.1") with (lit "nowhere:80" ++ [44] ++ lit " 10.0.0.1").
    apply two_entries; try reflexivity; try discriminate; now apply not_in. }
  split; [reflexivity|]. split; [vm_compute; reflexivity|]. split; vm_compute; reflexivity.
Qed.
Example C129_witness : let o := PropValidate.options false true true in let p := PropValidate.tool_parser false true true in
  validates ref_sys names o [lit "127.0.0.1"; lit "::"] p
  /\ all_printable ref_sys names o p [lit "10.0.0.1/8"; lit "[1"; lit "two/33"] /\ converts_decimals ref_sys /\ sizes_ok names /\ answers_usable names
  /\ ~ In 0 (vo_default_address o)
  /\ (exists tss, Forall2 (fun s ts => ~ In 0 s /\ entries_of p s ts) [lit "10.0.0.1/8"; lit "[1"; lit "two/33"] tss)
  /\ err (validate_ip ref_sys names PropValidate.some_what o [lit "10.0.0.1/8"; lit "[1"; lit "two/33"])
     = lit "address ""[1"" generated 1 error: IPv6 is missing the ']' ([1)." ++ [10; 10]
       ++ lit "address ""two/33"" generated 2 errors: Unsupported mask size (33, expected 32 at the most for an IPv4)." ++ [10]
       ++ lit "Unsupported mask size (33, expected 32 at the most for an IPv4)." ++ [10; 10].
Proof.
  cbv zeta. split; [apply PropValidate.tool_validates; [apply names_ok|apply names_known]|].
  split; [intros X; discriminate|]. split; [apply ref_sys_converts|]. split; [apply names_sizes|]. split; [apply names_usable|]. split; [now apply not_in|].
  split. { destruct (C123_entries_exist (PropValidate.tool_parser false true true) (lit "10.0.0.1/8")) as [t1 E1].
    destruct (C123_entries_exist (PropValidate.tool_parser false true true) (lit "[1")) as [t2 E2].
    destruct (C123_entries_exist (PropValidate.tool_parser false true true) (lit "two/33")) as [t3 E3].
    exists [t1; t2; t3]. repeat constructor; try assumption; now apply not_in. }
  vm_compute; reflexivity.
Qed.
