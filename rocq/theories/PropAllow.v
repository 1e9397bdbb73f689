(* Property C158: allowing more. *)
From Coq Require Import ZifyBool ZifyNat.
From Verif Require Import Base Addr Range Inet AddrText Parser SpecParser SpecNumeric.
From Verif Require AddrProofs4 ParserProofs ParserProofs3 NumericProofs PropNumeric AllowProofs IfaceHeapProofs.
Import AddrProofs4 ParserProofs ParserProofs3 NumericProofs PropNumeric.
Local Open Scope Z_scope.

(* p2 is the parser p with the flag set in addition. *)
Definition also_allows (p : parser) (flag : Z) (p2 : parser) : Prop :=
  set_allow p flag true = (p2, Ok tt) /\ get_allow p2 flag = Ok true.
(* Flags about the text of one entry. *)
Definition about_entry (flag : Z) : Prop := In flag [ALLOW_ADDRESS_RANGE; ALLOW_PORT; ALLOW_MASK].
(* The character which a flag makes a separator, or the start of a comment. *)
Definition makes_separator (flag c : Z) : Prop :=
  (flag = ALLOW_MULTI_ADDRESSES_COMMAS /\ c = 44) \/ (flag = ALLOW_MULTI_ADDRESSES_SPACES /\ c = 32)
  \/ (flag = ALLOW_MULTI_ADDRESSES_NEWLINES /\ c = 10).
Definition makes_comment (flag c : Z) : Prop :=
  (flag = ALLOW_COMMENT_HASH /\ c = 35) \/ (flag = ALLOW_COMMENT_SEMICOLON /\ c = 59).
(* Comments and newlines are allowed, and commas or spaces too. *)
Definition one_entry_lines (p : parser) : Prop :=
  (get_allow p ALLOW_COMMENT_HASH = Ok true \/ get_allow p ALLOW_COMMENT_SEMICOLON = Ok true)
  /\ get_allow p ALLOW_MULTI_ADDRESSES_NEWLINES = Ok true
  /\ (get_allow p ALLOW_MULTI_ADDRESSES_COMMAS = Ok true \/ get_allow p ALLOW_MULTI_ADDRESSES_SPACES = Ok true).
(* The library which converts ports takes no text with a slash. *)
Definition no_slash_in_numbers (y : sys) : Prop := forall t n, convert_string y t = Some n -> ~ In 47 t.
Definition no_default_masks (p : parser) : Prop := get_default_mask4 p = [] /\ get_default_mask6 p = [].

Lemma get_allow_nth p f : 0 <= f < 16 -> get_allow p f = Ok (allow p f).
Proof. intros R. unfold get_allow, ALLOW_max. replace ((f <? 0) || (f >=? 16)) with false by lia. reflexivity. Qed.
Lemma also_parts p flag p2 : also_allows p flag p2 -> 1 <= flag <= 12 ->
  exists F, p2 = with_flags p F /\ forall f, 1 <= f <= 12 -> allow (with_flags p F) f = (f =? flag) || allow p f.
Proof.
  intros [H1 H2] R. rewrite get_allow_nth in H2 by lia. injection H2 as H2. unfold set_allow, ALLOW_max in H1.
  replace ((flag <? 0) || (flag >=? 16)) with false in H1 by lia. cbv zeta in H1. injection H1 as <-.
  eexists. split; [reflexivity|]. intros f RF. destruct (f =? flag) eqn:E.
  - assert (f = flag) by lia. subst f. exact H2.
  - cbn [orb]. unfold allow. cbn [f_flags with_flags]. unfold ALLOW_MULTI_ADDRESSES_COMMAS, ALLOW_MULTI_PORTS_COMMAS.
    replace (flag =? 14) with false by lia. destruct (flag =? 2); rewrite ?IfaceHeapProofs.nth_upd_other; auto; lia.
Qed.

(* ---------- one entry ---------- *)
(* Without lookups: allowing ranges, ports or masks changes nothing for a text
   which was good before. *)
Theorem C158_entry_partial : forall y g p flag p2 s rs, about_entry flag -> also_allows p flag p2 ->
  get_allow p ALLOW_ADDRESS_LOOKUP = Ok false -> ~ In 0 s ->
  (flag = ALLOW_MASK -> no_default_masks p /\ no_slash_in_numbers y) ->
  reads y g s p rs -> reads y g s p2 rs.
Proof.
  intros y g p flag p2 s rs AE AL OFF N0 MK R. rewrite get_allow_nth in OFF by (cbv; split; [discriminate|reflexivity]). injection OFF as OFF.
  assert (1 <= flag <= 12) as RG by (cbn in AE; destruct AE as [<-|[<-|[<-|[]]]]; cbv; split; discriminate).
  destruct (also_parts _ _ _ AL RG) as (F & -> & FL). destruct (reads_entries _ _ _ _ _ R) as (l & E & A).
  apply (entries_reads _ _ _ _ l); [|exact A]. refine (AllowProofs.sim_entries_inside y g p flag F FL _ _ s _ _ l E).
  - right. auto.
  - intros X. destruct (MK X) as [[M1 M2] M3]. auto.
  - cbn in AE |- *. tauto.
  - intros _. exact N0.
Qed.
Print Assumptions C158_entry_partial.
(* Any parser, any text: masks written as addresses. *)
Theorem C158_address_mask : forall y g p p2 s rs, also_allows p ALLOW_ADDRESS_MASK p2 -> reads y g s p rs -> reads y g s p2 rs.
Proof.
  intros y g p p2 s rs AL R. destruct (also_parts _ _ _ AL) as (F & -> & FL); [cbv; split; discriminate|].
  destruct (reads_entries _ _ _ _ _ R) as (l & E & A). apply (entries_reads _ _ _ _ l); [|exact A].
  refine (AllowProofs.sim_entries_inside y g p ALLOW_ADDRESS_MASK F FL _ _ s _ _ l E).
  - left. now left.
  - discriminate.
  - cbn. auto.
  - intros X. cbn in X. intuition discriminate.
Qed.
Print Assumptions C158_address_mask.
(* So with any number of these flags set, in any order. *)
Fixpoint allow_all (p : parser) (flags : list Z) (p2 : parser) : Prop :=
  match flags with
  | [] => p2 = p
  | f :: r => exists p1, (about_entry f \/ f = ALLOW_ADDRESS_MASK) /\ also_allows p f p1 /\ allow_all p1 r p2
  end.
Theorem C158_entries_partial : forall y g flags p p2 s rs, allow_all p flags p2 ->
  get_allow p ALLOW_ADDRESS_LOOKUP = Ok false -> ~ In 0 s -> no_default_masks p -> no_slash_in_numbers y ->
  reads y g s p rs -> reads y g s p2 rs.
Proof.
  intros y g flags. induction flags as [|f flags IH]; intros p p2 s rs AL OFF N0 MK NS R; [cbn in AL; now subst|].
  destruct AL as (p1 & AE & A1 & AL).
  assert (1 <= f <= 12 /\ f <> 5) as [RG N5] by (destruct AE as [AE| ->]; [cbn in AE; destruct AE as [<-|[<-|[<-|[]]]]|]; cbv; repeat split; discriminate).
  apply (IH p1); try assumption.
  - destruct (also_parts _ _ _ A1 RG) as (F & -> & FL). rewrite get_allow_nth in * by (cbv; split; [discriminate|reflexivity]).
    injection OFF as OFF. rewrite FL, OFF by (cbv; split; discriminate). f_equal. unfold ALLOW_ADDRESS_LOOKUP. lia.
  - destruct (also_parts _ _ _ A1 RG) as (F & -> & FL). exact MK.
  - destruct AE as [AE| ->]; [apply (C158_entry_partial y g p f); auto|apply (C158_address_mask y g p); auto].
Qed.
Print Assumptions C158_entries_partial.

(* ---------- cutting the text ---------- *)
Lemma mixed_lines p : AllowProofs.mixed p = true <-> one_entry_lines p.
Proof.
  unfold one_entry_lines, AllowProofs.mixed. rewrite !get_allow_nth by (cbv; split; [discriminate|reflexivity]).
  rewrite !andb_true_iff, !orb_true_iff. assert (forall b, Ok b = Ok true <-> b = true) as K by (intros b; split; [intros X; now injection X|now intros ->]).
  rewrite !K. tauto.
Qed.
(* Allowing a separator or a kind of comments changes nothing for a text
   without that character, unless comments are then allowed together with
   newlines and another separator; and when it is the first separator, the text
   is not empty and has no comment. *)
Theorem C158_cut_partial : forall y g p flag c p2 s rs, makes_separator flag c \/ makes_comment flag c -> also_allows p flag p2 ->
  ~ In c s -> (one_entry_lines p2 -> one_entry_lines p) ->
  (makes_separator flag c -> (forall d, ~ separator p d) -> s <> [] /\ forall d, In d s -> ~ starts_comment p d) ->
  reads y g s p rs -> reads y g s p2 rs.
Proof.
  intros y g p flag c p2 s rs MK AL NC LINES FIRST R.
  assert (1 <= flag <= 12 /\ In flag AllowProofs.cut_flags /\ c = AllowProofs.flag_char flag) as (RG & IC & EC).
  { clear - MK. destruct MK as [[[-> ->]|[[-> ->]|[-> ->]]]|[[-> ->]|[-> ->]]]; (split; [cbv; split; discriminate|]); cbn; auto 10. }
  destruct (also_parts _ _ _ AL RG) as (F & -> & FL). destruct (reads_entries _ _ _ _ _ R) as (l & E & A).
  apply (entries_reads _ _ _ _ l); [|exact A]. refine (AllowProofs.sim_entries_cut y g p flag F FL _ _ s IC _ _ _ l E).
  - left. now right.
  - intros ->. exfalso. clear - IC. cbn in IC. intuition discriminate.
  - now rewrite <- EC.
  - rewrite !mixed_lines. exact LINES.
  - intros E1 E2. assert (makes_separator flag c) as MS.
    { destruct MK as [MK|MK]; [exact MK|]. exfalso. apply E2. rewrite <- E1. unfold separators.
      rewrite !FL by (cbv; split; discriminate). destruct MK as [[-> _]|[-> _]]; reflexivity. }
    assert (forall q d, separator q d <-> mem d (separators q) = true) as SP.
    { intros q d. unfold separator. rewrite !get_allow_nth by (cbv; split; [discriminate|reflexivity]). rewrite AllowProofs.mem_seps.
      rewrite !orb_true_iff, !andb_true_iff, !Z.eqb_eq.
      assert (forall b, Ok b = Ok true <-> b = true) as K by (intros b; split; [intros X; now injection X|now intros ->]). rewrite !K. tauto. }
    assert (forall q d, starts_comment q d <-> mem d (comment_chars q) = true) as CP.
    { intros q d. unfold starts_comment. rewrite !get_allow_nth by (cbv; split; [discriminate|reflexivity]). rewrite AllowProofs.mem_com.
      rewrite !orb_true_iff, !andb_true_iff, !Z.eqb_eq.
      assert (forall b, Ok b = Ok true <-> b = true) as K by (intros b; split; [intros X; now injection X|now intros ->]). rewrite !K. tauto. }
    destruct (FIRST MS) as [NE NO]. { intros d. rewrite SP, E1. discriminate. }
    split; [exact NE|]. intros d I. specialize (NO d I). rewrite CP in NO. now apply not_true_is_false in NO.
Qed.
Print Assumptions C158_cut_partial.

(* ---------- refuted ---------- *)
(* "A text which is accepted keeps its meaning when more is allowed" fails for
   each of these flags, with parsers and texts an application can have.  Every
   name has the address 127.0.0.1 in this resolver. *)
Definition any_name : resolver := fun A t n st pr =>
  match inet_pton4 A, inet_pton6 A with
  | None, None => numbers_only (lit "127.0.0.1") t n st pr
  | _, _ => numbers_only A t n st pr
  end.
Definition allowing (flags : list Z) (p : parser) : parser := fold_left (fun p f => fst (set_allow p f true)) flags p.
Definition bad_case (flag : Z) : parser * str :=
  let tcp := fst (parser_set_protocol parser_new IPPROTO_TCP) in
  if flag =? ALLOW_ADDRESS_RANGE then (tcp, lit "my-host")
  else if flag =? ALLOW_PORT then (allowing [ALLOW_MASK] (fst (set_allow tcp ALLOW_PORT false)), lit "localhost:80/24")
  else if flag =? ALLOW_MASK then (fst (set_default_mask ref_sys plain_parser (lit "8")), lit "10.1.2.3")
  else if (flag =? ALLOW_COMMENT_HASH) || (flag =? ALLOW_COMMENT_SEMICOLON)
  then (allowing [ALLOW_MULTI_ADDRESSES_COMMAS; ALLOW_MULTI_ADDRESSES_NEWLINES] plain_parser, lit "10.0.0.1,10.0.0.2")
  else (plain_parser, []).
Lemma any_name_posix : posix ref_sys any_name.
Proof.
  assert (forall A, exists A', forall t n st pr, any_name A t n st pr = numbers_only A' t n st pr) as K.
  { intros A. unfold any_name. destruct (inet_pton4 A), (inet_pton6 A); eexists; reflexivity. }
  constructor.
  - intros A t n st pr ks q RP KS E. unfold any_name. rewrite E. exact (posix_four _ _ numbers_only_posix _ _ _ _ _ _ _ RP KS E).
  - intros A t n st pr ks q RP KS E E2. unfold any_name. rewrite E, E2. exact (posix_six _ _ numbers_only_posix _ _ _ _ _ _ _ RP KS E E2).
  - intros m. destruct (K m) as (m' & H). intros t st pr ks st' pr' ks' a l. rewrite !H. apply (posix_mask _ _ numbers_only_posix).
Qed.
Definition result (s : str) (p : parser) : list addr_range :=
  match parse ref_sys any_name s p with (_, Ok rs) => rs | _ => [] end.
Theorem C158_unchanged_refuted : forall flag,
  In flag [ALLOW_MULTI_ADDRESSES_COMMAS; ALLOW_MULTI_ADDRESSES_SPACES; ALLOW_MULTI_ADDRESSES_NEWLINES; ALLOW_ADDRESS_RANGE; ALLOW_PORT;
           ALLOW_MASK; ALLOW_COMMENT_HASH; ALLOW_COMMENT_SEMICOLON] ->
  exists p2 rs l, posix ref_sys any_name /\ also_allows (fst (bad_case flag)) flag p2
    /\ reads ref_sys any_name (snd (bad_case flag)) (fst (bad_case flag)) rs
    /\ reads ref_sys any_name (snd (bad_case flag)) p2 l /\ l <> rs.
Proof.
  intros flag H. exists (fst (set_allow (fst (bad_case flag)) flag true)).
  exists (result (snd (bad_case flag)) (fst (bad_case flag))), (result (snd (bad_case flag)) (fst (set_allow (fst (bad_case flag)) flag true))).
  split; [exact any_name_posix|].
  cbn in H. destruct H as [<-|[<-|[<-|[<-|[<-|[<-|[<-|[<-|[]]]]]]]]]; (split; [split; vm_compute; reflexivity|]);
    (split; [eexists; split; vm_compute; reflexivity|]); (split; [eexists; split; vm_compute; reflexivity|]); vm_compute; discriminate.
Qed.
Print Assumptions C158_unchanged_refuted.
(* What happens: an entry is lost when comments become allowed; the default
   address is lost when a separator becomes allowed. *)
Theorem C158_lost_refuted : forall flag, In flag [ALLOW_COMMENT_HASH; ALLOW_MULTI_ADDRESSES_COMMAS] ->
  exists p2 rs l, also_allows (fst (bad_case flag)) flag p2
    /\ reads ref_sys any_name (snd (bad_case flag)) (fst (bad_case flag)) rs
    /\ reads ref_sys any_name (snd (bad_case flag)) p2 l
    /\ length rs = S (length l) /\ (flag = ALLOW_COMMENT_HASH -> length l = 1%nat).
Proof.
  intros flag H. exists (fst (set_allow (fst (bad_case flag)) flag true)).
  exists (result (snd (bad_case flag)) (fst (bad_case flag))), (result (snd (bad_case flag)) (fst (set_allow (fst (bad_case flag)) flag true))).
  cbn in H. destruct H as [<-|[<-|[]]]; (split; [split; vm_compute; reflexivity|]);
    (split; [eexists; split; vm_compute; reflexivity|]); (split; [eexists; split; vm_compute; reflexivity|]); vm_compute; auto; split; auto; discriminate.
Qed.
Print Assumptions C158_lost_refuted.

(* Usable cases. *)
Lemma ref_no_slash : no_slash_in_numbers ref_sys.
Proof.
  intros t n H I. cbn in H. unfold ref_convert in H. destruct t as [|c t]; [destruct I|].
  match type of H with context [forallb ?f (c :: t)] => destruct (forallb f (c :: t)) eqn:D; [|discriminate] end. rewrite forallb_forall in D. apply D in I. discriminate.
Qed.
Definition bare_parser : parser := fst (set_allow plain_parser ALLOW_PORT false).
Example C158_entries_witness : exists rs,
  allow_all bare_parser [ALLOW_MASK; ALLOW_PORT; ALLOW_ADDRESS_RANGE; ALLOW_ADDRESS_MASK]
    (allowing [ALLOW_MASK; ALLOW_PORT; ALLOW_ADDRESS_RANGE; ALLOW_ADDRESS_MASK] bare_parser)
  /\ get_allow bare_parser ALLOW_ADDRESS_LOOKUP = Ok false /\ no_default_masks bare_parser /\ no_slash_in_numbers ref_sys
  /\ reads ref_sys any_name (lit "2001:db8::1") bare_parser rs /\ length rs = 1%nat.
Proof.
  exists (result (lit "2001:db8::1") bare_parser). split.
  - cbn [allow_all allowing fold_left]. repeat (eexists; split; [cbn; auto 10|]; split; [split; vm_compute; reflexivity|]). reflexivity.
  - split; [reflexivity|]. split; [split; reflexivity|]. split; [apply ref_no_slash|]. split; [eexists; split; vm_compute; reflexivity|vm_compute; reflexivity].
Qed.
(* comments for a list with commas; newlines for a text with one address *)
Example C158_cut_witness :
  (exists rs, let p := allowing [ALLOW_MULTI_ADDRESSES_COMMAS] plain_parser in
    makes_comment ALLOW_COMMENT_HASH 35 /\ also_allows p ALLOW_COMMENT_HASH (allowing [ALLOW_COMMENT_HASH] p)
    /\ ~ one_entry_lines (allowing [ALLOW_COMMENT_HASH] p)
    /\ reads ref_sys any_name (lit "10.0.0.1,10.0.0.2:80") p rs /\ length rs = 2%nat)
  /\ (exists rs, let p := allowing [ALLOW_COMMENT_SEMICOLON] plain_parser in
    makes_separator ALLOW_MULTI_ADDRESSES_NEWLINES 10 /\ also_allows p ALLOW_MULTI_ADDRESSES_NEWLINES (allowing [ALLOW_MULTI_ADDRESSES_NEWLINES] p)
    /\ ~ one_entry_lines (allowing [ALLOW_MULTI_ADDRESSES_NEWLINES] p) /\ (forall d, In d (lit " 10.0.0.1:80 ") -> ~ starts_comment p d)
    /\ reads ref_sys any_name (lit " 10.0.0.1:80 ") p rs /\ length rs = 1%nat).
Proof.
  split.
  - exists (result (lit "10.0.0.1,10.0.0.2:80") (allowing [ALLOW_MULTI_ADDRESSES_COMMAS] plain_parser)). cbv zeta.
    split; [left; auto|]. split; [split; vm_compute; reflexivity|]. split; [intros (_ & X & _); vm_compute in X; discriminate|].
    split; [eexists; split; vm_compute; reflexivity|vm_compute; reflexivity].
  - exists (result (lit " 10.0.0.1:80 ") (allowing [ALLOW_COMMENT_SEMICOLON] plain_parser)). cbv zeta.
    split; [right; right; auto|]. split; [split; vm_compute; reflexivity|].
    split; [intros (_ & _ & [X|X]); vm_compute in X; discriminate|]. split.
    + intros d I [[X _]|[_ X]]; [vm_compute in X; discriminate|]. subst d. vm_compute in I. intuition discriminate.
    + split; [eexists; split; vm_compute; reflexivity|vm_compute; reflexivity].
Qed.
