(* Properties C107, C108 and C109 once more: validate-ip with any arguments. *)
From Coq Require Import Lia ZifyBool ZifyNat.
From Verif Require Import Base Addr Spec SpecText SpecRange AddrText Range Parser SpecParser SpecParser2 TableTools ValidateTool SpecTools SpecValidate.
From Verif Require AddrProofs4 PropValidator PropValidate.
Import PropValidate.
Local Open Scope Z_scope.

Lemma printable_dec r : {printable r} + {~ printable r}.
Proof.
  unfold printable. assert ({is_v4_value (value (get_from r))} + {~ is_v4_value (value (get_from r))}) as [I|I].
  { unfold is_v4_value. set (v := value _). clearbody v.
    destruct (Z_le_dec v4_base v), (Z_lt_dec v (v4_base + 2 ^ 32)); [left; now split|right; intuition|right; intuition|right; intuition]. }
  - destruct (Z_le_dec (prefix_mask 96) (mask_value (get_from r))) as [L|L]; [left; now intros _|right; intros X; now apply L, X].
  - left. intros X. contradiction.
Qed.
Lemma first_bad (l : list addr_range) : Forall printable l \/ exists l1 r l2, l = l1 ++ r :: l2 /\ Forall printable l1 /\ ~ printable r.
Proof.
  induction l as [|r l IH]; [now left|]. destruct (printable_dec r) as [P|P].
  - destruct IH as [IH|(l1 & x & l2 & -> & F & N)]; [left; now constructor|]. right. exists (r :: l1), x, l2. split; [reflexivity|]. split; [now constructor|exact N].
  - right. exists [], r, l. auto.
Qed.

(* The first argument whose addresses cannot all be printed: an IPv4 address
   with a mask of less than 96 ones. *)
Definition stops_at (y : sys) (g : resolver) (p : parser) (s : str) (l1 : list addr_range) : Prop :=
  accepted y g p s /\ exists r l2, snd (parse y g s p) = Ok (l1 ++ r :: l2) /\ Forall printable l1 /\ ~ printable r.
Lemma prints_or_stops y g o p inputs : vo_canonicalize o = true ->
  all_printable y g o p inputs \/ exists before s after l1, inputs = before ++ s :: after /\ all_printable y g o p before /\ stops_at y g p s l1.
Proof.
  intros CA. induction inputs as [|s inputs IH]; [left; intros _ _ s l []|].
  assert (all_printable y g o p [s] \/ exists l1, stops_at y g p s l1) as [H|(l1 & H)].
  { destruct (dec_accepted y g p s) as [A|A].
    - destruct (snd (parse y g s p)) as [l|x| |] eqn:E; [|left; intros _ _ s2 l [<-|[]]; congruence ..].
      destruct (first_bad l) as [F|(l1 & r & l2 & -> & F & N)].
      + left. intros _ _ s2 l2 [<-|[]] _ E2. rewrite E in E2. injection E2 as <-. exact F.
      + right. exists l1. split; [exact A|]. exists r, l2. auto.
    - left. intros _ _ s2 l [<-|[]] A2. contradiction. }
  - destruct IH as [IH|(before & s2 & after & l1 & -> & AP & ST)].
    + left. intros C M s2 l [<-|I]; [apply (H C M); now left|now apply (IH C M)].
    + right. exists (s :: before), s2, after, l1. split; [reflexivity|]. split; [|exact ST].
      intros C M s3 l [<-|I]; [apply (H C M); now left|now apply (AP C M)].
  - right. exists [], s, inputs, l1. split; [reflexivity|]. split; [intros _ _ x l []|exact H].
Qed.

(* Exactly what is printed, and the status, for any arguments: all is said about
   each argument, up to the first address which cannot be printed. *)
Theorem C108_any_arguments : forall y g what o ps p inputs, validates y g o ps p ->
  (exists lss texts status, all_printable y g o p inputs
    /\ validate_ip y g what o inputs = mk_run (lines (concat lss)) (concat texts) (Ok status)
    /\ Forall2 (lines_of y g o p) inputs lss /\ Forall2 (message_about y g o p) inputs texts
    /\ ((status = 0 /\ Forall (accepted y g p) inputs) \/ (status = 1 /\ Exists (fun s => ~ accepted y g p s) inputs)))
  \/ (exists before s after l1 lss ls texts, vo_canonicalize o = true /\ inputs = before ++ s :: after /\ stops_at y g p s l1
    /\ validate_ip y g what o inputs = mk_run (lines (concat lss ++ ls))
          (concat texts ++ lit "error: an error occurred: " ++ what E_unexpected_mask ++ [10]) (Ok 1)
    /\ Forall2 (lines_of y g o p) before lss /\ Forall2 line_of l1 ls /\ Forall2 (message_about y g o p) before texts).
Proof.
  intros y g what o ps p inputs V.
  assert (all_printable y g o p inputs -> exists lss texts status, all_printable y g o p inputs
    /\ validate_ip y g what o inputs = mk_run (lines (concat lss)) (concat texts) (Ok status)
    /\ Forall2 (lines_of y g o p) inputs lss /\ Forall2 (message_about y g o p) inputs texts
    /\ ((status = 0 /\ Forall (accepted y g p) inputs) \/ (status = 1 /\ Exists (fun s => ~ accepted y g p s) inputs))) as GOOD.
  { intros AP. destruct (C108_stdout_partial y g what o ps p inputs V AP) as (lss & O1 & O2).
    destruct (C109_stderr_partial y g what o ps p inputs V AP) as (texts & E1 & E2).
    destruct (C107_status_partial y g what o ps p inputs V AP) as (S1 & S2).
    destruct (validate_ip y g what o inputs) as [o1 e1 s1] eqn:E. cbn [out err status] in *. subst o1 e1.
    destruct (Forall_dec (accepted y g p) (dec_accepted y g p) inputs) as [F|F].
    - exists lss, texts, 0. apply S1 in F as Q. subst s1. repeat split; auto.
    - assert (Exists (fun s => ~ accepted y g p s) inputs) as X by (apply neg_Forall_Exists_neg; [apply dec_accepted|exact F]).
      exists lss, texts, 1. apply S2 in X as Q. subst s1. repeat split; auto. }
  destruct (vo_canonicalize o) eqn:CA; [|left; apply GOOD; intros X; congruence].
  destruct (prints_or_stops y g o p inputs CA) as [AP|(before & s & after & l1 & -> & AP & ST)]; [left; now apply GOOD|right].
  destruct ST as (A & r & l2 & E & F & N).
  destruct (C108_abort y g what o ps p before s after l1 r l2 V AP CA A E F N) as (lss & ls & texts & R & L1 & L2 & L3).
  exists before, s, after, l1, lss, ls, texts. split; [reflexivity|]. split; [reflexivity|]. split; [split; [exact A|]; exists r, l2; auto|].
  auto.
Qed.
Print Assumptions C108_any_arguments.

(* The status is 0 exactly when every argument is accepted and all they stand
   for can be printed, and 1 otherwise. *)
Theorem C107_status_exactly : forall y g what o ps p inputs, validates y g o ps p ->
  (status (validate_ip y g what o inputs) = Ok 0 <->
     Forall (accepted y g p) inputs /\ (vo_canonicalize o = true -> forall s l, In s inputs -> snd (parse y g s p) = Ok l -> Forall printable l))
  /\ (status (validate_ip y g what o inputs) = Ok 0 \/ status (validate_ip y g what o inputs) = Ok 1).
Proof.
  intros y g what o ps p inputs V.
  destruct (C108_any_arguments y g what o ps p inputs V) as
    [(lss & texts & st & AP & -> & _ & _ & S)|(before & s & after & l1 & lss & ls & texts & CA & -> & (A & r & l2 & E & F & N) & -> & _)]; cbn [status].
  - destruct S as [[-> F]|[-> X]]; (split; [|auto]); split.
    + intros _. split; [exact F|]. intros CA s l I E.
      apply (validates_printable y g o ps p inputs V AP CA s l I); [|exact E]. rewrite Forall_forall in F. now apply F.
    + reflexivity.
    + discriminate.
    + intros [F _]. rewrite Exists_exists in X. destruct X as (s & I & N). rewrite Forall_forall in F. now apply F in I.
  - split; [|now right]. split; [discriminate|]. intros [_ P]. exfalso. specialize (P CA s _ (in_elt _ _ _) E).
    apply Forall_app in P as [_ P]. inversion P. contradiction.
Qed.
Print Assumptions C107_status_exactly.

Import AddrProofs4 PropValidator.
(* one argument refused, one accepted, and one which stops the tool *)
Example C107_exactly_witness :
  let o := options true true true in let p := tool_parser true true true in
  let ok := lit "[::1]/120" in let bad := lit "[::1" in let stop := lit "[::1]/128 [::1]/64" in
  validates ref_sys mapped_host o [lit "127.0.0.1"; lit "::"] p
  /\ accepted ref_sys mapped_host p ok /\ ~ accepted ref_sys mapped_host p bad /\ (exists l1, stops_at ref_sys mapped_host p stop l1 /\ length l1 = 1%nat)
  /\ status (validate_ip ref_sys mapped_host some_what o [ok; ok]) = Ok 0
  /\ status (validate_ip ref_sys mapped_host some_what o [ok; bad; ok]) = Ok 1
  /\ out (validate_ip ref_sys mapped_host some_what o [ok; bad; stop; ok]) = lines [lit "10.0.0.1:80/24"; lit "10.0.0.1:80/32"].
Proof.
  cbv zeta. split; [apply tool_validates; [apply mapped_ok|apply mapped_known]|]. split; [vm_compute; reflexivity|].
  split; [vm_compute; discriminate|]. split.
  - set (l := match snd (parse ref_sys mapped_host (lit "[::1]/128 [::1]/64") (tool_parser true true true)) with Ok l => l | _ => [] end).
    exists (firstn 1 l). split; [|vm_compute; reflexivity]. split; [vm_compute; reflexivity|].
    exists (nth 1 l range_new), []. split; [vm_compute; reflexivity|]. split.
    + constructor; [|constructor]. intros _. vm_compute. discriminate.
    + unfold printable. vm_compute. intros X. apply X; [split; [discriminate|reflexivity]|reflexivity].
  - split; [vm_compute; reflexivity|]. split; vm_compute; reflexivity.
Qed.
