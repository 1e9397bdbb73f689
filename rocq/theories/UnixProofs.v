(* Proofs about Unix addresses. *)
From Coq Require Import Lia ZifyBool ZifyNat.
From Verif Require Import Base Unix SpecUnix.
Local Open Scope Z_scope.

(* Paths and segments. *)

Lemma spells_segments s l : spells s l -> Forall segment l.
Proof. induction 1; auto. Qed.

Lemma spells_slash s l : spells s l -> spells (47 :: s) l.
Proof.
  intros H; inversion H; subst.
  - exact (spells_end (S n)).
  - exact (spells_last (S n) s0 m H0).
  - exact (spells_more (S n) s0 rest l0 H0 H1).
Qed.

Lemma spells_exists s : exists l, spells s l.
Proof.
  induction s as [|c s [l IH]].
  - exists []; exact (spells_end 0).
  - destruct (Z.eq_dec c 47) as [->|N].
    + exists l. now apply spells_slash.
    + assert (G : segment [c]).
      { split; [discriminate|]. intros [E|[]]. now subst. }
      inversion IH; subst.
      * exists [[c]]. exact (spells_last 0 [c] n G).
      * destruct n as [|n].
        -- exists [c :: s0].
           refine (spells_last 0 (c :: s0) m _).
           destruct H as [A B]. split; [discriminate|]. intros [E|E]; [now subst|auto].
        -- exists [[c]; s0]. exact (spells_more 0 [c] _ _ G (spells_last n s0 m H)).
      * destruct n as [|n].
        -- exists ((c :: s0) :: l0).
           refine (spells_more 0 (c :: s0) rest l0 _ H0).
           destruct H as [A B]. split; [discriminate|]. intros [E|E]; [now subst|auto].
        -- exists ([c] :: s0 :: l0).
           exact (spells_more 0 [c] _ _ G (spells_more n s0 rest l0 H H0)).
Qed.

Lemma tok_slashes n s : tokenize_slash (repeat 47 n ++ s) [] = tokenize_slash s [].
Proof. induction n; cbn; auto. Qed.

Lemma tok_segment s : forall cur r, ~ In 47 s ->
  tokenize_slash (s ++ r) cur = tokenize_slash r (cur ++ s).
Proof.
  induction s as [|c s IH]; intros cur r N; cbn [app tokenize_slash].
  - now rewrite app_nil_r.
  - destruct (Z.eqb_spec c 47) as [->|D]; [destruct N; now left|].
    rewrite IH by (intros X; apply N; now right). now rewrite <- app_assoc.
Qed.

Lemma tok_next s r : s <> [] -> tokenize_slash (47 :: r) s = s :: tokenize_slash r [].
Proof. destruct s; [congruence|reflexivity]. Qed.

Lemma tok_last s m : s <> [] -> tokenize_slash (repeat 47 m) s = [s].
Proof.
  intros N. destruct m as [|m]; cbn [repeat].
  - destruct s; [congruence|reflexivity].
  - rewrite tok_next by assumption.
    replace (repeat 47 m) with (repeat 47 m ++ []) by apply app_nil_r.
    now rewrite tok_slashes.
Qed.

Lemma spells_tok s l : spells s l -> tokenize_slash s [] = l.
Proof.
  induction 1 as [n|n s m [A B]|n s r l [A B] H IH].
  - replace (repeat 47 n) with (repeat 47 n ++ []) by apply app_nil_r. now rewrite tok_slashes.
  - rewrite tok_slashes, tok_segment by assumption. cbn [app]. now apply tok_last.
  - rewrite tok_slashes, tok_segment by assumption. cbn [app]. rewrite tok_next by assumption.
    now rewrite IH.
Qed.

Lemma tok_spells s : spells s (tokenize_slash s []).
Proof. destruct (spells_exists s) as [l H]. now rewrite (spells_tok _ _ H). Qed.

Lemma slashed_join l : l <> [] -> slashed l = 47 :: join_slash l.
Proof.
  induction l as [|s l IH]; [congruence|]. intros _.
  destruct l as [|t l].
  - unfold slashed. cbn. now rewrite app_nil_r.
  - unfold slashed in *. cbn [map concat]. change (concat (map (fun s => 47 :: s) (t :: l)))
      with (concat (map (fun s => 47 :: s) (t :: l))) in IH.
    cbn [map concat] in IH. rewrite IH by discriminate. reflexivity.
Qed.

Lemma join_first l : l <> [] -> Forall segment l -> exists c r, join_slash l = c :: r /\ c <> 47.
Proof.
  intros N F. destruct l as [|s l]; [congruence|]. inversion F; subst.
  destruct H1 as [A B]. destruct s as [|c s]; [congruence|].
  exists c. destruct l as [|t l]; eexists; (split; [reflexivity|]); intros ->; apply B; now left.
Qed.

Lemma spells_join l : l <> [] -> Forall segment l -> spells (join_slash l) l.
Proof.
  induction l as [|s l IH]; [congruence|]. intros _ F. inversion F; subst.
  destruct l as [|t l].
  - pose proof (spells_last 0 s 0 H1) as X. cbn [repeat app] in X. rewrite app_nil_r in X. exact X.
  - refine (spells_more 0 s (join_slash (t :: l)) (t :: l) H1 _).
    apply IH; [discriminate|assumption].
Qed.

Lemma absolute_dec s : {absolute s} + {~ absolute s}.
Proof.
  destruct s as [|c s].
  - right. intros [r H]. discriminate.
  - destruct (Z.eq_dec c 47) as [->|N].
    + left. now exists s.
    + right. intros [r H]. congruence.
Qed.

(* The string verify_path() works with. *)
Definition short (s : str) : str :=
  let p := join_slash (tokenize_slash s []) in
  match s with c :: _ => if c =? 47 then [47] ++ p else p | [] => p end.

Lemma short_absolute s : absolute s -> short s = 47 :: join_slash (tokenize_slash s []).
Proof. intros [r ->]. reflexivity. Qed.
Lemma short_relative s : ~ absolute s -> short s = join_slash (tokenize_slash s []).
Proof.
  intros N. unfold short. destruct s as [|c s]; [reflexivity|].
  destruct (Z.eqb_spec c 47) as [->|D]; [|reflexivity]. destruct N. now exists s.
Qed.

Lemma canonical_short s p : canonical s p <-> tokenize_slash s [] <> [] /\ p = short s.
Proof.
  split.
  - intros (l & N & H & C). pose proof (spells_tok _ _ H) as E.
    split; [now rewrite E|].
    rewrite slashed_join in C by assumption. destruct C as [[A C]|[A C]].
    + rewrite short_absolute by assumption. now rewrite E.
    + rewrite short_relative by assumption. rewrite E. congruence.
  - intros [N ->]. exists (tokenize_slash s []). split; [assumption|].
    split; [apply tok_spells|]. rewrite slashed_join by assumption.
    destruct (absolute_dec s) as [A|A].
    + left. now rewrite short_absolute.
    + right. now rewrite short_relative.
Qed.

Lemma canonical_unique s p q : canonical s p -> canonical s q -> p = q.
Proof. rewrite !canonical_short. intuition congruence. Qed.

Lemma canonical_idem s p : canonical s p -> canonical p p.
Proof.
  intros (l & N & H & C). pose proof (spells_segments _ _ H) as F.
  pose proof (spells_join _ N F) as J.
  exists l. split; [assumption|]. rewrite slashed_join in * by assumption.
  destruct C as [[A C]|[A C]].
  - subst p. split; [now apply spells_slash|]. left. split; [now eexists|reflexivity].
  - injection C as ->. split; [assumption|]. right. split; [|reflexivity].
    destruct (join_first l N F) as (c & r & E & D). rewrite E. intros [q X]. congruence.
Qed.

Lemma canonical_nonempty s p : canonical s p -> p <> [].
Proof.
  intros (l & N & H & C). rewrite slashed_join in C by assumption.
  destruct C as [[A C]|[A C]]; [subst p; discriminate|]. injection C as ->.
  destruct (join_first l N (spells_segments _ _ H)) as (c & r & E & D). rewrite E. discriminate.
Qed.

(* Slashes added in front of an absolute path. *)
Lemma canonical_more_slashes p : canonical p p -> absolute p -> canonical (47 :: 47 :: p) p.
Proof.
  intros (l & N & H & C) A. exists l. split; [assumption|].
  split; [now apply spells_slash, spells_slash|]. left. split; [now eexists|].
  destruct C as [[_ C]|[X _]]; [assumption|contradiction].
Qed.

Lemma printable_control c : printable c <-> is_control c = false.
Proof. unfold printable, is_control. lia. Qed.

Lemma printable_all l : Forall printable l <-> existsb is_control l = false.
Proof.
  induction l as [|c l IH]; cbn; [intuition|].
  rewrite orb_false_iff, <- IH, <- printable_control. split.
  - intros H; inversion H; auto.
  - intros [A B]; auto.
Qed.

Lemma str_eqb_eq a b : str_eqb a b = true <-> a = b.
Proof.
  revert b; induction a as [|x a IH]; intros [|y b]; cbn; try (split; congruence).
  rewrite andb_true_iff, IH, Z.eqb_eq. split; [intros []; congruence|intros H; injection H; auto].
Qed.

Definition max_of (abstract : bool) : nat := if abstract then 106%nat else 107%nat.

(* The empty path has no name, nor has one with slashes only. *)
Lemma tok_cur s : forall cur, cur <> [] -> tokenize_slash s cur <> [].
Proof.
  induction s as [|d s IH]; intros cur N; cbn.
  - destruct cur; congruence.
  - destruct (d =? 47).
    + destruct cur; congruence.
    + apply IH. destruct cur; discriminate.
Qed.

Lemma no_segment s : tokenize_slash s [] = [] -> s = [] \/ short s = [47].
Proof.
  intros E. destruct s as [|c s]; [now left|right].
  destruct (absolute_dec (c :: s)) as [A|A].
  - rewrite short_absolute by assumption. now rewrite E.
  - exfalso. cbn [tokenize_slash app] in E. destruct (Z.eqb_spec c 47) as [->|D].
    + apply A. now eexists.
    + revert E. apply tok_cur. discriminate.
Qed.

Lemma short_root s : tokenize_slash s [] <> [] -> short s <> [47].
Proof.
  intros N E. pose proof (spells_segments _ _ (tok_spells s)) as F.
  destruct (join_first _ N F) as (c & r & J & D).
  destruct (absolute_dec s) as [A|A].
  - rewrite short_absolute in E by assumption. congruence.
  - rewrite short_relative in E by assumption. congruence.
Qed.

Lemma verify_ok decode s abstract p :
  verify_path decode s abstract = Ok p <-> name_of decode (max_of abstract) s p.
Proof.
  unfold name_of. rewrite canonical_short. destruct s as [|c s].
  - cbn. split; [discriminate|]. intros [[X _] _]. congruence.
  - set (t := c :: s) in *.
    assert (V : verify_path decode t abstract =
      if ((if abstract then 107 else 108) <=? length (short t))%nat then Throw E_invalid_argument
      else match decode (short t) with
           | None => Throw E_std
           | Some u32 =>
               if existsb is_control u32 then Throw E_invalid_argument
               else if str_eqb (short t) [47] then Throw E_invalid_argument
               else Ok (short t)
           end) by (destruct abstract; reflexivity).
    rewrite V. clear V.
    assert (L : ((if abstract then 107 else 108) <=? length (short t))%nat = false <->
                (length (short t) <= max_of abstract)%nat) by (destruct abstract; cbn [max_of]; lia).
    destruct ((if abstract then 107 else 108) <=? length (short t))%nat.
    + split; [discriminate|]. intros ((_ & ->) & X & _). destruct L as [_ L]. now discriminate L.
    + destruct (decode (short t)) as [u32|] eqn:D.
      * destruct (existsb is_control u32) eqn:K.
        -- split; [discriminate|]. intros ((_ & ->) & _ & txt & X & Y).
           rewrite D in X. injection X as <-. apply printable_all in Y. congruence.
        -- destruct (str_eqb (short t) [47]) eqn:R.
           ++ apply str_eqb_eq in R. split; [discriminate|]. intros ((X & _) & _).
              now destruct (short_root _ X).
           ++ split.
              ** intros X. injection X as <-. repeat split.
                 --- intros X. destruct (no_segment t X) as [|X1]; [discriminate|].
                     rewrite X1 in R. discriminate.
                 --- now apply L.
                 --- exists u32. split; [assumption|]. now apply printable_all.
              ** now intros ((_ & ->) & _).
      * split; [discriminate|]. intros ((_ & ->) & _ & txt & X & _). congruence.
Qed.

Lemma verify_throws decode s abstract :
  (forall p, ~ name_of decode (max_of abstract) s p) ->
  (verify_path decode s abstract = Throw E_invalid_argument \/
   (verify_path decode s abstract = Throw E_std /\
    (exists p, decode p = None /\ (length p <= max_of abstract)%nat /\ (canonical s p \/ p = [47])))).
Proof.
  intros H. destruct s as [|c s]; [now left|].
  destruct (verify_path decode (c :: s) abstract) as [p|e| |] eqn:E.
  - apply verify_ok in E. now destruct (H p).
  - unfold verify_path in E. cbn zeta in E. fold (short (c :: s)) in E.
    change (if c =? 47 then [47] ++ join_slash (tokenize_slash (c :: s) [])
            else join_slash (tokenize_slash (c :: s) [])) with (short (c :: s)) in E.
    destruct (Nat.leb_spec (if abstract then (SUN_PATH - 1)%nat else SUN_PATH) (length (short (c :: s)))) as [L|L];
      [left; congruence|].
    destruct (decode (short (c :: s))) as [u32|] eqn:D.
    + left. destruct (existsb is_control u32); [congruence|].
      destruct (str_eqb (short (c :: s)) [47]); congruence.
    + right. split; [congruence|]. exists (short (c :: s)).
      split; [assumption|]. split; [destruct abstract; cbn [max_of]; unfold SUN_PATH in L; lia|].
      destruct (list_eq_dec (list_eq_dec Z.eq_dec) (tokenize_slash (c :: s) []) []) as [N|N].
      * destruct (no_segment _ N) as [|R]; [discriminate|now right].
      * left. now apply canonical_short.
  - exfalso. unfold verify_path in E. cbn zeta in E.
    repeat match type of E with (if ?b then _ else _) = _ => destruct b | match ?b with _ => _ end = _ => destruct b end;
      discriminate.
  - exfalso. unfold verify_path in E. cbn zeta in E.
    repeat match type of E with (if ?b then _ else _) = _ => destruct b | match ?b with _ => _ end = _ => destruct b end;
      discriminate.
Qed.

Lemma verify_undecodable decode s abstract p :
  canonical s p -> (length p <= max_of abstract)%nat -> decode p = None ->
  verify_path decode s abstract = Throw E_std.
Proof.
  intros C L D. apply canonical_short in C as [N ->]. destruct s as [|c s]; [now destruct N|].
  unfold verify_path. cbn zeta.
  change (if c =? 47 then [47] ++ join_slash (tokenize_slash (c :: s) [])
          else join_slash (tokenize_slash (c :: s) [])) with (short (c :: s)).
  destruct (Nat.leb_spec (if abstract then (SUN_PATH - 1)%nat else SUN_PATH) (length (short (c :: s)))) as [K|K].
  - unfold SUN_PATH in K. destruct abstract; cbn [max_of] in L; lia.
  - now rewrite D.
Qed.

Lemma name_unique decode m s p q : name_of decode m s p -> name_of decode m s q -> p = q.
Proof. intros [A _] [B _]. exact (canonical_unique s p q A B). Qed.

Lemma name_idem decode m s p : name_of decode m s p -> name_of decode m p p.
Proof. intros (A & B & C). split; [exact (canonical_idem s p A)|]. now split. Qed.

Lemma name_no_nul decode m s p : keeps_ascii decode -> name_of decode m s p -> ~ In 0 p.
Proof.
  intros K (_ & _ & txt & D & F) I. specialize (K p txt 0 D I ltac:(lia)).
  rewrite Forall_forall in F. specialize (F 0 K). unfold printable in F. lia.
Qed.

(* Arrays of bytes. *)

Lemma before_nul_app p r : ~ In 0 p -> before_nul (p ++ 0 :: r) = p.
Proof.
  induction p as [|c p IH]; intros N; [reflexivity|].
  cbn. destruct (Z.eqb_spec c 0) as [->|D]; [destruct N; now left|].
  rewrite IH; [reflexivity|]. intros X; apply N; now right.
Qed.

Lemma before_nul_none p : ~ In 0 p -> before_nul p = p.
Proof.
  induction p as [|c p IH]; intros N; [reflexivity|].
  cbn. destruct (Z.eqb_spec c 0) as [->|D]; [destruct N; now left|].
  rewrite IH; [reflexivity|]. intros X; apply N; now right.
Qed.

Lemma c_string_app p r : ~ In 0 p -> c_string (p ++ 0 :: r) = Ok p.
Proof.
  intros N. unfold c_string. replace (existsb (Z.eqb 0) (p ++ 0 :: r)) with true.
  - now rewrite before_nul_app.
  - symmetry. apply existsb_exists. exists 0. split; [|reflexivity].
    apply in_or_app. right. now left.
Qed.

Lemma repeat_first n : (0 < n)%nat -> repeat 0 n = 0 :: repeat 0 (n - 1).
Proof. destruct n; [lia|]. intros _. cbn. now rewrite Nat.sub_0_r. Qed.

Lemma write_front dst src : (length src <= length dst)%nat ->
  write_at dst 0 src = Ok (src ++ skipn (length src) dst).
Proof.
  intros L. unfold write_at. cbn [Nat.add firstn app].
  destruct (Nat.leb_spec (length src) (length dst)) as [_|X]; [reflexivity|lia].
Qed.

Lemma write_rest dst src at_ : (at_ + length src = length dst)%nat ->
  write_at dst at_ src = Ok (firstn at_ dst ++ src).
Proof.
  intros L. unfold write_at. destruct (Nat.leb_spec (at_ + length src) (length dst)) as [_|X]; [|lia].
  rewrite skipn_all2 by lia. now rewrite app_nil_r.
Qed.

Lemma file_bytes (path p : list Z) : length path = 108%nat -> (length p <= 107)%nat ->
  write_at path 0 p = Ok (p ++ skipn (length p) path) /\
  write_at (p ++ skipn (length p) path) (length p) (repeat 0 (SUN_PATH - length p)) =
    Ok (p ++ repeat 0 (108 - length p)).
Proof.
  intros L M. split; [apply write_front; lia|].
  rewrite write_rest.
  - rewrite firstn_app, Nat.sub_diag, firstn_all. cbn [firstn]. now rewrite app_nil_r.
  - rewrite app_length, skipn_length, repeat_length. unfold SUN_PATH. lia.
Qed.

(* set_file() and set_abstract() with a good name. *)

Definition named (u : addr_unix) (n : unix_name) : addr_unix :=
  mk_unix (u_scheme u) (kernel_name n) (u_mode u) (u_group u).

Definition proper (u : addr_unix) : Prop :=
  sun_family (u_address u) = AF_UNIX /\ length (sun_path (u_address u)) = 108%nat.

Lemma set_file_ok decode u s p : proper u -> name_of decode 107 s p ->
  set_file decode u s = (named u (File p), Ok tt).
Proof.
  intros [F L] N. pose proof N as (_ & M & _).
  unfold set_file. rewrite (proj2 (verify_ok decode s false p) N). cbn [and_then].
  destruct (file_bytes (sun_path (u_address u)) p L M) as [A B].
  rewrite A. cbn [and_then].
  destruct (Nat.ltb_spec (length p) SUN_PATH) as [_|X]; [|unfold SUN_PATH in X; lia].
  rewrite B. cbn [and_then]. unfold with_path, named, kernel_name. now rewrite F.
Qed.

Lemma set_abstract_ok decode u s p : keeps_ascii decode -> proper u -> name_of decode 106 s p ->
  set_abstract decode u s = (named u (Abstract p), Ok tt).
Proof.
  intros K [F L] N. pose proof N as (_ & M & _). pose proof (name_no_nul decode 106 s p K N) as Z0.
  unfold set_abstract. rewrite (proj2 (verify_ok decode s true p) N). cbn [and_then].
  rewrite write_front by (cbn; lia). cbn [and_then length app].
  unfold strncpy_at. rewrite before_nul_none by assumption.
  set (path := sun_path (u_address u)) in *.
  assert (E : firstn (SUN_PATH - 1) (p ++ repeat 0 (SUN_PATH - 1)) = p ++ repeat 0 (107 - length p)).
  { rewrite firstn_app. rewrite firstn_all2 by (unfold SUN_PATH; lia). f_equal.
    replace (SUN_PATH - 1)%nat with ((107 - length p) + length p)%nat at 2 by (unfold SUN_PATH; lia).
    rewrite repeat_app, firstn_app, repeat_length.
    replace (SUN_PATH - 1 - length p - (107 - length p))%nat with 0%nat by (unfold SUN_PATH; lia).
    rewrite firstn_all2 by (rewrite repeat_length; unfold SUN_PATH; lia).
    cbn [firstn]. apply app_nil_r. }
  rewrite E. rewrite write_rest by (rewrite app_length, repeat_length; cbn [length]; rewrite skipn_length; lia).
  cbn [firstn app and_then].
  destruct (Nat.ltb_spec (length p) (SUN_PATH - 2)) as [X|X].
  - rewrite write_rest.
    2:{ cbn [length]. rewrite app_length, !repeat_length. unfold SUN_PATH. lia. }
    cbn [and_then]. f_equal.
    unfold with_path, named, kernel_name. rewrite F. f_equal. f_equal.
    replace (length p + 2)%nat with (S (length p + 1)) by lia. cbn [firstn app].
    f_equal. rewrite firstn_app_2. cbn [firstn]. rewrite <- app_assoc. f_equal.
    rewrite (repeat_first (107 - length p)) by lia.
    cbn [firstn app]. f_equal. f_equal. unfold SUN_PATH. lia.
  - unfold with_path, named, kernel_name. now rewrite F.
Qed.

Lemma set_file_bad decode u s : (forall p, ~ name_of decode 107 s p) ->
  exists e, set_file decode u s = (u, Throw e) /\ verify_path decode s false = Throw e.
Proof.
  intros H. unfold set_file.
  destruct (verify_throws decode s false H) as [E|[E _]]; rewrite E; eexists; split; reflexivity.
Qed.

Lemma set_abstract_bad decode u s : (forall p, ~ name_of decode 106 s p) ->
  exists e, set_abstract decode u s = (u, Throw e) /\ verify_path decode s true = Throw e.
Proof.
  intros H. unfold set_abstract.
  destruct (verify_throws decode s true H) as [E|[E _]]; rewrite E; eexists; split; reflexivity.
Qed.

Lemma name_dec decode abstract s :
  (exists p, name_of decode (max_of abstract) s p) \/ (forall p, ~ name_of decode (max_of abstract) s p).
Proof.
  destruct (verify_path decode s abstract) as [p|e| |] eqn:E;
    try (right; intros p H; apply verify_ok in H; congruence).
  left. exists p. now apply verify_ok.
Qed.

(* What every object looks like. *)

Definition inv (decode : str -> option (list Z)) (u : addr_unix) : Prop :=
  exists n, good_name decode n /\ u_address u = kernel_name n.

Lemma kernel_length decode n : good_name decode n -> length (sun_path (kernel_name n)) = 108%nat.
Proof.
  destruct n as [|p|p]; intros G; cbn [kernel_name sun_path length].
  - apply repeat_length.
  - destruct G as (_ & M & _). rewrite app_length, repeat_length. lia.
  - destruct G as (_ & M & _). rewrite app_length, repeat_length. lia.
Qed.

Lemma inv_proper decode u : inv decode u -> proper u.
Proof.
  intros (n & G & E). split; rewrite E; [reflexivity|]. now apply (kernel_length decode).
Qed.

Lemma inv_named decode u n : good_name decode n -> inv decode (named u n).
Proof. intros G. exists n. now split. Qed.

Lemma good_file decode s p : name_of decode 107 s p -> good_name decode (File p).
Proof. exact (name_idem decode 107 s p). Qed.
Lemma good_abstract decode s p : name_of decode 106 s p -> good_name decode (Abstract p).
Proof. exact (name_idem decode 106 s p). Qed.

Lemma make_unnamed_named u : proper u -> make_unnamed u = named u Unnamed.
Proof. intros [F _]. unfold make_unnamed, with_path, named, kernel_name. now rewrite F. Qed.

(* An update: the object is as before after an exception; otherwise it has a
   good name and everything else is as before. *)
Definition updates (decode : str -> option (list Z)) (u : addr_unix) (x : addr_unix * res unit) : Prop :=
  (exists e, x = (u, Throw e)) \/ (exists n, good_name decode n /\ x = (named u n, Ok tt)).

Lemma set_file_updates decode u s : proper u -> updates decode u (set_file decode u s).
Proof.
  intros P. destruct (name_dec decode false s) as [[p N]|N].
  - right. exists (File p). split; [exact (good_file decode s p N)|]. now apply set_file_ok.
  - left. destruct (set_file_bad decode u s N) as (e & E & _). now exists e.
Qed.

Lemma set_abstract_updates decode u s : keeps_ascii decode -> proper u -> updates decode u (set_abstract decode u s).
Proof.
  intros K P. destruct (name_dec decode true s) as [[p N]|N].
  - right. exists (Abstract p). split; [exact (good_abstract decode s p N)|]. now apply set_abstract_ok.
  - left. destruct (set_abstract_bad decode u s N) as (e & E & _). now exists e.
Qed.

Lemma make_unnamed_updates decode u : proper u -> updates decode u (make_unnamed u, Ok tt).
Proof. intros P. right. exists Unnamed. split; [exact I|]. now rewrite make_unnamed_named. Qed.

Lemma set_un_updates decode u un : keeps_ascii decode -> proper u -> updates decode u (set_un decode u un).
Proof.
  intros K P. unfold set_un.
  destruct (negb (sun_family un =? AF_UNIX)); [left; now eexists|].
  destruct (negb (nth 0 (sun_path un) 0 =? 0)).
  - destruct (length (before_nul (sun_path un)) =? SUN_PATH)%nat; [left; now eexists|].
    now apply set_file_updates.
  - destruct (negb (nth 1 (sun_path un) 0 =? 0)).
    + destruct (length (before_nul (skipn 1 (sun_path un))) =? SUN_PATH - 1)%nat; [left; now eexists|].
      now apply set_abstract_updates.
    + now apply make_unnamed_updates.
Qed.

Lemma unix_new_proper : proper unix_new.
Proof. now split. Qed.

Lemma set_uri_updates decode u s : keeps_ascii decode -> proper u ->
  (exists e, set_uri decode u s = (u, Throw e)) \/
  (exists n scheme, good_name decode n /\ set_uri decode u s = (set_scheme (named u n) scheme, Ok tt)).
Proof.
  intros K P. unfold set_uri.
  destruct (find_at 58 s) as [k|]; [|left; now eexists].
  cbn zeta. destruct (firstn k s) as [|c t] eqn:SC; [left; now eexists|].
  rewrite <- SC. destruct (negb (scheme_ok (firstn k s) true)); [left; now eexists|].
  destruct (match find_at 63 (skipn (k + 1) s) with
            | None => (skipn (k + 1) s, [])
            | Some q => (firstn q (skipn (k + 1) s), skipn (q + 1) (skipn (k + 1) s))
            end) as [address query].
  match goal with |- context [let '(u1, r) := ?m in _] => set (body := m) end.
  assert (U : updates decode u body).
  { unfold body. destruct query as [|q0 q].
    - destruct address; [now apply make_unnamed_updates|now apply set_file_updates].
    - destruct (str_eqb (q0 :: q) (lit "unnamed")).
      + destruct address; [now apply make_unnamed_updates|left; now eexists].
      + destruct (str_eqb (q0 :: q) (lit "file")); [now apply set_file_updates|].
        destruct (str_eqb (q0 :: q) (lit "abstract")); [now apply set_abstract_updates|left; now eexists]. }
  destruct U as [[e ->]|(n & G & ->)].
  - left. now exists e.
  - right. exists n, (firstn k s). now split.
Qed.

Lemma inv_same decode u v : u_address u = u_address v -> inv decode v -> inv decode u.
Proof. intros E (n & G & H). exists n. split; [assumption|congruence]. Qed.

Lemma updates_inv decode u x : inv decode u -> updates decode u x -> inv decode (fst x).
Proof.
  intros I [[e ->]|(n & G & ->)]; [exact I|]. now apply inv_named.
Qed.

Lemma reachable_inv decode u : keeps_ascii decode -> unix_reachable decode u -> inv decode u.
Proof.
  intros K. assert (I0 : inv decode unix_new) by (exists Unnamed; now split).
  induction 1 as [|un u L E|s a u E|u op R IH P].
  - exact I0.
  - unfold unix_from_un in E.
    pose proof (updates_inv decode unix_new _ I0 (set_un_updates decode unix_new un K unix_new_proper)) as I1.
    destruct (set_un decode unix_new un) as [v [[]|e| |]]; try discriminate.
    cbn [fst] in I1. congruence.
  - unfold unix_from_string in E. destruct a.
    + pose proof (updates_inv decode unix_new _ I0 (set_abstract_updates decode unix_new s K unix_new_proper)) as I1.
      destruct (set_abstract decode unix_new s) as [v [[]|e| |]]; try discriminate.
      cbn [fst] in I1. congruence.
    + destruct s as [|c s]; [congruence|].
      pose proof (updates_inv decode unix_new _ I0 (set_file_updates decode unix_new (c :: s) unix_new_proper)) as I1.
      destruct (set_file decode unix_new (c :: s)) as [v [[]|e| |]]; try discriminate.
      cbn [fst] in I1. congruence.
  - pose proof (inv_proper decode u IH) as PR.
    destruct op; cbn [unix_step].
    + exact IH.
    + exact (updates_inv decode u _ IH (set_un_updates decode u un K PR)).
    + rewrite make_unnamed_named by assumption. now apply inv_named.
    + exact (updates_inv decode u _ IH (set_file_updates decode u file PR)).
    + exact IH.
    + exact IH.
    + exact (updates_inv decode u _ IH (set_abstract_updates decode u abstract K PR)).
    + destruct (set_uri_updates decode u uri K PR) as [[e ->]|(n & sc & G & ->)]; [exact IH|].
      exact (inv_named decode u n G).
    + unfold set_from_socket. destruct name as [[f path]|]; [|exact IH].
      destruct (negb (f =? AF_UNIX)); [exact IH|].
      match goal with |- context [set_un decode u ?x] =>
        pose proof (updates_inv decode u _ IH (set_un_updates decode u x K PR)) as I1;
        destruct (set_un decode u x) as [v [[]|e| |]] end; exact I1.
Qed.

(* What is seen of an object with a good name. *)

Lemma first_byte decode m p : keeps_ascii decode -> name_of decode m p p ->
  exists c r, p = c :: r /\ c <> 0.
Proof.
  intros K N. pose proof (name_no_nul decode m p p K N) as Z0. destruct N as (C & _).
  pose proof (canonical_nonempty p p C) as E. destruct p as [|c r]; [congruence|].
  exists c, r. split; [reflexivity|]. intros ->. apply Z0. now left.
Qed.

Lemma good_has_name decode u n : keeps_ascii decode -> good_name decode n ->
  u_address u = kernel_name n -> has_name u n.
Proof.
  intros K G E. unfold has_name, is_unnamed, is_file, is_abstract, to_string, is_abstract. rewrite E.
  destruct n as [|p|p]; cbn [kernel_name sun_path].
  - repeat split.
  - destruct (first_byte decode 107 p K G) as (c & r & X & D).
    pose proof (name_no_nul decode 107 p p K G) as Z0. destruct G as (_ & M & _).
    replace (nth 0 (p ++ repeat 0 (108 - length p)) 0) with c by (now rewrite X).
    replace (c =? 0) with false by lia. cbn [andb negb].
    repeat split. rewrite repeat_first by lia. now apply c_string_app.
  - destruct (first_byte decode 106 p K G) as (c & r & X & D).
    pose proof (name_no_nul decode 106 p p K G) as Z0. destruct G as (_ & M & _).
    cbn [nth skipn].
    replace (nth 0 (p ++ repeat 0 (107 - length p)) 0) with c by (now rewrite X).
    replace (c =? 0) with false by lia. cbn [andb negb Z.eqb].
    repeat split. rewrite repeat_first by lia. now apply c_string_app.
Qed.

Lemma has_name_unique u n m : has_name u n -> has_name u m -> n = m.
Proof.
  destruct n, m; cbn; intros A B; repeat match goal with H : _ /\ _ |- _ => destruct H end; congruence.
Qed.
