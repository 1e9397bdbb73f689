(* The Unix address holds what its history tells. *)
From Coq Require Import Lia ZifyBool ZifyNat.
From Verif Require Import Base Unix SpecUnix SpecUnixHistory UnixProofs UnixProofs2.
Local Open Scope Z_scope.

Lemma unix_lived_reachable decode h u : unix_lived decode h u -> unix_reachable decode u.
Proof. induction 1; [constructor|]. now apply reach_step. Qed.

Lemma structure_good decode path n : structure_names decode path n -> good_name decode n.
Proof. intros [r E|s r p _ _ _ N|s r p _ _ _ N]; [exact I|exact (good_file _ _ _ N)|exact (good_abstract _ _ _ N)]. Qed.

Lemma set_un_names decode u path n : keeps_ascii decode -> proper u -> length path = 108%nat ->
  structure_names decode path n -> set_un decode u (mk_un 1 path) = (named u n, Ok tt).
Proof.
  intros K P L [r E|s r p A B E N|s r p A B E N].
  - subst. unfold set_un. cbn. now rewrite make_unnamed_named.
  - rewrite (set_un_file decode u (mk_un 1 path) s r) by auto. now apply set_file_ok.
  - rewrite (set_un_abstract decode u (mk_un 1 path) s r) by auto. now apply set_abstract_ok.
Qed.

(* the bytes in front of the first zero *)
Lemma split_nul (l : list Z) : ~ In 0 l \/ exists s r, l = s ++ 0 :: r /\ ~ In 0 s.
Proof.
  induction l as [|c l [IH|(s & r & -> & IH)]]; [left; intros []| |].
  - destruct (Z.eq_dec c 0) as [->|D]; [right; exists [], l; split; [reflexivity|intros []]|].
    left. intros [E|E]; auto.
  - destruct (Z.eq_dec c 0) as [->|D]; [right; exists [], (s ++ 0 :: r); split; [reflexivity|intros []]|].
    right. exists (c :: s), r. split; [reflexivity|]. intros [E|E]; auto.
Qed.

Lemma set_un_not decode u path : keeps_ascii decode -> proper u -> length path = 108%nat ->
  (forall n, ~ structure_names decode path n) -> exists e, set_un decode u (mk_un 1 path) = (u, Throw e).
Proof.
  intros K P L H. unfold set_un. cbn [sun_family sun_path Z.eqb AF_UNIX negb].
  destruct path as [|c [|d rest]]; [discriminate..|]. cbn [nth skipn].
  destruct (Z.eqb_spec c 0) as [->|D]; cbn [negb].
  - destruct (Z.eqb_spec d 0) as [->|D]; cbn [negb]; [elim (H Unnamed); now econstructor|].
    destruct (split_nul (d :: rest)) as [N|(s & r & E & N)].
    + rewrite before_nul_none by exact N. cbn [length] in L. replace (length (d :: rest) =? SUN_PATH - 1)%nat with true; [now eexists|].
      symmetry. apply Nat.eqb_eq. cbn [length]. unfold SUN_PATH. lia.
    + rewrite E, before_nul_app by exact N. destruct (length s =? SUN_PATH - 1)%nat; [now eexists|].
      destruct (set_abstract_bad decode u s) as (e & X & _); [|now exists e].
      intros p Q. apply (H (Abstract p)). apply (holds_abstract decode _ s r p); auto; [|now rewrite E].
      intros ->. cbn in E. congruence.
  - destruct (split_nul (c :: d :: rest)) as [N|(s & r & E & N)].
    + rewrite before_nul_none by exact N. rewrite L. now eexists.
    + rewrite E, before_nul_app by exact N. destruct (length s =? SUN_PATH)%nat; [now eexists|].
      destruct (set_file_bad decode u s) as (e & X & _); [|now exists e].
      intros p Q. apply (H (File p)). apply (holds_file decode _ s r p); auto.
      intros ->. cbn in E. congruence.
Qed.

Lemma socket_path path : length (firstn 108 (path ++ repeat 0 108)) = 108%nat.
Proof. rewrite firstn_length, app_length, repeat_length. lia. Qed.

(* [step_name]: a call gives its name or leaves the name alone *)
Lemma step_named decode u op n : keeps_ascii decode -> proper u -> proper_op op -> gives_name decode op n ->
  good_name decode n /\ u_address (unix_step decode u op) = kernel_name n.
Proof.
  intros K P O G. destruct G as [|s p N|s p N|t sc n N|un n F N|path n N]; cbn [unix_step].
  - split; [exact I|]. now rewrite make_unnamed_named.
  - split; [exact (good_file _ _ _ N)|]. now rewrite (set_file_ok decode u s p P N).
  - split; [exact (good_abstract _ _ _ N)|]. now rewrite (set_abstract_ok decode u s p K P N).
  - pose proof (names_set_uri decode u t sc n K P N) as E. rewrite E.
    destruct (set_uri_names decode u t _ K P E) as (sc1 & n1 & U & G & X).
    split; [|reflexivity]. destruct N as [? ? ? ?|? ? ? ? ? ? N ?|? ? ? ? ? N]; [exact I|exact (good_file _ _ _ N)|exact (good_abstract _ _ _ N)].
  - split; [exact (structure_good _ _ _ N)|]. destruct un as [f path]. cbn [sun_family sun_path proper_op] in *. subst f.
    now rewrite (set_un_names decode u path n K P O N).
  - split; [exact (structure_good _ _ _ N)|]. unfold set_from_socket. cbn [Z.eqb AF_UNIX negb].
    change SUN_PATH with 108%nat. now rewrite (set_un_names decode u _ n K P (socket_path path) N).
Qed.

Lemma step_unnamed decode u op : keeps_ascii decode -> proper u -> proper_op op -> (forall n, ~ gives_name decode op n) ->
  u_address (unix_step decode u op) = u_address u.
Proof.
  intros K P O H. destruct op as [s|un| |s|m|g|s|t|[[f path]|]]; cbn [unix_step proper_op] in *; try reflexivity.
  - destruct (Z.eq_dec (sun_family un) 1) as [F|F].
    + destruct un as [f path]. cbn [sun_family sun_path] in *. subst f.
      destruct (set_un_not decode u path K P O) as [e E]; [|now rewrite E].
      intros n N. apply (H n). now constructor.
    + unfold set_un. replace (sun_family un =? AF_UNIX) with false by (unfold AF_UNIX; lia). reflexivity.
  - elim (H Unnamed). constructor.
  - destruct (set_file_bad decode u s) as (e & E & _); [|now rewrite E]. intros p N. apply (H (File p)). now constructor.
  - destruct (set_abstract_bad decode u s) as (e & E & _); [|now rewrite E]. intros p N. apply (H (Abstract p)). now constructor.
  - destruct (set_uri_updates decode u t K P) as [[e E]|(n & sc & G & E)]; [now rewrite E|].
    destruct (set_uri_names decode u t _ K P E) as (sc1 & n1 & U & _). elim (H n1). econstructor. exact U.
  - unfold set_from_socket. destruct (Z.eqb_spec f AF_UNIX) as [->|D]; cbn [negb]; [|reflexivity].
    change SUN_PATH with 108%nat. cbn zeta.
    destruct (set_un_not decode u _ K P (socket_path path)) as [e E]; [|unfold AF_UNIX; now rewrite E].
    intros n N. apply (H n). now constructor.
Qed.

Lemma structure_dec decode l : length l = 108%nat ->
  (exists n, structure_names decode l n) \/ (forall n, ~ structure_names decode l n).
Proof.
  intros L.
  destruct l as [|c [|d rest]]; [discriminate..|].
  destruct (Z.eq_dec c 0) as [->|C]; [destruct (Z.eq_dec d 0) as [->|D]|].
  - left. exists Unnamed. now econstructor.
  - destruct (split_nul (d :: rest)) as [N|(s & r & X & N)].
    + right. intros n [r E|s r p A B E Q|s r p A B E Q]; [congruence| |].
      * destruct s; [congruence|]. injection E as E1 _. subst. apply B. now left.
      * injection E as E. apply N. rewrite E. apply in_or_app. right. now left.
    + assert (SN : s <> []) by (intros ->; cbn in X; congruence).
      destruct (name_dec decode true s) as [[p Q]|Q].
      * left. exists (Abstract p). apply (holds_abstract decode _ s r p); auto. now rewrite X.
      * right. intros n [r' E|s' r' p A B E Q'|s' r' p A B E Q']; [congruence| |].
        -- destruct s'; [congruence|]. injection E as E1 _. subst. apply B. now left.
        -- injection E as E. rewrite X in E. apply (Q p).
           replace s with s'; [exact Q'|].
           assert (F : before_nul (s ++ 0 :: r) = before_nul (s' ++ 0 :: r')) by congruence.
           rewrite !before_nul_app in F by assumption. congruence.
  - destruct (split_nul (c :: d :: rest)) as [N|(s & r & X & N)].
    + right. intros n [r E|s r p A B E Q|s r p A B E Q]; [congruence| |congruence].
      apply N. rewrite E. apply in_or_app. right. now left.
    + assert (SN : s <> []) by (intros ->; cbn in X; congruence).
      destruct (name_dec decode false s) as [[p Q]|Q].
      * left. exists (File p). apply (holds_file decode _ s r p); auto.
      * right. intros n [r' E|s' r' p A B E Q'|s' r' p A B E Q']; [congruence| |congruence].
        rewrite X in E. apply (Q p).
        replace s with s'; [exact Q'|].
        assert (F : before_nul (s ++ 0 :: r) = before_nul (s' ++ 0 :: r')) by congruence.
        rewrite !before_nul_app in F by assumption. congruence.
Qed.

Lemma gives_name_dec decode op : keeps_ascii decode -> proper_op op ->
  (exists n, gives_name decode op n) \/ (forall n, ~ gives_name decode op n).
Proof.
  intros K O. destruct op as [s|un| |s|m|g|s|t|[[f path]|]]; cbn [proper_op] in *;
    try (right; intros n H; inversion H; fail).
  - destruct (Z.eq_dec (sun_family un) 1) as [F|F]; [|right; intros n H; inversion H; congruence].
    destruct (structure_dec decode (sun_path un) O) as [[n N]|N]; [left; exists n; now constructor|right].
    intros n H. inversion H; subst. eapply N; eauto.
  - left. exists Unnamed. constructor.
  - destruct (name_dec decode false s) as [[p Q]|Q]; [left; exists (File p); now constructor|right].
    intros n H. inversion H; subst. eapply Q; eauto.
  - destruct (name_dec decode true s) as [[p Q]|Q]; [left; exists (Abstract p); now constructor|right].
    intros n H. inversion H; subst. eapply Q; eauto.
  - destruct (set_uri_updates decode unix_new t K unix_new_proper) as [[e E]|(n & sc & G & E)].
    + right. intros n H. inversion H as [| | |t' sc n' U| |]; subst. rewrite (names_set_uri decode unix_new t sc n K unix_new_proper U) in E. discriminate.
    + left. destruct (set_uri_names decode unix_new t _ K unix_new_proper E) as (sc1 & n1 & U & _). exists n1. econstructor. exact U.
  - destruct (Z.eq_dec f 1) as [->|F]; [|right; intros n H; inversion H; congruence].
    destruct (structure_dec decode _ (socket_path path)) as [[n N]|N]; [left; exists n; now constructor|right].
    intros n H. inversion H; subst. eapply N; eauto.
Qed.

Lemma uri_dec decode t : keeps_ascii decode ->
  (exists sc n, uri_names decode t sc n) \/ (forall sc n, ~ uri_names decode t sc n).
Proof.
  intros K. destruct (set_uri_updates decode unix_new t K unix_new_proper) as [[e E]|(n & sc & G & E)].
  - right. intros sc n U. rewrite (names_set_uri decode unix_new t sc n K unix_new_proper U) in E. discriminate.
  - left. destruct (set_uri_names decode unix_new t _ K unix_new_proper E) as (sc1 & n1 & U & _). eauto.
Qed.

Lemma step_scheme decode u op : keeps_ascii decode -> proper u ->
  (forall s, gives_scheme decode op s -> get_scheme (unix_step decode u op) = s) /\
  ((forall s, ~ gives_scheme decode op s) -> get_scheme (unix_step decode u op) = get_scheme u) /\
  ((exists s, gives_scheme decode op s) \/ (forall s, ~ gives_scheme decode op s)).
Proof.
  intros K P. destruct op as [s|un| |s|m|g|s|t|name].
  - split; [|split].
    + intros s' H. inversion H; subst; [now apply get_scheme_set|reflexivity].
    + intros H. destruct s as [|c s]; [elim (H (lit "unix")); constructor|]. elim (H (c :: s)). constructor. discriminate.
    + left. destruct s as [|c s]; eexists; [apply by_no_scheme|]. apply by_scheme. discriminate.
  - split; [|split]; [intros s H; inversion H| |right; intros s H; inversion H].
    intros _. cbn [unix_step]. destruct (set_un_updates decode u un K P) as [[e ->]|(n & _ & ->)]; reflexivity.
  - split; [|split]; [intros s H; inversion H|reflexivity|right; intros s H; inversion H].
  - split; [|split]; [intros s' H; inversion H| |right; intros s' H; inversion H].
    intros _. cbn [unix_step]. destruct (set_file_updates decode u s P) as [[e ->]|(n & _ & ->)]; reflexivity.
  - split; [|split]; [intros s H; inversion H|reflexivity|right; intros s H; inversion H].
  - split; [|split]; [intros s H; inversion H|reflexivity|right; intros s H; inversion H].
  - split; [|split]; [intros s' H; inversion H| |right; intros s' H; inversion H].
    intros _. cbn [unix_step]. destruct (set_abstract_updates decode u s K P) as [[e ->]|(n & _ & ->)]; reflexivity.
  - split; [|split].
    + intros s H. inversion H as [| |t' s' n U]; subst. cbn [unix_step]. rewrite (names_set_uri decode u t s n K P U). cbn [fst].
      apply get_scheme_set. destruct U as [? ? US _|? ? ? ? US _ _ _|? ? ? US _ _]; now destruct (uri_scheme_ok _ US) as (_ & X & _).
    + intros H. cbn [unix_step]. destruct (set_uri_updates decode u t K P) as [[e E]|(n & sc & G & E)]; [now rewrite E|].
      destruct (set_uri_names decode u t _ K P E) as (sc1 & n1 & U & _). elim (H sc1). econstructor. exact U.
    + destruct (uri_dec decode t K) as [(sc & n & U)|N]; [left; exists sc; econstructor; exact U|right].
      intros s H. inversion H; subst. eapply N; eauto.
  - split; [|split]; [intros s H; inversion H| |right; intros s H; inversion H].
    intros _. cbn [unix_step]. unfold set_from_socket. destruct name as [[f path]|]; [|reflexivity].
    destruct (negb (f =? AF_UNIX)); [reflexivity|]. cbn zeta.
    match goal with |- context [set_un decode u ?x] => destruct (set_un_updates decode u x K P) as [[e ->]|(n & _ & ->)] end; reflexivity.
Qed.

(* mode and group *)
Lemma step_others decode u op : keeps_ascii decode -> proper u ->
  ((exists m, op = U_set_mode m) \/ get_mode (unix_step decode u op) = get_mode u) /\
  ((exists g, op = U_set_group g) \/ get_group (unix_step decode u op) = get_group u).
Proof.
  intros K P. destruct op as [s|un| |s|m|g|s|t|name]; cbn [unix_step]; eauto.
  - destruct (set_un_updates decode u un K P) as [[e ->]|(n & _ & ->)]; auto.
  - destruct (set_file_updates decode u s P) as [[e ->]|(n & _ & ->)]; auto.
  - destruct (set_abstract_updates decode u s K P) as [[e ->]|(n & _ & ->)]; auto.
  - destruct (set_uri_updates decode u t K P) as [[e ->]|(n & sc & _ & ->)]; auto.
  - unfold set_from_socket. destruct name as [[f path]|]; auto.
    destruct (negb (f =? AF_UNIX)); auto. cbn zeta.
    match goal with |- context [set_un decode u ?x] => destruct (set_un_updates decode u x K P) as [[e ->]|(n & _ & ->)] end; auto.
Qed.

Lemma told_name decode h u : keeps_ascii decode -> unix_lived decode h u ->
  (forall n, last_given (gives_name decode) Unnamed h n -> good_name decode n /\ u_address u = kernel_name n) /\
  (exists n, last_given (gives_name decode) Unnamed h n).
Proof.
  intros K L. induction L as [|h u op L (IH1 & n0 & IH2) O].
  - split; [|exists Unnamed; constructor]. intros n H. inversion H; subst. now split.
  - pose proof (inv_proper decode u (reachable_inv decode u K (unix_lived_reachable decode h u L))) as P. split.
    + intros n H. inversion H as [|? ? ? G|? ? ? N G]; subst; [now apply step_named|].
      rewrite step_unnamed by assumption. now apply IH1.
    + destruct (gives_name_dec decode op K O) as [[n G]|N]; [exists n; now constructor|exists n0; now constructor].
Qed.

Lemma told_scheme decode h u : keeps_ascii decode -> unix_lived decode h u ->
  (forall s, last_given (gives_scheme decode) (lit "unix") h s -> get_scheme u = s) /\
  (exists s, last_given (gives_scheme decode) (lit "unix") h s).
Proof.
  intros K L. induction L as [|h u op L (IH1 & s0 & IH2) O].
  - split; [|eexists; constructor]. intros n H. inversion H; subst. reflexivity.
  - pose proof (inv_proper decode u (reachable_inv decode u K (unix_lived_reachable decode h u L))) as P.
    destruct (step_scheme decode u op K P) as (S1 & S2 & S3). split.
    + intros s H. inversion H as [|? ? ? G|? ? ? N G]; subst; [now apply S1|]. rewrite S2 by assumption. now apply IH1.
    + destruct S3 as [[s G]|N]; [exists s; now constructor|exists s0; now constructor].
Qed.

Lemma told_mode decode h u : keeps_ascii decode -> unix_lived decode h u ->
  (forall m, last_given gives_mode 384 h m -> get_mode u = m) /\ (exists m, last_given gives_mode 384 h m).
Proof.
  intros K L. induction L as [|h u op L (IH1 & s0 & IH2) O].
  - split; [|eexists; constructor]. intros n H. inversion H; subst. reflexivity.
  - pose proof (inv_proper decode u (reachable_inv decode u K (unix_lived_reachable decode h u L))) as P.
    destruct (step_others decode u op K P) as [S _]. split.
    + intros m H. inversion H as [|? ? ? G|? ? ? N G]; subst; [inversion G; subst; reflexivity|].
      destruct S as [[m' ->]|S]; [elim (N m'); constructor|]. rewrite S. now apply IH1.
    + assert (D : (exists m, gives_mode op m) \/ forall m, ~ gives_mode op m).
      { destruct op; try (right; intros m H; inversion H; fail). left. eexists. constructor. }
      destruct D as [[m G]|N]; [exists m; now constructor|exists s0; now constructor].
Qed.

Lemma told_group decode h u : keeps_ascii decode -> unix_lived decode h u ->
  (forall m, last_given gives_group [] h m -> get_group u = m) /\ (exists m, last_given gives_group [] h m).
Proof.
  intros K L. induction L as [|h u op L (IH1 & s0 & IH2) O].
  - split; [|eexists; constructor]. intros n H. inversion H; subst. reflexivity.
  - pose proof (inv_proper decode u (reachable_inv decode u K (unix_lived_reachable decode h u L))) as P.
    destruct (step_others decode u op K P) as [_ S]. split.
    + intros m H. inversion H as [|? ? ? G|? ? ? N G]; subst; [inversion G; subst; reflexivity|].
      destruct S as [[m' ->]|S]; [elim (N m'); constructor|]. rewrite S. now apply IH1.
    + assert (D : (exists m, gives_group op m) \/ forall m, ~ gives_group op m).
      { destruct op; try (right; intros m H; inversion H; fail). left. eexists. constructor. }
      destruct D as [[m G]|N]; [exists m; now constructor|exists s0; now constructor].
Qed.
