(* C170: which exceptions the functions of addr_unix throw. *)
From Verif Require Import Base Unix SpecUnix.
From Verif Require UnixProofs PropUnix.
Import UnixProofs.
Local Open Scope Z_scope.

(* ---------- specification ---------- *)
(* What the caller of an operation sees. *)
Definition unix_outcome (decode : str -> option (list Z)) (u : addr_unix) (op : unix_op) : res unit :=
  match op with
  | U_set_un un => snd (set_un decode u un)
  | U_set_file f => snd (set_file decode u f)
  | U_set_abstract s => snd (set_abstract decode u s)
  | U_set_uri s => snd (set_uri decode u s)
  | U_set_from_socket n => let! _ := snd (set_from_socket decode u n) in Ok tt
  | U_set_scheme _ | U_make_unnamed | U_set_mode _ | U_set_group _ => Ok tt
  end.
(* The exception is addr_invalid_argument or the one of the decoder, for a
   text it cannot decode. *)
Definition bad_name (decode : str -> option (list Z)) (e : exn) : Prop :=
  e = E_invalid_argument \/ (e = E_std /\ exists p, decode p = None).

(* ---------- proofs ---------- *)
Lemma written u dst k src f e : (forall q, snd (f q) <> Throw e) -> snd (and_then u (write_at dst k src) f) <> Throw e.
Proof. intros F. unfold write_at. destruct (_ <=? _)%nat; cbn [and_then snd]; [apply F|discriminate]. Qed.
Lemma file_throw decode u s e : snd (set_file decode u s) = Throw e -> bad_name decode e.
Proof.
  intros X. unfold set_file in X. destruct (name_dec decode false s) as [[p N]|N].
  - apply verify_ok in N. rewrite N in X. cbn [and_then] in X. exfalso. revert X.
    apply written. intros q1. destruct (_ <? _)%nat; [|discriminate]. apply written. discriminate.
  - destruct (verify_throws decode s false N) as [V|[V (p & D & _)]]; rewrite V in X; cbn [and_then snd] in X; injection X as <-.
    + now left. + right. eauto.
Qed.
Lemma abstract_throw decode u s e : snd (set_abstract decode u s) = Throw e -> bad_name decode e.
Proof.
  intros X. unfold set_abstract in X. destruct (name_dec decode true s) as [[p N]|N].
  - apply verify_ok in N. rewrite N in X. cbn [and_then] in X. exfalso. revert X. unfold strncpy_at.
    apply written. intros q1. apply written. intros q2. destruct (_ <? _)%nat; [|discriminate]. apply written. discriminate.
  - destruct (verify_throws decode s true N) as [V|[V (p & D & _)]]; rewrite V in X; cbn [and_then snd] in X; injection X as <-.
    + now left. + right. eauto.
Qed.
Lemma un_throw decode u un e : snd (set_un decode u un) = Throw e ->
  (e = E_invalid_structure /\ sun_family un <> AF_UNIX) \/ (sun_family un = AF_UNIX /\ bad_name decode e).
Proof.
  unfold set_un. destruct (Z.eqb_spec (sun_family un) AF_UNIX) as [F|F]; cbn [negb].
  2:{ cbn [snd]. intros X. injection X as <-. now left. }
  intros X. right. split; [exact F|]. cbv zeta in X.
  destruct (negb _); [|destruct (negb _)].
  - destruct (_ =? _)%nat; [cbn [snd] in X; injection X as <-; now left|]. now apply file_throw in X.
  - destruct (_ =? _)%nat; [cbn [snd] in X; injection X as <-; now left|]. now apply abstract_throw in X.
  - discriminate.
Qed.

(* addr_invalid_structure says that the structure given to set_un() is of
   another family, and nothing else throws it. Any other exception is
   addr_invalid_argument or that of the decoder. *)
Theorem C170_unix : forall decode u op e, unix_outcome decode u op = Throw e ->
  (e = E_invalid_structure /\ exists un, op = U_set_un un /\ sun_family un <> AF_UNIX) \/ bad_name decode e.
Proof.
  intros decode u op e. destruct op; cbn [unix_outcome]; try discriminate.
  - intros X. destruct (un_throw _ _ _ _ X) as [[A B]|[_ B]]; [left; eauto|now right].
  - intros X. right. now apply file_throw in X.
  - intros X. right. now apply abstract_throw in X.
  - intros X. right. unfold set_uri in X.
    destruct (find_at 58 uri) as [k|]; [|cbn [snd] in X; injection X as <-; now left]. cbv zeta in X.
    destruct (firstn k uri) as [|c t] eqn:SC; [cbn [snd] in X; injection X as <-; now left|]. rewrite <- SC in X.
    destruct (negb _); [cbn [snd] in X; injection X as <-; now left|].
    destruct (match find_at 63 (skipn (k + 1) uri) with
              | None => (skipn (k + 1) uri, [])
              | Some q => (firstn q (skipn (k + 1) uri), skipn (q + 1) (skipn (k + 1) uri)) end) as [address query].
    match type of X with context [let '(_, _) := ?m in _] => set (r := m) in X end.
    assert (snd r = Throw e) as K by (destruct r as [u1 [[]|x| |]]; cbn [snd] in *; congruence).
    clear X. subst r. destruct query as [|c0 q0].
    { destruct address; [discriminate|]. now apply file_throw in K. }
    destruct (str_eqb _ _); [destruct address; cbn [snd] in K; [discriminate|injection K as <-; now left]|].
    destruct (str_eqb _ _); [now apply file_throw in K|]. destruct (str_eqb _ _); [now apply abstract_throw in K|].
    cbn [snd] in K. injection K as <-. now left.
  - intros X. right. unfold set_from_socket in X. destruct name as [[family path]|]; [|discriminate].
    destruct (Z.eqb_spec family AF_UNIX) as [F|F]; cbn [negb] in X; [|discriminate]. cbv zeta in X.
    match type of X with context [set_un decode u ?w] => pose proof (un_throw decode u w e) as K;
      destruct (set_un decode u w) as [u1 [[]|x| |]]; cbn [snd rbind] in *; try discriminate end.
    assert (x = e) as -> by congruence. destruct (K eq_refl) as [[_ N]|[_ B]]; [|exact B]. now elim N.
Qed.
Print Assumptions C170_unix.
(* The other direction for the family. *)
Theorem C170_family : forall decode u un, sun_family un <> AF_UNIX ->
  unix_outcome decode u (U_set_un un) = Throw E_invalid_structure.
Proof.
  intros decode u un F. cbn [unix_outcome]. unfold set_un.
  destruct (Z.eqb_spec (sun_family un) AF_UNIX); [contradiction|reflexivity].
Qed.
Print Assumptions C170_family.
(* set_un() says that it throws addr_invalid_argument when the structure is not
   of the family AF_UNIX: it is another exception. *)
Theorem C170_documented_refuted : exists decode u un, keeps_ascii decode /\ unix_reachable decode u
  /\ length (sun_path un) = 108%nat /\ sun_family un <> AF_UNIX
  /\ unix_outcome decode u (U_set_un un) <> Throw E_invalid_argument.
Proof.
  exists utf8, unix_new, (mk_un 2 (repeat 0 108)). split; [apply PropUnix.utf8_is_a_decoder|]. split; [apply reach_new|].
  split; [reflexivity|]. split; [discriminate|]. rewrite C170_family by discriminate. discriminate.
Qed.
Print Assumptions C170_documented_refuted.
Example C170_unix_case :
  unix_outcome utf8 unix_new (U_set_file (lit "/run/" ++ [255])) = Throw E_std
  /\ unix_outcome utf8 unix_new (U_set_file (lit "//")) = Throw E_invalid_argument
  /\ unix_outcome utf8 unix_new (U_set_uri (lit "unix:/a?what")) = Throw E_invalid_argument
  /\ unix_outcome utf8 unix_new (U_set_from_socket (Some (2, lit "/a"))) = Ok tt
  /\ unix_outcome utf8 unix_new (U_set_uri (lit "unix:/a")) = Ok tt.
Proof. repeat split; vm_compute; reflexivity. Qed.
