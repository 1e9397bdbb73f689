(* Properties C52-C56 and C80-C83: Unix addresses. *)
From Coq Require Import Lia ZifyBool ZifyNat.
From Verif Require Import Base Unix SpecUnix.
From Verif Require UnixProofs UnixProofs2.
Import UnixProofs UnixProofs2.
Local Open Scope Z_scope.

(* The premise about the decoder is met by a UTF-8 decoder. *)
Theorem utf8_is_a_decoder : keeps_ascii utf8.
Proof. exact utf8_keeps_ascii. Qed.

(* Objects used as witnesses: one made unnamed, then named by set_file(), the
   mode changed, a bad path refused, ... *)
Definition history : list unix_op :=
  [U_set_file (lit "//run///app/sock/"); U_set_mode 432; U_set_file (lit "/"); U_set_scheme (lit "cu")].
Definition with_file : addr_unix := fold_left (unix_step utf8) history unix_new.
Definition with_abstract : addr_unix := fold_left (unix_step utf8) [U_set_abstract (lit "app//bus")] unix_new.

Lemma named_has_name decode w u n : keeps_ascii decode -> good_name decode n ->
  u_address w = u_address (named u n) -> has_name w n.
Proof. intros K G E. exact (good_has_name decode w n K G E). Qed.

Lemma history_reachable decode ops : Forall proper_op ops ->
  unix_reachable decode (fold_left (unix_step decode) ops unix_new).
Proof.
  assert (G : forall u, unix_reachable decode u -> Forall proper_op ops ->
    unix_reachable decode (fold_left (unix_step decode) ops u)).
  { induction ops as [|op ops IH]; intros u R F; [exact R|]. inversion F; subst. cbn. apply IH; [|assumption].
    now apply reach_step. }
  apply G. constructor.
Qed.
Lemma with_file_reachable : unix_reachable utf8 with_file.
Proof. apply history_reachable. repeat constructor. Qed.
Lemma with_abstract_reachable : unix_reachable utf8 with_abstract.
Proof. apply history_reachable. repeat constructor. Qed.

(* ---------- C52 ---------- *)
Theorem C52_one_kind : forall decode u, keeps_ascii decode -> unix_reachable decode u ->
  exists n, good_name decode n /\ has_name u n /\ get_un u = kernel_name n /\
    (forall m, has_name u m -> m = n) /\ (exists t, to_uri u = Ok t).
Proof.
  intros decode u K R. destruct (reachable_inv decode u K R) as (n & G & E).
  exists n. pose proof (good_has_name decode u n K G E) as H.
  repeat split; auto.
  - intros m M. exact (has_name_unique u m n M H).
  - eexists. exact (to_uri_is decode u n K G E).
Qed.
Print Assumptions C52_one_kind.
Example C52_satisfiable :
  unix_reachable utf8 with_file /\ has_name with_file (File (lit "/run/app/sock")) /\
  to_uri with_file = Ok (lit "cu:///run/app/sock") /\
  unix_reachable utf8 with_abstract /\ has_name with_abstract (Abstract (lit "app/bus")) /\
  to_uri with_abstract = Ok (lit "unix:app/bus?abstract").
Proof.
  split; [exact with_file_reachable|]. split; [vm_compute; repeat split|]. split; [vm_compute; reflexivity|].
  split; [exact with_abstract_reachable|]. split; [vm_compute; repeat split|]. vm_compute. reflexivity.
Qed.

(* ---------- C53 ---------- *)
(* The short form of a path is unique. *)
Theorem C53_canonical_unique : forall s p q, canonical s p -> canonical s q -> p = q.
Proof. exact canonical_unique. Qed.
Print Assumptions C53_canonical_unique.

(* A path which can be used as a name of this kind. *)
Theorem C53_set_file : forall decode u s p, keeps_ascii decode -> unix_reachable decode u ->
  name_of decode 107 s p ->
  exists v, set_file decode u s = (v, Ok tt) /\ has_name v (File p) /\ same_settings u v /\
    set_file decode v p = (v, Ok tt).
Proof.
  intros decode u s p K R N. pose proof (inv_proper decode u (reachable_inv decode u K R)) as P.
  exists (named u (File p)). split; [now apply set_file_ok|].
  pose proof (good_file decode s p N) as G.
  split; [exact (named_has_name decode _ _ (File p) K G eq_refl)|]. split; [now repeat split|].
  rewrite (set_file_ok decode (named u (File p)) p p); [reflexivity| |exact G].
  exact (inv_proper decode _ (inv_named decode u _ G)).
Qed.
Print Assumptions C53_set_file.
Theorem C53_set_abstract : forall decode u s p, keeps_ascii decode -> unix_reachable decode u ->
  name_of decode 106 s p ->
  exists v, set_abstract decode u s = (v, Ok tt) /\ has_name v (Abstract p) /\ same_settings u v /\
    set_abstract decode v p = (v, Ok tt).
Proof.
  intros decode u s p K R N. pose proof (inv_proper decode u (reachable_inv decode u K R)) as P.
  exists (named u (Abstract p)). split; [now apply set_abstract_ok|].
  pose proof (good_abstract decode s p N) as G.
  split; [exact (named_has_name decode _ _ (Abstract p) K G eq_refl)|]. split; [now repeat split|].
  rewrite (set_abstract_ok decode (named u (Abstract p)) p p); [reflexivity|exact K| |exact G].
  exact (inv_proper decode _ (inv_named decode u _ G)).
Qed.
Print Assumptions C53_set_abstract.

(* Any other path is refused. The decoder's exception comes through when the
   short form is not too long and cannot be decoded. *)
Theorem C53_refused : forall decode u s (abstract : bool),
  let max := if abstract then 106%nat else 107%nat in
  let set := if abstract then set_abstract decode u s else set_file decode u s in
  (forall p, ~ name_of decode max s p) ->
  (set = (u, Throw E_invalid_argument) /\
     (forall p, canonical s p -> (length p <= max)%nat -> decode p <> None)) \/
  (set = (u, Throw E_std) /\
     exists p, (length p <= max)%nat /\ decode p = None /\ (canonical s p \/ p = lit "/")).
Proof.
  intros decode u s abstract max set H.
  assert (V : verify_path decode s abstract = Throw E_invalid_argument /\
      (forall p, canonical s p -> (length p <= max_of abstract)%nat -> decode p <> None) \/
      verify_path decode s abstract = Throw E_std /\
     exists p, (length p <= max_of abstract)%nat /\ decode p = None /\ (canonical s p \/ p = lit "/")).
  { destruct (verify_throws decode s abstract H) as [E|[E (p & D & L & C)]].
    - left. split; [exact E|]. intros p C L D. rewrite (verify_undecodable decode s abstract p C L D) in E. discriminate.
    - right. split; [exact E|]. now exists p. }
  destruct V as [[E X]|[E X]]; [left|right]; (split; [|exact X]); unfold set, set_abstract, set_file;
    destruct abstract; now rewrite E.
Qed.
Print Assumptions C53_refused.

(* What the constructors make. *)
Theorem C53_constructor : forall decode s abstract u, keeps_ascii decode ->
  unix_from_string decode s abstract = Ok u ->
  get_scheme u = lit "unix" /\ get_mode u = 384 /\ get_group u = [] /\
  if abstract then exists p, name_of decode 106 s p /\ has_name u (Abstract p)
  else (s = [] /\ has_name u Unnamed) \/ exists p, name_of decode 107 s p /\ has_name u (File p).
Proof.
  intros decode s abstract u K H. unfold unix_from_string in H. destruct abstract.
  - destruct (name_dec decode true s) as [[p N]|N].
    + rewrite (set_abstract_ok decode unix_new s p K unix_new_proper N) in H. injection H as <-.
      repeat split. exists p. split; [exact N|].
      exact (named_has_name decode _ _ (Abstract p) K (good_abstract decode s p N) eq_refl).
    + destruct (set_abstract_bad decode unix_new s N) as (e & E & _). rewrite E in H. discriminate.
  - destruct s as [|c s].
    + injection H as <-. repeat split. left. now repeat split.
    + destruct (name_dec decode false (c :: s)) as [[p N]|N].
      * rewrite (set_file_ok decode unix_new (c :: s) p unix_new_proper N) in H. injection H as <-.
        repeat split. right. exists p. split; [exact N|].
        exact (named_has_name decode _ _ (File p) K (good_file decode _ p N) eq_refl).
      * destruct (set_file_bad decode unix_new (c :: s) N) as (e & E & _). rewrite E in H. discriminate.
Qed.
Print Assumptions C53_constructor.
(* 107 bytes of path in more slashes than needed, with a two byte character. *)
Definition long_path : str := lit "//" ++ repeat 97 103 ++ lit "//" ++ [195; 169] ++ lit "/".
Example C53_satisfiable :
  name_of utf8 107 long_path (lit "/" ++ repeat 97 103 ++ lit "/" ++ [195; 169]) /\
  unix_from_string utf8 long_path false = Ok (fst (set_file utf8 unix_new long_path)) /\
  (forall p, ~ name_of utf8 106 long_path p) /\
  set_abstract utf8 with_file long_path = (with_file, Throw E_invalid_argument) /\
  (forall p, ~ name_of utf8 107 (lit "a" ++ [233]) p) /\
  set_file utf8 with_file (lit "a" ++ [233]) = (with_file, Throw E_std).
Proof.
  split; [apply (verify_ok utf8 long_path false); vm_compute; reflexivity|].
  split; [vm_compute; reflexivity|].
  split; [intros p N; apply (verify_ok utf8 long_path true) in N; vm_compute in N; discriminate|].
  split; [vm_compute; reflexivity|].
  split; [intros p N; apply (verify_ok utf8 _ false) in N; vm_compute in N; discriminate|].
  vm_compute. reflexivity.
Qed.

(* ---------- C54 ---------- *)
Theorem C54_round_trip : forall decode u v, keeps_ascii decode ->
  unix_reachable decode u -> unix_reachable decode v ->
  exists w, set_un decode v (get_un u) = (w, Ok tt) /\ get_un w = get_un u /\
    (forall n, has_name u n <-> has_name w n) /\ unix_eq w u = true /\ same_settings v w.
Proof.
  intros decode u v K Ru Rv. destruct (reachable_inv decode u K Ru) as (n & G & E).
  pose proof (inv_proper decode v (reachable_inv decode v K Rv)) as P.
  exists (named v n). unfold get_un. rewrite E. split; [now apply set_un_kernel|].
  split; [reflexivity|].
  pose proof (good_has_name decode u n K G E) as Hu.
  pose proof (named_has_name decode (named v n) v n K G eq_refl) as Hw.
  split.
  - intros m. split; intros X.
    + now rewrite (has_name_unique u m n X Hu).
    + now rewrite (has_name_unique _ m n X Hw).
  - split; [|now repeat split]. unfold unix_eq, unix_compare. rewrite E. cbn [named u_address].
    now rewrite memcmp_refl.
Qed.
Print Assumptions C54_round_trip.

(* Any structure at all: the name it holds is used as set_file() and
   set_abstract() use a string. *)
Theorem C54_any_structure : forall decode u un, length (sun_path un) = 108%nat ->
  (sun_family un <> 1 -> set_un decode u un = (u, Throw E_invalid_structure)) /\
  (sun_family un = 1 -> forall s r, s <> [] -> ~ In 0 s ->
     (sun_path un = s ++ 0 :: r -> set_un decode u un = set_file decode u s) /\
     (sun_path un = 0 :: s ++ 0 :: r -> set_un decode u un = set_abstract decode u s) /\
     (sun_path un = s \/ sun_path un = 0 :: s -> set_un decode u un = (u, Throw E_invalid_argument))) /\
  (sun_family un = 1 -> forall r, sun_path un = 0 :: 0 :: r -> set_un decode u un = (make_unnamed u, Ok tt)).
Proof.
  intros decode u un L. split; [|split].
  - intros F. unfold set_un. replace (sun_family un =? AF_UNIX) with false by (unfold AF_UNIX; lia). reflexivity.
  - intros F s r N Z0. split; [|split].
    + intros E. now apply (set_un_file decode u un s r).
    + intros E. now apply (set_un_abstract decode u un s r).
    + intros E. unfold set_un. rewrite F.
      assert (H : nth 0 s 0 =? 0 = false).
      { destruct s as [|c s]; [congruence|]. cbn. destruct (Z.eqb_spec c 0) as [->|]; [|reflexivity].
        destruct Z0; now left. }
      destruct E as [E|E]; rewrite E in *; cbn [Z.eqb negb AF_UNIX nth skipn]; rewrite H; cbn [negb];
        rewrite before_nul_none by assumption.
      * rewrite L. reflexivity.
      * cbn [length] in L. replace (length s) with 107%nat by lia. reflexivity.
  - intros F r E. unfold set_un. rewrite F, E. reflexivity.
Qed.
Print Assumptions C54_any_structure.
Example C54_satisfiable :
  exists w, set_un utf8 with_abstract (get_un with_file) = (w, Ok tt) /\
    has_name w (File (lit "/run/app/sock")) /\
    set_un utf8 with_file (mk_un 1 (0 :: lit "x//y" ++ 0 :: repeat 7 102)) =
      set_abstract utf8 with_file (lit "x//y").
Proof. eexists. split; [vm_compute; reflexivity|]. split; [vm_compute; repeat split|vm_compute; reflexivity]. Qed.

(* ---------- C55 ---------- *)
(* Missing: paths with a question mark and schemes which are not those of a
   URI, see below. *)
Theorem C55_uri_partial : forall decode u v n, keeps_ascii decode ->
  unix_reachable decode u -> unix_reachable decode v ->
  uri_scheme (get_scheme u) -> has_name u n ->
  (forall p, n = File p \/ n = Abstract p -> ~ In 63 p) ->
  exists t w, to_uri u = Ok t /\ set_uri decode v t = (w, Ok tt) /\
    has_name w n /\ get_scheme w = get_scheme u /\ get_mode w = get_mode v /\ get_group w = get_group v.
Proof.
  intros decode u v n K Ru Rv S H Q. destruct (reachable_inv decode u K Ru) as (m & G & E).
  pose proof (good_has_name decode u m K G E) as Hm.
  rewrite (has_name_unique u n m H Hm) in *.
  pose proof (inv_proper decode v (reachable_inv decode v K Rv)) as P.
  assert (Q1 : ~ In 63 (name_path m)).
  { destruct m as [|p|p]; cbn [name_path]; [intros []|apply Q; now left|apply Q; now right]. }
  destruct (uri_round decode u v m K G E P S Q1) as (t & A & B).
  exists t, (set_scheme (named v m) (get_scheme u)). split; [exact A|]. split; [exact B|].
  split; [exact (named_has_name decode _ _ m K G eq_refl)|].
  split; [|now split]. apply get_scheme_set. destruct S as (c & r & -> & _). discriminate.
Qed.
Print Assumptions C55_uri_partial.
Example C55_satisfiable :
  uri_scheme (get_scheme with_file) /\ has_name with_file (File (lit "/run/app/sock")) /\
  to_uri with_file = Ok (lit "cu:///run/app/sock").
Proof.
  split; [apply uri_scheme_iff; split; [vm_compute; reflexivity|vm_compute; discriminate]|].
  split; [vm_compute; repeat split|vm_compute; reflexivity].
Qed.

(* A path with a question mark: the URI is refused, or it names something
   else. *)
Theorem C55_uri_refuted :
  exists u t, unix_reachable utf8 u /\ get_scheme u = lit "unix" /\ has_name u (File (lit "a?b")) /\
    to_uri u = Ok t /\ set_uri utf8 unix_new t = (unix_new, Throw E_invalid_argument) /\
  exists u2 t2 w, unix_reachable utf8 u2 /\ has_name u2 (File (lit "a?abstract")) /\
    to_uri u2 = Ok t2 /\ set_uri utf8 unix_new t2 = (w, Ok tt) /\ has_name w (Abstract (lit "a")) /\
  exists u3 t3, unix_reachable utf8 u3 /\ get_scheme u3 = lit "my_app" /\ has_name u3 (File (lit "a")) /\
    to_uri u3 = Ok t3 /\ set_uri utf8 unix_new t3 = (unix_new, Throw E_invalid_argument).
Proof.
  exists (unix_step utf8 unix_new (U_set_file (lit "a?b"))). eexists.
  split; [apply reach_step; [constructor|exact I]|]. split; [reflexivity|].
  split; [vm_compute; repeat split|]. split; [vm_compute; reflexivity|]. split; [vm_compute; reflexivity|].
  exists (unix_step utf8 unix_new (U_set_file (lit "a?abstract"))). eexists. eexists.
  split; [apply reach_step; [constructor|exact I]|].
  split; [vm_compute; repeat split|]. split; [vm_compute; reflexivity|]. split; [vm_compute; reflexivity|].
  split; [vm_compute; repeat split|].
  exists (fold_left (unix_step utf8) [U_set_file (lit "a"); U_set_scheme (lit "my_app")] unix_new). eexists.
  split; [apply history_reachable; repeat constructor|]. split; [vm_compute; reflexivity|].
  split; [vm_compute; repeat split|]. split; [vm_compute; reflexivity|]. vm_compute. reflexivity.
Qed.
Print Assumptions C55_uri_refuted.

(* ---------- C56 ---------- *)
(* The outcome of a call: it succeeded, or it threw and the object is as it
   was. *)
Definition all_or_nothing {A} (u : addr_unix) (x : addr_unix * res A) : Prop :=
  (exists a, snd x = Ok a) \/ (exists e, x = (u, Throw e)).

Theorem C56_all_or_nothing : forall decode u un s name, keeps_ascii decode -> unix_reachable decode u ->
  all_or_nothing u (set_un decode u un) /\
  all_or_nothing u (set_file decode u s) /\
  all_or_nothing u (set_abstract decode u s) /\
  all_or_nothing u (set_uri decode u s) /\
  all_or_nothing u (set_from_socket decode u name).
Proof.
  intros decode u un s name K R. pose proof (inv_proper decode u (reachable_inv decode u K R)) as P.
  assert (U : forall x, updates decode u x -> all_or_nothing u x).
  { intros x [[e ->]|(n & _ & ->)]; [right; now exists e|left; now exists tt]. }
  split; [exact (U _ (set_un_updates decode u un K P))|].
  split; [exact (U _ (set_file_updates decode u s P))|].
  split; [exact (U _ (set_abstract_updates decode u s K P))|].
  split.
  - destruct (set_uri_updates decode u s K P) as [[e ->]|(n & sc & _ & ->)]; [right; now exists e|left; now exists tt].
  - unfold set_from_socket. destruct name as [[f path]|]; [|left; now exists false].
    destruct (negb (f =? AF_UNIX)); [left; now exists false|].
    match goal with |- context [set_un decode u ?x] =>
      destruct (set_un_updates decode u x K P) as [[e ->]|(n & _ & ->)] end; [right; now exists e|left; now exists true].
Qed.
Print Assumptions C56_all_or_nothing.
Example C56_satisfiable :
  unix_reachable utf8 with_file /\
  set_uri utf8 with_file (lit "http:abc?fast") = (with_file, Throw E_invalid_argument) /\
  set_un utf8 with_file (mk_un 2 (repeat 0 108)) = (with_file, Throw E_invalid_structure) /\
  set_file utf8 with_file (lit "a" ++ [10]) = (with_file, Throw E_invalid_argument).
Proof.
  split; [exact with_file_reachable|]. split; [vm_compute; reflexivity|]. split; vm_compute; reflexivity.
Qed.

(* ---------- C80 ---------- *)
Definition bytes_name (n : unix_name) : Prop :=
  match n with Unnamed => True | File p => Forall is_byte p | Abstract p => Forall is_byte p end.

Theorem C80_comparisons : forall decode a b n m, keeps_ascii decode ->
  unix_reachable decode a -> unix_reachable decode b ->
  has_name a n -> has_name b m -> bytes_name n -> bytes_name m ->
  (unix_eq a b = true <-> n = m) /\
  (unix_ne a b = true <-> n <> m) /\
  (unix_lt a b = true <-> name_before n m) /\
  (unix_le a b = true <-> name_before n m \/ n = m) /\
  (unix_gt a b = true <-> name_before m n) /\
  (unix_ge a b = true <-> name_before m n \/ n = m).
Proof.
  intros decode a b n m K Ra Rb Ha Hb Bn Bm.
  destruct (reachable_inv decode a K Ra) as (n1 & Gn & En).
  destruct (reachable_inv decode b K Rb) as (m1 & Gm & Em).
  pose proof (has_name_unique a n n1 Ha (good_has_name decode a n1 K Gn En)) as X. subst n1. 
  pose proof (has_name_unique b m m1 Hb (good_has_name decode b m1 K Gm Em)) as X. subst m1.
  assert (Bn1 : Forall is_byte (name_path n)) by (destruct n; [constructor|exact Bn|exact Bn]).
  assert (Bm1 : Forall is_byte (name_path m)) by (destruct m; [constructor|exact Bm|exact Bm]).
  assert (LT : name_before n m -> unix_compare a b = -1).
  { intros H. now apply (compare_before decode a b n m). }
  assert (GT : name_before m n -> unix_compare a b = 1).
  { intros H. now apply (compare_before decode b a m n). }
  assert (EQ : n = m -> unix_compare a b = 0).
  { intros ->. unfold unix_compare. rewrite En, Em. apply memcmp_refl. }
  unfold unix_eq, unix_ne, unix_lt, unix_le, unix_gt, unix_ge.
  assert (X1 : name_before n m -> n <> m) by (intros A B; specialize (LT A); specialize (EQ B); lia).
  assert (X2 : name_before m n -> n <> m) by (intros A B; specialize (GT A); specialize (EQ B); lia).
  assert (X3 : name_before n m -> ~ name_before m n) by (intros A B; specialize (LT A); specialize (GT B); lia).
  destruct (names_total n m) as [H|[H|H]].
  - rewrite (LT H). cbn. intuition discriminate.
  - rewrite (EQ H). cbn. intuition (try discriminate).
  - rewrite (GT H). cbn. intuition discriminate.
Qed.
Print Assumptions C80_comparisons.

(* The order is a strict total order of the names. *)
Lemma bytes_before_trans p q r : bytes_before p q -> bytes_before q r -> bytes_before p r.
Proof.
  intros H. revert r. induction H; intros z A; inversion A; subst;
    try (apply before_end); try (apply before_here; lia); try (apply before_later; auto).
Qed.
Lemma bytes_before_irrefl p : ~ bytes_before p p.
Proof. induction p as [|c p IH]; intros H; inversion H; subst; [lia|auto]. Qed.
Theorem C80_order : 
  (forall n, ~ name_before n n) /\
  (forall n m k, name_before n m -> name_before m k -> name_before n k) /\
  (forall n m, name_before n m \/ n = m \/ name_before m n).
Proof.
  split; [|split; [|exact names_total]].
  - intros n H. inversion H; subst; eapply bytes_before_irrefl; eassumption.
  - intros n m k A B. inversion A; subst; inversion B; subst; constructor; eauto using bytes_before_trans.
Qed.
Print Assumptions C80_order.
Example C80_satisfiable :
  has_name with_abstract (Abstract (lit "app/bus")) /\ has_name with_file (File (lit "/run/app/sock")) /\
  name_before (Abstract (lit "app/bus")) (File (lit "/run/app/sock")) /\
  unix_lt with_abstract with_file = true /\
  name_before (File (lit "/run")) (File (lit "/run/app")).
Proof.
  split; [vm_compute; repeat split|]. split; [vm_compute; repeat split|].
  split; [constructor|]. split; [vm_compute; reflexivity|].
  constructor. do 4 apply before_later. constructor.
Qed.

(* ---------- C81 ---------- *)
(* The kernel gives the family and as much of the path as there is. *)
Theorem C81_the_name_of_the_socket : forall decode u family path, keeps_ascii decode ->
  unix_reachable decode u -> (length path <= 108)%nat ->
  (* getsockname() failed *)
  set_from_socket decode u None = (u, Ok false) /\
  (family <> 1 -> set_from_socket decode u (Some (family, path)) = (u, Ok false)) /\
  (family = 1 ->
     (* nothing, or an empty name *)
     (path = [] \/ path = [0] \/ (exists r, path = 0 :: 0 :: r) ->
        exists v, set_from_socket decode u (Some (family, path)) = (v, Ok true) /\
          has_name v Unnamed /\ same_settings u v) /\
     (* a file name, its zero included or not *)
     (forall s r p, ~ In 0 s -> path = s ++ r -> r = [] \/ (exists r1, r = 0 :: r1) -> name_of decode 107 s p ->
        (length s <= 107)%nat ->
        exists v, set_from_socket decode u (Some (family, path)) = (v, Ok true) /\
          has_name v (File p) /\ same_settings u v) /\
     (forall s r p, ~ In 0 s -> path = 0 :: s ++ r -> r = [] \/ (exists r1, r = 0 :: r1) -> name_of decode 106 s p ->
        (length s <= 106)%nat ->
        exists v, set_from_socket decode u (Some (family, path)) = (v, Ok true) /\
          has_name v (Abstract p) /\ same_settings u v)).
Proof.
  intros decode u family path K R L.
  pose proof (inv_proper decode u (reachable_inv decode u K R)) as P.
  split; [reflexivity|]. split.
  - intros F. unfold set_from_socket. replace (family =? AF_UNIX) with false by (unfold AF_UNIX; lia). reflexivity.
  - intros ->.
    assert (E : firstn SUN_PATH (path ++ repeat 0 SUN_PATH) = path ++ repeat 0 (108 - length path)).
    { rewrite firstn_app. rewrite firstn_all2 by (unfold SUN_PATH; lia). f_equal.
      replace (repeat 0 SUN_PATH) with (repeat 0 (108 - length path) ++ repeat 0 (length path)).
      - rewrite firstn_app, repeat_length. rewrite firstn_all2 by (rewrite repeat_length; unfold SUN_PATH; lia).
        replace (SUN_PATH - length path - (108 - length path))%nat with 0%nat by (unfold SUN_PATH; lia).
        cbn [firstn]. apply app_nil_r.
      - rewrite <- repeat_app. f_equal. unfold SUN_PATH. lia. }
    assert (LEN : length (path ++ repeat 0 (108 - length path)) = 108%nat)
      by (rewrite app_length, repeat_length; lia).
    assert (GO : forall n, good_name decode n ->
      set_un decode u (mk_un 1 (path ++ repeat 0 (108 - length path))) = (named u n, Ok tt) ->
      exists v, set_from_socket decode u (Some (1, path)) = (v, Ok true) /\ has_name v n /\ same_settings u v).
    { intros n G H. exists (named u n). unfold set_from_socket. cbn [Z.eqb AF_UNIX negb]. cbn zeta. rewrite E, H.
      split; [reflexivity|]. split; [exact (named_has_name decode _ _ n K G eq_refl)|now repeat split]. }
    split; [|split].
    + intros H. apply GO; [exact I|]. rewrite <- make_unnamed_named by assumption.
      assert (Z2 : exists r, path ++ repeat 0 (108 - length path) = 0 :: 0 :: r).
      { destruct H as [->|[->|[r ->]]]; eexists; reflexivity. }
      destruct Z2 as [r Z2].
      exact (proj2 (proj2 (C54_any_structure decode u (mk_un 1 _) LEN)) eq_refl r Z2).
    + intros s r p Z0 -> SH N M. apply GO; [exact (good_file decode s p N)|].
      rewrite <- (set_file_ok decode u s p P N).
      assert (SN : s <> []).
      { intros ->. destruct N as (C & _). apply canonical_short in C as [X _]. now apply X. }
      destruct SH as [->|[r1 ->]].
      * rewrite app_nil_r in *.
        refine (proj1 (proj1 (proj2 (C54_any_structure decode u (mk_un 1 _) LEN)) eq_refl s _ SN Z0) _).
        cbn [sun_path]. now rewrite (repeat_first (108 - length s)) by lia.
      * refine (proj1 (proj1 (proj2 (C54_any_structure decode u (mk_un 1 _) LEN)) eq_refl s _ SN Z0) _).
        cbn [sun_path]. now rewrite <- app_assoc.
    + intros s r p Z0 -> SH N M. apply GO; [exact (good_abstract decode s p N)|].
      rewrite <- (set_abstract_ok decode u s p K P N).
      assert (SN : s <> []).
      { intros ->. destruct N as (C & _). apply canonical_short in C as [X _]. now apply X. }
      destruct SH as [->|[r1 ->]].
      * rewrite app_nil_r in *. cbn [length] in *.
        refine (proj1 (proj2 (proj1 (proj2 (C54_any_structure decode u (mk_un 1 _) LEN)) eq_refl s _ SN Z0)) _).
        cbn [sun_path]. rewrite (repeat_first (108 - S (length s))) by lia. reflexivity.
      * refine (proj1 (proj2 (proj1 (proj2 (C54_any_structure decode u (mk_un 1 _) LEN)) eq_refl s _ SN Z0)) _).
        cbn [sun_path app]. now rewrite <- app_assoc.
Qed.
Print Assumptions C81_the_name_of_the_socket.
Example C81_satisfiable :
  name_of utf8 107 (lit "/run/x") (lit "/run/x") /\
  exists v, set_from_socket utf8 with_abstract (Some (1, lit "/run/x" ++ [0])) = (v, Ok true) /\
    has_name v (File (lit "/run/x")).
Proof.
  split; [apply (verify_ok utf8 _ false); vm_compute; reflexivity|].
  eexists. split; [vm_compute; reflexivity|]. vm_compute. repeat split.
Qed.

(* ---------- C82 ---------- *)
(* unlink() removes the file of a file address, nothing otherwise. *)
Theorem C82_unlink : forall decode u n, keeps_ascii decode -> unix_reachable decode u -> has_name u n ->
  unlink u = Ok match n with File p => Some p | _ => None end.
Proof.
  intros decode u n K R H. unfold unlink. destruct n as [|p|p]; destruct H as (A & B & C & D); rewrite B; try reflexivity.
  unfold to_string in D. rewrite C in D. now rewrite D.
Qed.
Print Assumptions C82_unlink.
Example C82_satisfiable : unlink with_file = Ok (Some (lit "/run/app/sock")) /\ unlink with_abstract = Ok None.
Proof. split; vm_compute; reflexivity. Qed.

(* ---------- C83 ---------- *)
Theorem C83_uri : forall decode u t, keeps_ascii decode -> unix_reachable decode u ->
  (forall scheme n, uri_names decode t scheme n ->
     exists v, set_uri decode u t = (v, Ok tt) /\ has_name v n /\ get_scheme v = scheme /\
       get_mode v = get_mode u /\ get_group v = get_group u) /\
  ((forall scheme n, ~ uri_names decode t scheme n) ->
     exists e, set_uri decode u t = (u, Throw e)).
Proof.
  intros decode u t K R. pose proof (inv_proper decode u (reachable_inv decode u K R)) as P. split.
  - intros scheme n H. exists (set_scheme (named u n) scheme).
    split; [now apply names_set_uri|].
    assert (G : good_name decode n /\ scheme <> []).
    { destruct H as [sc q US _|sc path q p US _ N _|sc path p US _ N].
      - split; [exact I|]. now destruct (uri_scheme_ok sc US) as (_ & X & _).
      - split; [exact (good_file decode _ p N)|]. now destruct (uri_scheme_ok sc US) as (_ & X & _).
      - split; [exact (good_abstract decode _ p N)|]. now destruct (uri_scheme_ok sc US) as (_ & X & _). }
    destruct G as [G N]. split; [exact (named_has_name decode _ _ n K G eq_refl)|].
    split; [now apply get_scheme_set|now split].
  - intros H. destruct (set_uri_updates decode u t K P) as [E|(n & sc & G & E)]; [exact E|].
    destruct (set_uri_names decode u t _ K P E) as (sc1 & n1 & U & _). now destruct (H sc1 n1).
Qed.
Print Assumptions C83_uri.
Example C83_satisfiable :
  uri_names utf8 (lit "unix:/run//bus?abstract") (lit "unix") (Abstract (lit "/run/bus")).
Proof.
  refine (uri_abstract utf8 (lit "unix") (lit "/run//bus") (lit "/run/bus") _ _ _).
  - apply uri_scheme_iff. split; [reflexivity|discriminate].
  - cbn. intuition discriminate.
  - apply (verify_ok utf8 _ true). vm_compute. reflexivity.
Qed.
