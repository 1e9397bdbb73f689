(* Proofs about Unix addresses: URIs, comparisons, the UTF-8 decoder. *)
From Coq Require Import Lia ZifyBool ZifyNat.
From Verif Require Import Base Unix SpecUnix UnixProofs.
Local Open Scope Z_scope.

Lemma find_at_none c s : ~ In c s -> find_at c s = None.
Proof.
  induction s as [|x s IH]; intros N; [reflexivity|]. cbn.
  destruct (Z.eqb_spec x c) as [->|D]; [destruct N; now left|].
  rewrite IH; [reflexivity|]. intros X; apply N; now right.
Qed.

Lemma find_at_app c s r : ~ In c s -> find_at c (s ++ c :: r) = Some (length s).
Proof.
  induction s as [|x s IH]; intros N; cbn.
  - now rewrite Z.eqb_refl.
  - destruct (Z.eqb_spec x c) as [->|D]; [destruct N; now left|].
    rewrite IH; [reflexivity|]. intros X; apply N; now right.
Qed.

Lemma scheme_rest r : Forall (fun d => letter d \/ 48 <= d <= 57 \/ d = 43 \/ d = 45 \/ d = 46) r ->
  scheme_ok r false = true.
Proof.
  induction 1 as [|d r H F IH]; [reflexivity|]. cbn [scheme_ok negb]. rewrite IH, andb_true_r.
  unfold letter in H. unfold is_letter, is_scheme_extra. lia.
Qed.

Lemma uri_scheme_ok s : uri_scheme s -> scheme_ok s true = true /\ s <> [] /\ ~ In 58 s.
Proof.
  intros (c & r & -> & L & F). split; [|split; [discriminate|]].
  - cbn [scheme_ok]. rewrite scheme_rest by assumption. unfold letter in L. unfold is_letter. lia.
  - rewrite Forall_forall in F. intros [E|I]; [unfold letter in L; lia|].
    specialize (F 58 I). unfold letter in F. lia.
Qed.

Lemma uri_scheme_iff s : uri_scheme s <-> (scheme_ok s true = true /\ s <> []).
Proof.
  split; [intros H; apply uri_scheme_ok in H; intuition|].
  intros [H N]. destruct s as [|c r]; [congruence|]. exists c, r. split; [reflexivity|].
  cbn [scheme_ok negb andb] in H. apply andb_true_iff in H as [A B].
  split; [unfold is_letter in A; unfold letter; lia|]. clear A N.
  induction r as [|d r IH]; [constructor|]. cbn [scheme_ok negb andb] in B. apply andb_true_iff in B as [A B].
  constructor; [|auto]. unfold is_letter, is_scheme_extra in A. unfold letter. lia.
Qed.

(* Reading a URI with a proper scheme. *)

Lemma set_uri_plain decode u sc body : uri_scheme sc -> ~ In 63 body ->
  set_uri decode u (sc ++ 58 :: body) =
  let '(u1, r) := match body with [] => (make_unnamed u, Ok tt) | _ => set_file decode u body end in
  match r with Ok _ => (set_scheme u1 sc, Ok tt) | _ => (u1, r) end.
Proof.
  intros S Q. destruct (uri_scheme_ok sc S) as (A & B & C).
  unfold set_uri. rewrite find_at_app by assumption. cbn zeta.
  rewrite firstn_app, Nat.sub_diag, firstn_all. cbn [firstn]. rewrite app_nil_r.
  replace (skipn (length sc + 1) (sc ++ 58 :: body)) with body.
  2:{ rewrite skipn_app. rewrite skipn_all2 by lia.
      replace (length sc + 1 - length sc)%nat with 1%nat by lia. reflexivity. }
  rewrite find_at_none by assumption. rewrite A.
  destruct sc; [congruence|]. reflexivity.
Qed.

Lemma set_uri_query decode u sc body query : uri_scheme sc -> ~ In 63 body -> query <> [] ->
  set_uri decode u (sc ++ 58 :: body ++ 63 :: query) =
  let '(u1, r) :=
    if str_eqb query (lit "unnamed") then
      match body with [] => (make_unnamed u, Ok tt) | _ => (u, Throw E_invalid_argument) end
    else if str_eqb query (lit "file") then set_file decode u body
    else if str_eqb query (lit "abstract") then set_abstract decode u body
    else (u, Throw E_invalid_argument) in
  match r with Ok _ => (set_scheme u1 sc, Ok tt) | _ => (u1, r) end.
Proof.
  intros S Q N. destruct (uri_scheme_ok sc S) as (A & B & C).
  unfold set_uri. rewrite find_at_app by assumption. cbn zeta.
  rewrite firstn_app, Nat.sub_diag, firstn_all. cbn [firstn]. rewrite app_nil_r.
  replace (skipn (length sc + 1) (sc ++ 58 :: body ++ 63 :: query)) with (body ++ 63 :: query).
  2:{ rewrite skipn_app. rewrite skipn_all2 by lia.
      replace (length sc + 1 - length sc)%nat with 1%nat by lia. reflexivity. }
  rewrite find_at_app by assumption. rewrite A.
  rewrite firstn_app, Nat.sub_diag, firstn_all. cbn [firstn]. rewrite app_nil_r.
  replace (skipn (length body + 1) (body ++ 63 :: query)) with query.
  2:{ rewrite skipn_app. rewrite skipn_all2 by lia.
      replace (length body + 1 - length body)%nat with 1%nat by lia. reflexivity. }
  destruct sc; [congruence|]. destruct query; [congruence|]. reflexivity.
Qed.

(* The path as written in a URI. *)
Definition uri_path (p : str) : str := (if nth 0 p 0 =? 47 then lit "//" else []) ++ p.

Lemma uri_path_name decode m p : name_of decode m p p -> name_of decode m (uri_path p) p.
Proof.
  intros (C & R). split; [|exact R]. unfold uri_path. destruct p as [|c p]; [exact C|].
  cbn [nth]. destruct (Z.eqb_spec c 47) as [->|D]; [|exact C].
  apply canonical_more_slashes; [exact C|]. now eexists.
Qed.

Lemma uri_path_query p : ~ In 63 p -> ~ In 63 (uri_path p).
Proof.
  intros N I. unfold uri_path in I. apply in_app_or in I as [I|I]; [|auto].
  destruct (nth 0 p 0 =? 47); [|destruct I].
  cbn in I. repeat destruct I as [I|I]; try discriminate; auto.
Qed.

Definition name_path (n : unix_name) : str :=
  match n with Unnamed => [] | File p => p | Abstract p => p end.

Lemma to_uri_is decode u n : keeps_ascii decode -> good_name decode n -> u_address u = kernel_name n ->
  to_uri u = Ok (get_scheme u ++ 58 ::
    match n with
    | Unnamed => []
    | File p => uri_path p
    | Abstract p => uri_path p ++ 63 :: lit "abstract"
    end).
Proof.
  intros K G E. pose proof (good_has_name decode u n K G E) as H.
  unfold to_uri. destruct n as [|p|p]; cbn [has_name] in H; destruct H as (H1 & H2 & H3 & H4);
    rewrite H1, ?H2; cbn [negb].
  - reflexivity.
  - unfold to_string in H4. rewrite H3 in H4. rewrite H4. cbn [rbind]. rewrite app_nil_r.
    replace (nth 0 (sun_path (u_address u)) 0) with (nth 0 p 0).
    2:{ rewrite E. destruct (first_byte decode 107 p K G) as (c & r & -> & _). reflexivity. }
    unfold uri_path. destruct (nth 0 p 0 =? 47); cbn [app]; now rewrite <- ?app_assoc.
  - unfold to_string in H4. rewrite H3 in H4. rewrite H4. cbn [rbind].
    replace (nth 0 (skipn 1 (sun_path (u_address u))) 0) with (nth 0 p 0).
    2:{ rewrite E. destruct (first_byte decode 106 p K G) as (c & r & -> & _). reflexivity. }
    unfold uri_path. change (lit "?abstract") with (63 :: lit "abstract").
    destruct (nth 0 p 0 =? 47); cbn [app]; rewrite <- ?app_assoc; reflexivity.
Qed.

Lemma uri_round decode u v n : keeps_ascii decode -> good_name decode n -> u_address u = kernel_name n ->
  proper v -> uri_scheme (get_scheme u) -> ~ In 63 (name_path n) ->
  exists t, to_uri u = Ok t /\ set_uri decode v t = (set_scheme (named v n) (get_scheme u), Ok tt).
Proof.
  intros K G E P S Q. eexists. split; [exact (to_uri_is decode u n K G E)|].
  destruct n as [|p|p]; cbn [name_path] in Q.
  - rewrite set_uri_plain by auto. now rewrite make_unnamed_named.
  - rewrite set_uri_plain by (auto using uri_path_query).
    rewrite (set_file_ok decode v (uri_path p) p P (uri_path_name decode 107 p G)).
    destruct (uri_path p) eqn:X; [|reflexivity].
    unfold uri_path in X. apply app_eq_nil in X as [_ X].
    destruct (first_byte decode 107 p K G) as (c & r & Y & _). congruence.
  - rewrite set_uri_query by (auto using uri_path_query; discriminate).
    rewrite (set_abstract_ok decode v (uri_path p) p K P (uri_path_name decode 106 p G)).
    reflexivity.
Qed.

Lemma get_scheme_set u s : s <> [] -> get_scheme (set_scheme u s) = s.
Proof.
  intros N. unfold get_scheme, set_scheme. cbn [u_scheme].
  destruct (str_eqb s (lit "unix")) eqn:E.
  - apply str_eqb_eq in E. now subst.
  - destruct s; [congruence|reflexivity].
Qed.

(* set_un(). *)

Lemma set_un_file decode u un s r :
  sun_family un = 1 -> sun_path un = s ++ 0 :: r -> length (sun_path un) = 108%nat -> s <> [] -> ~ In 0 s ->
  set_un decode u un = set_file decode u s.
Proof.
  intros F E L N Z0. unfold set_un. rewrite F, E. cbn [Z.eqb negb AF_UNIX].
  rewrite before_nul_app by assumption.
  replace (nth 0 (s ++ 0 :: r) 0 =? 0) with false.
  2:{ destruct s as [|c s]; [congruence|]. cbn. destruct (Z.eqb_spec c 0) as [->|]; [|reflexivity].
      destruct Z0; now left. }
  rewrite E, app_length in L. cbn [length negb] in *.
  destruct (Nat.eqb_spec (length s) SUN_PATH) as [X|_]; [unfold SUN_PATH in X; lia|reflexivity].
Qed.

Lemma set_un_abstract decode u un s r :
  sun_family un = 1 -> sun_path un = 0 :: s ++ 0 :: r -> length (sun_path un) = 108%nat -> s <> [] -> ~ In 0 s ->
  set_un decode u un = set_abstract decode u s.
Proof.
  intros F E L N Z0. unfold set_un. rewrite F, E. cbn [Z.eqb negb AF_UNIX nth skipn].
  rewrite before_nul_app by assumption.
  replace (nth 0 (s ++ 0 :: r) 0 =? 0) with false.
  2:{ destruct s as [|c s]; [congruence|]. cbn. destruct (Z.eqb_spec c 0) as [->|]; [|reflexivity].
      destruct Z0; now left. }
  rewrite E in L. cbn [length] in L. rewrite app_length in L. cbn [length negb] in *.
  destruct (Nat.eqb_spec (length s) (SUN_PATH - 1)) as [X|_]; [unfold SUN_PATH in X; lia|reflexivity].
Qed.

Lemma set_un_kernel decode v n : keeps_ascii decode -> good_name decode n -> proper v ->
  set_un decode v (kernel_name n) = (named v n, Ok tt).
Proof.
  intros K G P. pose proof (kernel_length decode n G) as L.
  destruct n as [|p|p].
  - unfold set_un. cbn. now rewrite make_unnamed_named.
  - destruct (first_byte decode 107 p K G) as (c & r & X & _).
    pose proof (name_no_nul decode 107 p p K G) as Z0.
    assert (M : (length p <= 107)%nat) by (destruct G as (_ & M & _); exact M).
    rewrite (set_un_file decode v _ p (repeat 0 (108 - length p - 1))); try assumption.
    + now apply set_file_ok.
    + reflexivity.
    + cbn [kernel_name sun_path]. now rewrite (repeat_first (108 - length p)) by lia.
    + congruence.
  - destruct (first_byte decode 106 p K G) as (c & r & X & _).
    pose proof (name_no_nul decode 106 p p K G) as Z0.
    assert (M : (length p <= 106)%nat) by (destruct G as (_ & M & _); exact M).
    rewrite (set_un_abstract decode v _ p (repeat 0 (107 - length p - 1))); try assumption.
    + now apply set_abstract_ok.
    + reflexivity.
    + cbn [kernel_name sun_path]. now rewrite (repeat_first (107 - length p)) by lia.
    + congruence.
Qed.

(* Comparisons. *)

Lemma memcmp_refl l : memcmp l l = 0.
Proof. induction l as [|c l IH]; [reflexivity|]. cbn. now rewrite Z.ltb_irrefl. Qed.

Lemma memcmp_same l a b : memcmp (l ++ a) (l ++ b) = memcmp a b.
Proof. induction l as [|c l IH]; [reflexivity|]. cbn. now rewrite Z.ltb_irrefl. Qed.

Definition pad (k : nat) (p : str) : str := p ++ repeat 0 (k - length p).
Definition positive (p : str) : Prop := Forall (fun c => 0 < c) p.

Lemma memcmp_before p q k : bytes_before p q -> positive p -> positive q ->
  (length p <= k)%nat -> (length q <= k)%nat ->
  memcmp (pad k p) (pad k q) = -1 /\ memcmp (pad k q) (pad k p) = 1.
Proof.
  unfold pad. intros H. revert k. induction H as [c r|c d r q H|c r q H IH]; intros k P Q L M; cbn [length] in *.
  - inversion Q; subst. replace (k - 0)%nat with (S (k - 1)) by lia. cbn [app repeat memcmp].
    replace (0 <? c) with true by lia. replace (c <? 0) with false by lia. now split.
  - cbn [app memcmp]. replace (c <? d) with true by lia. replace (d <? c) with false by lia. now split.
  - cbn [app memcmp]. rewrite Z.ltb_irrefl. inversion P; subst. inversion Q; subst.
    destruct k as [|k]; [lia|]. cbn [Nat.sub]. apply IH; try assumption; lia.
Qed.

Lemma bytes_total p : forall q, bytes_before p q \/ p = q \/ bytes_before q p.
Proof.
  induction p as [|c p IH]; intros [|d q].
  - right; now left.
  - left. constructor.
  - right; right. constructor.
  - destruct (Z.lt_total c d) as [H|[->|H]].
    + left. now constructor.
    + destruct (IH q) as [H|[->|H]]; [left; now constructor|right; now left|right; right; now constructor].
    + right; right. now constructor.
Qed.

Lemma names_total n m : name_before n m \/ n = m \/ name_before m n.
Proof.
  destruct n as [|p|p], m as [|q|q]; auto using name_before.
  - destruct (bytes_total p q) as [H|[->|H]]; auto using name_before.
  - destruct (bytes_total p q) as [H|[->|H]]; auto using name_before.
Qed.

Lemma compare_before decode a b n m : keeps_ascii decode ->
  good_name decode n -> good_name decode m -> u_address a = kernel_name n -> u_address b = kernel_name m ->
  Forall is_byte (name_path n) -> Forall is_byte (name_path m) ->
  name_before n m -> unix_compare a b = -1 /\ unix_compare b a = 1.
Proof.
  intros K Gn Gm En Em Bn Bm H.
  assert (POS : forall s, Forall is_byte s -> ~ In 0 s -> positive s).
  { clear. intros s B Z0. unfold positive. rewrite Forall_forall in *. intros c I. specialize (B c I).
    unfold is_byte in B. assert (c <> 0) by (intros ->; auto). lia. }
  unfold unix_compare, un_bytes. rewrite En, Em. cbn [sun_family kernel_name]. cbn [memcmp]. rewrite !Z.ltb_irrefl.
  inversion H; subst; cbn [sun_path kernel_name name_path good_name] in *.
  - destruct (first_byte decode 106 p K Gm) as (c & r & -> & D). inversion Bm; subst. unfold is_byte in *.
    cbn [repeat app memcmp]. rewrite !Z.ltb_irrefl.
    replace (0 <? c) with true by lia. replace (c <? 0) with false by lia. now split.
  - destruct (first_byte decode 107 p K Gm) as (c & r & -> & D). inversion Bm; subst. unfold is_byte in *.
    cbn [repeat app memcmp].
    replace (0 <? c) with true by lia. replace (c <? 0) with false by lia. now split.
  - destruct (first_byte decode 107 q K Gm) as (c & r & -> & D). inversion Bm; subst. unfold is_byte in *.
    cbn [app memcmp].
    replace (0 <? c) with true by lia. replace (c <? 0) with false by lia. now split.
  - cbn [memcmp]. rewrite !Z.ltb_irrefl. apply (memcmp_before p q 107); eauto using name_no_nul.
    + destruct Gn as (_ & M & _); lia.
    + destruct Gm as (_ & M & _); lia.
  - apply (memcmp_before p q 108); eauto using name_no_nul.
    + destruct Gn as (_ & M & _); lia.
    + destruct Gm as (_ & M & _); lia.
Qed.

(* The decoder of the specification. *)

Lemma utf8_keeps_ascii : keeps_ascii utf8.
Proof.
  unfold keeps_ascii.
  assert (G : forall k s text c, (length s <= k)%nat -> utf8 s = Some text -> In c s -> 0 <= c < 128 -> In c text).
  { induction k as [|k IH]; intros s text x L H I R; (destruct s as [|c s]; [destruct I|]); cbn [length] in L; [lia|].
    cbn [utf8] in H. destruct ((0 <=? c) && (c <? 128)) eqn:A.
    - destruct (utf8 s) as [t|] eqn:D; [|discriminate]. injection H as <-.
      destruct I as [->|I]; [now left|]. right. apply (IH s); auto; lia.
    - destruct I as [->|I]; [lia|]. destruct s as [|d s]; [discriminate|]. cbn [length] in L.
      destruct ((194 <=? c) && (c <? 224) && tail_byte d) eqn:B.
      + destruct (utf8 s) as [t|] eqn:D; [|discriminate]. injection H as <-.
        destruct I as [->|I]; [unfold tail_byte in B; lia|]. right. apply (IH s); auto; lia.
      + destruct s as [|e s]; [discriminate|]. cbn [length] in L. cbn zeta in H.
        match type of H with (if ?b then _ else _) = _ => destruct b eqn:C end.
        * destruct (utf8 s) as [t|] eqn:D; [|discriminate]. injection H as <-.
          rewrite !andb_true_iff in C. unfold tail_byte in C.
          destruct I as [->|[->|I]]; [lia|lia|]. right. apply (IH s); auto; lia.
        * destruct s as [|f s]; [discriminate|]. cbn [length] in L.
          match type of H with (if ?b then _ else _) = _ => destruct b eqn:C2 end; [|discriminate].
          destruct (utf8 s) as [t|] eqn:D; [|discriminate]. injection H as <-.
          rewrite !andb_true_iff in C2. unfold tail_byte in C2.
          destruct I as [->|[->|[->|I]]]; [lia|lia|lia|]. right. apply (IH s); auto; lia. }
  intros s text c. apply (G (length s)). lia.
Qed.

(* set_uri() on any string. *)

Lemma find_at_some c s k : find_at c s = Some k ->
  s = firstn k s ++ c :: skipn (k + 1) s /\ ~ In c (firstn k s).
Proof.
  revert k. induction s as [|x s IH]; intros k H; [discriminate|]. cbn [find_at] in H.
  destruct (Z.eqb_spec x c) as [->|D].
  - injection H as <-. split; [reflexivity|]. intros [].
  - destruct (find_at c s) as [j|]; [|discriminate]. injection H as <-.
    destruct (IH j eq_refl) as [A B]. cbn [firstn app Nat.add skipn].
    split; [now rewrite <- A|]. intros [E|I]; auto.
Qed.

Lemma find_at_not c s : find_at c s = None -> ~ In c s.
Proof.
  induction s as [|x s IH]; intros H; [intros []|]. cbn [find_at] in H.
  destruct (Z.eqb_spec x c) as [->|D]; [discriminate|].
  destruct (find_at c s); [discriminate|]. intros [E|I]; [auto|]. now apply IH.
Qed.

Lemma set_uri_names decode u t v : keeps_ascii decode -> proper u ->
  set_uri decode u t = (v, Ok tt) ->
  exists sc n, uri_names decode t sc n /\ good_name decode n /\ v = set_scheme (named u n) sc.
Proof.
  intros K P H. unfold set_uri in H.
  destruct (find_at 58 t) as [k|] eqn:F; [|discriminate].
  destruct (find_at_some _ _ _ F) as [T N58]. cbn zeta in H.
  set (sc := firstn k t) in *. set (rest := skipn (k + 1) t) in *. clearbody sc rest. subst t.
  assert (SN : sc <> []) by (intros ->; discriminate).
  assert (E : negb (scheme_ok sc true) = false).
  { destruct sc; [congruence|]. destruct (negb (scheme_ok (z :: sc) true)); [discriminate|reflexivity]. }
  replace (match sc with
           | [] => _
           | _ :: _ => _
           end) with
    (let '(address, query) :=
       match find_at 63 rest with
       | Some query_pos => (firstn query_pos rest, skipn (query_pos + 1) rest)
       | None => (rest, [])
       end in
     let '(u1, r) :=
       match query with
       | [] => match address with [] => (make_unnamed u, Ok tt) | _ => set_file decode u address end
       | _ =>
           if str_eqb query (lit "unnamed") then
             match address with [] => (make_unnamed u, Ok tt) | _ => (u, Throw E_invalid_argument) end
           else if str_eqb query (lit "file") then set_file decode u address
           else if str_eqb query (lit "abstract") then set_abstract decode u address
           else (u, Throw E_invalid_argument)
       end in
     match r with
     | Ok _ => (set_scheme u1 sc, Ok tt)
     | _ => (u1, r)
     end) in H.
  2:{ destruct sc; [congruence|]. rewrite E. reflexivity. }
  assert (US : uri_scheme sc) by (apply uri_scheme_iff; split; [now apply negb_false_iff|assumption]).
  clear F N58 E SN.
  assert (FILE : forall address,
      (let '(u1, r) := set_file decode u address in
       match r with Ok _ => (set_scheme u1 sc, Ok tt) | _ => (u1, r) end) = (v, Ok tt) ->
      exists p, name_of decode 107 address p /\ v = set_scheme (named u (File p)) sc).
  { intros address X. destruct (name_dec decode false address) as [[p N]|N].
    - rewrite (set_file_ok decode u address p P N) in X. exists p. split; [assumption|]. congruence.
    - destruct (set_file_bad decode u address N) as (e & Y & _). rewrite Y in X. discriminate. }
  assert (ABST : forall address,
      (let '(u1, r) := set_abstract decode u address in
       match r with Ok _ => (set_scheme u1 sc, Ok tt) | _ => (u1, r) end) = (v, Ok tt) ->
      exists p, name_of decode 106 address p /\ v = set_scheme (named u (Abstract p)) sc).
  { intros address X. destruct (name_dec decode true address) as [[p N]|N].
    - rewrite (set_abstract_ok decode u address p K P N) in X. exists p. split; [assumption|]. congruence.
    - destruct (set_abstract_bad decode u address N) as (e & Y & _). rewrite Y in X. discriminate. }
  assert (BODY : exists address query, ~ In 63 address /\
      (rest = address /\ query = [] \/ rest = address ++ 63 :: query) /\
     (let '(u1, r) :=
       match query with
       | [] => match address with [] => (make_unnamed u, Ok tt) | _ => set_file decode u address end
       | _ =>
           if str_eqb query (lit "unnamed") then
             match address with [] => (make_unnamed u, Ok tt) | _ => (u, Throw E_invalid_argument) end
           else if str_eqb query (lit "file") then set_file decode u address
           else if str_eqb query (lit "abstract") then set_abstract decode u address
           else (u, Throw E_invalid_argument)
       end in
     match r with
     | Ok _ => (set_scheme u1 sc, Ok tt)
     | _ => (u1, r)
     end) = (v, Ok tt)).
  { destruct (find_at 63 rest) as [q|] eqn:F.
    - destruct (find_at_some _ _ _ F) as [A B]. exists (firstn q rest), (skipn (q + 1) rest).
      split; [assumption|]. split; [now right|exact H].
    - exists rest, []. split; [now apply find_at_not|]. split; [now left|exact H]. }
  clear H. destruct BODY as (address & query & NQ & SHAPE & H).
  destruct query as [|q0 q].
  - (* no query *)
    assert (SH : exists tail, In tail [[]; lit "?"] /\ rest = address ++ tail).
    { destruct SHAPE as [[-> _]| ->].
      - exists []. split; [now left|now rewrite app_nil_r].
      - exists (lit "?"). split; [right; now left|reflexivity]. }
    destruct SH as (tail & IN & ->). destruct address as [|a0 a].
    + exists sc, Unnamed. split; [|split; [exact I|]].
      * apply (uri_unnamed decode sc tail); [assumption|]. destruct IN as [<-|[<-|[]]]; cbn; auto.
      * rewrite make_unnamed_named in H by assumption. congruence.
    + destruct (FILE _ H) as (p & N & ->). exists sc, (File p).
      split; [|split; [exact (good_file decode _ p N)|reflexivity]].
      apply (uri_file decode sc (a0 :: a) tail p); auto.
      destruct IN as [<-|[<-|[]]]; cbn; auto.
  - destruct SHAPE as [[_ X]| ->]; [discriminate|].
    destruct (str_eqb (q0 :: q) (lit "unnamed")) eqn:Q1.
    + apply str_eqb_eq in Q1. rewrite Q1. destruct address as [|a0 a]; [|discriminate].
      exists sc, Unnamed. split; [|split; [exact I|]].
      * apply (uri_unnamed decode sc (lit "?unnamed")); [assumption|]. cbn; auto.
      * rewrite make_unnamed_named in H by assumption. congruence.
    + destruct (str_eqb (q0 :: q) (lit "file")) eqn:Q2.
      * apply str_eqb_eq in Q2. rewrite Q2. destruct (FILE _ H) as (p & N & ->). exists sc, (File p).
        split; [|split; [exact (good_file decode _ p N)|reflexivity]].
        apply (uri_file decode sc address (lit "?file") p); auto. cbn; auto.
      * destruct (str_eqb (q0 :: q) (lit "abstract")) eqn:Q3; [|discriminate].
        apply str_eqb_eq in Q3. rewrite Q3. destruct (ABST _ H) as (p & N & ->). exists sc, (Abstract p).
        split; [|split; [exact (good_abstract decode _ p N)|reflexivity]].
        exact (uri_abstract decode sc address p US NQ N).
Qed.

Lemma names_set_uri decode u t sc n : keeps_ascii decode -> proper u ->
  uri_names decode t sc n -> set_uri decode u t = (set_scheme (named u n) sc, Ok tt).
Proof.
  intros K P H. destruct H as [sc query US IN|sc path query p US NQ N IN|sc path p US NQ N].
  - change (lit ":" ++ query) with (58 :: query).
    destruct IN as [<-|[<-|[<-|[]]]].
    + rewrite set_uri_plain by (auto; intros []). now rewrite make_unnamed_named.
    + unfold set_uri. destruct (uri_scheme_ok sc US) as (A & B & C).
      rewrite find_at_app by assumption. cbn zeta.
      rewrite firstn_app, Nat.sub_diag, firstn_all. cbn [firstn]. rewrite app_nil_r.
      rewrite skipn_app. rewrite (skipn_all2 sc) by lia.
      replace (length sc + 1 - length sc)%nat with 1%nat by lia.
      rewrite A. rewrite make_unnamed_named by assumption. destruct sc; [congruence|reflexivity].
    + pose proof (set_uri_query decode u sc [] (lit "unnamed") US (fun x => x) ltac:(discriminate)) as X.
      change (58 :: lit "?unnamed") with (58 :: [] ++ 63 :: lit "unnamed"). rewrite X.
      now rewrite make_unnamed_named.
  - assert (PN : path <> []).
    { intros ->. destruct N as (C & _). apply canonical_short in C as [X _]. now apply X. }
    change (lit ":" ++ path ++ query) with (58 :: path ++ query).
    destruct IN as [<-|[<-|[<-|[]]]].
    + rewrite app_nil_r. rewrite set_uri_plain by assumption.
      rewrite (set_file_ok decode u path p P N). destruct path; [congruence|reflexivity].
    + unfold set_uri. destruct (uri_scheme_ok sc US) as (A & B & C).
      rewrite find_at_app by assumption. cbn zeta.
      rewrite firstn_app, Nat.sub_diag, firstn_all. cbn [firstn]. rewrite app_nil_r.
      rewrite skipn_app. rewrite (skipn_all2 sc) by lia.
      replace (length sc + 1 - length sc)%nat with 1%nat by lia.
      cbn [skipn app]. change (path ++ lit "?") with (path ++ 63 :: []).
      rewrite find_at_app by assumption.
      rewrite firstn_app, Nat.sub_diag, firstn_all. cbn [firstn]. rewrite app_nil_r.
      rewrite skipn_app. rewrite (skipn_all2 path) by lia.
      replace (length path + 1 - length path)%nat with 1%nat by lia. cbn [skipn app].
      rewrite A. rewrite (set_file_ok decode u path p P N).
      destruct sc; [congruence|]. destruct path; [congruence|reflexivity].
    + change (path ++ lit "?file") with (path ++ 63 :: lit "file").
      rewrite set_uri_query by (auto; discriminate).
      now rewrite (set_file_ok decode u path p P N).
  - change (lit ":" ++ path ++ lit "?abstract") with (58 :: path ++ 63 :: lit "abstract").
    rewrite set_uri_query by (auto; discriminate).
    now rewrite (set_abstract_ok decode u path p K P N).
Qed.
