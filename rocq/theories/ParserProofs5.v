(* Two runs side by side: the resolver and the sort flags which do not
   matter. *)
From Coq Require Import ZifyBool ZifyNat.
From Verif Require Import Base Addr Spec Range SpecRange Inet Parser SpecParser
  ParserProofs ParserProofs2 ParserProofs3.
Local Open Scope Z_scope.

(* m1 on the configuration p1 and m2 on the configuration p2 emit the same
   messages and end the same way *)
Definition both {A} (p1 p2 : parser) (m1 m2 : M A) : Prop :=
  exists ms r,
    (forall e c, m1 (with_errors p1 e c)
                 = (with_errors p1 (e ++ flat ms) (c + Z.of_nat (length ms)), r))
    /\ (forall e c, m2 (with_errors p2 e c)
                 = (with_errors p2 (e ++ flat ms) (c + Z.of_nat (length ms)), r)).

Section Both.
Variables (p1 p2 : parser).

Lemma both_lift {A} (r : res A) : both p1 p2 (lift r) (lift r).
Proof.
  exists [], r. split; intros e c; unfold lift, flat; cbn [map concat length];
    rewrite app_nil_r; f_equal; f_equal; lia.
Qed.
Lemma both_ret {A} (a : A) : both p1 p2 (ret a) (ret a).
Proof. exact (both_lift (Ok a)). Qed.
Lemma both_ask {A} (f : parser -> A) : (forall p e c, f (with_errors p e c) = f p) -> f p1 = f p2 ->
  both p1 p2 (ask f) (ask f).
Proof.
  intros F E. exists [], (Ok (f p1)). split; intros e c; unfold ask, flat;
    cbn [map concat length]; rewrite F, app_nil_r, ?E; f_equal; f_equal; lia.
Qed.
Lemma both_emit msg : both p1 p2 (emit msg) (emit msg).
Proof.
  exists [msg], (Ok tt). split; intros e c; unfold emit, emit_error, flat; cbn [map concat length];
    unfold with_errors; cbn; now rewrite app_nil_r.
Qed.
Lemma both_bind {A B} (m1 m2 : M A) (f1 f2 : A -> M B) :
  both p1 p2 m1 m2 -> (forall a, both p1 p2 (f1 a) (f2 a)) -> both p1 p2 (bind m1 f1) (bind m2 f2).
Proof.
  intros (ms & r & E1 & E2) H. destruct r as [a|x| |].
  - destruct (H a) as (ms2 & r2 & F1 & F2). exists (ms ++ ms2), r2.
    split; intros e c; unfold bind; rewrite ?E1, ?E2, ?F1, ?F2, flat_app, app_assoc, app_length; f_equal; f_equal; lia.
  - exists ms, (Throw x). split; intros e c; unfold bind; now rewrite ?E1, ?E2.
  - exists ms, UB. split; intros e c; unfold bind; now rewrite ?E1, ?E2.
  - exists ms, OutOfFuel. split; intros e c; unfold bind; now rewrite ?E1, ?E2.
Qed.
Lemma both_fail {A} msg : both (A := list A) p1 p2 (fail msg) (fail msg).
Proof. apply both_bind; [apply both_emit|]. intros _. apply both_ret. Qed.

(* ---------- the functions of the parser ---------- *)

Variables (y : sys) (g1 g2 : resolver).
Hypothesis Eflags : f_flags p1 = f_flags p2.
Hypothesis Ea4 : f_default_address4 p1 = f_default_address4 p2.
Hypothesis Ea6 : f_default_address6 p1 = f_default_address6 p2.
Hypothesis Em4 : f_default_mask4 p1 = f_default_mask4 p2.
Hypothesis Em6 : f_default_mask6 p1 = f_default_mask6 p2.
Hypothesis Eproto : p_protocol p1 = p_protocol p2.
Hypothesis Eport : f_default_port p1 = f_default_port p2.
Hypothesis Esort : Z.land (f_sort p1) SORT_NO_EMPTY = Z.land (f_sort p2) SORT_NO_EMPTY.
Hypothesis Eres : g1 = g2
  \/ (allow p1 ALLOW_ADDRESS_LOOKUP = false /\ allow p1 ALLOW_ADDRESS_MASK = false).

Lemma both_allowed flag : both p1 p2 (allowed flag) (allowed flag).
Proof. apply both_ask; [reflexivity|]. unfold allow. now rewrite Eflags. Qed.

(* two continuations which only have to agree on the value read *)
Lemma both_allowed_bind {B} flag (f1 f2 : bool -> M B) : both p1 p2 (f1 (allow p1 flag)) (f2 (allow p1 flag)) ->
  both p1 p2 (bind (allowed flag) f1) (bind (allowed flag) f2).
Proof.
  intros (ms & r & E1 & E2). exists ms, r. split; intros e c; unfold bind, allowed, ask.
  - apply E1.
  - rewrite <- E2. f_equal. unfold allow. cbn. now rewrite Eflags.
Qed.

Ltac both_step :=
  match goal with
  | |- both _ _ (bind (allowed _) _) _ => apply both_bind; [apply both_allowed|intros ?]
  | |- both _ _ (bind (ask _) _) _ => apply both_bind; [apply both_ask; [reflexivity|cbv beta; try congruence]|intros ?]
  | |- both _ _ (bind (emit _) _) _ => apply both_bind; [apply both_emit|intros ?]
  | |- both _ _ (bind (lift _) _) _ => apply both_bind; [apply both_lift|intros ?]
  | |- both _ _ (ret _) _ => apply both_ret
  | |- both _ _ (lift _) _ => apply both_lift
  | |- both _ _ (fail _) _ => apply both_fail
  end.

Lemma both_use_addrinfo l : forall first host dp,
  both p1 p2 (use_addrinfo l first host dp) (use_addrinfo l first host dp).
Proof.
  induction l as [|ai l IH]; intros first host dp; cbn [use_addrinfo]; [both_step|].
  destruct (ai_family ai =? AF_INET).
  { destruct (negb _); both_step; [apply IH|]. apply both_bind; [apply IH|]. intros ?. both_step. }
  destruct (ai_family ai =? AF_INET6).
  { destruct (negb _); both_step; [apply IH|]. apply both_bind; [apply IH|]. intros ?. both_step. }
  destruct first; [both_step|]; apply IH.
Qed.
Lemma both_numeric address port dp :
  both p1 p2 (numeric_address address port dp) (numeric_address address port dp).
Proof.
  unfold numeric_address. both_step. destruct (inet_pton4 _); [both_step; both_step|].
  destruct (inet_pton6 _); repeat both_step.
Qed.
Lemma both_address_port address port_str ipv6 :
  both p1 p2 (parse_address_port y g1 address port_str ipv6) (parse_address_port y g2 address port_str ipv6).
Proof.
  unfold parse_address_port. both_step. destruct (negb _ && _); [both_step|]. both_step.
  both_step. destruct (_ && _); [both_step|]. both_step.
  { unfold default_address. rewrite Ea4, Ea6. reflexivity. }
  apply both_allowed_bind. destruct (allow p1 ALLOW_ADDRESS_LOOKUP) eqn:L.
  - destruct Eres as [<-|[E _]]; [|congruence]. both_step.
    match goal with |- context [g1 ?a ?b ?c ?d ?e] => destruct (g1 a b c d e) end; [both_step|apply both_use_addrinfo].
  - both_step. destruct (_ || _); [|apply both_numeric]. destruct (convert_string _ _); [|both_step].
    destruct (_ || _); [both_step|]. destruct (_ && _); [both_step|apply both_numeric].
Qed.
Lemma both_ignore_duplicates address port_str ipv6 :
  both p1 p2 (parse_address_port_ignore_duplicates y g1 address port_str ipv6)
             (parse_address_port_ignore_duplicates y g2 address port_str ipv6).
Proof.
  apply both_bind; [apply both_address_port|]. intros [|r l]; repeat both_step.
Qed.
Lemma both_range_end text port_str msg ipv6 :
  both p1 p2 (range_end y g1 text port_str msg ipv6) (range_end y g2 text port_str msg ipv6).
Proof.
  unfold range_end. destruct text; [both_step|]. apply both_bind; [apply both_ignore_duplicates|].
  intros [|r [|r' l]]; repeat both_step.
Qed.
Lemma both_range_port addresses port_str ipv6 :
  both p1 p2 (parse_address_range_port y g1 addresses port_str ipv6)
             (parse_address_range_port y g2 addresses port_str ipv6).
Proof.
  unfold parse_address_range_port. both_step.
  destruct (if a then find_char 45 addresses else None) as [p|]; [|apply both_address_port].
  match goal with |- both _ _ (if ?b then _ else _) _ => destruct b end; [both_step|].
  apply both_bind; [apply both_range_end|]. intros [fr|]; [|both_step].
  apply both_bind; [apply both_range_end|]. intros [tr|]; [|both_step].
  destruct fr as [f|], (option_map swap_from_to tr) as [t|]; [|both_step|both_step|both_step].
  (* only one bit of the sort flags is read *)
  set (r1 := set_to f (get_to t)).
  assert (forall q, (do! sort <- ask f_sort in
             if (Z.land sort SORT_NO_EMPTY =? 0) || negb (is_empty r1) then ret [r1] else ret []) q
          = (do! b <- ask (fun p => (Z.land (f_sort p) SORT_NO_EMPTY =? 0)) in
             if b || negb (is_empty r1) then ret [r1] else ret []) q) as K by reflexivity.
  assert (both p1 p2 (do! b <- ask (fun p => (Z.land (f_sort p) SORT_NO_EMPTY =? 0)) in
             if b || negb (is_empty r1) then ret [r1] else ret [])
            (do! b <- ask (fun p => (Z.land (f_sort p) SORT_NO_EMPTY =? 0)) in
             if b || negb (is_empty r1) then ret [r1] else ret [])) as (ms & r & E1 & E2).
  { apply both_bind; [apply both_ask; [reflexivity|now rewrite Esort]|]. intros b. destruct (_ || _); both_step. }
  exists ms, r. split; intros e c; rewrite K; auto.
Qed.
Lemma both_address4 in_ : both p1 p2 (parse_address4 y g1 in_) (parse_address4 y g2 in_).
Proof.
  unfold parse_address4. both_step. both_step. destruct (find_char 58 in_); [|apply both_range_port].
  destruct (_ || _); [apply both_range_port|both_step].
Qed.
Lemma both_address6 in_ colons : both p1 p2 (parse_address6 y g1 in_ colons) (parse_address6 y g2 in_ colons).
Proof.
  unfold parse_address6. both_step. both_step.
  destruct (match in_ with c :: _ => c =? 91 | [] => false end).
  - destruct (find_char 93 in_); [|both_step]. destruct (skipn _ in_); [apply both_range_port|].
    destruct (negb _); [both_step|]. destruct (_ && _); [both_step|apply both_range_port].
  - destruct (colons =? 1); [|apply both_range_port]. destruct (find_char 58 in_); [apply both_range_port|both_step].
Qed.
Lemma both_address in_ mask : both p1 p2 (parse_address y g1 in_ mask) (parse_address y g2 in_ mask).
Proof.
  unfold parse_address.
  assert (both p1 p2 (do! l <- parse_address6 y g1 in_ (count_char 58 in_) in ret (l, false))
            (do! l <- parse_address6 y g2 in_ (count_char 58 in_) in ret (l, false))) as S.
  { apply both_bind; [apply both_address6|]. intros. both_step. }
  assert (both p1 p2 (do! l <- parse_address4 y g1 in_ in ret (l, true))
            (do! l <- parse_address4 y g2 in_ in ret (l, true))) as F.
  { apply both_bind; [apply both_address4|]. intros. both_step. }
  destruct (_ >=? 2); [exact S|].
  destruct in_ as [|c0 in_]; [|destruct (c0 =? 58)].
  1, 2: destruct mask as [|c mask];
    [both_step; both_step; repeat match goal with |- both _ _ (match ?x with _ => _ end) _ => destruct x end; auto
    |destruct (c =? 91); [exact S|]; destruct (_ >? 32); auto].
  destruct (_ || _); [exact S|]. both_step. both_step. destruct (_ && _); [|exact F].
  destruct (find_char 58 _); [|exact F]. match goal with |- both _ _ (if ?b then _ else _) _ => destruct b end; auto.
Qed.
Lemma both_mask mask cidr ipv4 : both p1 p2 (parse_mask g1 mask cidr ipv4) (parse_mask g2 mask cidr ipv4).
Proof.
  unfold parse_mask. destruct mask as [|c0 mask]; [both_step|].
  destruct (mask_number _ 0) as [n|]; [|both_step; both_step].
  destruct (negb (n =? -1)).
  { destruct (_ && _); [both_step; both_step|]. destruct (_ && _); [both_step; both_step|].
    destruct (mask_bits_loop _ _ _); both_step. }
  apply both_allowed_bind. destruct (allow p1 ALLOW_ADDRESS_MASK) eqn:L; cbn [negb]; [|both_step; both_step].
  destruct Eres as [<-|[_ E]]; [|congruence].
  destruct (_ && _); [both_step; both_step|]. destruct (_ && _); [both_step; both_step|].
  destruct (_ && _); [both_step; both_step|]. destruct (_ && _); [both_step|].
  match goal with |- context [g1 ?a ?b ?c ?d ?e] => destruct (g1 a b c d e) as [t|[|ai l]] end;
    [both_step; both_step|both_step|].
  destruct ipv4; (destruct (negb _); [both_step; both_step|]); (destruct (negb _); repeat both_step).
Qed.
Lemma both_apply_masks mask ipv4 l : both p1 p2 (apply_masks g1 mask ipv4 l) (apply_masks g2 mask ipv4 l).
Proof.
  induction l as [|am l IH]; cbn [apply_masks]; [both_step|]. both_step.
  { unfold effective_mask. rewrite Em4, Em6. reflexivity. }
  apply both_bind; [apply both_mask|]. intros ?. apply both_bind; [apply IH|]. intros ?. both_step.
Qed.

Lemma both_cidr in_ : both p1 p2 (parse_cidr y g1 in_) (parse_cidr y g2 in_).
Proof.
  unfold parse_cidr. both_step. destruct a.
  2:{ apply both_bind; [apply both_address|]. intros ?. both_step. }
  match goal with |- both _ _ (let (_, _) := ?x in _) _ => destruct x as [address mask] end.
  assert (both p1 p2 (do! am <- parse_address y g1 address mask in
                      let '(addr_mask, ipv4) := am in apply_masks g1 mask ipv4 addr_mask)
                     (do! am <- parse_address y g2 address mask in
                      let '(addr_mask, ipv4) := am in apply_masks g2 mask ipv4 addr_mask)) as (ms & r & E1 & E2).
  { apply both_bind; [apply both_address|]. intros [l ipv4]. apply both_apply_masks. }
  exists ms, (match r with
              | Ok l => Ok (if Z.of_nat (length ms) =? 0 then l else [])
              | _ => r
              end).
  assert (forall p g e c,
    (do! errcnt <- ask f_error_count in
     do! am <- parse_address y g address mask in
     (let '(addr_mask, ipv4) := am in
      do! l <- apply_masks g mask ipv4 addr_mask in
      do! errcnt' <- ask f_error_count in
      if errcnt =? errcnt' then ret l else ret [])) (with_errors p e c)
    = (let '(q, r) := (do! am <- parse_address y g address mask in
                      let '(addr_mask, ipv4) := am in apply_masks g mask ipv4 addr_mask) (with_errors p e c) in
       (q, match r with Ok l => Ok (if c =? f_error_count q then l else []) | _ => r end))) as K.
  { intros p g e c. unfold bind, ask. cbn [with_errors f_error_count].
    destruct (parse_address y g address mask (with_errors p e c)) as [q [[l ipv4]|x| |]]; try reflexivity.
    destruct (apply_masks g mask ipv4 l q) as [q2 [l2|x| |]]; try reflexivity.
    destruct (c =? f_error_count q2); reflexivity. }
  split; intros e c; rewrite K, ?E1, ?E2; (destruct r as [l|x| |]; try reflexivity);
    cbn [with_errors f_error_count]; f_equal; f_equal.
  all: destruct (Z.of_nat (length ms) =? 0) eqn:Q, (c =? c + Z.of_nat (length ms)) eqn:Q2; try reflexivity; lia.
Qed.

Lemma both_loop seps comments newlines : forall fuel rest,
  both p1 p2 (parse_loop y g1 fuel seps comments newlines rest) (parse_loop y g2 fuel seps comments newlines rest).
Proof.
  induction fuel as [|k IH]; intros rest; cbn [parse_loop]; (destruct rest as [|c rest]; [both_step|]); [both_step|].
  destruct (split_at seps (c :: rest)) as [piece tail]. destruct piece as [|c1 piece]; [apply IH|].
  match goal with |- both _ _ (let (_, _) := ?x in _) _ => destruct x as [text tail'] end.
  apply both_bind; [destruct text; [both_step|apply both_cidr]|]. intros ?.
  apply both_bind; [apply IH|]. intros ?. both_step.
Qed.
Lemma both_entries in_ : both p1 p2 (parse_entries y g1 in_) (parse_entries y g2 in_).
Proof.
  unfold parse_entries. both_step. { unfold separators, allow. now rewrite Eflags. }
  both_step. { unfold comment_chars, allow. now rewrite Eflags. }
  destruct a; [apply both_cidr|]. both_step. apply both_loop.
Qed.
End Both.

Lemma both_parse p1 p2 y g1 g2 in_ : same_config p1 p2 ->
  g1 = g2 \/ (allow p1 ALLOW_ADDRESS_LOOKUP = false /\ allow p1 ALLOW_ADDRESS_MASK = false) ->
  both p1 p2 (parse y g1 in_) (parse y g2 in_).
Proof.
  intros [] R. apply both_bind; [apply both_entries; auto; congruence|]. intros l.
  apply both_bind; [apply both_ask; [reflexivity|assumption]|]. intros s. apply both_lift.
Qed.
