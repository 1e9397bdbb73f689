(* Proofs for C173: parse() of two parsers with different permissions. *)
From Coq Require Import ZifyBool ZifyNat.
From Verif Require Import Base Addr Range Inet Parser SpecSettings SpecUnused.
From Verif Require ParserProofs ParserProofs15 NumericProofs AllowProofs.
Import ParserProofs.
Local Open Scope Z_scope.

Definition log (p : parser) (t : str) (n : Z) : parser := with_errors p (f_error p ++ t) (f_error_count p + n).
Lemma log_nil p : log p [] 0 = p.
Proof. destruct p. unfold log, with_errors. cbn. now rewrite app_nil_r, Z.add_0_r. Qed.
Lemma log_log p t n t' n' : log (log p t n) t' n' = log p (t ++ t') (n + n').
Proof. unfold log, with_errors. cbn. now rewrite <- app_assoc, Z.add_assoc. Qed.

Section Text.
Context (s : str).

Definition fixed_flags : list Z :=
  [ALLOW_REQUIRED_ADDRESS; ALLOW_ADDRESS_LOOKUP; ALLOW_REQUIRED_PORT;
   ALLOW_MULTI_ADDRESSES_COMMAS; ALLOW_MULTI_ADDRESSES_SPACES; ALLOW_MULTI_ADDRESSES_NEWLINES;
   ALLOW_COMMENT_HASH; ALLOW_COMMENT_SEMICOLON].
Definition bare (p : parser) : Prop := f_default_mask4 p = [] /\ ~ In 58 (f_default_mask6 p).
Record sim (p q : parser) : Prop := {
  sim_allow : forall f, In f fixed_flags -> allow p f = allow q f;
  sim_range : allow p ALLOW_ADDRESS_RANGE = allow q ALLOW_ADDRESS_RANGE \/ ~ In 45 s;
  sim_ports : allow p ALLOW_PORT = allow q ALLOW_PORT
    \/ ~ In 58 s /\ (f_default_port p = -1 \/ allow p ALLOW_ADDRESS_LOOKUP = true \/ allow p ALLOW_REQUIRED_PORT = true);
  sim_amask : allow p ALLOW_ADDRESS_MASK = allow q ALLOW_ADDRESS_MASK \/ ~ In 47 s /\ bare p;
  sim_mask : allow p ALLOW_MASK = allow q ALLOW_MASK \/ ~ In 47 s /\ bare p;
  sim_sort : f_sort p = f_sort q;
  sim_a4 : f_default_address4 p = f_default_address4 q;
  sim_a6 : f_default_address6 p = f_default_address6 q;
  sim_proto : p_protocol p = p_protocol q;
  sim_port : f_default_port p = f_default_port q;
  sim_m4 : f_default_mask4 p = f_default_mask4 q;
  sim_m6 : f_default_mask6 p = f_default_mask6 q
}.
Lemma sim_log p q t n t' n' : sim p q -> sim (log p t n) (log q t' n').
Proof. intros [A B C D E F G H I J K L]. constructor; auto. Qed.

Definition rel {A} (R : parser -> parser -> Prop) (m : M A) : Prop := forall p q, R p q -> sim p q ->
  exists t n r, m p = (log p t n, r) /\ m q = (log q t n, r) /\ 0 <= n.
Definition any (p q : parser) : Prop := True.
Definition stable (R : parser -> parser -> Prop) : Prop := forall p q t n t' n', R p q -> R (log p t n) (log q t' n').
Lemma stable_any : stable any. Proof. easy. Qed.

Section Rules.
Context (R : parser -> parser -> Prop) (ST : stable R).
Lemma rel_ret {A} (a : A) : rel R (ret a).
Proof. intros p q _ _. exists [], 0, (Ok a). rewrite !log_nil. repeat split; lia. Qed.
Lemma rel_lift {A} (r : res A) : rel R (lift r).
Proof. intros p q _ _. exists [], 0, r. rewrite !log_nil. repeat split; lia. Qed.
Lemma rel_emit x : rel R (emit x).
Proof. intros p q _ _. exists (x ++ [10]), 1, (Ok tt). repeat split; lia. Qed.
Lemma rel_bind {A B} (m : M A) (f : A -> M B) : rel R m -> (forall a, rel R (f a)) -> rel R (bind m f).
Proof.
  intros Hm Hf p q HR S. destruct (Hm p q HR S) as (t & n & r & E1 & E2 & N). unfold bind. rewrite E1, E2.
  destruct r as [a|e| |]; [|exists t, n; eexists; repeat split; auto..].
  destruct (Hf a (log p t n) (log q t n) (ST _ _ _ _ _ _ HR) (sim_log _ _ _ _ _ _ S)) as (t' & n' & r & X1 & X2 & N').
  exists (t ++ t'), (n + n'), r. rewrite X1, X2, !log_log. repeat split; lia.
Qed.
Lemma rel_fail {A} x : rel R (fail x : M (list A)).
Proof. apply rel_bind; [apply rel_emit|intros; apply rel_ret]. Qed.
Lemma rel_ask {A} (f : parser -> A) : (forall p q, R p q -> sim p q -> f p = f q) -> rel R (ask f).
Proof.
  intros H p q HR S. exists [], 0, (Ok (f p)). rewrite !log_nil. unfold ask. rewrite <- (H p q HR S). repeat split; lia.
Qed.
Lemma rel_allowed flag : In flag fixed_flags -> rel R (allowed flag).
Proof. intros I. apply rel_ask. intros p q _ S. exact (sim_allow _ _ S _ I). Qed.
Lemma rel_weaken {A} (m : M A) : rel any m -> rel R m.
Proof. intros H p q _ S. exact (H p q I S). Qed.
(* It matters only where both have the same. *)
Lemma rel_case {A} flag (k : bool -> M A) : (forall p q, R p q -> sim p q -> allow p flag = allow q flag \/ k false = k true) ->
  (forall b, rel R (k b)) -> rel R (bind (allowed flag) k).
Proof.
  intros E H p q HR S. unfold bind, allowed, ask. destruct (E p q HR S) as [X|X].
  - rewrite <- X. exact (H _ p q HR S).
  - assert (Y : forall b, k b = k true) by (intros [|]; auto). rewrite (Y (allow p flag)), (Y (allow q flag)). exact (H _ p q HR S).
Qed.
End Rules.

Ltac look := first [apply stable_any | cbn; tauto].
Ltac step :=
  match goal with
  | |- rel _ (bind _ _) => apply rel_bind; [look| |intros]
  | |- rel _ (ret _) => apply rel_ret
  | |- rel _ (lift _) => apply rel_lift
  | |- rel _ (emit _) => apply rel_emit
  | |- rel _ (fail _) => apply rel_fail; look
  | |- rel _ (allowed _) => apply rel_allowed; look
  | |- rel _ (ask f_sort) => apply rel_ask; intros ? ? _ S; exact (sim_sort _ _ S)
  | |- rel _ (ask f_default_port) => apply rel_ask; intros ? ? _ S; exact (sim_port _ _ S)
  | |- rel _ (ask f_default_address4) => apply rel_ask; intros ? ? _ S; exact (sim_a4 _ _ S)
  | |- rel _ (ask f_default_address6) => apply rel_ask; intros ? ? _ S; exact (sim_a6 _ _ S)
  | |- rel _ (ask p_protocol) => apply rel_ask; intros ? ? _ S; exact (sim_proto _ _ S)
  | |- rel _ (if ?b then _ else _) => destruct b
  | |- rel _ (match ?x with _ => _ end) => destruct x
  end.
Ltac steps := repeat (first [assumption | step]).

Lemma rel_use l : forall first host d, rel any (use_addrinfo l first host d).
Proof. induction l as [|ai l IH]; intros first host d; cbn [use_addrinfo]; steps; apply IH. Qed.
Lemma rel_numeric a port d : rel any (numeric_address a port d).
Proof. unfold numeric_address. steps. Qed.
Lemma rel_default ipv6 : rel any (ask (fun p => default_address p ipv6)).
Proof. apply rel_ask. intros p q _ S. unfold default_address. now rewrite (sim_a4 _ _ S), (sim_a6 _ _ S). Qed.

(* parse_address_port() with the answers it gets. *)
Definition port_body (y : sys) (g : resolver) (address port_str : str) (ipv6 required_port : bool) (default_port : Z) (lookup allow_port : bool)
  (default : str) (required_address : bool) (proto : Z) : M (list addr_range) :=
  let defined_port := match port_str with [] => false | _ => true end in
  if negb defined_port && required_port then fail (lit "Required port is missing.")
  else
  let port_str := if negb defined_port && negb (default_port =? -1) then to_string_int default_port else port_str in
  let no_address := match address with [] => true | _ => false end in
  if no_address && required_address then fail (lit "Required address is missing.")
  else
  let address := if no_address then default else address in
  if lookup then
    let service := match port_str with [] => lit "0" | _ => port_str end in
    match g (c_str address) (c_str service) false (hint_socktype proto) (hint_protocol proto) with
    | GAI_error text =>
        fail (lit "Invalid address in """ ++ address
              ++ (match port_str with [] => [] | _ => lit ":" end) ++ port_str
              ++ lit """ error " ++ text)
    | GAI_list l => use_addrinfo l true address defined_port
    end
  else
    if required_port || (match port_str with [] => false | _ => true end) then
      match convert_string y port_str with
      | Some port =>
          if (port <? 0) || (port >? 65535) then
            fail (lit "invalid port in """ ++ port_str
                  ++ lit """ (no service name lookup allowed).")
          else if negb allow_port && negb required_port then
            fail (lit "Found a port (""" ++ port_str ++ lit """) when it is not allowed.")
          else numeric_address address port defined_port
      | None =>
          fail (lit "invalid port in """ ++ port_str
                ++ lit """ (no service name lookup allowed).")
      end
    else numeric_address address 0 defined_port.
Lemma port_is_body y g a port ipv6 p : parse_address_port y g a port ipv6 p =
  port_body y g a port ipv6 (allow p ALLOW_REQUIRED_PORT) (f_default_port p) (allow p ALLOW_ADDRESS_LOOKUP) (allow p ALLOW_PORT)
    (default_address p ipv6) (allow p ALLOW_REQUIRED_ADDRESS) (p_protocol p) p.
Proof.
  unfold parse_address_port, port_body, bind at 1, allowed at 1, ask at 1. cbv zeta.
  destruct (negb _ && allow p ALLOW_REQUIRED_PORT); [reflexivity|].
  unfold bind at 1, ask at 1. unfold bind at 1, allowed at 1, ask at 1.
  destruct (match a with [] => true | _ => false end && allow p ALLOW_REQUIRED_ADDRESS); [reflexivity|].
  unfold bind at 1, ask at 1. unfold bind at 1, allowed at 1, ask at 1.
  destruct (allow p ALLOW_ADDRESS_LOOKUP); [reflexivity|]. unfold bind at 1, allowed at 1, ask at 1. reflexivity.
Qed.
Lemma rel_body y g a port ipv6 rp dp lk ap d ra pr : rel any (port_body y g a port ipv6 rp dp lk ap d ra pr).
Proof. unfold port_body. cbv zeta. steps; try apply rel_use; try apply rel_numeric. Qed.

Lemma rel_port y g a port ipv6 : (~ In 58 s -> port = []) -> rel any (parse_address_port y g a port ipv6).
Proof.
  intros NP p q HR S. rewrite !port_is_body.
  rewrite <- (sim_allow _ _ S ALLOW_REQUIRED_PORT), <- (sim_allow _ _ S ALLOW_ADDRESS_LOOKUP), <- (sim_allow _ _ S ALLOW_REQUIRED_ADDRESS) by look.
  rewrite <- (sim_port _ _ S), <- (sim_proto _ _ S).
  replace (default_address q ipv6) with (default_address p ipv6) by (unfold default_address; now rewrite (sim_a4 _ _ S), (sim_a6 _ _ S)).
  assert (X : port_body y g a port ipv6 (allow p ALLOW_REQUIRED_PORT) (f_default_port p) (allow p ALLOW_ADDRESS_LOOKUP) (allow q ALLOW_PORT)
    (default_address p ipv6) (allow p ALLOW_REQUIRED_ADDRESS) (p_protocol p) =
    port_body y g a port ipv6 (allow p ALLOW_REQUIRED_PORT) (f_default_port p) (allow p ALLOW_ADDRESS_LOOKUP) (allow p ALLOW_PORT)
    (default_address p ipv6) (allow p ALLOW_REQUIRED_ADDRESS) (p_protocol p)).
  { destruct (sim_ports _ _ S) as [E|[N C]]; [now rewrite E|]. rewrite (NP N). unfold port_body. cbv zeta. cbn [negb andb].
    destruct (allow p ALLOW_REQUIRED_PORT) eqn:ER; [reflexivity|]. destruct (_ && _); [reflexivity|].
    destruct (allow p ALLOW_ADDRESS_LOOKUP) eqn:EL; [reflexivity|].
    destruct C as [C|[C|C]]; try discriminate. rewrite C. reflexivity. }
  rewrite X. exact (rel_body _ _ _ _ _ _ _ _ _ _ _ _ p q I S).
Qed.
Lemma rel_port_ignore y g a port ipv6 : (~ In 58 s -> port = []) -> rel any (parse_address_port_ignore_duplicates y g a port ipv6).
Proof. intros NP. unfold parse_address_port_ignore_duplicates. apply rel_bind; [look|now apply rel_port|intros]. steps. Qed.
Lemma rel_end y g text port msg ipv6 : (~ In 58 s -> port = []) -> rel any (range_end y g text port msg ipv6).
Proof. intros NP. unfold range_end. destruct text; [steps|]. apply rel_bind; [look|now apply rel_port_ignore|intros]. steps. Qed.
Lemma rel_range y g a port ipv6 : incl a s -> (~ In 58 s -> port = []) -> rel any (parse_address_range_port y g a port ipv6).
Proof.
  intros IA NP. unfold parse_address_range_port. apply rel_case.
  - intros p q _ S. destruct (sim_range _ _ S) as [E|N]; [now left|right].
    rewrite (AllowProofs.find_none_of 45 a) by (intros X; apply N, IA, X). reflexivity.
  - intros b. destruct (if b then _ else None) as [i|]; [|now apply rel_port].
    cbv zeta. step; [step|]. apply rel_bind; [look|now apply rel_end|intros fr]. destruct fr; [|step].
    apply rel_bind; [look|now apply rel_end|intros tr]. steps.
Qed.
Lemma incl_firstn n (a : str) : incl a s -> incl (firstn n a) s.
Proof. intros H c I. apply H. rewrite <- (firstn_skipn n a). apply in_or_app. now left. Qed.
Lemma incl_skipn n (a : str) : incl a s -> incl (skipn n a) s.
Proof. intros H c I. apply H. rewrite <- (firstn_skipn n a). apply in_or_app. now right. Qed.
Lemma found_in c a i : incl a s -> find_char c a = Some i -> In c s.
Proof. intros H F. apply H. destruct (AllowProofs.find_split _ _ _ F) as [E _]. rewrite E. apply in_or_app. right. now left. Qed.

Lemma rel_address4 y g a : incl a s -> rel any (parse_address4 y g a).
Proof.
  intros IA. unfold parse_address4. destruct (find_char 58 a) as [i|] eqn:F.
  - pose proof (found_in _ _ _ IA F) as I58. apply rel_case.
    { intros p q _ S. destruct (sim_ports _ _ S) as [E|[N _]]; [now left|contradiction]. }
    intros b. step; [step|]. destruct (b || _); [|step]. apply rel_range; [now apply incl_firstn|contradiction].
  - apply rel_case; [now right|]. intros b. step; [step|]. apply rel_range; auto.
Qed.
Lemma rel_address6 y g a colons : incl a s -> rel any (parse_address6 y g a colons).
Proof.
  intros IA. unfold parse_address6. cbv zeta. destruct (match a with c :: _ => c =? 91 | [] => false end).
  - destruct (find_char 93 a) as [i|]; [|apply rel_case; [now right|intros; steps]].
    pose proof (incl_firstn (i - 1) _ (incl_skipn 1 _ IA)) as I1. pose proof (incl_skipn (i + 1) _ IA) as I2.
    destruct (skipn (i + 1) a) as [|c w].
    { apply rel_case; [now right|]. intros b. step; [step|]. apply rel_range; auto. }
    destruct (c =? 58) eqn:C; cbn [negb]; [|apply rel_case; [now right|intros; steps]].
    assert (c = 58) by lia. subst c. pose proof (I2 58 (or_introl eq_refl)) as I58.
    apply rel_case. { intros p q _ S. destruct (sim_ports _ _ S) as [E|[N _]]; [now left|contradiction]. }
    intros b. step; [step|]. destruct (_ && _); [step|]. apply rel_range; [exact I1|contradiction].
  - destruct (colons =? 1); (apply rel_case; [now right|]); intros b; (step; [step|]).
    + destruct (find_char 58 a) as [i|] eqn:F; [|step]. apply rel_range; [now apply incl_firstn|].
      intros N. destruct N. exact (found_in _ _ _ IA F).
    + apply rel_range; auto.
Qed.
Lemma rel_address y g a mask : incl a s -> rel any (parse_address y g a mask).
Proof.
  intros IA. unfold parse_address. cbv zeta.
  assert (S6 : rel any (do! l <- parse_address6 y g a (count_char 58 a) in ret (l, false)))
    by (apply rel_bind; [look|now apply rel_address6|intros; step]).
  assert (S4 : rel any (do! l <- parse_address4 y g a in ret (l, true)))
    by (apply rel_bind; [look|now apply rel_address4|intros; step]).
  set (x6 := bind (parse_address6 _ _ _ _) _) in *. set (x4 := bind (parse_address4 _ _ _) _) in *. clearbody x6 x4.
  destruct (count_char 58 a >=? 2); [assumption|]. destruct a as [|c0 a]; [steps|].
  destruct (c0 =? 58); [steps|]. destruct (_ || _); [assumption|].
  destruct (find_char 58 (c0 :: a)) as [i|] eqn:F.
  - pose proof (found_in _ _ _ IA F) as I58. apply rel_case.
    { intros p q _ S. destruct (sim_ports _ _ S) as [E|[N _]]; [now left|contradiction]. }
    intros b. steps.
  - intros p q HR S.
    assert (X : forall z, (do! allow_port <- allowed ALLOW_PORT in do! required_port <- allowed ALLOW_REQUIRED_PORT in
      (if negb allow_port && negb required_port then x4 else x4)) z = x4 z).
    { intros z. unfold bind, allowed, ask. destruct (_ && _); reflexivity. }
    rewrite !X. exact (S4 p q HR S).
Qed.

Lemma rel_mask2 g mask cidr ipv4 : rel (fun p q => allow p ALLOW_ADDRESS_MASK = allow q ALLOW_ADDRESS_MASK) (parse_mask g mask cidr ipv4).
Proof.
  assert (ST : stable (fun p q => allow p ALLOW_ADDRESS_MASK = allow q ALLOW_ADDRESS_MASK)) by (intros p q t n t' n' H; exact H).
  unfold parse_mask. cbv zeta. destruct mask as [|c mask]; [step|]. 
  assert (EM : forall x (r : addr), rel (fun p q => allow p ALLOW_ADDRESS_MASK = allow q ALLOW_ADDRESS_MASK) (do! _ <- emit x in ret r))
    by (intros x r; apply rel_weaken; steps).
  destruct (mask_number _ 0) as [k|]; [|apply EM]. destruct (negb (k =? -1)).
  { repeat (match goal with |- rel _ (if ?b then _ else _) => destruct b | |- rel _ (match ?b with _ => _ end) => destruct b end); try apply EM; step. }
  apply rel_case. { intros p q E _. now left. }
  intros b.
  repeat (match goal with |- rel _ (if ?b then _ else _) => destruct b | |- rel _ (match ?b with _ => _ end) => destruct b end); try apply EM; step.
Qed.
Lemma masks_bare g b l z : bare z -> apply_masks g [] b l z = (z, Ok l).
Proof.
  intros [M4 M6]. assert (E : effective_mask z [] b = []).
  { unfold effective_mask. destruct b; [exact M4|]. now rewrite AllowProofs.find_none_of. }
  induction l as [|r l IH]; [reflexivity|]. cbn [apply_masks]. unfold bind at 1, ask at 1. rewrite E.
  unfold bind, parse_mask, ret. cbv zeta. rewrite IH. now destruct r.
Qed.
Lemma rel_masks g mask ipv4 l : (mask <> [] -> In 47 s) -> rel any (apply_masks g mask ipv4 l).
Proof.
  intros M p q HR S. destruct (sim_amask _ _ S) as [E|[N B]].
  - revert p q HR S E.
    set (R := fun p q => allow p ALLOW_ADDRESS_MASK = allow q ALLOW_ADDRESS_MASK).
    assert (ST : stable R) by (intros p q t n t' n' H; exact H).
    assert (H : rel R (apply_masks g mask ipv4 l)).
    { induction l as [|r l' IH]; cbn [apply_masks]; [apply rel_ret|]. apply rel_bind; [exact ST| |intros m].
      - apply rel_ask. intros p q _ S. unfold effective_mask. now rewrite (sim_m4 _ _ S), (sim_m6 _ _ S).
      - apply rel_bind; [exact ST|apply rel_mask2|intros a]. apply rel_bind; [exact ST|exact IH|intros; apply rel_ret]. }
    intros p q _ S E. exact (H p q E S).
  - destruct mask as [|c mask]; [|destruct N; apply M; discriminate].
    exists [], 0, (Ok l). rewrite !log_nil. rewrite !masks_bare; [repeat split; lia| |exact B].
    unfold bare in *. now rewrite <- (sim_m4 _ _ S), <- (sim_m6 _ _ S).
Qed.
Lemma bind_eq {A B} (m : M A) (f : A -> M B) p p1 r : m p = (p1, r) ->
  bind m f p = match r with Ok a => f a p1 | Throw e => (p1, Throw e) | UB => (p1, UB) | OutOfFuel => (p1, OutOfFuel) end.
Proof. intros E. unfold bind. now rewrite E. Qed.

(* Masks may be allowed by one only: the ranges differ when there is an error. *)
Definition alike {A} (r r' : res A) : Prop := match r, r' with Ok _, Ok _ => True | _, _ => r = r' end.
Definition relk {A} (m : M A) : Prop := forall p q, sim p q ->
  exists t n r r', m p = (log p t n, r) /\ m q = (log q t n, r') /\ 0 <= n
    /\ (n = 0 \/ allow p ALLOW_MASK = allow q ALLOW_MASK -> r = r') /\ alike r r'.
Lemma alike_refl {A} (r : res A) : alike r r.
Proof. destruct r; reflexivity || exact I. Qed.
Lemma rel_relk {A} (m : M A) : rel any m -> relk m.
Proof. intros H p q S. destruct (H p q I S) as (t & n & r & E1 & E2 & N). exists t, n, r, r. repeat split; auto. apply alike_refl. Qed.

Definition with_masks (y : sys) (g : resolver) (address mask : str) : M (list addr_range) :=
  do! errcnt <- ask f_error_count in
  do! am <- parse_address y g address mask in
  let '(addr_mask, ipv4) := am in
  do! l <- apply_masks g mask ipv4 addr_mask in
  do! errcnt' <- ask f_error_count in
  if errcnt =? errcnt' then ret l else ret [].
Lemma with_masks_eq y g address mask p : with_masks y g address mask p =
  bind (do! am <- parse_address y g address mask in let '(addr_mask, ipv4) := am in apply_masks g mask ipv4 addr_mask)
    (fun l => do! errcnt' <- ask f_error_count in if f_error_count p =? errcnt' then ret l else ret []) p.
Proof. unfold with_masks. unfold bind at 1, ask at 1. unfold bind at 1 4 5. destruct (parse_address y g address mask p) as [z1 [[l b]|e| |]]; reflexivity. Qed.
Lemma rel_with_masks y g address mask : incl address s -> (mask <> [] -> In 47 s) -> rel any (with_masks y g address mask).
Proof.
  intros IA M p q HR S.
  assert (H : rel any (do! am <- parse_address y g address mask in let '(addr_mask, ipv4) := am in apply_masks g mask ipv4 addr_mask)).
  { apply rel_bind; [look|now apply rel_address|intros [l b]]. now apply rel_masks. }
  destruct (H p q HR S) as (t & n & r & E1 & E2 & N). clear H.
  rewrite !with_masks_eq. rewrite (bind_eq _ _ _ _ _ E1), (bind_eq _ _ _ _ _ E2).
  destruct r as [l|e| |]; [|exists t, n; eexists; repeat split; auto..].
  unfold bind, ask. exists t, n, (Ok (if n =? 0 then l else [])). change (f_error_count (log p t n)) with (f_error_count p + n).
  change (f_error_count (log q t n)) with (f_error_count q + n).
  replace (f_error_count p =? f_error_count p + n) with (n =? 0) by lia.
  replace (f_error_count q =? f_error_count q + n) with (n =? 0) by lia.
  destruct (n =? 0); repeat split; auto.
Qed.
(* Without a mask: the same ranges, or none. *)
Lemma with_masks_none y g address p t n r : bare p -> 0 <= n -> parse_address y g address [] p = (log p t n, r) ->
  with_masks y g address [] p = (log p t n, match r with Ok am => Ok (if n =? 0 then fst am else []) | Throw e => Throw e | UB => UB | OutOfFuel => OutOfFuel end).
Proof.
  intros B N E. unfold with_masks. unfold bind at 1, ask at 1. rewrite (bind_eq _ _ _ _ _ E). destruct r as [[l b]|e| |]; try reflexivity.
  rewrite (bind_eq _ _ _ _ _ (masks_bare g b l (log p t n) B)). unfold bind, ask.
  change (f_error_count (log p t n)) with (f_error_count p + n).
  replace (f_error_count p =? f_error_count p + n) with (n =? 0) by lia. now destruct (n =? 0).
Qed.
Lemma incl_trim a : incl a s -> incl (trim_string a) s.
Proof. intros H c I. apply H. now apply ParserProofs15.trim_in. Qed.
Lemma relk_cidr y g a : incl a s -> relk (parse_cidr y g a).
Proof.
  intros IA. apply incl_trim in IA. unfold parse_cidr. cbv zeta. set (w := trim_string a) in *. clearbody w. clear a.
  set (x := do! am <- parse_address y g w [] in ret (fst am)).
  assert (X : rel any x) by (apply rel_bind; [look|now apply rel_address|intros; step]).
  set (c := match find_char 47 w with Some p => (firstn p w, skipn (p + 1) w) | None => (w, []) end).
  assert (C : incl (fst c) s /\ (snd c <> [] -> In 47 s) /\ (~ In 47 s -> c = (w, []))).
  { unfold c. destruct (find_char 47 w) as [i|] eqn:F; cbn [fst snd]; [|repeat split; auto; contradiction].
    pose proof (found_in _ _ _ IA F). repeat split; auto; [now apply incl_firstn|contradiction]. }
  destruct c as [address mask]. cbn [fst snd] in C. destruct C as (C1 & C2 & C3). fold (with_masks y g address mask).
  set (w1 := with_masks y g address mask). pose proof (rel_with_masks y g _ _ C1 C2) as W. fold w1 in W.
  intros p q S. unfold bind at 1 2, allowed, ask.
  destruct (Bool.bool_dec (allow p ALLOW_MASK) (allow q ALLOW_MASK)) as [E|E].
  - rewrite <- E. destruct (allow p ALLOW_MASK); [destruct (W p q I S) as (t & n & r & E1 & E2 & N)|destruct (X p q I S) as (t & n & r & E1 & E2 & N)];
      exists t, n, r, r; repeat split; auto; apply alike_refl.
  - destruct (sim_mask _ _ S) as [E'|[N47 B]]; [contradiction|].
    assert (B2 : bare q) by (unfold bare in *; now rewrite <- (sim_m4 _ _ S), <- (sim_m6 _ _ S)).
    specialize (C3 N47). injection C3 as -> ->.
    destruct (rel_address y g w [] IA p q I S) as (t & n & r & E1 & E2 & N).
    pose proof (with_masks_none _ _ _ _ _ _ _ B N E1) as W1. pose proof (with_masks_none _ _ _ _ _ _ _ B2 N E2) as W2. fold w1 in W1, W2.
    assert (X1 : x p = (log p t n, match r with Ok am => Ok (fst am) | Throw e => Throw e | UB => UB | OutOfFuel => OutOfFuel end))
      by (unfold x; rewrite (bind_eq _ _ _ _ _ E1); now destruct r).
    assert (X2 : x q = (log q t n, match r with Ok am => Ok (fst am) | Throw e => Throw e | UB => UB | OutOfFuel => OutOfFuel end))
      by (unfold x; rewrite (bind_eq _ _ _ _ _ E2); now destruct r).
    clear - E W1 W2 X1 X2 N. destruct (allow p ALLOW_MASK), (allow q ALLOW_MASK); try contradiction; exists t, n; do 2 eexists;
      (split; [eassumption|]); (split; [eassumption|]); (split; [exact N|]); split;
      try (intros [->|X]; [destruct r; reflexivity|discriminate]); destruct r; cbn; auto.
Qed.
Lemma relk_then y g a (f : M (list addr_range)) : incl a s -> relk f ->
  relk (do! l <- (match a with [] => ret [] | _ => parse_cidr y g a end) in do! l' <- f in ret (l ++ l')).
Proof.
  intros IA F. assert (G : relk (match a with [] => ret [] | _ => parse_cidr y g a end)).
  { destruct a; [apply rel_relk; step|now apply relk_cidr]. }
  set (m := match a with [] => _ | _ => _ end) in *. clearbody m. intros p q S.
  destruct (G p q S) as (t & n & r & r' & E1 & E2 & N & Q & K). rewrite (bind_eq _ _ _ _ _ E1), (bind_eq _ _ _ _ _ E2).
  destruct r as [l|e| |]; destruct r' as [l'|e'| |]; cbn in K; try discriminate;
    [|injection K as <-; exists t, n, (Throw e), (Throw e); repeat split; auto|exists t, n, UB, UB; repeat split; auto|exists t, n, OutOfFuel, OutOfFuel; repeat split; auto].
  destruct (F (log p t n) (log q t n) (sim_log _ _ _ _ _ _ S)) as (t' & n' & u & u' & X1 & X2 & N' & Q' & K').
  rewrite (bind_eq _ _ _ _ _ X1), (bind_eq _ _ _ _ _ X2), !log_log.
  destruct u as [l1|e| |]; destruct u' as [l1'|e'| |]; cbn in K'; try discriminate;
    exists (t ++ t'), (n + n'); do 2 eexists; (split; [reflexivity|]); (split; [reflexivity|]); (split; [lia|]); split; try exact K'; try exact I.
  - intros H. assert (Ok l = Ok l') as A1 by (apply Q; destruct H; [left; lia|now right]).
    assert (Ok l1 = Ok l1') as A2 by (apply Q'; destruct H; [left; lia|now right]). injection A1 as <-. injection A2 as <-. reflexivity.
  - intros _. now injection K' as <-.
  - reflexivity.
  - reflexivity.
Qed.
Lemma relk_loop y g fuel : forall seps comments newlines rest, incl rest s -> relk (parse_loop y g fuel seps comments newlines rest).
Proof.
  induction fuel as [|fuel IH]; intros seps comments newlines rest IR; cbn [parse_loop]; (destruct rest as [|c rest]; [apply rel_relk; step|]); [apply rel_relk; step|].
  assert (IS : forall set u, incl u s -> incl (fst (split_at set u)) s /\ incl (snd (split_at set u)) s).
  { intros set u IU. split; intros d I; apply IU, (NumericProofs.split_in set); auto. }
  destruct (IS seps _ IR) as [I1 I2]. destruct (split_at seps (c :: rest)) as [piece tail]. cbn [fst snd] in I1, I2.
  destruct piece as [|x piece]; [apply IH; now apply incl_skipn|].
  set (tt' := match comments with [] => _ | _ => _ end).
  assert (incl (fst tt') s /\ incl (snd tt') s) as [J1 J2].
  { unfold tt'. destruct comments; [now split|]. cbn [fst snd]. split; [now apply IS|]. destruct tail as [|d tail]; [exact I2|].
    destruct (_ && _); [now apply IS|exact I2]. }
  destruct tt' as [text tail']. cbn [fst snd] in J1, J2. apply relk_then; [exact J1|]. apply IH. now apply incl_skipn.
Qed.
End Text.

Lemma single_incl comments s : incl (single_entry comments s) s.
Proof.
  unfold single_entry. cbv zeta. destruct (_ <? _)%nat; [apply incl_skipn, incl_refl|]. apply incl_firstn, incl_skipn, incl_refl.
Qed.
Lemma entries_unused y g s : relk s (parse_entries y g s).
Proof.
  intros p q S. unfold parse_entries.
  assert (BA : forall A B (f : parser -> A) (k : A -> M B) z, bind (ask f) k z = k (f z) z) by reflexivity. rewrite !BA.
  replace (separators q) with (separators p) by (unfold separators; now rewrite !(sim_allow _ _ _ S) by (cbn; tauto)).
  replace (comment_chars q) with (comment_chars p) by (unfold comment_chars; now rewrite !(sim_allow _ _ _ S) by (cbn; tauto)).
  destruct (separators p) as [|c seps]; [apply (relk_cidr s); [apply single_incl|exact S]|].
  unfold bind, allowed, ask. rewrite <- (sim_allow _ _ _ S ALLOW_MULTI_ADDRESSES_NEWLINES) by (cbn; tauto).
  apply (relk_loop s); [apply incl_refl|exact S].
Qed.
Lemma parse_unused y g s p q : sim s p q ->
  exists t n r r', parse y g s p = (log p t n, r) /\ parse y g s q = (log q t n, r') /\ 0 <= n
    /\ (n = 0 \/ allow p ALLOW_MASK = allow q ALLOW_MASK -> r = r').
Proof.
  intros S. destruct (entries_unused y g s p q S) as (t & n & r & r' & E1 & E2 & N & Q & K). unfold parse.
  rewrite (bind_eq _ _ _ _ _ E1), (bind_eq _ _ _ _ _ E2).
  exists t, n.
  destruct r as [l|e| |]; destruct r' as [l'|e'| |]; cbn in K; try discriminate;
    do 2 eexists; (split; [reflexivity|]); (split; [reflexivity|]); (split; [exact N|]).
  - intros H. apply Q in H. injection H as <-. change (f_sort (log p t n)) with (f_sort p). change (f_sort (log q t n)) with (f_sort q).
    now rewrite (sim_sort _ _ _ S).
  - intros H. apply Q in H. now injection H as <-.
  - reflexivity.
  - reflexivity.
Qed.
