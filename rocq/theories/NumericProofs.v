(* Proofs for C157: parsing numeric texts with lookups. *)
From Coq Require Import ZifyBool ZifyNat.
From Verif Require Import Base Addr Range Inet AddrText Parser SpecParser SpecNumeric.
From Verif Require IfaceHeapProofs UnixProofs2 ParserProofs9 PropLookups.
From Verif Require Import ParserProofs ParserProofs2 ParserProofs3 ParserProofs5 LookupProofs InetProofs.
Local Open Scope Z_scope.

(* ---------- functions which only add to the log ---------- *)
Definition log (p : parser) (ms : list str) : parser :=
  with_errors p (f_error p ++ flat ms) (f_error_count p + Z.of_nat (length ms)).
Definition grows {A} (m : M A) : Prop := forall p, exists ms, fst (m p) = log p ms.
Lemma log_nil p : log p [] = p.
Proof. unfold log, flat. cbn [map concat length]. rewrite app_nil_r, Z.add_0_r. apply with_errors_id. Qed.
Lemma log_log p a b : log (log p a) b = log p (a ++ b).
Proof.
  unfold log, flat. cbn [with_errors f_error f_error_count f_flags f_sort f_default_address4 f_default_address6 f_default_mask4 f_default_mask6
    p_protocol f_default_port]. unfold with_errors. cbn. rewrite map_app, concat_app, app_length, <- app_assoc. f_equal. lia.
Qed.
Lemma log_self p ms : log p ms = p -> ms = [].
Proof. intros H. apply (f_equal f_error_count) in H. unfold log in H. cbn in H. destruct ms; [reflexivity|cbn in H; lia]. Qed.
Lemma grows_lift {A} (r : res A) : grows (lift r).
Proof. intros p. exists []. cbn. now rewrite log_nil. Qed.
Lemma grows_ret {A} (a : A) : grows (ret a).
Proof. exact (grows_lift (Ok a)). Qed.
Lemma grows_ask {A} (f : parser -> A) : grows (ask f).
Proof. intros p. exists []. cbn. now rewrite log_nil. Qed.
Lemma grows_emit m : grows (emit m).
Proof.
  intros p. exists [m]. cbn [fst emit]. unfold emit_error, log, flat. cbn [map concat length]. rewrite app_nil_r.
  unfold with_errors. cbn. f_equal.
Qed.
Lemma grows_bind {A B} (m : M A) (f : A -> M B) : grows m -> (forall a, grows (f a)) -> grows (bind m f).
Proof.
  intros H1 H2 p. unfold bind. destruct (H1 p) as (ms & E). destruct (m p) as [p1 r]. cbn [fst] in E. subst p1.
  destruct r as [a|x| |]; [|exists ms; reflexivity..]. destruct (H2 a (log p ms)) as (ms2 & ->). exists (ms ++ ms2). apply log_log.
Qed.
Lemma grows_fail {A} m : grows (fail m : M (list A)).
Proof. apply grows_bind; [apply grows_emit|]. intros _. apply grows_ret. Qed.
Ltac grow := repeat (first
  [ match goal with |- forall _, _ => intro end
  | match goal with |- grows (fail _) => apply grows_fail | |- grows (emit _) => apply grows_emit | |- grows (ret _) => apply grows_ret
                  | |- grows (lift _) => apply grows_lift | |- grows (ask _) => apply grows_ask end | assumption
  | match goal with |- grows (bind _ _) => apply grows_bind end | progress cbv zeta
  | match goal with |- grows (match ?x with _ => _ end) => destruct x end
  | match goal with H : forall _, _ |- _ => apply H end ]).

Lemma grows_use l : forall first h d, grows (use_addrinfo l first h d).
Proof. induction l as [|ai l IH]; intros; cbn [use_addrinfo]; grow. Qed.
Lemma grows_numeric A n d : grows (numeric_address A n d).
Proof. unfold numeric_address. grow. Qed.
Lemma grows_port y g A P v6 : grows (parse_address_port y g A P v6).
Proof. unfold parse_address_port, allowed. grow; (apply grows_use || apply grows_numeric). Qed.
Lemma grows_ignore y g A P v6 : grows (parse_address_port_ignore_duplicates y g A P v6).
Proof. unfold parse_address_port_ignore_duplicates. apply grows_bind; [apply grows_port|]. grow. Qed.
Lemma grows_end y g t P m v6 : grows (range_end y g t P m v6).
Proof. unfold range_end. destruct t; [apply grows_ret|]. apply grows_bind; [apply grows_ignore|]. grow. Qed.
Lemma grows_range_port y g t P v6 : grows (parse_address_range_port y g t P v6).
Proof.
  unfold parse_address_range_port, allowed. apply grows_bind; [apply grows_ask|]. intros b.
  destruct (if b then find_char 45 t else None); [|apply grows_port]. cbv zeta.
  match goal with |- grows (if ?x then _ else _) => destruct x end; [apply grows_fail|].
  apply grows_bind; [apply grows_end|]. intros [f|]; [|apply grows_ret].
  apply grows_bind; [apply grows_end|]. grow.
Qed.
Lemma grows_four y g s : grows (parse_address4 y g s).
Proof. unfold parse_address4, allowed. grow; apply grows_range_port. Qed.
Lemma grows_six y g s k : grows (parse_address6 y g s k).
Proof. unfold parse_address6, allowed. grow; apply grows_range_port. Qed.
Lemma grows_address y g s m : grows (parse_address y g s m).
Proof.
  unfold parse_address, allowed. cbv zeta.
  assert (grows (do! l <- parse_address6 y g s (count_char 58 s) in ret (l, false))) as H6
    by (apply grows_bind; [apply grows_six|intros; apply grows_ret]).
  assert (grows (do! l <- parse_address4 y g s in ret (l, true))) as H4
    by (apply grows_bind; [apply grows_four|intros; apply grows_ret]).
  set (m6 := do! l <- parse_address6 y g s (count_char 58 s) in ret (l, false)) in *.
  set (m4 := do! l <- parse_address4 y g s in ret (l, true)) in *. clearbody m6 m4. grow.
Qed.
Lemma grows_mask g m a v4 : grows (parse_mask g m a v4).
Proof. unfold parse_mask, allowed. cbv zeta. grow. Qed.
Lemma grows_masks g m v4 l : grows (apply_masks g m v4 l).
Proof.
  induction l as [|am l IH]; cbn [apply_masks]; [apply grows_ret|]. cbv zeta.
  apply grows_bind; [apply grows_ask|]. intros. apply grows_bind; [apply grows_mask|]. grow.
Qed.
Lemma grows_cidr y g s : grows (parse_cidr y g s).
Proof.
  unfold parse_cidr, allowed. cbv zeta. apply grows_bind; [apply grows_ask|]. intros [|].
  - match goal with |- context [let (_, _) := ?x in _] => destruct x as [a m] end.
    apply grows_bind; [apply grows_ask|]. intros. apply grows_bind; [apply grows_address|]. intros [l v4].
    apply grows_bind; [apply grows_masks|]. grow.
  - apply grows_bind; [apply grows_address|]. grow.
Qed.
Lemma grows_loop y g seps com nl : forall fuel s, grows (parse_loop y g fuel seps com nl s).
Proof.
  induction fuel as [|k IH]; intros [|c s]; [apply grows_ret|apply grows_lift|apply grows_ret|].
  cbn [parse_loop]. destruct (split_at seps (c :: s)) as [piece tail]. destruct piece as [|c1 piece]; [apply IH|].
  match goal with |- context [let (_, _) := ?x in _] => destruct x as [text tail'] end.
  apply grows_bind; [destruct text; [apply grows_ret|apply grows_cidr]|]. intros. apply grows_bind; [apply IH|]. grow.
Qed.
Lemma grows_entries y g s : grows (parse_entries y g s).
Proof. unfold parse_entries, allowed. grow; (apply grows_loop || apply grows_cidr). Qed.

(* ---------- runs without a message ---------- *)
Lemma quiet_bind {A B} (m : M A) (f : A -> M B) p r : grows m -> (forall a, grows (f a)) -> bind m f p = (p, r) ->
  (exists a, m p = (p, Ok a) /\ f a p = (p, r))
  \/ (exists x, m p = (p, Throw x) /\ r = Throw x) \/ (m p = (p, UB) /\ r = UB) \/ (m p = (p, OutOfFuel) /\ r = OutOfFuel).
Proof.
  intros G1 G2. unfold bind. destruct (G1 p) as (ms & E). destruct (m p) as [p1 r1]. cbn [fst] in E. subst p1.
  destruct r1 as [a|x| |].
  - intros H. destruct (G2 a (log p ms)) as (ms2 & E2). rewrite H in E2. cbn [fst] in E2. rewrite log_log in E2.
    symmetry in E2. apply log_self in E2. apply app_eq_nil in E2. destruct E2 as [-> _]. rewrite log_nil in *. left. eauto.
  - intros H. injection H as H <-. rewrite H. right. left. eauto.
  - intros H. injection H as H <-. rewrite H. auto.
  - intros H. injection H as H <-. rewrite H. auto.
Qed.
Lemma not_emit {A} m (f : unit -> M A) p r : (forall a, grows (f a)) -> bind (emit m) f p <> (p, r).
Proof.
  intros G H. apply quiet_bind in H; [|apply grows_emit|exact G].
  destruct H as [(a & H & _)|[(x & H & _)|[(H & _)|(H & _)]]]; injection H as H; try discriminate.
  apply (f_equal f_error_count) in H. unfold emit_error in H. cbn in H. lia.
Qed.
Lemma not_fail {A} m p r : (fail m : M (list A)) p <> (p, r).
Proof. apply not_emit. intros. apply grows_ret. Qed.

(* ---------- clean texts ---------- *)
Lemma clean_incl a b : (forall c, In c a -> In c b) -> clean b -> clean a.
Proof. unfold clean. intros I (H1 & H2 & H3 & H4). repeat split; intros X; apply I in X; auto. Qed.
Lemma clean_firstn n s : clean s -> clean (firstn n s).
Proof. apply clean_incl. intros c I. rewrite <- (firstn_skipn n s). apply in_or_app. auto. Qed.
Lemma clean_skipn n s : clean s -> clean (skipn n s).
Proof. apply clean_incl. intros c I. rewrite <- (firstn_skipn n s). apply in_or_app. auto. Qed.
Lemma trim_left_in s : forall c, In c (trim_left s) -> In c s.
Proof. induction s as [|d s IH]; intros c; [auto|]. cbn [trim_left]. destruct (isspace d); [intros I; right; auto|auto]. Qed.
Lemma clean_trim s : clean s -> clean (trim_string s).
Proof.
  apply clean_incl. intros c I. unfold trim_string in I. apply in_rev in I. apply trim_left_in in I. apply in_rev in I. now apply trim_left_in in I.
Qed.
Lemma split_in set s : forall c, In c (fst (split_at set s)) \/ In c (snd (split_at set s)) -> In c s.
Proof.
  induction s as [|d s IH]; intros c; cbn [split_at]; [cbn; tauto|]. destruct (mem d set); [cbn; tauto|].
  specialize (IH c). destruct (split_at set s) as [a b]. cbn [fst snd In] in *. tauto.
Qed.
Lemma dec_chars n c : 0 <= n -> In c (dec_string n) -> 48 <= c <= 57.
Proof.
  intros N I. destruct (dec_string_spec n N) as (_ & F & _). rewrite forallb_forall in F. apply F in I. unfold digit_char in I. lia.
Qed.
Lemma clean_number n : clean (to_string_int n).
Proof.
  assert (forall c, In c (to_string_int n) -> c = 45 \/ 48 <= c <= 57) as H.
  { intros c. unfold to_string_int. destruct (n <? 0) eqn:L; [intros [<-|I]; [auto|]|intros I]; right; (eapply dec_chars; [|exact I]; lia). }
  unfold clean. repeat split; intros I; apply H in I; lia.
Qed.

Lemma allow_upd p v f : f <> 5%nat -> nth f (upd (f_flags p) 5 v) false = nth f (f_flags p) false.
Proof. intros N. rewrite IfaceHeapProofs.nth_upd_other; auto. Qed.

(* ---------- the two runs ---------- *)
Section Two.
Variables (y : sys) (g : resolver) (p : parser).
Local Notation lk := (with_flags p (upd (f_flags p) 5 true)).
Local Notation proto := (p_protocol p).
Hypothesis G : posix y g.
Hypothesis OFF : allow p ALLOW_ADDRESS_LOOKUP = false.
Hypothesis ON : allow lk ALLOW_ADDRESS_LOOKUP = true.
Hypothesis KNOWN : In proto [-1; IPPROTO_IP; IPPROTO_TCP; IPPROTO_UDP].

Lemma allow_lk f : (Z.to_nat f) <> 5%nat -> allow lk f = allow p f.
Proof. intros N. unfold allow. cbn [f_flags with_flags]. now apply allow_upd. Qed.

Definition sim {A B} (R : A -> B -> Prop) (m : M A) (m' : M B) : Prop :=
  forall a, m p = (p, Ok a) -> exists b, m' lk = (lk, Ok b) /\ R a b.
Lemma sim_bind {A B C D} (R : A -> B -> Prop) (S : C -> D -> Prop) m m' f f' :
  grows m -> (forall a, grows (f a)) -> sim R m m' -> (forall a b, R a b -> sim S (f a) (f' b)) -> sim S (bind m f) (bind m' f').
Proof.
  intros G1 G2 H1 H2 c E. apply quiet_bind in E; [|assumption..].
  destruct E as [(a & E1 & E2)|[(x & _ & X)|[(_ & X)|(_ & X)]]]; try discriminate.
  destruct (H1 _ E1) as (b & E3 & RB). unfold bind. rewrite E3. apply (H2 _ _ RB _ E2).
Qed.
Lemma sim_ret {A B} (R : A -> B -> Prop) a b : R a b -> sim R (ret a) (ret b).
Proof. intros H c E. injection E as <-. exists b. split; [reflexivity|exact H]. Qed.
Lemma sim_fail {A B} (R : list A -> B -> Prop) m m' : sim R (fail m) m'.
Proof. intros a E. exfalso. exact (not_fail _ _ _ E). Qed.
Lemma sim_emit {A B} (R : A -> B -> Prop) m f m' : (forall a, grows (f a)) -> sim R (bind (emit m) f) m'.
Proof. intros H a E. exfalso. exact (not_emit _ _ _ _ H E). Qed.
Lemma sim_allowed {C D} (S : C -> D -> Prop) flag f f' : (Z.to_nat flag) <> 5%nat ->
  sim S (f (allow p flag)) (f' (allow p flag)) -> sim S (bind (allowed flag) f) (bind (allowed flag) f').
Proof. intros N H c. rewrite !bind_allowed, allow_lk by assumption. apply H. Qed.
Lemma sim_ask {A C D} (S : C -> D -> Prop) (x : parser -> A) f f' : x lk = x p ->
  sim S (f (x p)) (f' (x p)) -> sim S (bind (ask x) f) (bind (ask x) f').
Proof. intros N H c. rewrite !bind_ask, N. apply H. Qed.
Lemma sim_lift {A B} (R : A -> B -> Prop) (r : res A) (r' : res B) :
  (forall a, r = Ok a -> exists b, r' = Ok b /\ R a b) -> sim R (lift r) (lift r').
Proof. intros H a E. injection E as E. destruct (H _ E) as (b & -> & RB). exists b. split; [reflexivity|exact RB]. Qed.

(* ---------- one address ---------- *)
Definition single (r : addr_range) : Prop := has_from r = true /\ has_to r = false /\ get_to r = addr_new.
Definition one (r t : addr_range) : Prop :=
  if (proto =? IPPROTO_TCP) || (proto =? IPPROTO_UDP) then t = r
  else range_set IPPROTO_TCP r t /\ (proto = -1 -> t = r).
Definition looked (r : addr_range) (l : list addr_range) : Prop :=
  if (proto =? IPPROTO_TCP) || (proto =? IPPROTO_UDP) then l = [r]
  else exists t u i, l = [t; u; i] /\ range_set IPPROTO_TCP r t /\ range_set IPPROTO_UDP r u /\ range_set IPPROTO_IP r i
    /\ (proto = -1 -> t = r) /\ (proto = IPPROTO_IP -> i = r).

Lemma port_text t n : convert_string y t = Some n -> 0 <= n <= 65535 -> clean t -> c_str t = t /\ reads_port y t n.
Proof. intros E N C. split; [apply ParserProofs9.c_str_id; apply C|]. right. auto. Qed.

(* the range for an address which was just read *)
Definition fresh (x : sockaddr_in6) (host : str) (k : Z) (d : bool) : addr_range :=
  mk_range true false
    (mk_addr x (repeat 255 16) d (negb (k =? IPPROTO_TCP) && negb (k =? -1)) false (if k =? -1 then IPPROTO_TCP else k)
       NETWORK_TYPE_UNDEFINED [] host) addr_new.
Lemma fresh4 n q host k d : In k [-1; IPPROTO_IP; IPPROTO_TCP; IPPROTO_UDP] ->
  range4 (mk_in AF_INET n q) host k d
  = Ok (fresh (mk_in6 AF_INET6 n 0 (store32 (store16 (zeroes 16) 5 65535) 3 q) 0) host k d).
Proof. intros [<-|[<-|[<-|[<-|[]]]]]; reflexivity. Qed.
Lemma fresh6 x host k d : sin6_family x = AF_INET6 -> In k [-1; IPPROTO_IP; IPPROTO_TCP; IPPROTO_UDP] ->
  range6 x host k d = Ok (fresh x host k d).
Proof.
  intros F I. unfold range6, set_ipv6. rewrite F. destruct I as [<-|[<-|[<-|[<-|[]]]]]; reflexivity.
Qed.
Lemma fresh_set x host k k' d : In k [-1; IPPROTO_IP; IPPROTO_TCP; IPPROTO_UDP] -> k' <> -1 ->
  range_set k' (fresh x host k d) (fresh x host k' d).
Proof.
  intros I N. unfold range_set. repeat split; cbn. destruct (k' =? -1) eqn:E; [lia|reflexivity].
Qed.
Lemma fresh_default x host d : fresh x host IPPROTO_TCP d = fresh x host (-1) d.
Proof. reflexivity. Qed.
Lemma fresh_looked x host d :
  looked (fresh x host proto d)
    (map (fun k => fresh x host k d)
       (if (proto =? IPPROTO_TCP) || (proto =? IPPROTO_UDP) then [proto] else [IPPROTO_TCP; IPPROTO_UDP; IPPROTO_IP])).
Proof.
  unfold looked. destruct (_ || _); [reflexivity|]. eexists _, _, _. split; [reflexivity|].
  split; [apply fresh_set; [exact KNOWN|discriminate]|]. split; [apply fresh_set; [exact KNOWN|discriminate]|].
  split; [apply fresh_set; [exact KNOWN|discriminate]|]. split; intros ->; reflexivity.
Qed.

Lemma use_four q n host d : forall ks l first, Forall (fun k => In k [IPPROTO_IP; IPPROTO_TCP; IPPROTO_UDP]) ks -> Forall2 (entry4 q n) ks l ->
  forall st, use_addrinfo l first host d st = (st, Ok (map (fun k => fresh
     (mk_in6 AF_INET6 (bswap16 n) 0 (store32 (store16 (zeroes 16) 5 65535) 3 (load32 q 0)) 0) host k d) ks)).
Proof.
  intros ks l first F H. revert first F. induction H as [|k ai ks l (E1 & E2 & E3 & E4) H IH]; intros first F st; [reflexivity|].
  inversion F as [|? ? K F']. subst. cbn [use_addrinfo map]. rewrite E1, E2, E4. cbn [negb]. change (AF_INET =? AF_INET) with true.
  change (SIZEOF_IN =? SIZEOF_IN) with true. cbv iota. unfold bind, lift. cbn [negb].
  rewrite fresh4 by (right; exact K). rewrite IH by assumption. reflexivity.
Qed.
Lemma use_six q n host d : forall ks l first, Forall (fun k => In k [IPPROTO_IP; IPPROTO_TCP; IPPROTO_UDP]) ks -> Forall2 (entry6 q n) ks l ->
  forall st, use_addrinfo l first host d st = (st, Ok (map (fun k => fresh (mk_in6 AF_INET6 (bswap16 n) 0 q 0) host k d) ks)).
Proof.
  intros ks l first F H. revert first F. induction H as [|k ai ks l (E1 & E2 & E3 & E4) H IH]; intros first F st; [reflexivity|].
  inversion F as [|? ? K F']. subst. cbn [use_addrinfo map]. rewrite E1, E2, E4. change (AF_INET6 =? AF_INET) with false.
  change (AF_INET6 =? AF_INET6) with true. change (SIZEOF_IN6 =? SIZEOF_IN6) with true. cbv iota. unfold bind, lift. cbn [negb].
  rewrite fresh6; [|reflexivity|right; exact K]. rewrite IH by assumption. reflexivity.
Qed.
Lemma kinds_hint k : exists ks, kinds (hint_socktype k) (hint_protocol k) ks
  /\ ks = (if (k =? IPPROTO_TCP) || (k =? IPPROTO_UDP) then [k] else [IPPROTO_TCP; IPPROTO_UDP; IPPROTO_IP])
  /\ Forall (fun k => In k [IPPROTO_IP; IPPROTO_TCP; IPPROTO_UDP]) ks.
Proof.
  unfold hint_socktype, hint_protocol. destruct (k =? IPPROTO_TCP) eqn:E1; [|destruct (k =? IPPROTO_UDP) eqn:E2]; cbn [orb].
  - apply Z.eqb_eq in E1. subst. eexists. split; [apply kinds_tcp|]. split; [reflexivity|]. repeat (apply Forall_cons; [cbn; auto|]); apply Forall_nil.
  - apply Z.eqb_eq in E2. subst. eexists. split; [apply kinds_udp|]. split; [reflexivity|]. repeat (apply Forall_cons; [cbn; auto|]); apply Forall_nil.
  - eexists. split; [apply kinds_all|]. split; [reflexivity|]. repeat (apply Forall_cons; [cbn; auto|]); apply Forall_nil.
Qed.

Definition address_rel (l l' : list addr_range) : Prop := exists r, l = [r] /\ single r /\ looked r l'.

Lemma numeric_answers A n d service a : reads_port y service n -> numeric_address A n d p = (p, Ok a) ->
  exists l, g (c_str A) service false (hint_socktype proto) (hint_protocol proto) = GAI_list l
    /\ exists b, use_addrinfo l true A d lk = (lk, Ok b) /\ address_rel a b.
Proof.
  intros RP. destruct (kinds_hint proto) as (ks & K & EK & F). unfold numeric_address. rewrite bind_ask.
  destruct (inet_pton4 (c_str A)) as [q|] eqn:E4; [|destruct (inet_pton6 (c_str A)) as [q|] eqn:E6].
  - destruct (posix_four y g G _ _ _ _ _ _ _ RP K E4) as (l & EG & FE). intros H. exists l. split; [exact EG|].
    unfold bind, lift in H. rewrite fresh4 in H by exact KNOWN. injection H as <-. eexists. split; [eapply use_four; eassumption|].
    eexists. split; [reflexivity|]. split; [repeat split|]. subst ks. apply fresh_looked.
  - destruct (posix_six y g G _ _ _ _ _ _ _ RP K E4 E6) as (l & EG & FE). intros H. exists l. split; [exact EG|].
    unfold bind, lift in H. rewrite fresh6 in H; [|reflexivity|exact KNOWN]. injection H as <-. eexists. split; [eapply use_six; eassumption|].
    eexists. split; [reflexivity|]. split; [repeat split|]. subst ks. apply fresh_looked.
  - intros H. exfalso. exact (not_fail _ _ _ H).
Qed.

Lemma sim_port A P v6 : clean P -> sim address_rel (parse_address_port y g A P v6) (parse_address_port y g A P v6).
Proof.
  intros C. unfold parse_address_port. cbv zeta. apply sim_allowed; [discriminate|].
  destruct (negb _ && _) eqn:RQ; [apply sim_fail|]. apply sim_ask; [reflexivity|]. apply sim_allowed; [discriminate|].
  destruct (_ && allow p ALLOW_REQUIRED_ADDRESS); [apply sim_fail|]. apply sim_ask; [reflexivity|].
  set (A' := if match A with [] => true | _ => false end then default_address p v6 else A).
  set (d := match P with [] => false | _ => true end) in *.
  assert (exists P', P' = (if negb d && negb (f_default_port p =? -1) then to_string_int (f_default_port p) else P) /\ clean P') as (P' & EP & CP).
  { eexists. split; [reflexivity|]. match goal with |- clean (if ?b then _ else _) => destruct b end; [apply clean_number|exact C]. }
  rewrite <- EP.
  intros a. rewrite !bind_allowed, OFF, ON, bind_ask. cbv iota. change (p_protocol lk) with proto.
  assert (forall n service, reads_port y service n -> (c_str service = service) ->
     (match P' with [] => lit "0" | _ => P' end) = service -> numeric_address A' n d p = (p, Ok a) ->
     exists b, (match g (c_str A') (c_str (match P' with [] => lit "0" | _ => P' end)) false (hint_socktype proto) (hint_protocol proto) with
     | GAI_error text => fail (lit "Invalid address in """ ++ A' ++ match P' with [] => [] | _ :: _ => lit ":" end ++ P' ++ lit """ error " ++ text)
     | GAI_list l => use_addrinfo l true A' d
     end) lk = (lk, Ok b) /\ address_rel a b) as K.
  { intros n service RP CS -> H. rewrite CS. destruct (numeric_answers _ _ _ _ _ RP H) as (l & -> & X). exact X. }
  destruct (allow p ALLOW_REQUIRED_PORT || _) eqn:HP.
  - rewrite bind_allowed. destruct (convert_string y P') as [n|] eqn:CV; [|intros H; exfalso; exact (not_fail _ _ _ H)].
    destruct ((n <? 0) || (n >? 65535)) eqn:NR; [intros H; exfalso; exact (not_fail _ _ _ H)|].
    destruct (negb (allow p ALLOW_PORT) && negb _); [intros H; exfalso; exact (not_fail _ _ _ H)|]. intros H.
    destruct P' as [|c P'].
    + (* a required port which is missing *)
      exfalso. destruct (negb d && negb (f_default_port p =? -1)) eqn:DD.
      * symmetry in EP. revert EP. apply PropLookups.to_string_int_some.
      * subst P. cbn [negb d] in *. rewrite orb_false_r in HP. rewrite HP in RQ. discriminate.
    + destruct (port_text _ _ CV) as [CS RP]; [lia|exact CP|]. apply (K n (c :: P')); auto.
  - destruct P' as [|c P']; [|destruct (allow p ALLOW_REQUIRED_PORT); discriminate]. intros H.
    rewrite bind_allowed in H. apply (K 0 (lit "0")); auto. left. auto.
Qed.

(* ---------- ranges ---------- *)
Lemma same_s6 k a b : protocol_set k a b -> s6 b = s6 a.
Proof. intros H. unfold s6. pose proof (ps_address _ _ _ H) as E. unfold get_ipv6 in E. now rewrite E. Qed.
Lemma drop_same first r rest : s6 (get_from r) = s6 first -> In (get_protocol first) [IPPROTO_IP; IPPROTO_TCP; IPPROTO_UDP] ->
  drop_duplicates first (r :: rest) = drop_duplicates first rest.
Proof.
  intros E K.
  assert (exists a, on (set_protocol (get_from r) (get_protocol first)) = Ok a /\ s6 a = s6 (get_from r)) as (a & EA & ES).
  { unfold on, set_protocol.
    replace ((get_protocol first =? IPPROTO_IP) || (get_protocol first =? IPPROTO_TCP) || (get_protocol first =? IPPROTO_UDP)) with true
      by (symmetry; destruct K as [<-|[<-|[<-|[]]]]; reflexivity).
    destruct (negb _); eexists; (split; [reflexivity|]); reflexivity. }
  cbn [drop_duplicates]. rewrite EA. unfold ne_. cbn. rewrite ES, E, UnixProofs2.memcmp_refl. reflexivity.
Qed.
Definition pair_rel (l l' : list addr_range) : Prop := exists r t, l = [r] /\ l' = [t] /\ single r /\ one r t.
Lemma sim_ignore A P v6 : clean P ->
  sim pair_rel (parse_address_port_ignore_duplicates y g A P v6) (parse_address_port_ignore_duplicates y g A P v6).
Proof.
  intros C. unfold parse_address_port_ignore_duplicates. apply (sim_bind address_rel); [apply grows_port|grow|now apply sim_port|].
  intros l l' (r & -> & SR & L). intros a H. injection H as <-. unfold looked in L.
  destruct ((proto =? IPPROTO_TCP) || (proto =? IPPROTO_UDP)) eqn:E.
  - subst l'. eexists. split; [reflexivity|]. exists r, r. repeat (split; [reflexivity || apply SR|]). unfold one. rewrite E. reflexivity.
  - destruct L as (t & u & i & -> & T & U & I & T1 & I1). unfold bind, lift.
    destruct T as (TF & TT & TE & TE2). destruct U as (UF & UT & UE & UE2). destruct I as (IF_ & IT & IE & IE2).
    destruct SR as (SF & ST & SN). rewrite SF in *. cbn [end_set] in TE, UE, IE.
    assert (get_protocol (get_from t) = IPPROTO_TCP) as PT by apply TE.
    rewrite drop_same; [|rewrite (same_s6 _ _ _ UE), (same_s6 _ _ _ TE); reflexivity|rewrite PT; cbn; auto].
    rewrite drop_same; [|rewrite (same_s6 _ _ _ IE), (same_s6 _ _ _ TE); reflexivity|rewrite PT; cbn; auto].
    eexists. split; [reflexivity|]. exists r, t. split; [reflexivity|]. split; [reflexivity|]. split; [repeat split; assumption|].
    unfold one. rewrite E. split; [|exact T1]. unfold range_set. rewrite SF. auto.
Qed.
Definition end_rel (x x' : option (option addr_range)) : Prop :=
  (x = Some None /\ x' = Some None) \/ exists r t, x = Some (Some r) /\ x' = Some (Some t) /\ single r /\ one r t.
Lemma sim_end text P m v6 : clean P -> sim end_rel (range_end y g text P m v6) (range_end y g text P m v6).
Proof.
  intros C. unfold range_end. destruct text as [|c text]; [apply sim_ret; left; auto|].
  apply (sim_bind pair_rel); [apply grows_ignore|grow|now apply sim_ignore|].
  intros l l' (r & t & -> & -> & X). apply sim_ret. right. eauto.
Qed.
Lemma one_spread r t : one r t -> spread proto [r] [t].
Proof.
  intros H. exists [[t]]. split; [|reflexivity]. constructor; [|constructor]. unfold one, instead in *.
  destruct (_ || _); [now subst|]. destruct H as [H1 H2]. exists t. auto.
Qed.
Lemma looked_spread r l : looked r l -> spread proto [r] l.
Proof.
  intros H. exists [l]. split; [|cbn; now rewrite app_nil_r]. constructor; [|constructor]. unfold looked, instead in *.
  destruct (_ || _); [assumption|]. destruct H as (t & u & i & -> & T & U & I & T1 & I1). exists t. split; [exact T|]. split; [exact T1|].
  right. exists u, i. auto.
Qed.
Lemma spread_nil : spread proto [] [].
Proof. exists []. split; [constructor|reflexivity]. Qed.
Lemma one_both f f' t t' : single f -> single t -> one f f' -> one t t' ->
  one (set_to f (get_to (swap_from_to t))) (set_to f' (get_to (swap_from_to t'))).
Proof.
  unfold one. destruct (_ || _); [intros _ _ -> ->; reflexivity|]. intros (SF & _) (SF2 & _) [(A1 & A2 & A3 & A4) A5] [(B1 & B2 & B3 & B4) B5].
  rewrite SF in *. rewrite SF2 in *. split; [|intros E; now rewrite (A5 E), (B5 E)].
  unfold range_set, has_from, has_to, get_from, get_to in *. cbn. rewrite SF. cbn. auto.
Qed.
Lemma one_swap t t' : single t -> one t t' -> one (swap_from_to t) (swap_from_to t').
Proof.
  unfold one. destruct (_ || _); [intros _ ->; reflexivity|]. intros (SF & _) [(B1 & B2 & B3 & B4) B5].
  split; [|intros E; now rewrite (B5 E)]. unfold range_set, has_from, has_to, get_from, get_to in *. cbn. auto.
Qed.
Lemma one_empty r t : one r t -> is_empty t = is_empty r.
Proof.
  unfold one. destruct (_ || _); [now intros ->|]. intros [(B1 & B2 & B3 & B4) _].
  unfold is_empty, is_range, has_from, has_to, get_from, get_to in *. rewrite B1, B2.
  destruct (f_has_from r), (f_has_to r); try reflexivity. cbn [andb negb end_set] in *. unfold gt_.
  now rewrite (same_s6 _ _ _ B3), (same_s6 _ _ _ B4).
Qed.
Lemma sim_range_port t P v6 : clean P ->
  sim (spread proto) (parse_address_range_port y g t P v6) (parse_address_range_port y g t P v6).
Proof.
  intros C. unfold parse_address_range_port. apply sim_allowed; [discriminate|].
  destruct (if allow p ALLOW_ADDRESS_RANGE then find_char 45 t else None) as [k|].
  2:{ intros a H. destruct (sim_port _ _ _ C _ H) as (b & E & r & -> & _ & L). exists b. split; [exact E|]. now apply looked_spread. }
  cbv zeta. match goal with |- sim _ (if ?x then _ else _) _ => destruct x end; [apply sim_fail|].
  apply (sim_bind end_rel); [apply grows_end| |now apply sim_end|].
  { intros [f|]; [|apply grows_ret]. apply grows_bind; [apply grows_end|]. grow. }
  intros x x' [[-> ->]|(f & f' & -> & -> & SF & OF_)].
  - apply (sim_bind end_rel); [apply grows_end|grow|now apply sim_end|].
    intros x x' [[-> ->]|(f & f' & -> & -> & SF & OF_)]; [intros a H; discriminate|].
    cbn [option_map]. apply sim_ret, one_spread, one_swap; assumption.
  - apply (sim_bind end_rel); [apply grows_end|grow|now apply sim_end|].
    intros x x' [[-> ->]|(h & h' & -> & -> & SH & OH)]; cbn [option_map].
    + apply sim_ret, one_spread, OF_.
    + apply sim_ask; [reflexivity|]. pose proof (one_both _ _ _ _ SF SH OF_ OH) as OB. rewrite (one_empty _ _ OB).
      destruct (_ || _); apply sim_ret; [now apply one_spread|apply spread_nil].
Qed.
Lemma sim_four s : clean s -> sim (spread proto) (parse_address4 y g s) (parse_address4 y g s).
Proof.
  intros C. unfold parse_address4. apply sim_allowed; [discriminate|]. apply sim_allowed; [discriminate|].
  destruct (find_char 58 s) as [k|]; [|apply sim_range_port; unfold clean; cbn; tauto].
  destruct (_ || _); [apply sim_range_port; now apply clean_skipn|apply sim_fail].
Qed.
Lemma sim_six s k : clean s -> sim (spread proto) (parse_address6 y g s k) (parse_address6 y g s k).
Proof.
  intros C. assert (clean []) as CN by (unfold clean; cbn; tauto).
  unfold parse_address6. apply sim_allowed; [discriminate|]. apply sim_allowed; [discriminate|].
  match goal with |- sim _ (if ?x then _ else _) _ => destruct x end.
  - destruct (find_char 93 s) as [j|]; [|apply sim_fail]. cbv zeta. pose proof (clean_skipn (j + 1) _ C) as CS.
    destruct (skipn (j + 1) s) as [|c r]; [now apply sim_range_port|].
    destruct (negb (c =? 58)); [apply sim_fail|]. destruct (_ && _); [apply sim_fail|].
    apply sim_range_port. revert CS. apply clean_incl. cbn. auto.
  - destruct (k =? 1); [|now apply sim_range_port]. destruct (find_char 58 s); [|intros a H; discriminate].
    apply sim_range_port. now apply clean_skipn.
Qed.
Definition syntax_rel (x x' : list addr_range * bool) : Prop := spread proto (fst x) (fst x') /\ snd x' = snd x.
Lemma sim_address s m : clean s -> sim syntax_rel (parse_address y g s m) (parse_address y g s m).
Proof.
  intros C.
  assert (sim syntax_rel (do! l <- parse_address6 y g s (count_char 58 s) in ret (l, false))
                         (do! l <- parse_address6 y g s (count_char 58 s) in ret (l, false))) as H6.
  { apply (sim_bind (spread proto)); [apply grows_six|grow|now apply sim_six|]. intros a b R. apply sim_ret. now split. }
  assert (sim syntax_rel (do! l <- parse_address4 y g s in ret (l, true)) (do! l <- parse_address4 y g s in ret (l, true))) as H4.
  { apply (sim_bind (spread proto)); [apply grows_four|grow|now apply sim_four|]. intros a b R. apply sim_ret. now split. }
  unfold parse_address. cbv zeta.
  set (m6 := do! l <- parse_address6 y g s (count_char 58 s) in ret (l, false)) in *.
  set (m4 := do! l <- parse_address4 y g s in ret (l, true)) in *. clearbody m6 m4.
  repeat first [ exact H6 | exact H4 | apply sim_ask; [reflexivity|] | apply sim_allowed; [discriminate|]
    | match goal with |- sim _ (match ?x with _ => _ end) _ => destruct x end ].
Qed.

(* ---------- masks ---------- *)
Definition masked (a b a' b' : addr) : Prop := (b = a /\ b' = a') \/ exists bits, b = set_mask a bits /\ b' = set_mask a' bits.
Lemma sim_mask m a a' v4 : get_port a' = get_port a ->
  sim (fun b b' => masked a b a' b') (parse_mask g m a v4) (parse_mask g m a' v4).
Proof.
  intros EP. unfold parse_mask. cbv zeta. destruct m as [|c0 m]; [apply sim_ret; left; auto|].
  destruct (mask_number _ 0) as [k|]; [|apply sim_emit; grow].
  destruct (negb (k =? -1)).
  { destruct (v4 && _); [apply sim_emit; grow|]. destruct (negb v4 && _); [apply sim_emit; grow|].
    destruct (mask_bits_loop _ _ _) as [bits|]; [|intros b H; discriminate]. apply sim_ret. right. eauto. }
  apply sim_allowed; [discriminate|]. destruct (negb (allow p ALLOW_ADDRESS_MASK)); [apply sim_emit; grow|].
  destruct (v4 && (c0 =? 91)); [apply sim_emit; grow|]. destruct (negb v4 && negb (c0 =? 91)); [apply sim_emit; grow|].
  destruct (negb v4 && negb (back (c0 :: m) =? 93)); [apply sim_emit; grow|].
  destruct (negb v4 && _); [apply sim_ret; left; auto|].
  rewrite EP. destruct (kinds_hint (get_protocol a)) as (ks & K & _). destruct (kinds_hint (get_protocol a')) as (ks' & K' & _).
  match goal with |- sim _ (match ?z with _ => _ end) _ => destruct z as [text|[|x l]] eqn:E end;
    [apply sim_emit; grow|intros b H; discriminate|].
  destruct (posix_mask y g G _ _ _ _ _ _ _ _ _ _ K K' E) as (x' & l' & -> & S1 & S2 & S3 & S4). rewrite <- S1, <- S2, <- S3, <- S4.
  destruct v4.
  - destruct (negb _); [apply sim_emit; grow|]. destruct (negb _); [apply sim_emit; grow|]. apply sim_ret. right. eauto.
  - destruct (negb _); [apply sim_emit; grow|]. destruct (negb _); [apply sim_emit; grow|]. apply sim_ret. right. eauto.
Qed.

Definition with_from (r : addr_range) (b : addr) : addr_range := mk_range (f_has_from r) (f_has_to r) b (f_to r).
Lemma masks_cons m v4 t b rest rest' :
  parse_mask g (effective_mask lk m v4) (get_from t) (v4 && is_ipv4 (get_from t)) lk = (lk, Ok b) ->
  apply_masks g m v4 rest lk = (lk, Ok rest') -> apply_masks g m v4 (t :: rest) lk = (lk, Ok (with_from t b :: rest')).
Proof. intros E1 E2. cbn [apply_masks]. cbv zeta. rewrite bind_ask. unfold bind. rewrite E1, E2. reflexivity. Qed.
Lemma masked_same a b b' : masked a b a b' -> b' = b.
Proof. intros [[-> ->]|(bits & -> & ->)]; reflexivity. Qed.
Lemma masked_set k a b a' b' : masked a b a' b' -> protocol_set k a a' -> protocol_set k b b'.
Proof.
  intros [[-> ->]|(bits & -> & ->)] H; [exact H|]. destruct H as [H1 H2 H3 H4 H5 H6 H7].
  constructor; try assumption; reflexivity.
Qed.
Lemma range_masked k r t b b' : range_set k r t -> masked (get_from r) b (get_from t) b' -> range_set k (with_from r b) (with_from t b').
Proof.
  intros (H1 & H2 & H3 & H4) MK. unfold range_set, has_from, has_to, get_from, get_to in *. cbn. repeat (split; [assumption|]). split; [|assumption].
  destruct (f_has_from r); cbn [end_set] in *; [now apply (masked_set _ _ _ _ _ MK)|]. rewrite H3 in MK. now apply masked_same in MK.
Qed.
Lemma same_from k r t : range_set k r t -> f_address (get_from t) = f_address (get_from r).
Proof.
  intros (_ & _ & H & _). destruct (has_from r); cbn [end_set] in H; [apply (ps_address _ _ _ H)|now rewrite H].
Qed.
Lemma mask_group m v4 r t b : f_address (get_from t) = f_address (get_from r) ->
  parse_mask g (effective_mask p m v4) (get_from r) (v4 && is_ipv4 (get_from r)) p = (p, Ok b) ->
  exists b', parse_mask g (effective_mask lk m v4) (get_from t) (v4 && is_ipv4 (get_from t)) lk = (lk, Ok b')
    /\ masked (get_from r) b (get_from t) b'.
Proof.
  intros E H. replace (is_ipv4 (get_from t)) with (is_ipv4 (get_from r)) by (unfold is_ipv4, s6; rewrite E; reflexivity).
  change (effective_mask lk m v4) with (effective_mask p m v4). refine (sim_mask _ _ _ _ _ _ H). unfold get_port. now rewrite E.
Qed.
Lemma sim_masks m v4 l l' : spread proto l l' -> sim (spread proto) (apply_masks g m v4 l) (apply_masks g m v4 l').
Proof.
  intros (ls & F & ->). induction F as [|r grp l ls IN F IH]; [apply sim_ret, spread_nil|]. intros a H. cbn [apply_masks] in H. cbv zeta in H.
  rewrite bind_ask in H. apply quiet_bind in H; [|apply grows_mask|intros; apply grows_bind; [apply grows_masks|grow]].
  destruct H as [(b & EB & H)|[(x & _ & X)|[(_ & X)|(_ & X)]]]; try discriminate.
  apply quiet_bind in H; [|apply grows_masks|grow]. destruct H as [(rest & ER & H)|[(x & _ & X)|[(_ & X)|(_ & X)]]]; try discriminate.
  injection H as <-. destruct (IH _ ER) as (rest' & ER' & ls2 & F2 & ->). change (mk_range _ _ b _) with (with_from r b).
  cbn [concat]. unfold instead in IN. destruct ((proto =? IPPROTO_TCP) || (proto =? IPPROTO_UDP)) eqn:EK.
  - subst grp. cbn [app]. destruct (mask_group m v4 r r b eq_refl EB) as (b' & EB' & MK). apply masked_same in MK. subst b'.
    eexists. split; [apply masks_cons; eassumption|]. exists ([with_from r b] :: ls2). split; [|reflexivity].
    constructor; [|exact F2]. unfold instead. rewrite EK. reflexivity.
  - destruct IN as (t & T & T1 & IN). destruct (mask_group m v4 r t b (same_from _ _ _ T) EB) as (bt & EBt & MT).
    assert (proto = -1 -> with_from t bt = with_from r b) as T2.
    { intros E. specialize (T1 E). subst t. apply masked_same in MT. now subst bt. }
    destruct IN as [->|(u & i & -> & U & I & I1)]; cbn [app].
    + eexists. split; [apply masks_cons; eassumption|]. exists ([with_from t bt] :: ls2). split; [|reflexivity].
      constructor; [|exact F2]. unfold instead. rewrite EK. exists (with_from t bt). split; [now apply range_masked|]. auto.
    + destruct (mask_group m v4 r u b (same_from _ _ _ U) EB) as (bu & EBu & MU).
      destruct (mask_group m v4 r i b (same_from _ _ _ I) EB) as (bi & EBi & MI).
      eexists. split; [repeat (apply masks_cons; [eassumption|]); exact ER'|].
      exists ([with_from t bt; with_from u bu; with_from i bi] :: ls2). split; [|reflexivity].
      constructor; [|exact F2]. unfold instead. rewrite EK. exists (with_from t bt). split; [now apply range_masked|]. split; [exact T2|].
      right. exists (with_from u bu), (with_from i bi). split; [reflexivity|]. split; [now apply range_masked|]. split; [now apply range_masked|].
      intros E. specialize (I1 E). subst i. apply masked_same in MI. now subst bi.
Qed.

(* ---------- entries ---------- *)
Lemma spread_app a b a' b' : spread proto a a' -> spread proto b b' -> spread proto (a ++ b) (a' ++ b').
Proof.
  intros (l1 & F1 & ->) (l2 & F2 & ->). exists (l1 ++ l2). split; [now apply Forall2_app|]. symmetry. apply concat_app.
Qed.
Lemma sim_cidr s : clean s -> sim (spread proto) (parse_cidr y g s) (parse_cidr y g s).
Proof.
  intros C. apply clean_trim in C. unfold parse_cidr. cbv zeta. apply sim_allowed; [discriminate|]. destruct (allow p ALLOW_MASK).
  - assert (exists a m, (match find_char 47 (trim_string s) with
      | Some p => (firstn p (trim_string s), skipn (p + 1) (trim_string s)) | None => (trim_string s, []) end) = (a, m) /\ clean a) as (a & m & -> & CA).
    { destruct (find_char 47 _); eexists _, _; (split; [reflexivity|]); [now apply clean_firstn|exact C]. }
    apply sim_ask; [reflexivity|].
    apply (sim_bind syntax_rel); [apply grows_address| |now apply sim_address|].
    { intros [l v4]. apply grows_bind; [apply grows_masks|]. grow. }
    intros [l v4] [l' v4'] [SP E]. cbn [fst snd] in *. subst v4'.
    apply (sim_bind (spread proto)); [apply grows_masks|grow|now apply sim_masks|].
    intros b b' SB. apply sim_ask; [reflexivity|]. destruct (_ =? _); apply sim_ret; [exact SB|apply spread_nil].
  - apply (sim_bind syntax_rel); [apply grows_address|grow|now apply sim_address|]. intros x x' [SP _]. now apply sim_ret.
Qed.
Lemma sim_loop seps com nl : forall fuel s, clean s ->
  sim (spread proto) (parse_loop y g fuel seps com nl s) (parse_loop y g fuel seps com nl s).
Proof.
  induction fuel as [|k IH]; intros [|c s] C; [apply sim_ret, spread_nil|intros a H; discriminate|apply sim_ret, spread_nil|].
  cbn [parse_loop]. pose proof (split_in seps (c :: s)) as SI. destruct (split_at seps (c :: s)) as [piece tail]. cbn [fst snd] in SI.
  assert (clean piece /\ clean tail) as [CP CT] by (split; (eapply clean_incl; [|exact C]); intros z I; apply SI; auto).
  destruct piece as [|c1 piece]; [apply IH; now apply clean_skipn|].
  match goal with |- context [let (_, _) := ?x in _] => assert (clean (fst x) /\ clean (snd x)) as [CX CT'] end.
  { destruct com as [|d com]; [auto|]. cbn [fst snd]. split.
    - revert CP. apply clean_incl. intros z I. eapply split_in. left. exact I.
    - destruct tail as [|d' tail]; [exact CT|]. destruct (nl && _); [|exact CT]. revert CT. apply clean_incl. intros z I.
      eapply split_in. right. exact I. }
  match goal with |- context [let (_, _) := ?x in _] => destruct x as [text tail'] end. cbn [fst snd] in CX, CT'.
  apply (sim_bind (spread proto)).
  - destruct text; [apply grows_ret|apply grows_cidr].
  - intros. apply grows_bind; [apply grows_loop|grow].
  - destruct text; [apply sim_ret, spread_nil|now apply sim_cidr].
  - intros a a' SA. apply (sim_bind (spread proto)); [apply grows_loop|grow|apply IH; now apply clean_skipn|].
    intros b b' SB. apply sim_ret. now apply spread_app.
Qed.
Lemma clean_single com s : clean s -> clean (single_entry com s).
Proof.
  intros C. unfold single_entry. cbv zeta. destruct (_ <? _)%nat; [now apply clean_skipn|]. now apply clean_firstn, clean_skipn.
Qed.
Lemma sim_entries s : clean s -> sim (spread proto) (parse_entries y g s) (parse_entries y g s).
Proof.
  intros C. unfold parse_entries. apply sim_ask.
  { unfold separators. rewrite !allow_lk by discriminate. reflexivity. }
  apply sim_ask. { unfold comment_chars. rewrite !allow_lk by discriminate. reflexivity. }
  destruct (separators p); [apply sim_cidr; now apply clean_single|]. apply sim_allowed; [discriminate|]. now apply sim_loop.
Qed.
End Two.
