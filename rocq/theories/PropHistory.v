(* Properties C135 and C136: what the getters of an address answer is told by
   the calls made on it. *)
From Coq Require Import Lia ZifyBool ZifyNat.
From Verif Require Import Base Addr Spec SpecHistory Unix SpecUnix SpecUnixHistory.
From Verif Require HistoryProofs UnixProofs UnixHistoryProofs AddrProofs4 UnixProofs2.
Local Open Scope Z_scope.

(* ---------- C135 ---------- *)
(* Each attribute is a function of the calls and of their outcomes alone: the
   last one which gives it, whatever the others did in between. *)
Theorem C135_attributes : forall y h a, lived y h a ->
  value a = address_told h /\
  get_port a = port_told y h /\
  is_port_defined a = port_flag_told y h /\
  get_protocol a = protocol_told y h /\
  is_protocol_defined a = protocol_flag_told y h /\
  num (get_mask a) = mask_told h /\
  is_mask_defined a = mask_flag_told h /\
  get_interface a = interface_told h /\
  get_hostname a = hostname_told h /\
  sin6_flowinfo (get_ipv6 a) = flow_told h /\
  sin6_scope_id (get_ipv6 a) = scope_told h.
Proof. intros y h a L. destruct (HistoryProofs.lived_agrees y h a L). repeat split; assumption. Qed.
Print Assumptions C135_attributes.

(* Every object a program can get has a history. *)
Theorem C135_every_object : forall y a, reachable y a <-> exists h, lived y h a.
Proof.
  intros y a. split.
  - induction 1 as [|a op b r R [h H] O E U]; [exists []; constructor|]. eexists. econstructor; eauto.
  - intros [h H]. exact (HistoryProofs.lived_reachable y h a H).
Qed.
Print Assumptions C135_every_object.

(* 192.168.3.17, port 443, on eth0; a port is refused; the network address is
   taken; it becomes UDP port 53. *)
Definition calls : list addr_op :=
  [Op_set_ipv4 (mk_in AF_INET (bswap16 443) (bswap32 (quad 192 168 3 17))); Op_set_interface (lit "eth0");
   Op_set_mask_count 120; Op_set_port 70000; Op_apply_mask false; Op_incr; Op_set_hostname (lit "gw");
   Op_set_protocol IPPROTO_UDP; Op_set_port 53; Op_set_mask_count 64; Op_set_hostname (lit "dns")].
Fixpoint went (y : sys) (ops : list addr_op) (h : list event) (a : addr) : list event * addr :=
  match ops with
  | [] => (h, a)
  | op :: r => let '(b, o) := addr_step y a op in went y r (mk_event op o :: h) b
  end.
Lemma went_lived y ops : forall h a, lived y h a -> Forall addr_op_ok ops ->
  (forall e, In e (fst (went y ops h a)) -> outcome e <> UB) ->
  lived y (fst (went y ops h a)) (snd (went y ops h a)).
Proof.
  induction ops as [|op ops IH]; intros h a L F N; cbn [went] in *; [exact L|].
  inversion F; subst. destruct (addr_step y a op) as [b o] eqn:E. apply IH; auto.
  econstructor; eauto. intros ->.
  assert (G : forall ops h a e, In e h -> In e (fst (went y ops h a))).
  { clear. induction ops as [|op ops IH]; intros h a e H; cbn [went]; [exact H|].
    destruct (addr_step y a op). apply IH. now right. }
  apply (N (mk_event op UB)); [|reflexivity]. apply G. now left.
Qed.
Example C135_witness : let h := fst (went AddrProofs4.ref_sys calls [] addr_new) in
  let a := snd (went AddrProofs4.ref_sys calls [] addr_new) in
  lived AddrProofs4.ref_sys h a /\
  value a = v4_base + quad 192 168 3 1 /\ get_port a = 53 /\ is_port_defined a = true /\
  get_protocol a = IPPROTO_UDP /\ num (get_mask a) = prefix_mask 120 /\ get_interface a = lit "eth0" /\
  get_hostname a = lit "dns" /\ mask_told h = prefix_mask 120 /\ address_told h = v4_base + quad 192 168 3 1 /\
  map outcome h = [Ok tt; Throw E_out_of_range; Ok tt; Ok tt; Ok tt; Ok tt; Ok tt; Throw E_invalid_argument; Ok tt; Ok tt; Ok tt].
Proof.
  cbv zeta. split.
  - apply went_lived; [constructor| |].
    + repeat constructor; cbn; unfold is_int, INT_MIN, INT_MAX, AF_INET; try lia; try (vm_compute; congruence).
    + intros e H. vm_compute in H. repeat (destruct H as [<-|H]; [discriminate|]). destruct H.
  - vm_compute. repeat split.
Qed.

(* ---------- C136 ---------- *)
Theorem C136_attributes : forall decode h u, keeps_ascii decode -> unix_lived decode h u ->
  (forall n, has_name u n <-> last_given (gives_name decode) Unnamed h n) /\
  (forall s, get_scheme u = s <-> last_given (gives_scheme decode) (lit "unix") h s) /\
  (forall m, get_mode u = m <-> last_given gives_mode 384 h m) /\
  (forall g, get_group u = g <-> last_given gives_group [] h g).
Proof.
  intros decode h u K L.
  destruct (UnixHistoryProofs.told_name decode h u K L) as (N1 & n & N2).
  destruct (UnixHistoryProofs.told_scheme decode h u K L) as (S1 & s & S2).
  destruct (UnixHistoryProofs.told_mode decode h u K L) as (M1 & m & M2).
  destruct (UnixHistoryProofs.told_group decode h u K L) as (G1 & g & G2).
  split; [|split; [|split]].
  - assert (H : forall k, last_given (gives_name decode) Unnamed h k -> has_name u k).
    { intros k X. destruct (N1 k X) as [G E]. exact (UnixProofs.good_has_name decode u k K G E). }
    intros k. split; [|apply H]. intros X. now rewrite (UnixProofs.has_name_unique u k n X (H n N2)).
  - intros k. split; [|apply S1]. intros <-. now rewrite (S1 s S2).
  - intros k. split; [|apply M1]. intros <-. now rewrite (M1 m M2).
  - intros k. split; [|apply G1]. intros <-. now rewrite (G1 g G2).
Qed.
Print Assumptions C136_attributes.

(* The other constructors are the default one and a call. *)
Theorem C136_constructors : forall decode,
  (forall un u, length (sun_path un) = 108%nat -> unix_from_un decode un = Ok u -> unix_lived decode [U_set_un un] u) /\
  (forall s u, unix_from_string decode s true = Ok u -> unix_lived decode [U_set_abstract s] u) /\
  (forall s u, s <> [] -> unix_from_string decode s false = Ok u -> unix_lived decode [U_set_file s] u) /\
  (forall u, unix_from_string decode [] false = Ok u -> unix_lived decode [] u).
Proof.
  intros decode. split; [|split; [|split]].
  - intros un u L E. unfold unix_from_un in E.
    replace u with (unix_step decode unix_new (U_set_un un)); [repeat constructor; exact L|].
    cbn [unix_step]. destruct (set_un decode unix_new un) as [v [| | |]]; cbn; congruence.
  - intros s u E. unfold unix_from_string in E.
    replace u with (unix_step decode unix_new (U_set_abstract s)); [repeat constructor|].
    cbn [unix_step]. destruct (set_abstract decode unix_new s) as [v [| | |]]; cbn; congruence.
  - intros s u N E. unfold unix_from_string in E. destruct s as [|c s]; [congruence|].
    replace u with (unix_step decode unix_new (U_set_file (c :: s))); [repeat constructor|].
    cbn [unix_step]. destruct (set_file decode unix_new (c :: s)) as [v [| | |]]; cbn; congruence.
  - intros u E. injection E as <-. constructor.
Qed.
Print Assumptions C136_constructors.

(* A file, then a URI, a group, a path and a URI which are refused. *)
Definition unix_calls : list unix_op :=
  [U_set_uri (lit "http:x?fast"); U_set_file (lit "/"); U_set_group (lit "staff"); U_set_mode 432;
   U_set_uri (lit "cu:/run//bus?abstract"); U_set_file (lit "/tmp/x")].
Example C136_witness : exists u, unix_lived utf8 unix_calls u /\
  has_name u (Abstract (lit "/run/bus")) /\ get_scheme u = lit "cu" /\ get_mode u = 432 /\ get_group u = lit "staff".
Proof.
  exists (fold_right (fun op u => unix_step utf8 u op) unix_new unix_calls).
  split; [repeat constructor|]. vm_compute. repeat split.
Qed.
