(* C170: which exceptions the functions of addr, of the parser and of the text
   conversions throw, and when. *)
From Coq Require Import ZifyBool ZifyNat.
From Verif Require Import Base Addr Spec Range SpecRange Inet AddrText SpecText Parser SpecParser SpecParser2 SpecParser3.
From Verif Require AddrProofs AddrProofs2 AddrProofs3 AddrProofs4 TextProofs ParserProofs4 ParserProofs5 ParserProofs6 ParserProofs8 ParserProofs ParserProofs2 ParserProofs3 ParserProofs12 ParserProofs18
  PropAddr PropSocket PropText PropParser PropParser2 PropParser3 PropParser4 PropParser7 PropParser15.
Import AddrProofs AddrProofs2 AddrProofs3 AddrProofs4 PropAddr PropSocket PropParser.
Local Open Scope Z_scope.

(* ---------- specification ---------- *)
(* The call reads the name and the type of a socket. *)
Inductive reads_socket : addr_op -> Z -> option sockname -> option Z -> Prop :=
| reads_name s name type : reads_socket (Op_set_from_socket s name type) s name type
| reads_first s name type p4 p6 : reads_socket (Op_recvfrom s name type p4 p6) s name type.
(* The address of a socket is an IPv4 address. *)
Definition four (n : sockname) : Prop :=
  match n with SN_in _ => True | SN_in6 x => is_v4_value (num (sin6_addr x)) | SN_other => False end.
(* [refuses y a op e]: the call op on the object a is one which cannot be done,
   and e is the exception which says so. *)
Inductive refuses (y : sys) (a : addr) : addr_op -> exn -> Prop :=
| not_ipv4 x : sin_family x <> AF_INET -> refuses y a (Op_set_ipv4 x) E_invalid_argument
| not_ipv6 x : sin6_family x <> AF_INET6 -> refuses y a (Op_set_ipv6 x) E_invalid_argument
| not_a_port p : ~ 0 <= p <= 65535 -> refuses y a (Op_set_port p) E_invalid_argument
| not_a_port_number s n : convert_string y s = Some n -> ~ 0 <= s32 n <= 65535 ->
    refuses y a (Op_set_port_str s) E_invalid_argument
| not_a_protocol n : ~ protocol_ok n -> refuses y a (Op_set_protocol n) E_invalid_argument
| no_protocol : refuses y a (Op_set_protocol_str None) E_invalid_argument
| unknown_protocol s : (forall n, getprotobyname y s <> Found n) -> refuses y a (Op_set_protocol_str (Some s)) E_invalid_argument
| unsupported_protocol s n : getprotobyname y s = Found n -> ~ protocol_ok n ->
    refuses y a (Op_set_protocol_str (Some s)) E_invalid_argument
| not_a_prefix n : ~ (0 <= n <= 128 /\ (is_v4_value (value a) -> 96 <= n)) ->
    refuses y a (Op_set_mask_count n) E_out_of_range
| not_a_socket op s name type : reads_socket op s name type -> s < 0 -> refuses y a op E_invalid_argument
| no_name op s type : reads_socket op s None type -> 0 <= s -> refuses y a op E_io_error
| not_internet op s type : reads_socket op s (Some SN_other) type -> 0 <= s -> refuses y a op E_invalid_state
| no_type op s n : reads_socket op s (Some n) None -> 0 <= s -> n <> SN_other -> refuses y a op E_io_error
| neither_tcp_nor_udp op s n t : reads_socket op s (Some n) (Some t) -> 0 <= s -> n <> SN_other ->
    t <> SOCK_STREAM -> t <> SOCK_DGRAM -> refuses y a op E_invalid_state
| sender_not_ipv4 s n x p6 : 0 <= s -> four n -> sin_family x <> AF_INET ->
    refuses y a (Op_recvfrom s (Some n) (Some SOCK_DGRAM) (Some x) p6) E_invalid_argument
| sender_not_ipv6 s n x p4 : 0 <= s -> n <> SN_other -> ~ four n -> sin6_family x <> AF_INET6 ->
    refuses y a (Op_recvfrom s (Some n) (Some SOCK_DGRAM) p4 (Some x)) E_invalid_argument.

(* ---------- addr ---------- *)
Lemma set_port_throw a p e : snd (set_port a p) = Throw e <-> ~ 0 <= p <= 65535 /\ e = E_invalid_argument.
Proof.
  unfold set_port. destruct (_ || _) eqn:E; cbn [snd].
  - split; [intros X; injection X as <-; split; [lia|reflexivity]|now intros [_ ->]].
  - split; [discriminate|]. intros [N _]. lia.
Qed.
Lemma set_protocol_throw a n e : snd (set_protocol a n) = Throw e <-> ~ protocol_ok n /\ e = E_invalid_argument.
Proof.
  unfold set_protocol, protocol_ok.
  destruct ((n =? IPPROTO_IP) || (n =? IPPROTO_TCP) || (n =? IPPROTO_UDP)) eqn:E.
  - assert (n = IPPROTO_IP \/ n = IPPROTO_TCP \/ n = IPPROTO_UDP) by (unfold IPPROTO_IP, IPPROTO_TCP, IPPROTO_UDP in *; lia).
    split; [destruct (negb _); discriminate|tauto].
  - assert (~ (n = IPPROTO_IP \/ n = IPPROTO_TCP \/ n = IPPROTO_UDP)) by (unfold IPPROTO_IP, IPPROTO_TCP, IPPROTO_UDP in *; lia).
    cbn [snd]. split; [intros X; injection X as <-; auto|now intros [_ ->]].
Qed.
Lemma socket_throw a s name type e : addr_wf a -> opt_ok sockname_ok name ->
  (snd (set_from_socket a s name type) = Throw e <->
   (s < 0 /\ e = E_invalid_argument) \/ (0 <= s /\ name = None /\ e = E_io_error)
   \/ (0 <= s /\ name = Some SN_other /\ e = E_invalid_state)
   \/ (exists n, 0 <= s /\ name = Some n /\ n <> SN_other /\ type = None /\ e = E_io_error)
   \/ (exists n t, 0 <= s /\ name = Some n /\ n <> SN_other /\ type = Some t /\ t <> SOCK_STREAM /\ t <> SOCK_DGRAM /\ e = E_invalid_state)).
Proof.
  intros W H. destruct (C69_failures a s name type W H) as [K L]. split.
  - intros E. rewrite E in L. specialize (L ltac:(discriminate)). injection L as L.
    destruct (s <? 0) eqn:S; [left; split; [lia|exact L]|]. right.
    destruct name as [n|]; [|left; repeat split; [lia|exact L]]. right.
    assert (n = SN_other \/ n <> SN_other) as [->|N] by (destruct n; [right|right|left]; congruence).
    { left. repeat split; [lia|]. now destruct type. }
    right. destruct type as [t|].
    + right. exists n, t. repeat split; [lia|exact N| | |].
      * intros ->. assert (snd (set_from_socket a s (Some n) (Some SOCK_STREAM)) = Ok tt); [|congruence].
        apply K. repeat split; [lia|now exists n|now left].
      * intros ->. assert (snd (set_from_socket a s (Some n) (Some SOCK_DGRAM)) = Ok tt); [|congruence].
        apply K. repeat split; [lia|now exists n|now right].
      * destruct n; [exact L|exact L|now elim N].
    + left. exists n. repeat split; [lia|exact N|]. destruct n; [exact L|exact L|now elim N].
  - intros D.
    assert (snd (set_from_socket a s name type) <> Ok tt) as NK.
    { intros X. apply K in X. destruct X as (X1 & (n & X2 & X3) & X4).
      destruct D as [[D _]|[(_ & D & _)|[(_ & D & _)|[(m & _ & D & _ & T & _)|(m & t & _ & D & _ & T & T1 & T2 & _)]]]].
      - lia. - congruence. - congruence. - destruct X4; congruence. - destruct X4; congruence. }
    rewrite (L NK). f_equal.
    destruct D as [[D ->]|[(D & -> & ->)|[(D & -> & ->)|[(m & D & -> & D1 & -> & ->)|(m & t & D & -> & D1 & -> & _ & _ & ->)]]]].
    + now replace (s <? 0) with true by lia.
    + now replace (s <? 0) with false by lia.
    + replace (s <? 0) with false by lia. now destruct type.
    + replace (s <? 0) with false by lia. destruct m; [reflexivity|reflexivity|now elim D1].
    + replace (s <? 0) with false by lia. destruct m; [reflexivity|reflexivity|now elim D1].
Qed.
Lemma socket_refuses y a op s name type e : reads_socket op s name type ->
  (s < 0 /\ e = E_invalid_argument) \/ (0 <= s /\ name = None /\ e = E_io_error)
   \/ (0 <= s /\ name = Some SN_other /\ e = E_invalid_state)
   \/ (exists n, 0 <= s /\ name = Some n /\ n <> SN_other /\ type = None /\ e = E_io_error)
   \/ (exists n t, 0 <= s /\ name = Some n /\ n <> SN_other /\ type = Some t /\ t <> SOCK_STREAM /\ t <> SOCK_DGRAM /\ e = E_invalid_state)
  -> refuses y a op e.
Proof.
  intros R [[D ->]|[(D & -> & ->)|[(D & -> & ->)|[(m & D & -> & D1 & -> & ->)|(m & t & D & -> & D1 & -> & T1 & T2 & ->)]]]].
  - now apply (not_a_socket y a op s name type).
  - now apply (no_name y a op s type).
  - now apply (not_internet y a op s type).
  - now apply (no_type y a op s m).
  - now apply (neither_tcp_nor_udp y a op s m t).
Qed.
Lemma four_named n b : sockname_ok n -> addr_wf b -> named n b -> n <> SN_other -> (is_ipv4 b = true <-> four n).
Proof.
  intros H W M N. rewrite (is_ipv4_value b W). destruct n as [x|x|]; cbn [named four] in *; [|destruct M as [-> _]; tauto|now elim N].
  destruct M as [-> _]. pose proof (bswap32_range (s_addr x)). unfold is_v4_value. split; [auto|]. intros _. lia.
Qed.

Theorem C170_addr : forall y a op e, addr_wf a -> addr_op_ok op ->
  (snd (addr_step y a op) = Throw e <-> refuses y a op e).
Proof.
  intros y a op e W H. destruct op; cbn [addr_step snd];
    try (split; [discriminate|intros R; now inversion R; match goal with R : reads_socket _ _ _ _ |- _ => inversion R end]).
  - (* set_ipv4 *) unfold set_ipv4. destruct (sin_family x =? AF_INET) eqn:E; cbn [negb snd].
    + split; [discriminate|]. intros R. inversion R; subst; [lia|now (match goal with R : reads_socket _ _ _ _ |- _ => inversion R end)..].
    + split; [intros X; injection X as <-; apply not_ipv4; lia|]. intros R. inversion R; subst; [reflexivity|now (match goal with R : reads_socket _ _ _ _ |- _ => inversion R end)..].
  - (* set_ipv6 *) unfold set_ipv6. destruct (sin6_family x =? AF_INET6) eqn:E; cbn [negb snd].
    + split; [discriminate|]. intros R. inversion R; subst; [lia|now (match goal with R : reads_socket _ _ _ _ |- _ => inversion R end)..].
    + split; [intros X; injection X as <-; apply not_ipv6; lia|]. intros R. inversion R; subst; [reflexivity|now (match goal with R : reads_socket _ _ _ _ |- _ => inversion R end)..].
  - rewrite set_port_throw. split; [intros [N ->]; now apply not_a_port|].
    intros R. inversion R; subst; [now split|now (match goal with R : reads_socket _ _ _ _ |- _ => inversion R end)..].
  - (* set_port_str *) unfold drop_result, set_port_str. split.
    + destruct (convert_string y p) as [n|] eqn:C.
      * destruct (set_port a (s32 n)) as [b o] eqn:E. cbn [snd]. intros X.
        assert (snd (set_port a (s32 n)) = Throw e) as T by (rewrite E; cbn [snd]; destruct o; cbn [rbind] in X; congruence).
        apply set_port_throw in T. destruct T as [N ->]. eapply not_a_port_number; eauto.
      * unfold get_protocol_name. destruct (getprotobynumber y (f_protocol a)); cbn [snd rbind]; try discriminate.
        all: match goal with |- context [getservbyname ?y ?s ?q] => destruct (getservbyname y s q) as [sp| |] end; cbn [snd rbind]; try discriminate.
        all: destruct (set_port a (bswap16 sp)) as [b o] eqn:E; cbn [snd]; intros X;
          assert (snd (set_port a (bswap16 sp)) = Throw e) as T by (rewrite E; cbn [snd]; destruct o; cbn [rbind] in X; congruence);
          apply set_port_throw in T; pose proof (bswap16_range sp); change (2 ^ 16) with 65536 in *; lia.
    + intros R. inversion R; subst; [|now (match goal with R : reads_socket _ _ _ _ |- _ => inversion R end)..].
      match goal with X : convert_string _ _ = _ |- _ => rewrite X end.
      destruct (set_port a (s32 n)) as [b o] eqn:E. cbn [snd].
      assert (snd (set_port a (s32 n)) = Throw E_invalid_argument) as T by (apply set_port_throw; now split).
      rewrite E in T. cbn [snd] in T. now rewrite T.
  - rewrite set_protocol_throw. split; [intros [N ->]; now apply not_a_protocol|].
    intros R. inversion R; subst; [now split|now (match goal with R : reads_socket _ _ _ _ |- _ => inversion R end)..].
  - (* set_protocol_str *) unfold set_protocol_str. destruct p as [s|]; cbn [snd].
    + destruct (getprotobyname y s) as [n| |] eqn:E; cbn [snd].
      * rewrite set_protocol_throw. split; [intros [N ->]; eapply unsupported_protocol; eauto|].
        intros R. inversion R; subst; [exfalso; eapply H1; eauto| |now (match goal with R : reads_socket _ _ _ _ |- _ => inversion R end)..].
        split; [congruence|reflexivity].
      * split; [intros X; injection X as <-; apply unknown_protocol; congruence|].
        intros R. inversion R; subst; [reflexivity|reflexivity|now (match goal with R : reads_socket _ _ _ _ |- _ => inversion R end)..].
      * split; [intros X; injection X as <-; apply unknown_protocol; congruence|].
        intros R. inversion R; subst; [reflexivity|reflexivity|now (match goal with R : reads_socket _ _ _ _ |- _ => inversion R end)..].
    + split; [intros X; injection X as <-; apply no_protocol|].
      intros R. inversion R; subst; [reflexivity|now (match goal with R : reads_socket _ _ _ _ |- _ => inversion R end)..].
  - (* set_mask_count *) destruct (C08_mask_count_round_trip a n W) as [G B]. pose proof (is_ipv4_value a W) as I.
    split.
    + intros X.
      assert (~ (if is_ipv4 a then 96 else 0) <= n <= 128) as N by (intros N; destruct (G N) as (b & E & _); rewrite E in X; discriminate).
      rewrite (B N) in X. cbn [snd] in X. injection X as <-. apply not_a_prefix. intros [N1 N2].
      apply N. destruct (is_ipv4 a) eqn:F; [specialize (N2 (proj1 I eq_refl))|]; lia.
    + intros R. inversion R; subst; [|now (match goal with R : reads_socket _ _ _ _ |- _ => inversion R end)..].
      rewrite B; [reflexivity|]. intros N. match goal with X : ~ _ |- _ => apply X end. destruct (is_ipv4 a); [lia|].
      split; [lia|]. intros V. apply I in V. discriminate.
  - (* += *) unfold add_assign, neg_int. split.
    + repeat match goal with |- context [if ?b then _ else _] => destruct b end; discriminate.
    + intros R; now inversion R; match goal with R : reads_socket _ _ _ _ |- _ => inversion R end.
  - (* -= *) unfold sub_assign, neg_int. split.
    + repeat match goal with |- context [if ?b then _ else _] => destruct b end; discriminate.
    + intros R; now inversion R; match goal with R : reads_socket _ _ _ _ |- _ => inversion R end.
  - (* set_from_socket *) cbn [addr_op_ok] in H. rewrite (socket_throw a s name type e W H). split.
    + apply socket_refuses. constructor.
    + intros R. inversion R; subst; match goal with R : reads_socket _ _ _ _ |- _ => inversion R; subst end.
      * now left. * right; now left. * right; right; now left.
      * right; right; right; left. now exists n. * right; right; right; right. now exists n, t.
  - (* recvfrom *) cbn [addr_op_ok] in H. destruct H as (H & _ & _). unfold recvfrom.
    destruct (set_from_socket a s name type) as [b o] eqn:E.
    pose proof (socket_throw a s name type e W H) as ST. rewrite E in ST. cbn [snd] in ST.
    destruct o as [[]|e'| |].
    + destruct (C69_failures a s name type W H) as [[K _] _]. rewrite E in K. destruct (K eq_refl) as (S & (n & -> & N) & T). clear K.
      cbn [opt_ok] in H.
      assert (exists t, type = Some t /\ (t = SOCK_STREAM \/ t = SOCK_DGRAM)) as (t & -> & Tt) by (destruct T as [->| ->]; eauto).
      destruct (C69_describes_the_socket a s n t W H S N Tt) as (b' & E' & Wb & M & PR & _).
      assert (b' = b) as -> by congruence. pose proof (four_named n b H Wb M N) as F. unfold get_protocol in PR. rewrite PR.
      assert (forall e, refuses y a (Op_recvfrom s (Some n) (Some t) peer4 peer6) e ->
        (t = SOCK_DGRAM /\ e = E_invalid_argument /\ ((four n /\ exists x, peer4 = Some x /\ sin_family x <> AF_INET)
          \/ (~ four n /\ exists x, peer6 = Some x /\ sin6_family x <> AF_INET6)))) as R.
      { intros x R. inversion R; subst; try (match goal with R : reads_socket _ _ _ _ |- _ => inversion R; subst end; try lia; try congruence; try tauto).
        - split; [reflexivity|]. split; [reflexivity|]. left. eauto.
        - split; [reflexivity|]. split; [reflexivity|]. right. eauto. }
      destruct Tt as [->| ->]; cbn [Z.eqb SOCK_STREAM SOCK_DGRAM Pos.eqb].
      { change (negb (IPPROTO_TCP =? IPPROTO_UDP)) with true. cbn [snd]. split; [discriminate|]. intros X. apply R in X. destruct X as [X _]. discriminate. }
      change (negb (IPPROTO_UDP =? IPPROTO_UDP)) with false. cbv iota.
      destruct (is_ipv4 b) eqn:I4.
      * assert (four n) as Fn by now apply F. destruct peer4 as [x|].
        -- unfold set_ipv4. destruct (sin_family x =? AF_INET) eqn:FX; cbn [negb snd].
           ++ split; [discriminate|]. intros X. apply R in X. destruct X as (_ & _ & [(_ & z & Z1 & Z2)|[Z _]]); [|now elim Z].
              injection Z1 as <-. lia.
           ++ split; [intros X; injection X as <-; apply sender_not_ipv4; auto; lia|]. intros X. apply R in X. now destruct X as (_ & -> & _).
        -- cbn [snd]. split; [discriminate|]. intros X. apply R in X. destruct X as (_ & _ & [(_ & z & Z1 & Z2)|[Z _]]); [discriminate|now elim Z].
      * assert (~ four n) as Fn by (intros X; apply F in X; discriminate). destruct peer6 as [x|].
        -- unfold set_ipv6. destruct (sin6_family x =? AF_INET6) eqn:FX; cbn [negb snd].
           ++ split; [discriminate|]. intros X. apply R in X. destruct X as (_ & _ & [[Z _]|(_ & z & Z1 & Z2)]); [now elim Fn|].
              injection Z1 as <-. lia.
           ++ split; [intros X; injection X as <-; apply sender_not_ipv6; auto; lia|]. intros X. apply R in X. now destruct X as (_ & -> & _).
        -- cbn [snd]. split; [discriminate|]. intros X. apply R in X. destruct X as (_ & _ & [[Z _]|(_ & z & Z1 & Z2)]); [now elim Fn|discriminate].
    + cbn [snd]. rewrite ST. split.
      * apply socket_refuses. constructor.
      * pose proof (proj1 (socket_throw a s name type e' W H)) as ST'. rewrite E in ST'. specialize (ST' eq_refl).
        intros R. inversion R; subst; try (match goal with R : reads_socket _ _ _ _ |- _ => inversion R; subst end).
        -- now left. -- right; now left. -- right; right; now left.
        -- right; right; right; left. now exists n. -- right; right; right; right. now exists n, t.
        -- exfalso. destruct ST' as [[D _]|[(_ & D & _)|[(_ & D & _)|[(m & _ & D & _ & T & _)|(m & t & _ & D & _ & T & T1 & T2 & _)]]]]; try lia; try congruence.
           assert (n = SN_other) as -> by congruence. match goal with X : four SN_other |- _ => exact X end.
        -- exfalso. destruct ST' as [[D _]|[(_ & D & _)|[(_ & D & _)|[(m & _ & D & _ & T & _)|(m & t & _ & D & _ & T & T1 & T2 & _)]]]]; try lia; congruence.
    + exfalso. destruct (C69_failures a s name type W H) as [_ K]. rewrite E in K. specialize (K ltac:(discriminate)). discriminate.
    + exfalso. destruct (C69_failures a s name type W H) as [_ K]. rewrite E in K. specialize (K ltac:(discriminate)). discriminate.
Qed.
Print Assumptions C170_addr.

(* Each exception is thrown. *)
Example C170_addr_case : addr_wf w4 /\ refuses ref_sys w4 (Op_set_mask_count 95) E_out_of_range
  /\ snd (addr_step ref_sys w4 (Op_set_mask_count 95)) = Throw E_out_of_range
  /\ snd (addr_step ref_sys w4 (Op_set_mask_count 96)) = Ok tt
  /\ snd (addr_step ref_sys w4 (Op_set_port 65536)) = Throw E_invalid_argument
  /\ snd (addr_step ref_sys w4 (Op_set_from_socket 3 None None)) = Throw E_io_error
  /\ snd (addr_step ref_sys w4 (Op_recvfrom 3 (Some name4) (Some 5) None None)) = Throw E_invalid_state
  /\ refuses ref_sys w4 (Op_recvfrom 3 (Some name4) (Some 5) None None) E_invalid_state.
Proof.
  split; [apply w4_wf|]. split; [apply not_a_prefix; intros [_ X]; assert (is_v4_value (value w4)) as V by (vm_compute; split; congruence); specialize (X V); lia|].
  do 5 (split; [vm_compute; reflexivity|]). eapply neither_tcp_nor_udp; [constructor|lia|discriminate|discriminate|discriminate].
Qed.

(* ---------- the texts of addresses ---------- *)
(* to_ipv6_string() throws nothing, to_ipv4or6_string() only
   addr_unexpected_mask, for an IPv4 address of which the mask is printed and
   does not start with 96 ones; to_ipv4_string() also addr_invalid_state. *)
Lemma port_text_calm y a mode e : port_text y a mode <> Throw e.
Proof.
  unfold port_text. destruct (shows_port mode); [|discriminate]. destruct (has mode STRING_IP_PORT_NAME); cbn [rbind].
  - unfold get_port_name, get_protocol_name. destruct (getprotobynumber y (f_protocol a)); cbn [rbind]; try discriminate.
    all: destruct (getservbyport _ _ _) as [[|c s]| |]; discriminate.
  - discriminate.
Qed.
Lemma text4_throw y a mode e : addr_wf a -> to_ipv4_string y a mode = Throw e ->
  (e = E_invalid_state /\ ~ is_v4_value (value a))
  \/ (e = E_unexpected_mask /\ PropText.mask_wanted mode a /\ mask_value a < prefix_mask 96).
Proof.
  intros W. unfold to_ipv4_string.
  pose proof (is_ipv4_value a W) as I. pose proof (PropText.shows_mask_wanted mode a W) as SM.
  pose proof (TextProofs.mask_ipv4_compatible_value a W) as C.
  assert (forall ip, (let! port := port_text y a mode in let! mask := mask_text4 a mode in Ok (ip ++ port ++ mask)) = Throw e ->
    e = E_unexpected_mask /\ PropText.mask_wanted mode a /\ mask_value a < prefix_mask 96) as K.
  { intros ip X. pose proof (port_text_calm y a mode) as P. destruct (port_text y a mode) as [q|x| |]; cbn [rbind] in X; try discriminate.
    - unfold mask_text4 in X. destruct (shows_mask mode a); [|discriminate].
      destruct (is_mask_ipv4_compatible a) eqn:M; cbn [negb] in X; [discriminate|]. injection X as <-.
      split; [reflexivity|]. split; [now apply SM|]. destruct (Z.lt_ge_cases (mask_value a) (prefix_mask 96)) as [L|L]; [exact L|].
      apply C in L. discriminate.
    - now elim (P x). }
  destruct (shows_address mode); [|intros X; right; exact (K [] X)].
  destruct (is_ipv4 a) eqn:F; cbn [negb].
  - destruct (_ && _); intros X; right; eapply K; exact X.
  - intros X. injection X as <-. left. split; [reflexivity|]. intros V. apply I in V. discriminate.
Qed.
Theorem C170_text : forall y a mode e, addr_wf a ->
  to_ipv6_string y a mode <> Throw e
  /\ (to_ipv4_string y a mode = Throw e ->
      (e = E_invalid_state /\ ~ is_v4_value (value a))
      \/ (e = E_unexpected_mask /\ PropText.mask_wanted mode a /\ mask_value a < prefix_mask 96))
  /\ (to_ipv4or6_string y a mode = Throw e ->
      e = E_unexpected_mask /\ is_v4_value (value a) /\ PropText.mask_wanted mode a /\ mask_value a < prefix_mask 96).
Proof.
  intros y a mode e W.
  assert (forall e, to_ipv6_string y a mode <> Throw e) as S6.
  { intros x. unfold to_ipv6_string. destruct (ip_text6 a mode). pose proof (port_text_calm y a mode) as P.
    destruct (port_text y a mode) as [q|z| |]; cbn [rbind]; try discriminate. now elim (P z). }
  split; [apply S6|]. split; [now apply text4_throw|]. unfold to_ipv4or6_string. destruct (is_ipv4 a) eqn:F; [|intros X; now elim (S6 e)].
  pose proof (is_ipv4_value a W) as I. intros X. destruct (text4_throw y a mode e W X) as [[_ N]|(E & M & L)]; [elim N; now apply I|].
  split; [exact E|]. split; [now apply I|]. now split.
Qed.
Print Assumptions C170_text.

(* ---------- the parser ---------- *)
(* parse() throws out_of_range only when it merges ranges which may have masks,
   and addr_invalid_argument only when the protocol of the parser or one in an
   answer of the resolver is not one an address can have. *)
Theorem C170_parse : forall y g s p e, resolver_ok g -> snd (parse y g s p) = Throw e ->
  (e = E_out_of_range /\ Z.land (get_sort_order p) SORT_MERGE <> 0 /\ get_allow p ALLOW_MASK = Ok true)
  \/ (e = E_invalid_argument
      /\ (parser_get_protocol p <> -1 /\ ~ protocol_ok (parser_get_protocol p)
          \/ get_allow p ALLOW_ADDRESS_LOOKUP = Ok true /\ ~ known_protocols g)).
Proof.
  intros y g s p e R E.
  destruct (parse_entries y g s p) as [p1 o] eqn:EE.
  assert (parse y g s p = match o with Ok l => (p1, arrange (f_sort p1) l) | Throw x => (p1, Throw x) | UB => (p1, UB) | OutOfFuel => (p1, OutOfFuel) end) as EP.
  { unfold parse, bind, ask, lift. rewrite EE. now destruct o. }
  destruct (ParserProofs.wp_run p _ _ p (ParserProofs18.entries_quiet y g p s) (ParserProofs3.same_config_refl p)) as (ms' & r' & E' & _).
  assert (o = r') as -> by congruence. assert (f_sort p1 = f_sort p) as FS by (rewrite E' in EE; injection EE as <- ; reflexivity).
  rewrite EP in E. destruct r' as [l|x| |]; cbn [snd] in E; try discriminate.
  - left. rewrite FS in E.
    assert (allow p ALLOW_MASK = true) as AM.
    { destruct (allow p ALLOW_MASK) eqn:AM; [reflexivity|].
      destruct (ParserProofs6.arrange_ones (f_sort p) l) as [l' X]; [eapply ParserProofs6.entries_ones; eassumption|congruence]. }
    destruct (ParserProofs.wp_run p _ _ p (ParserProofs2.entries_made y g p s) (ParserProofs3.same_config_refl p)) as (ms2 & r2 & E2 & _ & K).
    assert (r2 = Ok l) as -> by congruence. destruct (K R) as [_ K'].
    pose proof (PropParser15.arrange_cause (f_sort p) l (ParserProofs6.ends_good (ParserProofs2.made y p) l ltac:(now apply K'))) as C.
    rewrite E in C. destruct C as (C1 & C2 & _). split; [exact C1|]. split; [exact C2|]. apply PropParser2.allow_get; [vm_compute; split; congruence|exact AM].
  - right. injection E as ->. pose proof EE as EE2. apply ParserProofs18.entries_throw in EE2. subst e. split; [reflexivity|].
    assert ((parser_get_protocol p = -1 \/ protocol_ok (parser_get_protocol p)) \/ (parser_get_protocol p <> -1 /\ ~ protocol_ok (parser_get_protocol p))) as [P|P].
    { unfold protocol_ok. lia. }
    + right. assert (forall L : allow p ALLOW_ADDRESS_LOOKUP = false \/ (resolver_ok g /\ known_protocols g), False) as N.
      { intros L. destruct (ParserProofs.wp_run p _ _ p (ParserProofs8.entries_quiet y g p L P s) (ParserProofs3.same_config_refl p)) as (ms2 & r2 & E2 & C).
        apply (C E_invalid_argument). congruence. }
      split; [|intros K; apply N; right; now split]. apply PropParser2.allow_get; [vm_compute; split; congruence|].
      destruct (allow p ALLOW_ADDRESS_LOOKUP); [reflexivity|]. elim N. now left.
    + left. exact P.
Qed.
Print Assumptions C170_parse.

(* string_to_addr() throws addr_invalid_argument and nothing else. *)
Theorem C170_string_to_addr : forall y g s address port protocol mask e, resolver_ok g ->
  string_to_addr y g s address port protocol mask = Throw e -> e = E_invalid_argument.
Proof.
  intros y g s address port protocol mask e R E.
  destruct (PropParser4.string_to_addr_steps y g s address port protocol mask) as [(p & A & X)|(_ & X)]; [|congruence].
  rewrite X in E. destruct (snd (parse y g s p)) as [l|x| |] eqn:EP; cbn [rbind] in E; try discriminate.
  - destruct (PropParser4.pick_spec protocol l (PropParser4.asked_only _ _ _ _ _ _ _ _ _ A EP)) as [(r & _ & K & _)|(_ & K)]; congruence.
  - injection E as ->. destruct (C170_parse y g s p e R EP) as [(_ & M & _)|[K _]]; [|exact K].
    elim M. apply PropParser4.asked_flags in A. destruct A as [_ S]. unfold get_sort_order. now rewrite S.
Qed.
Print Assumptions C170_string_to_addr.

(* Both exceptions of parse() are thrown: the second by a parser which was told
   to use the protocol "icmp", which the system knows. *)
Definition icmp_sys : sys := mk_sys (convert_string ref_sys) (getservbyname ref_sys) (getservbyport ref_sys)
  (fun n => if str_eqb n (lit "icmp") then Found 1 else NoEntry) (getprotobynumber ref_sys).
Definition icmp_parser : parser := parser_run icmp_sys no_answer [P_set_allow ALLOW_ADDRESS_LOOKUP false; P_set_protocol_str (lit "icmp")].
Example C170_parse_case : resolver_ok no_answer
  /\ snd (parse ref_sys no_answer (lit "::1:0:0:0/64,255.255.255.255") PropParser15.numeric_merge) = Throw E_out_of_range
  /\ parser_get_protocol icmp_parser = 1
  /\ snd (parse icmp_sys no_answer (lit "10.0.0.1:80") icmp_parser) = Throw E_invalid_argument
  /\ string_to_addr icmp_sys no_answer (lit "10.0.0.1:80") [] (-1) (lit "icmp") false = Throw E_invalid_argument.
Proof. split; [exact no_answer_ok|]. repeat split; vm_compute; reflexivity. Qed.
