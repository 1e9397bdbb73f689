(* C166: calls which throw, and the object they were made on. *)
From Coq Require Import ZifyBool ZifyNat.
From Verif Require Import Base Addr Spec Range SpecRange.
From Verif Require AddrProofs AddrProofs2 AddrProofs3 AddrProofs4 PropAddr PropSocket.
Import AddrProofs AddrProofs2 AddrProofs3 AddrProofs4 PropAddr PropSocket.
Local Open Scope Z_scope.

(* The calls which ask the system about a socket. *)
Definition asks_socket (op : addr_op) : Prop :=
  match op with Op_set_from_socket _ _ _ | Op_recvfrom _ _ _ _ _ => True | _ => False end.

Lemma throw_ipv4 a x b e : set_ipv4 a x = (b, Throw e) -> b = a.
Proof. unfold set_ipv4. destruct (negb _); congruence. Qed.
Lemma throw_ipv6 a x b e : set_ipv6 a x = (b, Throw e) -> b = a.
Proof. unfold set_ipv6. destruct (negb _); congruence. Qed.
Lemma throw_port a n b e : set_port a n = (b, Throw e) -> b = a.
Proof. unfold set_port. destruct (_ || _); congruence. Qed.
Lemma throw_protocol a n b e : set_protocol a n = (b, Throw e) -> b = a.
Proof. unfold set_protocol. repeat match goal with |- context [if ?x then _ else _] => destruct x end; congruence. Qed.
Lemma throw_then {A} (b : addr) (r : res unit) (v : A) c e :
  drop_result (b, (let! _ := r in Ok v)) = (c, Throw e) -> c = b /\ r = Throw e.
Proof. unfold drop_result. cbn [fst snd]. destruct r; cbn [rbind]; intros H; [discriminate| |discriminate|discriminate]. split; congruence. Qed.
(* Missing: the two functions which ask about a socket, see below. *)
Theorem C166_unchanged_partial : forall y a b op e, ~ asks_socket op -> addr_step y a op = (b, Throw e) -> b = a.
Proof.
  intros y a b op e N E. destruct op; cbn [addr_step asks_socket] in *; try (exfalso; tauto); try discriminate.
  - now apply throw_ipv4 in E.
  - now apply throw_ipv6 in E.
  - now apply throw_port in E.
  - unfold set_port_str in E. destruct (convert_string y p) as [n|].
    + destruct (set_port a (s32 n)) as [c r] eqn:S. apply throw_then in E. destruct E as [-> ->]. now apply throw_port in S.
    + destruct (get_protocol_name y a) as [t|x| |]; try (unfold drop_result in E; cbn [fst snd rbind] in E; congruence).
      destruct (getservbyname y p t) as [sp| |]; try (unfold drop_result in E; cbn [fst snd rbind] in E; congruence).
      destruct (set_port a (bswap16 sp)) as [c r] eqn:S. apply throw_then in E. destruct E as [-> ->]. now apply throw_port in S.
  - now apply throw_protocol in E.
  - unfold set_protocol_str in E. destruct p as [s|]; [|congruence]. destruct (getprotobyname y s); try congruence. now apply throw_protocol in E.
  - unfold set_mask_count in E. repeat match type of E with context [if ?x then _ else _] => destruct x end; congruence.
  - unfold add_assign in E. destruct (n <? 0); [destruct (neg_int n)|]; discriminate.
  - unfold sub_assign in E. destruct (n <? 0); [destruct (neg_int n)|]; discriminate.
Qed.
Print Assumptions C166_unchanged_partial.

(* So the calls which threw can be left out of any history. *)
Inductive without_failures (y : sys) : addr -> list addr_op -> list addr_op -> Prop :=
| wf_nil a : without_failures y a [] []
| wf_worked a b op ops ops2 : addr_step y a op = (b, Ok tt) -> without_failures y b ops ops2 -> without_failures y a (op :: ops) (op :: ops2)
| wf_threw a b e op ops ops2 : addr_step y a op = (b, Throw e) -> without_failures y b ops ops2 -> without_failures y a (op :: ops) ops2.
Definition after (y : sys) (a : addr) (ops : list addr_op) : addr := fold_left (fun a op => fst (addr_step y a op)) ops a.
Theorem C166_history_partial : forall y a ops ops2, Forall (fun op => ~ asks_socket op) ops ->
  without_failures y a ops ops2 -> after y a ops2 = after y a ops.
Proof.
  intros y a ops ops2 F W. revert F. induction W as [a|a b op ops ops2 E W IH|a b e op ops ops2 E W IH]; intros F; [reflexivity| |];
    inversion F as [|? ? N F2]; subst; specialize (IH F2).
  - cbn [after fold_left]. rewrite E. exact IH.
  - pose proof (C166_unchanged_partial y a b op e N E) as ->. rewrite IH. unfold after. cbn [fold_left]. now rewrite E.
Qed.
Print Assumptions C166_history_partial.

(* A socket with an IP address and a type which is not known, or cannot be
   asked for: the exception leaves the address and port of the socket behind,
   with the rest as it was. *)
Definition half_known (s : Z) (name : option sockname) (type : option Z) (n : sockname) : Prop :=
  0 <= s /\ name = Some n /\ n <> SN_other /\ type <> Some SOCK_STREAM /\ type <> Some SOCK_DGRAM.
Theorem C166_from_socket : forall a s name type b e, addr_wf a -> opt_ok sockname_ok name ->
  set_from_socket a s name type = (b, Throw e) ->
  b = a /\ (forall n, ~ half_known s name type n)
  \/ exists n, half_known s name type n /\ named n b /\ get_protocol b = get_protocol a /\ same_rest a b.
Proof.
  intros a s name type b e W H E. unfold set_from_socket in E. destruct (s <? 0) eqn:S.
  { left. split; [congruence|]. intros n (X & _). lia. }
  destruct name as [n|]; [|left; split; [congruence|intros n (_ & X & _); discriminate]].
  assert ({n = SN_other} + {n <> SN_other}) as [->|N] by (destruct n; [right|right|left]; congruence).
  { left. split; [congruence|]. intros n (_ & X & Y & _). congruence. }
  right. exists n. cbn [opt_ok] in H. destruct (set_name a n W H N) as (c & X & M & R & P). rewrite X in E.
  assert (b = c /\ type <> Some SOCK_STREAM /\ type <> Some SOCK_DGRAM) as (-> & T1 & T2).
  { destruct type as [t|]; [|split; [congruence|split; discriminate]].
    destruct (t =? SOCK_STREAM) eqn:Y1; [discriminate|]. destruct (t =? SOCK_DGRAM) eqn:Y2; [discriminate|].
    split; [congruence|]. split; intros Z; assert (t = SOCK_STREAM \/ t = SOCK_DGRAM) as [->| ->] by (first [left; congruence|right; congruence]); discriminate. }
  split; [|now split]. split; [lia|]. split; [reflexivity|]. split; [exact N|]. now split.
Qed.
Print Assumptions C166_from_socket.

(* recvfrom() is not different when it cannot describe the socket; otherwise
   it only throws for a sender of another family, see C75_mapped_socket. *)
Theorem C166_recvfrom : forall a s name type p4 p6 b e, addr_wf a -> opt_ok sockname_ok name ->
  recvfrom a s name type p4 p6 = (b, Throw e) ->
  set_from_socket a s name type = (b, Throw e)
  \/ (exists n, name = Some n /\ named n b /\ same_rest a b) /\ get_protocol b = IPPROTO_UDP /\ e = E_invalid_argument
     /\ if is_ipv4 b then exists x, p4 = Some x /\ sin_family x <> AF_INET else exists x, p6 = Some x /\ sin6_family x <> AF_INET6.
Proof.
  intros a s name type p4 p6 b e W H E. unfold recvfrom in E. destruct (set_from_socket a s name type) as [c r] eqn:X.
  destruct r as [[]|x| |]; try (left; congruence). right.
  destruct (C69_failures a s name type W H) as [K _]. rewrite X in K. destruct (proj1 K eq_refl) as (S & (n & -> & N) & T).
  destruct (negb (f_protocol c =? IPPROTO_UDP)) eqn:P; [discriminate|].
  assert (b = c /\ e = E_invalid_argument /\ if is_ipv4 c then exists x, p4 = Some x /\ sin_family x <> AF_INET else exists x, p6 = Some x /\ sin6_family x <> AF_INET6) as (-> & -> & G).
  { destruct (is_ipv4 c).
    - destruct p4 as [x|]; [|discriminate]. unfold set_ipv4 in E. destruct (sin_family x =? AF_INET) eqn:Y; cbn [negb] in E; [discriminate|].
      split; [congruence|]. split; [congruence|]. exists x. split; [reflexivity|lia].
    - destruct p6 as [x|]; [|discriminate]. unfold set_ipv6 in E. destruct (sin6_family x =? AF_INET6) eqn:Y; cbn [negb] in E; [discriminate|].
      split; [congruence|]. split; [congruence|]. exists x. split; [reflexivity|lia]. }
  split.
  { assert (exists t, type = Some t /\ (t = SOCK_STREAM \/ t = SOCK_DGRAM)) as (t & -> & Tt) by (destruct T as [-> | ->]; eauto).
    cbn [opt_ok] in H. destruct (C69_describes_the_socket a s n t W H S N Tt) as (c' & E' & _ & M & _ & R). rewrite X in E'.
    assert (c' = c) as -> by congruence. exists n. now split. }
  split; [unfold get_protocol; lia|]. now split.
Qed.
Print Assumptions C166_recvfrom.

(* Ranges: from_cidr() is the only function of a range which throws and
   changes it. *)
Theorem C166_from_cidr : forall r a r2 e, from_cidr r a = (r2, Throw e) -> r2 = r.
Proof. intros r a r2 e. unfold from_cidr. destruct (get_mask_size a =? -1); congruence. Qed.
Print Assumptions C166_from_cidr.

(* 127.0.0.1:0 asked about a raw socket of 10.0.0.1: an exception, and the
   address is 10.0.0.1 now. *)
Definition raw_name : sockname := SN_in (mk_in AF_INET 0 (bswap32 (10 * 2 ^ 24 + 1))).
Theorem C166_unchanged_refuted : exists y a op b e, addr_wf a /\ addr_op_ok op
  /\ addr_step y a op = (b, Throw e) /\ value b <> value a.
Proof.
  exists ref_sys, w4, (Op_set_from_socket 3 (Some raw_name) (Some 3)). eexists _, _.
  split; [now apply addr_wfb_ok|]. split; [vm_compute; repeat split; congruence|].
  split; [vm_compute; reflexivity|]. vm_compute. congruence.
Qed.
Print Assumptions C166_unchanged_refuted.

Example C166_witness :
  let a := fst (addr_step ref_sys w4 (Op_set_port 80)) in
  (exists e, addr_step ref_sys a (Op_set_port 65536) = (a, Throw e)) /\ (exists e, addr_step ref_sys a (Op_set_mask_count 24) = (a, Throw e))
  /\ without_failures ref_sys w4 [Op_set_port 80; Op_set_port 65536; Op_set_mask_count 24; Op_set_mask_count 120]
       [Op_set_port 80; Op_set_mask_count 120]
  /\ addr_wf w4 /\ opt_ok sockname_ok (Some raw_name) /\ half_known 3 (Some raw_name) (Some 3) raw_name
  /\ (exists b e, recvfrom w4 3 (Some raw_name) (Some SOCK_DGRAM) (Some (mk_in AF_INET6 0 0)) None = (b, Throw e))
  /\ exists r2 e, from_cidr range_new (set_mask w4 (repeat 1 16)) = (r2, Throw e).
Proof.
  cbv zeta. split; [eexists; vm_compute; reflexivity|]. split; [eexists; vm_compute; reflexivity|]. split.
  { eapply wf_worked; [vm_compute; reflexivity|]. eapply wf_threw; [vm_compute; reflexivity|]. eapply wf_threw; [vm_compute; reflexivity|].
    eapply wf_worked; [vm_compute; reflexivity|]. apply wf_nil. }
  split; [now apply addr_wfb_ok|]. split; [vm_compute; repeat split; congruence|]. split.
  { split; [lia|]. split; [reflexivity|]. split; [discriminate|]. split; discriminate. }
  split; [do 2 eexists; vm_compute; reflexivity|]. do 2 eexists. vm_compute. reflexivity.
Qed.
