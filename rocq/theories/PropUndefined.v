(* C171: which calls of addr, the texts of addresses and addr_unix have
   undefined behaviour. *)
From Coq Require Import ZifyBool ZifyNat.
From Verif Require Import Base Addr Spec Inet AddrText SpecText.
From Verif Require Unix SpecUnix UnixProofs PropUnix.
From Verif Require AddrProofs AddrProofs2 AddrProofs3 AddrProofs4 PropAddr PropSocket PropText PropExceptions PropExceptions2.
Import AddrProofs AddrProofs2 AddrProofs3 AddrProofs4 PropAddr.
Local Open Scope Z_scope.

(* ---------- specification ---------- *)
(* The system was asked for the name of the protocol of the address, did not
   fail, and has no such protocol. *)
Definition nameless (y : sys) (a : addr) : Prop := getprotobynumber y (get_protocol a) = NoEntry.
(* The calls which have no meaning in C++: the smallest int has no negation,
   and the name of the protocol is read through a null pointer when a port is
   not a number. *)
Inductive undefined (y : sys) (a : addr) : addr_op -> Prop :=
| undefined_add : undefined y a (Op_add_assign (- 2 ^ 31))
| undefined_sub : undefined y a (Op_sub_assign (- 2 ^ 31))
| undefined_port s : convert_string y s = None -> nameless y a -> undefined y a (Op_set_port_str s).

(* ---------- proofs ---------- *)
Lemma set_port_defined_ a p : snd (set_port a p) <> UB /\ snd (set_port a p) <> OutOfFuel.
Proof. unfold set_port. destruct (_ || _); split; discriminate. Qed.
Lemma set_protocol_defined_ a p : snd (set_protocol a p) <> UB /\ snd (set_protocol a p) <> OutOfFuel.
Proof. unfold set_protocol. repeat match goal with |- context [if ?b then _ else _] => destruct b end; split; discriminate. Qed.
Lemma set_ipv4_defined a x : snd (set_ipv4 a x) <> UB /\ snd (set_ipv4 a x) <> OutOfFuel.
Proof. unfold set_ipv4. destruct (negb _); split; discriminate. Qed.
Lemma set_ipv6_defined a x : snd (set_ipv6 a x) <> UB /\ snd (set_ipv6 a x) <> OutOfFuel.
Proof. unfold set_ipv6. destruct (negb _); split; discriminate. Qed.
Lemma socket_defined a s n t : snd (set_from_socket a s n t) <> UB /\ snd (set_from_socket a s n t) <> OutOfFuel.
Proof.
  unfold set_from_socket. destruct (s <? 0); [split; discriminate|]. destruct n as [n|]; [|split; discriminate].
  match goal with |- context [let '(_, _) := ?m in _] => set (r := m) end.
  assert (snd r <> UB /\ snd r <> OutOfFuel) as K.
  { subst r. destruct n; [apply set_ipv4_defined|apply set_ipv6_defined|split; discriminate]. }
  destruct r as [b o]. cbn [snd] in K. destruct o as [[]|e| |]; [|split; discriminate|tauto|tauto].
  destruct t as [t|]; [|split; discriminate]. destruct (t =? _); [split; discriminate|]. destruct (t =? _); split; discriminate.
Qed.
Lemma recvfrom_defined a s n t p4 p6 : snd (recvfrom a s n t p4 p6) <> UB /\ snd (recvfrom a s n t p4 p6) <> OutOfFuel.
Proof.
  unfold recvfrom. pose proof (socket_defined a s n t) as K. destruct (set_from_socket a s n t) as [b o]. cbn [snd] in K.
  destruct o as [[]|e| |]; [|split; discriminate|tauto|tauto]. destruct (negb _); [split; discriminate|].
  destruct (is_ipv4 b); [destruct p4; [apply set_ipv4_defined|]|destruct p6; [apply set_ipv6_defined|]]; split; discriminate.
Qed.
Lemma port_str_defined y a p : (snd (drop_result (set_port_str y a p)) = UB <-> convert_string y p = None /\ nameless y a)
  /\ snd (drop_result (set_port_str y a p)) <> OutOfFuel.
Proof.
  unfold drop_result, set_port_str, nameless. destruct (convert_string y p) as [n|] eqn:C.
  - pose proof (set_port_defined_ a (s32 n)) as K. destruct (set_port a (s32 n)) as [b o]. cbn [snd] in *.
    destruct o as [[]|e| |]; cbn [rbind]; (split; [split|]); try discriminate; try tauto; intros [X _]; discriminate.
  - unfold get_protocol_name, get_protocol. destruct (getprotobynumber y (f_protocol a)) as [q| |]; cbn [snd rbind].
    + destruct (getservbyname y p q) as [sp| |]; cbn [snd rbind]; [|split; [split; [discriminate|intros [_ X]; discriminate]|discriminate]..].
      pose proof (set_port_defined_ a (bswap16 sp)) as K. destruct (set_port a (bswap16 sp)) as [b o]. cbn [snd] in *.
      destruct o as [[]|e| |]; cbn [rbind]; (split; [split|]); try discriminate; try tauto; intros [_ X]; discriminate.
    + split; [split; auto|discriminate].
    + destruct (getservbyname y p []) as [sp| |]; cbn [snd rbind]; [|split; [split; [discriminate|intros [_ X]; discriminate]|discriminate]..].
      pose proof (set_port_defined_ a (bswap16 sp)) as K. destruct (set_port a (bswap16 sp)) as [b o]. cbn [snd] in *.
      destruct o as [[]|e| |]; cbn [rbind]; (split; [split|]); try discriminate; try tauto; intros [_ X]; discriminate.
Qed.

(* Every call either has undefined behaviour, for one of the reasons listed, or
   it returns or throws. *)
Theorem C171_addr : forall y a op,
  (snd (addr_step y a op) = UB <-> undefined y a op)
  /\ (~ undefined y a op -> snd (addr_step y a op) = Ok tt \/ exists e, snd (addr_step y a op) = Throw e).
Proof.
  intros y a op.
  assert ((snd (addr_step y a op) = UB <-> undefined y a op) /\ snd (addr_step y a op) <> OutOfFuel) as [K F].
  2:{ split; [exact K|]. intros N. destruct (snd (addr_step y a op)) as [[]|e| |]; [now left|right; eauto|elim N; now apply K|congruence]. }
  assert (forall r : res unit, r <> UB /\ r <> OutOfFuel -> ~ undefined y a op -> (r = UB <-> undefined y a op) /\ r <> OutOfFuel) as D by tauto.
  destruct op; cbn [addr_step snd]; try (apply D; [split; discriminate|intros X; inversion X]).
  - apply D; [apply set_ipv4_defined|intros X; inversion X].
  - apply D; [apply set_ipv6_defined|intros X; inversion X].
  - apply D; [apply set_port_defined_|intros X; inversion X].
  - destruct (port_str_defined y a p) as [K F]. split; [|exact F]. rewrite K. split; [intros [A B]; now constructor|].
    intros X. inversion X; subst. now split.
  - apply D; [apply set_protocol_defined_|intros X; inversion X].
  - unfold set_protocol_str. destruct p as [s|]; [|apply D; [split; discriminate|intros X; inversion X]].
    destruct (getprotobyname y s); [|apply D; [split; discriminate|intros X; inversion X]..].
    apply D; [apply set_protocol_defined_|intros X; inversion X].
  - unfold set_mask_count. cbv zeta. destruct (_ || _); (apply D; [split; discriminate|intros X; inversion X]).
  - unfold add_assign, neg_int. destruct (n <? 0) eqn:S.
    + destruct (n =? INT_MIN) eqn:M; cbn [snd].
      * assert (n = - 2 ^ 31) as -> by (unfold INT_MIN in M; lia). split; [split; [intros _; constructor|auto]|discriminate].
      * apply D; [split; discriminate|]. intros X. inversion X; subst. discriminate.
    + apply D; [split; discriminate|]. intros X. inversion X; subst. discriminate.
  - unfold sub_assign, neg_int. destruct (n <? 0) eqn:S.
    + destruct (n =? INT_MIN) eqn:M; cbn [snd].
      * assert (n = - 2 ^ 31) as -> by (unfold INT_MIN in M; lia). split; [split; [intros _; constructor|auto]|discriminate].
      * apply D; [split; discriminate|]. intros X. inversion X; subst. discriminate.
    + apply D; [split; discriminate|]. intros X. inversion X; subst. discriminate.
  - apply D; [apply socket_defined|intros X; inversion X].
  - apply D; [apply recvfrom_defined|intros X; inversion X].
Qed.
Print Assumptions C171_addr.
Example C171_addr_case : addr_wf w4 /\ ~ nameless ref_sys w4 /\ snd (addr_step ref_sys w4 (Op_add_assign (- 2 ^ 31 + 1))) = Ok tt
  /\ (forall op, op <> Op_add_assign (- 2 ^ 31) -> op <> Op_sub_assign (- 2 ^ 31) -> ~ undefined ref_sys w4 op).
Proof.
  split; [apply w4_wf|]. split; [discriminate|]. split; [vm_compute; reflexivity|]. intros op A B X.
  inversion X as [| |s C N]; subst; [now elim A|now elim B|discriminate N].
Qed.

(* Printing an address is undefined exactly when the port is to be printed by
   name and the protocol has none, unless to_ipv4_string() throws before. *)
Definition names_port (mode : Z) : Prop := asks mode STRING_IP_PORT_NAME.
Lemma port_text_undefined y a mode : port_text y a mode = UB <-> names_port mode /\ nameless y a.
Proof.
  unfold port_text, names_port, nameless, asks, get_protocol.
  assert (Z.land mode STRING_IP_PORT_NAME <> 0 <-> has mode STRING_IP_PORT_NAME = true) as H by (unfold has; lia).
  destruct (has mode STRING_IP_PORT_NAME) eqn:E.
  - assert (shows_port mode = true) as ->.
    { unfold shows_port, has in *. rewrite Z.land_lor_distr_r. destruct (Z.eqb_spec (Z.lor (Z.land mode STRING_IP_PORT) (Z.land mode STRING_IP_PORT_NAME)) 0) as [Z0|Z0]; [|reflexivity].
      apply Z.lor_eq_0_iff in Z0. destruct Z0 as [_ Z0]. rewrite Z0 in E. discriminate. }
    unfold get_port_name, get_protocol_name. destruct (getprotobynumber y (f_protocol a)) as [q| |]; cbn [rbind].
    + destruct (getservbyport _ _ _) as [[|]| |]; (split; [discriminate|]); intros [_ X]; discriminate.
    + split; [|auto]. intros _. split; [now apply H|reflexivity].
    + destruct (getservbyport _ _ _) as [[|]| |]; (split; [discriminate|]); intros [_ X]; discriminate.
  - split; [destruct (shows_port mode); discriminate|]. intros [X _]. apply H in X. discriminate.
Qed.
Theorem C171_text : forall y a mode, addr_wf a ->
  (to_ipv6_string y a mode = UB <-> names_port mode /\ nameless y a)
  /\ (to_ipv4or6_string y a mode = UB <-> names_port mode /\ nameless y a)
  /\ (to_ipv4_string y a mode = UB <-> names_port mode /\ nameless y a
       /\ (asks mode (Z.lor STRING_IP_ADDRESS STRING_IP_BRACKET_ADDRESS) -> is_v4_value (value a)))
  /\ (get_port_name y a = UB <-> nameless y a) /\ (get_protocol_name y a = UB <-> nameless y a).
Proof.
  intros y a mode W. pose proof (port_text_undefined y a mode) as P. pose proof (is_ipv4_value a W) as I.
  assert (to_ipv6_string y a mode = UB <-> names_port mode /\ nameless y a) as S6.
  { rewrite <- P. unfold to_ipv6_string. destruct (ip_text6 a mode). destruct (port_text y a mode); cbn [rbind]; split; intros X; first [reflexivity|discriminate X]. }
  assert (to_ipv4_string y a mode = UB <-> names_port mode /\ nameless y a
       /\ (asks mode (Z.lor STRING_IP_ADDRESS STRING_IP_BRACKET_ADDRESS) -> is_v4_value (value a))) as S4.
  { assert (forall ip, (let! port := port_text y a mode in let! mask := mask_text4 a mode in Ok (ip ++ port ++ mask)) = UB
              <-> names_port mode /\ nameless y a) as K.
    { intros ip. rewrite <- P. destruct (port_text y a mode) as [q|x| |]; cbn [rbind]; try (split; intros X; first [reflexivity|discriminate X]).
      unfold mask_text4. destruct (shows_mask mode a); [destruct (negb _)|]; cbn [rbind]; split; intros X; first [reflexivity|discriminate X]. }
    unfold to_ipv4_string.
    assert (shows_address mode = true <-> asks mode (Z.lor STRING_IP_ADDRESS STRING_IP_BRACKET_ADDRESS)) as SA by (unfold shows_address, has, asks; lia).
    destruct (shows_address mode) eqn:A.
    - destruct (is_ipv4 a) eqn:F; cbn [negb].
      + destruct (_ && _); (cbn [rbind]; rewrite K; clear - I; tauto).
      + cbn [rbind]. split; [discriminate|]. intros (_ & _ & X). assert (false = true) by (apply I, X, SA; reflexivity). discriminate.
    - cbn [rbind]. rewrite K. clear - SA. split; [|tauto]. intros [X Y]. split; [exact X|]. split; [exact Y|]. intros Z. apply SA in Z. discriminate. }
  split; [exact S6|]. split.
  { unfold to_ipv4or6_string. destruct (is_ipv4 a); [rewrite S4|exact S6]. clear - I. tauto. }
  split; [exact S4|]. unfold get_port_name, get_protocol_name, nameless, get_protocol.
  destruct (getprotobynumber y (f_protocol a)) as [q| |]; cbn [rbind].
  - destruct (getservbyport _ _ _); repeat split; discriminate.
  - repeat split; reflexivity.
  - destruct (getservbyport _ _ _); repeat split; discriminate.
Qed.
Print Assumptions C171_text.
Definition nameless_sys : sys := mk_sys (convert_string ref_sys) (getservbyname ref_sys) (getservbyport ref_sys) (getprotobyname ref_sys) (fun _ => NoEntry).
Example C171_text_case : addr_wf w4 /\ names_port STRING_IP_PORT_NAME /\ nameless nameless_sys w4
  /\ to_ipv4or6_string nameless_sys w4 STRING_IP_PORT_NAME = UB
  /\ (exists s, to_ipv4or6_string nameless_sys w4 STRING_IP_PORT = Ok s)
  /\ (exists s, to_ipv4or6_string ref_sys w4 STRING_IP_PORT_NAME = Ok s).
Proof.
  split; [apply w4_wf|]. split; [discriminate|]. split; [reflexivity|]. split; [vm_compute; reflexivity|].
  split; eexists; vm_compute; reflexivity.
Qed.

(* ---------- addr_unix ---------- *)
(* Nothing a program can do with a Unix address is undefined: the setters
   return or throw, and what is read ends inside of the structure. *)
Theorem C171_unix : forall decode u op, SpecUnix.keeps_ascii decode -> SpecUnix.unix_reachable decode u -> SpecUnix.proper_op op ->
  (PropExceptions2.unix_outcome decode u op = Ok tt \/ exists e, PropExceptions2.unix_outcome decode u op = Throw e)
  /\ (exists t, Unix.to_string u = Ok t) /\ (exists t, Unix.to_uri u = Ok t) /\ (exists f, Unix.unlink u = Ok f).
Proof.
  intros decode u op K R P. pose proof (UnixProofs.inv_proper decode u (UnixProofs.reachable_inv decode u K R)) as PU.
  split.
  - destruct op; cbn [PropExceptions2.unix_outcome]; try (left; reflexivity).
    + destruct (UnixProofs.set_un_updates decode u un K PU) as [[e ->]|(n & _ & ->)]; [right; now exists e|now left].
    + destruct (UnixProofs.set_file_updates decode u file PU) as [[e ->]|(n & _ & ->)]; [right; now exists e|now left].
    + destruct (UnixProofs.set_abstract_updates decode u abstract K PU) as [[e ->]|(n & _ & ->)]; [right; now exists e|now left].
    + destruct (UnixProofs.set_uri_updates decode u uri K PU) as [[e ->]|(n & sc & _ & ->)]; [right; now exists e|now left].
    + unfold Unix.set_from_socket. destruct name as [[family path]|]; [|now left]. destruct (negb _); [now left|]. cbv zeta.
      match goal with |- context [Unix.set_un decode u ?w] =>
        destruct (UnixProofs.set_un_updates decode u w K PU) as [[e ->]|(n & _ & ->)] end; [right; now exists e|now left].
  - destruct (PropUnix.C52_one_kind decode u K R) as (n & G & H & _ & _ & T).
    assert (exists t, Unix.to_string u = Ok t) as TS by (destruct n; destruct H as (_ & _ & _ & H); eauto).
    split; [exact TS|]. split; [exact T|]. unfold Unix.unlink. destruct (Unix.is_file u) eqn:F; [|eauto].
    destruct TS as [t TS]. unfold Unix.to_string in TS.
    assert (Unix.is_abstract u = false) as A by (unfold Unix.is_abstract, Unix.is_file in *; destruct (nth 0 _ 0 =? 0); [discriminate|reflexivity]).
    rewrite A in TS. rewrite TS. cbn [rbind]. eauto.
Qed.
Print Assumptions C171_unix.
Example C171_unix_case : SpecUnix.keeps_ascii SpecUnix.utf8 /\ SpecUnix.unix_reachable SpecUnix.utf8
    (Unix.unix_step SpecUnix.utf8 Unix.unix_new (Unix.U_set_abstract (lit "/run/bus")))
  /\ Unix.to_uri (Unix.unix_step SpecUnix.utf8 Unix.unix_new (Unix.U_set_abstract (lit "/run/bus"))) = Ok (lit "unix:///run/bus?abstract").
Proof.
  split; [apply PropUnix.utf8_is_a_decoder|]. split; [apply SpecUnix.reach_step; [apply SpecUnix.reach_new|exact I]|]. vm_compute. reflexivity.
Qed.
