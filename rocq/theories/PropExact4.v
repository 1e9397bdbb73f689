(* What recvfrom() does on an IPv6 socket bound to an IPv4-mapped address, the
   case C75 is refuted for. *)
From Coq Require Import Lia ZifyBool ZifyNat.
From Verif Require Import Base Addr Spec Socket.
From Verif Require AddrProofs AddrProofs2 AddrProofs3 AddrProofs4 PropSocket.
Import AddrProofs AddrProofs2 AddrProofs3 AddrProofs4 PropSocket.
Local Open Scope Z_scope.

(* The system writes the first 16 bytes of a structure of the family AF_INET6,
   which set_ipv4() refuses: the message was received, the sender is lost, and
   the object is the name of the socket. *)
Theorem C75_mapped_socket : forall a s x p4 p6, addr_wf a -> sockaddr_in6_ok x -> 0 <= s ->
  is_v4_value (num (sin6_addr x)) -> sin_family p4 = AF_INET6 ->
  exists b, recvfrom a s (Some (SN_in6 x)) (Some SOCK_DGRAM) (Some p4) p6 = (b, Throw E_invalid_argument)
    /\ named (SN_in6 x) b /\ get_protocol b = IPPROTO_UDP /\ same_rest a b.
Proof.
  intros a s x p4 p6 W X S V F.
  destruct (C69_describes_the_socket a s (SN_in6 x) SOCK_DGRAM W X S ltac:(discriminate) (or_intror eq_refl)) as (b & E & Wb & M & Pr & R).
  exists b. split; [|auto]. unfold recvfrom. rewrite E. unfold get_protocol in Pr. rewrite Pr.
  cbn [SOCK_DGRAM SOCK_STREAM Z.eqb IPPROTO_UDP Pos.eqb negb].
  assert (is_ipv4 b = true) as ->.
  { apply (is_ipv4_value b Wb). destruct M as [-> _]. exact V. }
  unfold set_ipv4. rewrite F. reflexivity.
Qed.
Print Assumptions C75_mapped_socket.

Example C75_witness_mapped :
  let x := get_ipv6 (fst (set_ipv4 addr_new peer4)) in
  sockaddr_in6_ok x /\ is_v4_value (num (sin6_addr x)).
Proof.
  split; [|vm_compute; split; congruence].
  assert (addr_wf (fst (set_ipv4 addr_new peer4))) as [] by now apply addr_wfb_ok.
  unfold get_ipv6, sockaddr_in6_ok. split; [rewrite wf_family; vm_compute; split; congruence|auto].
Qed.
