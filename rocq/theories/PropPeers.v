(* C172: the peers of a socket checked against a list of addresses. *)
From Coq Require Import ZifyBool.
From Verif Require Import Base Addr Spec Range SpecRange Inet SpecText Parser SpecParser SpecParser2 SpecParser4 SpecLanguage SpecAllowList Socket Receive.
From Verif Require AddrProofs AddrProofs4 PropAddr PropSocket PropReceive PropParser PropParser2 PropParser5 PropParser9 PropNumeric PropGrammar PropAllowList.
Import AddrProofs AddrProofs4 PropAddr PropSocket PropParser PropParser2.
Local Open Scope Z_scope.

(* ---------- specification ---------- *)
(* The number of the address in a structure of the system: an IPv4 address is
   the same as its IPv4-mapped IPv6 address. *)
Definition number (n : sockname) : Z :=
  match n with SN_in x => v4_base + bswap32 (s_addr x) | SN_in6 x => num (sin6_addr x) | SN_other => 0 end.
(* The text is a list of addresses, networks and ranges (C141) with the sets Ss
   of addresses and the parser made l of it. *)
Definition reads_list (y : sys) (g : resolver) (p : parser) (text : str) (Ss : list (Z -> Prop)) (l : list addr_range) : Prop :=
  takes_lists p /\ (Z.land (get_sort_order p) SORT_MERGE = 0 \/ get_allow p ALLOW_MASK = Ok false)
  /\ converts_decimals y /\ resolver_ok g /\ ~ In 0 text
  /\ (exists ts, entries_of p text ts /\ Forall2 (listed_entry p) ts Ss) /\ snd (parse y g text p) = Ok l.
(* The list has the address v. *)
Definition lets_in (Ss : list (Z -> Prop)) (v : Z) : Prop := Exists (fun S => S v) Ss.

(* ---------- proofs ---------- *)
Lemma list_answer y g p text Ss l x : reads_list y g p text Ss l -> addr_wf x ->
  (address_match_ranges l x = Ok true <-> lets_in Ss (value x)).
Proof.
  intros (TL & MG & HC & HG & N0 & (ts & E & L) & P) W.
  assert (exists l, parse y g text p = (p, Ok l) /\ forall x, addr_wf x -> (address_match_ranges l x = Ok true <-> Exists (fun S => S (value x)) Ss)) as (l2 & E2 & K).
  { destruct MG as [MG|MG]; [now apply (PropAllowList.C141_list y g p text ts Ss)|now apply (PropAllowList.C141_merged y g p text ts Ss)]. }
  rewrite E2 in P. cbn [snd] in P. injection P as ->. now apply K.
Qed.
Lemma named_number n b : named n b -> n <> SN_other -> value b = number n.
Proof. destruct n; cbn [named number]; [now intros [-> _]|now intros [-> _]|now intros _ []]. Qed.

(* A connection: the object made from the name of the other side. *)
Theorem C172_peer : forall y g p text Ss l a s n t b, reads_list y g p text Ss l -> addr_wf a -> sockname_ok n ->
  set_from_socket a s (Some n) (Some t) = (b, Ok tt) ->
  (address_match_ranges l b = Ok true <-> lets_in Ss (number n)).
Proof.
  intros y g p text Ss l a s n t b R W H E.
  destruct (C69_failures a s (Some n) (Some t) W H) as [K _]. rewrite E in K. cbn [snd] in K.
  destruct (proj1 K eq_refl) as (S & (m & X & N) & T). injection X as <-.
  destruct (C69_describes_the_socket a s n t W H S N) as (b2 & E2 & Wb & M & _); [destruct T as [T|T]; injection T as ->; auto|].
  rewrite E in E2. injection E2 as <-. rewrite <- (named_number n b M N). exact (list_answer y g p text Ss l b R Wb).
Qed.
Print Assumptions C172_peer.

(* A message: the object after recvfrom() is the sender when there is a
   message, whatever the families of the socket and of the sender, and the
   socket itself when there is none. *)
Theorem C172_sender : forall y g p text Ss l k a s size b calls r, reads_list y g p text Ss l -> addr_wf a ->
  opt_ok sockname_ok (k_name k) -> PropReceive.full (k_sender k) -> receive k a s size = (b, calls, Ok r) ->
  (0 <= r -> (address_match_ranges l b = Ok true <-> lets_in Ss (number (k_sender k))))
  /\ (r < 0 -> exists n, k_name k = Some n /\ (address_match_ranges l b = Ok true <-> lets_in Ss (number n))).
Proof.
  intros y g p text Ss l k a s size b calls r R W H F E. unfold receive in E.
  destruct (set_from_socket a s (k_name k) (k_type k)) as [a1 o] eqn:S. destruct o as [[]|e| |]; try discriminate.
  destruct (C69_failures a s (k_name k) (k_type k) W H) as [K _]. rewrite S in K. cbn [snd] in K.
  destruct (proj1 K eq_refl) as (P & (n & X & N) & T). rewrite X in *.
  assert (exists t, k_type k = Some t) as (t & ET) by (destruct T as [-> | ->]; eauto). rewrite ET in S.
  destruct (C69_describes_the_socket a s n t W H P N) as (b2 & E2 & Wb & M & _); [rewrite ET in T; destruct T as [T|T]; injection T as ->; auto|].
  rewrite S in E2. injection E2 as <-. pose proof (list_answer y g p text Ss l a1 R Wb) as OWN. rewrite (named_number n a1 M N) in OWN.
  destruct (negb _).
  { injection E as <- <- <-. split; [lia|]. intros _. exists n. auto. }
  destruct (s32 (k_count k) >=? 0) eqn:C.
  - assert (forall w, (if is_ipv4 a1 then set_ipv4 a1 (received4 (k_sender k)) else set_ipv6 a1 (received6 (k_sender k))) = (w, Ok tt) ->
      addr_wf w /\ value w = number (k_sender k)) as SENDER.
    { intros w. destruct (is_ipv4 a1).
      - unfold set_ipv4 at 1. destruct (sin_family (received4 (k_sender k)) =? AF_INET) eqn:FA; cbn [negb]; [|discriminate].
        destruct (k_sender k) as [x|x|]; cbn [PropReceive.full received4] in *; [|destruct F as [_ F]; rewrite F in FA; discriminate FA|contradiction].
        destruct F as [Fx FF]. destruct (C06_set_get_ipv4 a1 x Wb Fx FF) as (w2 & E2 & Ww & _ & _ & _ & V).
        unfold set_ipv4 in E2. rewrite FA in E2. cbn [negb] in E2. intros X2. rewrite X2 in E2. injection E2 as ->. auto.
      - unfold set_ipv6 at 1. destruct (sin6_family (received6 (k_sender k)) =? AF_INET6) eqn:FA; cbn [negb]; [|discriminate].
        destruct (k_sender k) as [x|x|]; cbn [PropReceive.full received6] in *; [destruct F as [_ F]; cbn [sin6_family] in FA; rewrite F in FA; discriminate FA| |contradiction].
        destruct F as [Fx FF]. destruct (C07_set_get_ipv6 a1 x Wb Fx) as [G _]. destruct (G FF) as (w2 & E2 & Ww & V & _).
        unfold set_ipv6 in E2. rewrite FA in E2. cbn [negb] in E2. intros X2. rewrite X2 in E2. injection E2 as ->. split; [exact Ww|].
        cbn [number]. rewrite <- V. reflexivity. }
    destruct (if is_ipv4 a1 then _ else _) as [w [[]|e| |]]; cbn [rbind] in E; try discriminate.
    injection E as <- <- <-. destruct (SENDER w eq_refl) as [Ww V]. split; [|lia]. intros _. rewrite <- V. exact (list_answer y g p text Ss l w R Ww).
  - cbn [rbind] in E. injection E as <- <- <-. split; [lia|]. intros _. exists n. auto.
Qed.
Print Assumptions C172_sender.
(* So an IPv4 sender gets the same answer on an IPv4 and on an IPv6 socket. *)
Theorem C172_either_socket : forall y g p text Ss l k a s size b calls r k2 a2 s2 size2 b2 calls2 r2 x z, reads_list y g p text Ss l ->
  addr_wf a -> addr_wf a2 -> opt_ok sockname_ok (k_name k) -> opt_ok sockname_ok (k_name k2) ->
  k_sender k = SN_in x -> k_sender k2 = SN_in6 z -> PropReceive.full (SN_in x) -> PropReceive.full (SN_in6 z) ->
  num (sin6_addr z) = v4_base + bswap32 (s_addr x) ->
  receive k a s size = (b, calls, Ok r) -> receive k2 a2 s2 size2 = (b2, calls2, Ok r2) -> 0 <= r -> 0 <= r2 ->
  (address_match_ranges l b = Ok true <-> address_match_ranges l b2 = Ok true).
Proof.
  intros y g p text Ss l k a s size b calls r k2 a2 s2 size2 b2 calls2 r2 x z R W W2 H H2 S S2 F F2 N E E2 P P2.
  rewrite <- S in F. rewrite <- S2 in F2.
  rewrite (proj1 (C172_sender y g p text Ss l k a s size b calls r R W H F E) P).
  rewrite (proj1 (C172_sender y g p text Ss l k2 a2 s2 size2 b2 calls2 r2 R W2 H2 F2 E2) P2).
  rewrite S, S2. cbn [number]. rewrite N. tauto.
Qed.
Print Assumptions C172_either_socket.
(* A list with 10.0.0.0/8, and a message of 10.0.0.9 received on an IPv6 socket
   (the sender is ::ffff:10.0.0.9): the sender is in the list. *)
Import PropAllowList.
Example C172_witness : exists Ss l, reads_list ref_sys no_answer lister (lit "10.0.0.0/8,192.168.0.1") Ss l
  /\ addr_wf addr_new /\ opt_ok sockname_ok (k_name PropReceive.open_kernel) /\ PropReceive.full (k_sender PropReceive.open_kernel)
  /\ (exists b calls, receive PropReceive.open_kernel addr_new 3 100 = (b, calls, Ok 12))
  /\ lets_in Ss (number (k_sender PropReceive.open_kernel)) /\ ~ lets_in Ss (number (SN_in6 PropReceive.open6)).
Proof.
  assert (takes_lists lister) as TL by apply C141_witness.
  assert (exists Ss, Forall2 (listed_entry lister) [lit "10.0.0.0/8"; lit "192.168.0.1"] Ss
    /\ Ss = [same_bits 104 (v4_base + quad 10 0 0 0); same_bits 120 (v4_base + quad 192 168 0 1)]) as (Ss & F & ->).
  { eexists. split; [|reflexivity]. constructor; [|constructor; [|constructor]].
    - exists [], (lit "10.0.0.0" ++ [47] ++ lit "8"), []. split; [reflexivity|]. split; [constructor|]. split; [constructor|].
      apply (listed_masked _ (lit "10.0.0.0") (fun n => same_bits n (v4_base + quad 10 0 0 0)) (lit "10.0.0.0") false (lit "8") 8);
        [reflexivity| |apply bare_four; now apply not_in|split; [discriminate|split; reflexivity]|lia].
      apply one_address. apply PropParser5.denotes_dotted with (q := [10;0;0;0]); reflexivity.
    - exists [], (lit "192.168.0.1"), []. split; [reflexivity|]. split; [constructor|]. split; [constructor|].
      apply (listed_bare _ (lit "192.168.0.1") (fun n => same_bits n (v4_base + quad 192 168 0 1)) (lit "192.168.0.1") false 120).
      + apply one_address. apply PropParser5.denotes_dotted with (q := [192;168;0;1]); reflexivity.
      + apply bare_four; now apply not_in.
      + apply (default_mask_four _ 24); [reflexivity|split; [discriminate|split; vm_compute; reflexivity]|lia]. }
  assert (entries_of lister (lit "10.0.0.0/8,192.168.0.1") [lit "10.0.0.0/8"; lit "192.168.0.1"]) as E.
  { change (lit "10.0.0.0/8,192.168.0.1") with (lit "10.0.0.0/8" ++ [44] ++ lit "192.168.0.1").
    apply PropGrammar.two_entries; try reflexivity; try discriminate; now apply not_in. }
  destruct (C141_list ref_sys no_answer lister (lit "10.0.0.0/8,192.168.0.1") _ _ TL eq_refl ref_sys_converts no_answer_ok ltac:(now apply not_in) E F) as (l & P & _).
  eexists _, l. split.
  { split; [exact TL|]. split; [left; vm_compute; reflexivity|]. split; [exact ref_sys_converts|]. split; [exact no_answer_ok|].
    split; [now apply not_in|]. split; [eauto|]. now rewrite P. }
  split; [now apply addr_wfb_ok|]. split; [exact PropReceive.open6_ok|]. split; [exact PropReceive.mapped9_full|].
  split; [do 2 eexists; vm_compute; reflexivity|]. split.
  - left. vm_compute. reflexivity.
  - intros X. inversion X as [? ? Y|? ? Y]; subst; [vm_compute in Y; discriminate|].
    inversion Y as [? ? Z|? ? Z]; subst; [vm_compute in Z; discriminate|inversion Z].
Qed.
