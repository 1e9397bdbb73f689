(* Properties C57-C59 and C86-C91: the interfaces and their cache. *)
From Coq Require Import Lia ZifyBool ZifyNat.
From Verif Require Import Base Addr Spec Route Iface IfaceCache SpecIface.
From Verif Require RouteProofs IfaceCacheProofs IfaceProofs AddrProofs AddrProofs2 AddrProofs3.
Import IfaceCacheProofs IfaceProofs AddrProofs AddrProofs2 AddrProofs3.
Local Open Scope Z_scope.

(* Two networks: 192.0.2.1/24 with its broadcast address, ::1, and a device
   without address. *)
Definition eth0 : ifaddrs := mk_ifaddrs (lit "eth0") 0x1043 (Some (SN_in (mk_in AF_INET 0 0x010200C0)))
  (Some (SN_in (mk_in AF_INET 0 0x00FFFFFF))) (Some (SN_in (mk_in AF_INET 0 0xFF0200C0))).
Definition lo6 : ifaddrs := mk_ifaddrs (lit "lo") 0x49
  (Some (SN_in6 (mk_in6 AF_INET6 0 0 [0;0;0;0;0;0;0;0;0;0;0;0;0;0;0;1] 0)))
  (Some (SN_in6 (mk_in6 AF_INET6 0 0 (repeat 255 16) 0))) None.
Definition raw : ifaddrs := mk_ifaddrs (lit "eth0") 0x1043 (Some SN_other) None None.
Definition entries : list ifaddrs := [raw; eth0; lo6].

(* Two threads. *)
Definition t1 : tid := 1%nat.
Definition t2 : tid := 2%nat.

(* ---------- C57 ---------- *)
(* Whatever the threads do, a list which is returned is what the kernel
   answered once. *)
Theorem C57_only_answers_of_the_kernel_partial : forall s lab n, execution s lab n -> never_back s n ->
  forall i k l, (i < n)%nat -> lab i = L_return k (Answer (Some l)) ->
  exists j r, (r < i)%nat /\ read_from_kernel lab j r l.
Proof.
  intros s lab n EX N i k l L E.
  destruct (result s lab n (init_start _ _ _ EX) (proj2 EX) N i k l L E)
    as (b & _ & [(r & R & X)|(kr & r & p & q & e & c & A & B & D & X & _)]).
  - exists k, r. split; [lia|exact X].
  - exists kr, r. split; [lia|exact X].
Qed.
Print Assumptions C57_only_answers_of_the_kernel_partial.

(* When the clock is set back while a thread reads the interfaces, another
   one gets an empty list. *)
Definition go (k : tid) (n : nat) : list choice := repeat (Go k) n.
Definition whole_call (k : tid) : list choice := Call k :: go k 5 ++ [Kernel k entries] ++ go k 7.
Definition back : list choice :=
  whole_call t1 ++ [Clock 1400; Call t1] ++ go t1 5 ++ [Clock 1250; Call t2] ++ go t2 6.
Definition played (now : Z) (cs : list choice) : list (label * state) :=
  match play_all (init now) cs with Some r => r | None => [] end.
Lemma played_execution now cs : 0 < now -> (exists r, play_all (init now) cs = Some r) ->
  execution (states_of (init now) (played now cs)) (labels_of (played now cs)) (length (played now cs)).
Proof.
  intros P (r & E). unfold played. rewrite E. now apply (play_execution now cs).
Qed.
Theorem C57_only_answers_of_the_kernel_refuted : exists s lab n i, execution s lab n /\ (i < n)%nat /\
  lab i = L_return t2 (Answer (Some [])) /\ (forall j r, (r < n)%nat -> ~ read_from_kernel lab j r []).
Proof.
  exists (states_of (init 1000) (played 1000 back)), (labels_of (played 1000 back)), (length (played 1000 back)), 28%nat.
  split; [apply played_execution; [lia|vm_compute; now eexists]|].
  split; [vm_compute; lia|]. split; [vm_compute; reflexivity|].
  intros j r R (es & E1 & E2).
  assert (X : match labels_of (played 1000 back) r with L_kernel _ es => make_ifaces es <> Ok [] | _ => True end).
  { clear E1 E2 es. change (length (played 1000 back)) with 29%nat in R.
    do 29 (destruct r as [|r]; [vm_compute; exact I || discriminate|]). lia. }
  rewrite E1 in X. contradiction.
Qed.
Print Assumptions C57_only_answers_of_the_kernel_refuted.

(* ---------- C58 ---------- *)
(* The list a call returns at i was read from the kernel by that call, or by
   another call, which returned it at e, before this one looked at the time,
   at c. The other call looked at the time at p and at the TTL at q. *)
Theorem C58_fresh : forall s lab n, execution s lab n -> never_back s n ->
  forall i k l, (i < n)%nat -> lab i = L_return k (Answer (Some l)) ->
  exists b, in_call lab k b i /\
    ((exists r, (b < r < i)%nat /\ read_from_kernel lab k r l) \/
     (exists k' r p q e c, (r < p < q)%nat /\ (q < e < c)%nat /\ (b < c < i)%nat /\
        read_from_kernel lab k' r l /\ lab e = L_return k' (Answer (Some l)) /\
        (forall j a, (r < j < e)%nat -> lab j <> L_return k' a) /\
        clock (s p) <= clock (s c) <= clock (s p) + g_cache_ttl (s q))).
Proof.
  intros s lab n EX N i k l L E. exact (result s lab n (init_start _ _ _ EX) (proj2 EX) N i k l L E).
Qed.
Print Assumptions C58_fresh.

(* After a reset during which nobody was in get_local_addresses(), only lists
   read after the reset are returned. *)
Theorem C58_reset_partial : forall s lab n z k0, execution s lab n -> never_back s n ->
  (z < n)%nat -> lab z = L_reset_done k0 ->
  (forall k b, (b < z)%nat -> lab b = L_call k -> exists e a, (b < e < z)%nat /\ lab e = L_return k a) ->
  forall i k l, (z < i < n)%nat -> lab i = L_return k (Answer (Some l)) ->
  exists j r, (z < r < i)%nat /\ read_from_kernel lab j r l.
Proof. exact after_reset. Qed.
Print Assumptions C58_reset_partial.

(* Otherwise a list read before the reset can be returned by a call which
   starts after it. *)
Definition raced_reset : list choice :=
  Call t1 :: go t1 5 ++ [Kernel t1 entries; Reset t2] ++ go t2 4 ++ go t1 7 ++ Call t2 :: go t2 6.
Theorem C58_reset_refuted : exists s lab n z b i l, execution s lab n /\ never_back s n /\
  lab z = L_reset_done t2 /\ lab b = L_call t2 /\ lab i = L_return t2 (Answer (Some l)) /\ l <> [] /\
  (z < b < i)%nat /\ (i < n)%nat /\ (forall j r, (z < r < n)%nat -> ~ read_from_kernel lab j r l).
Proof.
  exists (states_of (init 1000) (played 1000 raced_reset)), (labels_of (played 1000 raced_reset)),
    (length (played 1000 raced_reset)), 11%nat, 19%nat, 25%nat.
  eexists. split; [apply played_execution; [lia|vm_compute; now eexists]|].
  split.
  { change (length (played 1000 raced_reset)) with 26%nat. intros i L.
    do 26 (destruct i as [|i]; [vm_compute; discriminate|]). lia. }
  split; [vm_compute; reflexivity|]. split; [vm_compute; reflexivity|]. split; [vm_compute; reflexivity|].
  split; [discriminate|]. split; [lia|]. split; [vm_compute; lia|].
  intros j r R (es & E1 & E2).
  assert (X : match labels_of (played 1000 raced_reset) r with L_kernel _ es => False | _ => True end).
  { clear E1 E2 es. change (length (played 1000 raced_reset)) with 26%nat in R.
    do 12 (destruct r as [|r]; [lia|]).
    do 14 (destruct r as [|r]; [vm_compute; exact I|]). lia. }
  now rewrite E1 in X.
Qed.
Print Assumptions C58_reset_refuted.

(* Two calls, the second within the TTL, the third past it. *)
Definition twice : list choice :=
  whole_call t1 ++ Clock 1300 :: Call t2 :: go t2 6 ++ Clock 1301 :: whole_call t2 ++ Reset t1 :: go t1 4 ++ whole_call t1.
Example C58_satisfiable : exists s lab n, execution s lab n /\ never_back s n /\
  (exists l, lab 13%nat = L_return t1 (Answer (Some l)) /\ lab 21%nat = L_return t2 (Answer (Some l)) /\
     lab 36%nat = L_return t2 (Answer (Some l)) /\ length l = 2%nat) /\
  lab 29%nat = L_kernel t2 entries /\ lab 41%nat = L_reset_done t1 /\ (exists l, lab 55%nat = L_return t1 (Answer (Some l))) /\
  (forall k b, (b < 41)%nat -> lab b = L_call k -> exists e a, (b < e < 41)%nat /\ lab e = L_return k a).
Proof.
  exists (states_of (init 1000) (played 1000 twice)), (labels_of (played 1000 twice)), (length (played 1000 twice)).
  split; [apply played_execution; [lia|vm_compute; now eexists]|].
  split.
  { change (length (played 1000 twice)) with 56%nat. intros i L.
    do 56 (destruct i as [|i]; [vm_compute; discriminate|]). lia. }
  split.
  { eexists. split; [vm_compute; reflexivity|]. split; [vm_compute; reflexivity|]. split; vm_compute; reflexivity. }
  split; [vm_compute; reflexivity|]. split; [vm_compute; reflexivity|].
  split; [eexists; vm_compute; reflexivity|].
  intros k b L E.
  assert (X : match labels_of (played 1000 twice) b with
              | L_call k => (b = 0%nat /\ k = t1) \/ (b = 15%nat /\ k = t2) \/ (b = 23%nat /\ k = t2)
              | _ => True end).
  { clear E. do 41 (destruct b as [|b]; [vm_compute; exact I || tauto|]). lia. }
  rewrite E in X. destruct X as [[-> ->]|[[-> ->]|[-> ->]]].
  - exists 13%nat. eexists. split; [lia|vm_compute; reflexivity].
  - exists 21%nat. eexists. split; [lia|vm_compute; reflexivity].
  - exists 36%nat. eexists. split; [lia|vm_compute; reflexivity].
Qed.

(* ---------- C86 ---------- *)
(* Without set_local_addresses_cache_ttl() there is no data race; with it only
   the TTL can be raced for. *)
Theorem C86_no_race_partial : forall s lab n i, execution s lab n -> (i <= n)%nat ->
  ((forall j k v, (j < n)%nat -> lab j <> L_ttl k v) -> ~ data_race (s i)) /\
  (forall x, race_for x (s i) -> x = The_ttl).
Proof.
  intros s lab n i EX L. pose proof (mutex_all s lab n EX i L) as M.
  assert (ONE : forall j k, j <> k -> holds (thread (s i) j) = true -> holds (thread (s i) k) = true -> False).
  { intros j k D H1 H2. apply M in H1. apply M in H2. congruence. }
  split.
  - intros NT (x & j & k & D & T1 & T2).
    apply writes_holds in T1 as [T1|(v & E & _)]; [|now apply (no_ttl s lab n EX NT i j v L)].
    destruct T2 as [T2|T2].
    + apply writes_holds in T2 as [T2|(v & E & _)]; [|now apply (no_ttl s lab n EX NT i k v L)]. eauto.
    + apply reads_holds in T2. eauto.
  - intros x (j & k & D & T1 & T2). apply writes_holds in T1 as [T1|(v & _ & E)]; [|exact E].
    destruct T2 as [T2|T2].
    + apply writes_holds in T2 as [T2|(v & _ & E)]; [|exact E]. exfalso. eauto.
    + apply reads_holds in T2. exfalso. eauto.
Qed.
Print Assumptions C86_no_race_partial.
(* A thread in get_local_addresses() is about to read the TTL while another
   one writes it. *)
Definition raced_ttl : list choice := Call t1 :: go t1 5 ++ [Kernel t1 entries] ++ go t1 2 ++ [Set_ttl t2 60].
Lemma ttl_read l now : reads (Get_ttl l now) The_ttl.
Proof.
  set (t := fun _ : tid => Get_ttl l now).
  exists (mk_state 0 0 None None 1 t), (mk_state 1 0 None None 1 t), t1.
  do 2 eexists. split; [reflexivity|]. split; [intros [] N; congruence || reflexivity|]. do 3 (split; [reflexivity|]).
  split; [split; [now apply (S_ttl _ t1 l now)|reflexivity]|].
  intros s'' [ST B]. remember (mk_state 1 0 None None 1 t) as s2.
  destruct ST; cbn [done_by] in B; try discriminate; apply Nat.eqb_eq in B; subst; cbn [thread] in H; try discriminate H.
  injection H as <- <-. cbn. intros E. injection E. lia.
Qed.
Lemma ttl_written v : writes (Ttl_set v) The_ttl.
Proof.
  exists (mk_state (v + 1) 0 None None 1 (fun _ => Ttl_set v)), t1. do 2 eexists. split; [reflexivity|].
  split; [split; [now apply (S_ttl_set _ t1 v)|reflexivity]|]. cbn. lia.
Qed.
Theorem C86_no_race_refuted : exists s lab n, execution s lab n /\ race_for The_ttl (s n).
Proof.
  exists (states_of (init 1000) (played 1000 raced_ttl)), (labels_of (played 1000 raced_ttl)), (length (played 1000 raced_ttl)).
  split; [apply played_execution; [lia|vm_compute; now eexists]|].
  exists t2, t1. split; [discriminate|]. split; [|right].
  - match goal with |- writes ?p _ => let q := eval vm_compute in p in change p with q end. apply ttl_written.
  - match goal with |- reads ?p _ => let q := eval vm_compute in p in change p with q end. apply ttl_read.
Qed.
Print Assumptions C86_no_race_refuted.

(* ---------- C91 ---------- *)
(* A thread which is in a function of the cache can go on, or waits for the
   mutex, whose owner can go on. *)
Theorem C91_no_deadlock : forall s lab n i k, execution s lab n -> (i <= n)%nat -> thread (s i) k <> Idle ->
  can_go_on (s i) k \/ exists j, j <> k /\ owner (s i) = Some j /\ can_go_on (s i) j.
Proof.
  intros s lab n i k EX L NI. pose proof (mutex_all s lab n EX i L) as M.
  assert (CS : forall j, holds (thread (s i) j) = true -> can_go_on (s i) j).
  { intros j H. assert (J : thread (s i) j <> Idle) by (intros E; rewrite E in H; discriminate).
    destruct (can_step (s i) j M J H) as (s' & [X|[[a X]|X]]); do 2 eexists; (split; [exact X|]); cbn; apply Nat.eqb_refl. }
  destruct (holds (thread (s i) k)) eqn:H; [left; now apply CS|].
  assert (W : owner (s i) = None \/ exists j, j <> k /\ owner (s i) = Some j /\ can_go_on (s i) j).
  { destruct (owner (s i)) as [j|] eqn:O; [right|now left]. exists j. apply M in O as HJ.
    split; [intros ->; congruence|]. split; [reflexivity|]. now apply CS. }
  destruct (thread (s i) k) eqn:T; try discriminate; try congruence.
  - destruct W as [O|W]; [left|now right]. do 2 eexists. split; [eapply S_lock; eassumption|]. cbn. apply Nat.eqb_refl.
  - left. do 2 eexists. split; [eapply S_kernel_fails; eassumption|]. cbn. apply Nat.eqb_refl.
  - destruct W as [O|W]; [left|now right]. do 2 eexists. split; [eapply S_relock; eassumption|]. cbn. apply Nat.eqb_refl.
  - destruct W as [O|W]; [left|now right]. do 2 eexists. split; [eapply S_reset_lock; eassumption|]. cbn. apply Nat.eqb_refl.
  - left. do 2 eexists. split; [eapply S_ttl_set; eassumption|]. cbn. apply Nat.eqb_refl.
Qed.
Print Assumptions C91_no_deadlock.
(* A call takes at most fifteen steps of its thread, the last being its
   return. *)
Theorem C91_bounded : forall s lab n k b i, execution s lab n -> (i <= n)%nat -> in_call lab k b i ->
  (steps_of lab k b i <= 14)%nat.
Proof.
  intros s lab n k b i EX L C. destruct (steps_rank s lab n k b (proj2 EX) i L C) as (r & R & S).
  destruct (thread (s i) k); cbn in R; try discriminate; injection R as <-; lia.
Qed.
Print Assumptions C91_bounded.
Example C91_satisfiable : exists s lab n, execution s lab n /\ in_call lab t1 0 13 /\ (13 <= n)%nat /\
  thread (s 13%nat) t1 <> Idle /\ steps_of lab t1 0 13 = 13%nat.
Proof.
  exists (states_of (init 1000) (played 1000 twice)), (labels_of (played 1000 twice)), (length (played 1000 twice)).
  split; [apply played_execution; [lia|vm_compute; now eexists]|].
  split.
  { split; [lia|]. split; [vm_compute; reflexivity|]. intros j a J.
    do 13 (destruct j as [|j]; [vm_compute; discriminate || lia|]). lia. }
  split; [vm_compute; lia|]. split; [vm_compute; discriminate|vm_compute; reflexivity].
Qed.

(* ---------- C59 ---------- *)
Theorem C59_find_partial : forall ifaces routes a allow, Forall iface_wf ifaces -> addr_wf a ->
  (forall rs, routes = Ok rs -> Forall (fun r => addr_wf (get_destination_address r)) rs) ->
  let result := find_addr_interface (Some ifaces) routes a allow in
  (forall i, first (in_network a) ifaces i -> result = Ok (Some i)) /\
  (none (in_network a) ifaces ->
    (allow = false -> result = Ok None) /\
    (allow = true -> forall rs, routes = Ok rs ->
       (none default_route rs -> result = Ok None) /\
       (forall r, first default_route rs r ->
          (forall i, first (fun i => get_name i = get_interface_name r) ifaces i -> result = Ok (Some i)) /\
          (none (fun i => get_name i = get_interface_name r) ifaces -> result = Ok None))) /\
    (allow = true -> forall e, routes = Throw e -> result = Throw e)).
Proof.
  intros ifaces routes a allow WI WA WR result. unfold result, find_addr_interface. clear result.
  assert (F1 : forall i, In i ifaces -> (match_ (get_address i) a false = true <-> in_network a i)).
  { intros i I. rewrite Forall_forall in WI. destruct (WI i I) as [W _]. unfold in_network.
    rewrite match_land by auto. split; congruence. }
  assert (F2 : forall n i, In i ifaces -> (str_eqb (get_name i) n = true <-> get_name i = n)).
  { intros n i _. apply RouteProofs.str_eqb_true. }
  assert (F3 : forall rs, routes = Ok rs -> forall r, In r rs ->
    (is_default (get_destination_address r) = true <-> default_route r)).
  { intros rs E r I. specialize (WR rs E). rewrite Forall_forall in WR. apply is_default_value. now apply WR. }
  split.
  - intros i I. now rewrite (find_is_first _ _ _ _ F1 I).
  - intros N. rewrite (find_is_none _ _ _ F1 N). split; [intros ->; reflexivity|]. split.
    + intros -> rs ->. cbn [negb rbind]. unfold find_default_route. split.
      * intros D. now rewrite (find_is_none _ _ _ (F3 rs eq_refl) D).
      * intros r R. rewrite (find_is_first _ _ _ _ (F3 rs eq_refl) R). split.
        -- intros i I. now rewrite (find_is_first _ _ _ _ (F2 (get_interface_name r)) I).
        -- intros I. now rewrite (find_is_none _ _ _ (F2 (get_interface_name r)) I).
    + intros -> e ->. reflexivity.
Qed.
Print Assumptions C59_find_partial.
(* When getifaddrs() fails, get_local_addresses() returns a null pointer, and
   find_addr_interface() reads through it. *)
Theorem C59_find_refuted :
  (exists s lab n, execution s lab n /\ never_back s n /\ lab 6%nat = L_return t1 (Answer None) /\ (6 < n)%nat) /\
  forall routes a allow, find_addr_interface None routes a allow = UB.
Proof.
  split; [|reflexivity].
  exists (states_of (init 1000) (played 1000 (Call t1 :: go t1 6))), (labels_of (played 1000 (Call t1 :: go t1 6))),
    (length (played 1000 (Call t1 :: go t1 6))).
  split; [apply played_execution; [lia|vm_compute; now eexists]|]. split.
  { change (length (played 1000 (Call t1 :: go t1 6))) with 7%nat. intros i L.
    do 7 (destruct i as [|i]; [vm_compute; discriminate|]). lia. }
  split; [vm_compute; reflexivity|vm_compute; lia].
Qed.
Print Assumptions C59_find_refuted.

(* ---------- C87 ---------- *)
(* One interface for each entry with an IP address, in the order of the
   kernel. *)
Theorem C87_what_the_kernel_says : forall l, Forall entry_ok l ->
  exists is, make_ifaces l = Ok is /\ Forall2 says (filter has_ip l) is.
Proof. exact entries_ok. Qed.
Print Assumptions C87_what_the_kernel_says.
Ltac ok_tac := repeat constructor; cbn; unfold AF_INET, AF_INET6, is_byte; lia.
Lemma entries_are_ok : Forall entry_ok entries.
Proof.
  ok_tac.
Qed.
Example C87_satisfiable : Forall entry_ok entries /\ length (filter has_ip entries) = 2%nat.
Proof. split; [exact entries_are_ok|reflexivity]. Qed.
(* The addresses of the interfaces of C59. *)
Definition two : list iface := match make_ifaces entries with Ok is => is | _ => [] end.
Lemma two_ok : make_ifaces entries = Ok two.
Proof. reflexivity. Qed.
Lemma two_wf : Forall iface_wf two.
Proof.
  destruct (entries_ok entries entries_are_ok) as (is & E & F). rewrite two_ok in E. injection E as <-.
  clear - F. induction F as [|e i es is S F IH]; constructor; [apply (says_wf _ _ S)|exact IH].
Qed.
Definition at4 (a b c d : Z) : addr := ip_from_uint128 addr_new (v4_base + quad a b c d).
Lemma at4_wf : addr_wf (at4 192 0 2 77).
Proof. apply ip_from_wf; [exact new_wf|vm_compute; split; [discriminate|reflexivity]]. Qed.
Example C59_satisfiable : Forall iface_wf two /\ addr_wf (at4 192 0 2 77) /\
  (exists i, find_addr_interface (Some two) (Ok []) (at4 192 0 2 77) true = Ok (Some i) /\ get_name i = lit "eth0") /\
  find_addr_interface (Some two) (Ok []) (at4 192 0 3 77) true = Ok None.
Proof.
  split; [exact two_wf|]. split; [exact at4_wf|]. split; [|vm_compute; reflexivity].
  eexists. split; [vm_compute; reflexivity|reflexivity].
Qed.

(* ---------- C88 ---------- *)
(* The flags of an entry are those of the device; the addresses exist only
   when the kernel gave them. *)
Theorem C88_has_address_partial : forall e i, says e i -> ifa_ifu e <> None ->
  (has_broadcast_address i = true <-> flag e 1 = true) /\
  (has_destination_address i = true <-> flag e 4 = true) /\
  (forall b, ifa_ifu e = Some b -> has_broadcast_address i = true -> value (get_broadcast_address i) = ip_of b) /\
  (forall d, ifa_ifu e = Some d -> has_destination_address i = true -> value (get_iface_destination_address i) = ip_of d).
Proof.
  intros e i S N.
  assert (B : has_broadcast_address i = flag e 1).
  { unfold has_broadcast_address. change IFF_BROADCAST with (2 ^ 1). rewrite flag_bit by lia.
    unfold flag. now rewrite <- (says_flags _ _ S). }
  assert (D : has_destination_address i = flag e 4).
  { unfold has_destination_address. change IFF_POINTOPOINT with (2 ^ 4). rewrite flag_bit by lia.
    unfold flag. now rewrite <- (says_flags _ _ S). }
  rewrite B, D. split; [tauto|]. split; [tauto|]. split.
  - intros b E H. rewrite (says_broadcast _ _ S), E, H. reflexivity.
  - intros d E H. rewrite (says_destination _ _ S), E, H. reflexivity.
Qed.
Print Assumptions C88_has_address_partial.
(* The IPv6 address of an ethernet device: no broadcast address, and yet. *)
Definition eth6 : ifaddrs := mk_ifaddrs (lit "eth0") 0x1043
  (Some (SN_in6 (mk_in6 AF_INET6 0 0 [0x20;1;13;0xB8;0;0;0;0;0;0;0;0;0;0;0;1] 0)))
  (Some (SN_in6 (mk_in6 AF_INET6 0 0 (repeat 255 8 ++ repeat 0 8) 0))) None.
Theorem C88_has_address_refuted : exists i, entry_ok eth6 /\ make_iface eth6 = Ok (Some i) /\ ifa_ifu eth6 = None /\
  has_broadcast_address i = true /\ value (get_broadcast_address i) = 0.
Proof.
  destruct (entry_some eth6) as (i & E & S).
  - ok_tac.
  - reflexivity.
  - exists i. split; [ok_tac|]. split; [exact E|].
    split; [reflexivity|]. split; [|exact (says_broadcast _ _ S)].
    unfold has_broadcast_address. pose proof (says_flags _ _ S) as F. unfold get_iface_flags in F. rewrite F. reflexivity.
Qed.
Print Assumptions C88_has_address_refuted.
Example C88_satisfiable : exists i, says eth0 i /\ ifa_ifu eth0 <> None.
Proof.
  destruct (entry_some eth0) as (i & _ & S).
  - ok_tac.
  - reflexivity.
  - exists i. split; [exact S|discriminate].
Qed.

(* ---------- C89 ---------- *)
(* Interfaces numbered without hole. *)
Theorem C89_names_partial : forall names n, (forall i, 1 <= i <= Z.of_nat n -> names i <> None) ->
  names (Z.of_nat n + 1) = None ->
  exists l, get_interface_name_index (S n) names = Ok l /\
    (forall i name, In (i, name) l <-> 1 <= i <= Z.of_nat n /\ names i = Some name) /\ length l = n.
Proof.
  intros names n S N.
  assert (G : forall m j acc, Z.of_nat m + j = Z.of_nat n + 1 -> 1 <= j -> exists l,
    name_index_loop (Datatypes.S m) names j acc = Ok (acc ++ l) /\
    (forall i name, In (i, name) l <-> j <= i <= Z.of_nat n /\ names i = Some name) /\ length l = m).
  { induction m as [|m IH]; intros j acc E J; cbn [name_index_loop].
    - replace j with (Z.of_nat n + 1) by lia. rewrite N. exists []. rewrite app_nil_r. split; [reflexivity|].
      split; [|reflexivity]. intros i name. split; [intros []|intros [X _]; lia].
    - destruct (names j) as [name|] eqn:X; [|exfalso; apply (S j); [lia|exact X]].
      destruct (IH (j + 1) (acc ++ [(j, name)]) ltac:(lia) ltac:(lia)) as (l & L1 & L2 & L3).
      exists ((j, name) :: l). rewrite <- app_assoc in L1. split; [exact L1|]. split; [|cbn; lia].
      intros i nm. cbn [In]. rewrite L2. split.
      + intros [Y|[Y1 Y2]]; [injection Y as -> ->; split; [lia|exact X]|split; [lia|exact Y2]].
      + intros [Y1 Y2]. destruct (Z.eq_dec i j) as [->|D]; [left; congruence|right; split; [lia|exact Y2]]. }
  destruct (G n 1 [] ltac:(lia) ltac:(lia)) as (l & L). now exists l.
Qed.
Print Assumptions C89_names_partial.
(* An interface which goes away hides those which follow. *)
Definition hole (i : Z) : option str :=
  if i =? 1 then Some (lit "lo") else if i =? 3 then Some (lit "eth1") else None.
Theorem C89_names_refuted : get_interface_name_index 10 hole = Ok [(1, lit "lo")] /\ hole 3 = Some (lit "eth1").
Proof. split; reflexivity. Qed.
Print Assumptions C89_names_refuted.
Example C89_satisfiable :
  let names i := if i =? 1 then Some (lit "lo") else if i =? 2 then Some (lit "eth0") else None in
  (forall i, 1 <= i <= 2 -> names i <> None) /\ names 3 = None.
Proof.
  split; [|reflexivity]. intros i I. assert (i = 1 \/ i = 2) as [E|E] by lia; rewrite E; discriminate.
Qed.

(* ---------- C90 ---------- *)
(* When a is in at most one network. *)
Theorem C90_broadcast_partial : forall ifaces a, Forall iface_wf ifaces -> addr_wf a ->
  (forall i j, In i ifaces -> In j ifaces -> in_network a i -> in_network a j ->
     value (get_broadcast_address i) = value (get_broadcast_address j)) ->
  is_broadcast_address (Some ifaces) a = Ok true <->
  is_v4_value (value a) /\ exists i, In i ifaces /\ in_network a i /\ value (get_broadcast_address i) = value a.
Proof.
  intros ifaces a WI WA ONE. unfold is_broadcast_address.
  assert (V4 := is_ipv4_value a WA). destruct (is_ipv4 a); cbn [negb].
  2:{ split; [discriminate|]. intros [V _]. apply V4 in V. discriminate. }
  assert (F1 : forall i, In i ifaces -> (match_ (get_address i) a false = true <-> in_network a i)).
  { intros i I. rewrite Forall_forall in WI. destruct (WI i I) as [W _]. unfold in_network.
    rewrite match_land by auto. split; congruence. }
  assert (F := find_first (in_network a) _ ifaces F1). unfold find_addr_interface.
  destruct (find _ ifaces) as [i|].
  - destruct F as (b & c & E & X & N). cbn [rbind]. assert (I : In i ifaces) by (rewrite E; apply in_elt).
    rewrite Forall_forall in WI. destruct (WI i I) as (_ & WB & _). rewrite eq_value by auto. split.
    + intros Y. injection Y as Y. apply Z.eqb_eq in Y. split; [now apply V4|]. exists i. auto.
    + intros [_ (j & J1 & J2 & J3)]. rewrite (ONE i j I J1 X J2), J3. now rewrite Z.eqb_refl.
  - cbn [negb rbind]. split; [discriminate|]. intros [_ (j & J1 & J2 & _)]. unfold none in F.
    rewrite Forall_forall in F. now apply F in J1.
Qed.
Print Assumptions C90_broadcast_partial.
(* The broadcast address of a network within another. *)
Definition net (name : str) (a m b : Z) : ifaddrs :=
  mk_ifaddrs name 0x1043 (Some (SN_in (mk_in AF_INET 0 a))) (Some (SN_in (mk_in AF_INET 0 m)))
    (Some (SN_in (mk_in AF_INET 0 b))).
Theorem C90_broadcast_refuted : exists is i, make_ifaces
    [net (lit "eth0") 0x0500000A 0x000000FF 0xFFFFFF0A; net (lit "eth1") 0x0500010A 0x0000FFFF 0xFFFF010A] = Ok is /\
  In i is /\ in_network (at4 10 1 255 255) i /\ has_broadcast_address i = true /\
  value (get_broadcast_address i) = value (at4 10 1 255 255) /\
  is_broadcast_address (Some is) (at4 10 1 255 255) = Ok false.
Proof.
  do 2 eexists. split; [vm_compute; reflexivity|]. split; [right; left; reflexivity|].
  split; [vm_compute; reflexivity|]. split; [reflexivity|]. split; vm_compute; reflexivity.
Qed.
Print Assumptions C90_broadcast_refuted.
Example C90_satisfiable : Forall iface_wf two /\ is_broadcast_address (Some two) (at4 192 0 2 255) = Ok true /\
  is_broadcast_address (Some two) (at4 192 0 2 254) = Ok false /\
  (forall i j, In i two -> In j two -> in_network (at4 192 0 2 255) i -> in_network (at4 192 0 2 255) j ->
     value (get_broadcast_address i) = value (get_broadcast_address j)).
Proof.
  split; [exact two_wf|]. split; [vm_compute; reflexivity|]. split; [vm_compute; reflexivity|].
  assert (X : forallb (fun i => forallb (fun j => implb
      ((Z.land (value (at4 192 0 2 255)) (mask_value (get_address i)) =?
        Z.land (value (get_address i)) (mask_value (get_address i))) &&
       (Z.land (value (at4 192 0 2 255)) (mask_value (get_address j)) =?
        Z.land (value (get_address j)) (mask_value (get_address j))))
      (value (get_broadcast_address i) =? value (get_broadcast_address j))) two) two = true)
    by (vm_compute; reflexivity).
  intros i j I J A B. rewrite forallb_forall in X. specialize (X i I). rewrite forallb_forall in X. specialize (X j J).
  unfold in_network in A, B. apply Z.eqb_eq in A, B. rewrite A, B in X. now apply Z.eqb_eq.
Qed.
