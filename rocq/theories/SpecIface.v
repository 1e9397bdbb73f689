(* What the properties of the interfaces and their cache talk about. *)
From Verif Require Import Base Addr Spec Route Iface IfaceCache.
Local Open Scope Z_scope.

(* x is the first of l with P. *)
Definition first {A} (P : A -> Prop) (l : list A) (x : A) : Prop :=
  exists before after, l = before ++ x :: after /\ P x /\ Forall (fun y => ~ P y) before.
Definition none {A} (P : A -> Prop) (l : list A) : Prop := Forall (fun y => ~ P y) l.

(* The address a is in the network of the interface i. *)
Definition in_network (a : addr) (i : iface) : Prop :=
  Z.land (value a) (mask_value (get_address i)) =
  Z.land (value (get_address i)) (mask_value (get_address i)).
Definition default_route (r : route) : Prop :=
  value (get_destination_address r) = 0 \/ value (get_destination_address r) = v4_base.
Definition iface_wf (i : iface) : Prop :=
  addr_wf (get_address i) /\ addr_wf (get_broadcast_address i) /\ addr_wf (get_iface_destination_address i).

(* An entry of getifaddrs() as the kernel gives them: the mask and the other
   address, if any, are of the family of the address. *)
Definition entry_ok (e : ifaddrs) : Prop :=
  match ifa_addr e with
  | Some (SN_in x) =>
      sockaddr_in_ok x /\ sin_family x = AF_INET /\
      match ifa_netmask e with Some (SN_in m) => sockaddr_in_ok m | Some _ => False | None => True end /\
      match ifa_ifu e with Some (SN_in o) => sockaddr_in_ok o /\ sin_family o = AF_INET
                         | Some _ => False | None => True end
  | Some (SN_in6 x) =>
      sockaddr_in6_ok x /\ sin6_family x = AF_INET6 /\
      match ifa_netmask e with Some (SN_in6 m) => sockaddr_in6_ok m | Some _ => False | None => True end /\
      match ifa_ifu e with Some (SN_in6 o) => sockaddr_in6_ok o /\ sin6_family o = AF_INET6
                         | Some _ => False | None => True end
  | _ => True
  end.
(* The entries with an IP address. *)
Definition has_ip (e : ifaddrs) : bool :=
  match ifa_addr e with Some (SN_in _) | Some (SN_in6 _) => true | _ => false end.

(* The number of an IP address of the kernel, as an IPv6 address. *)
Definition ip_of (n : sockname) : Z :=
  match n with
  | SN_in x => v4_base + bswap32 (s_addr x)
  | SN_in6 x => num (sin6_addr x)
  | SN_other => 0
  end.
(* A mask of the kernel, as an IPv6 mask. *)
Definition mask_of (n : sockname) : Z :=
  match n with
  | SN_in x => 2 ^ 128 - 2 ^ 32 + bswap32 (s_addr x)
  | SN_in6 x => num (sin6_addr x)
  | SN_other => 0
  end.
Definition flag (e : ifaddrs) (bit : Z) : bool := Z.testbit (ifa_flags e) bit.

(* The interface i is what the entry e says. BROADCAST is bit 1 of the flags,
   POINTOPOINT bit 4. *)
Record says (e : ifaddrs) (i : iface) : Prop := mk_says {
  says_name : get_name i = ifa_name e;
  says_flags : get_iface_flags i = ifa_flags e;
  says_wf : iface_wf i;
  says_ip : exists x, ifa_addr e = Some x /\ value (get_address i) = ip_of x;
  says_mask : match ifa_netmask e with
              | Some m => is_mask_defined (get_address i) = true /\ mask_value (get_address i) = mask_of m
              | None => is_mask_defined (get_address i) = false /\ mask_value (get_address i) = LAST
              end;
  says_broadcast : value (get_broadcast_address i) =
    match ifa_ifu e with Some b => if flag e 1 then ip_of b else 0 | None => 0 end;
  says_destination : value (get_iface_destination_address i) =
    match ifa_ifu e with Some d => if flag e 4 then ip_of d else 0 | None => 0 end
}.

(* Executions: the first n steps go through the states s 0, ..., s n and have
   the labels lab 0, ..., lab (n-1). *)
Definition execution (s : nat -> state) (lab : nat -> label) (n : nat) : Prop :=
  (exists now, 0 < now /\ s 0%nat = init now) /\
  forall i, (i < n)%nat -> step (s i) (lab i) (s (S i)).
(* The clock is never set back. *)
Definition never_back (s : nat -> state) (n : nat) : Prop :=
  forall i, (i < n)%nat -> clock (s i) <= clock (s (S i)).

(* From b to i the thread k is in one call. *)
Definition in_call (lab : nat -> label) (k : tid) (b i : nat) : Prop :=
  (b < i)%nat /\ lab b = L_call k /\ forall j a, (b < j < i)%nat -> lab j <> L_return k a.
(* At r the kernel gave l to the thread k. *)
Definition read_from_kernel (lab : nat -> label) (k : tid) (r : nat) (l : list iface) : Prop :=
  exists entries, lab r = L_kernel k entries /\ make_ifaces entries = Ok l.

(* The thread a label is about. *)
Definition done_by (l : label) (k : tid) : bool :=
  match l with
  | L_call j | L_kernel j _ | L_return j _ | L_reset j | L_reset_done j | L_ttl j _ | L_tau j => Nat.eqb j k
  | L_clock _ => false
  end.
(* The number of steps of the thread k from b up to i, excluded. *)
Definition steps_of (lab : nat -> label) (k : tid) (b i : nat) : nat :=
  length (filter (fun j => done_by (lab j) k) (seq b (i - b))).
(* The thread k can do a step. *)
Definition can_go_on (s : state) (k : tid) : Prop := exists l s', step s l s' /\ done_by l k = true.

(* The variables the threads share, none of them atomic. *)
Inductive variable : Set := The_ttl | The_timeout | The_list.
Definition same (x : variable) (s s' : state) : Prop :=
  match x with
  | The_ttl => g_cache_ttl s = g_cache_ttl s'
  | The_timeout => g_cache_timeout s = g_cache_timeout s'
  | The_list => g_cache_iface s = g_cache_iface s'
  end.
Definition step_of (k : tid) (s : state) (l : label) (s' : state) : Prop := step s l s' /\ done_by l k = true.
(* The step of a thread which is at p writes x: somewhere it changes it. *)
Definition writes (p : pc) (x : variable) : Prop :=
  exists s k l s', thread s k = p /\ step_of k s l s' /\ ~ same x s s'.
(* The step of a thread which is at p reads x: in two states which differ in
   nothing else the thread does not do the same. *)
Definition reads (p : pc) (x : variable) : Prop :=
  exists s1 s2 k l s', thread s1 k = p
    /\ (forall z, z <> x -> same z s1 s2) /\ owner s1 = owner s2 /\ clock s1 = clock s2 /\ thread s1 = thread s2
    /\ step_of k s1 l s' /\ forall s'', step_of k s2 l s'' -> thread s'' k <> thread s' k.
(* A data race of C++: the next steps of two threads use the same variable and
   one of them writes it. *)
Definition race_for (x : variable) (s : state) : Prop :=
  exists j k, j <> k /\ writes (thread s j) x /\ (writes (thread s k) x \/ reads (thread s k) x).
Definition data_race (s : state) : Prop := exists x, race_for x s.
