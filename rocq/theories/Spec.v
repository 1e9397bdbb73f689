(* Independent vocabulary in which the properties of the addr class are
   stated: the number an address stands for, bit masks, blocks and the table
   of reserved networks.  Nothing here follows the C++ algorithms. *)
From Verif Require Import Base Addr.
Local Open Scope Z_scope.

(* The number denoted by a big-endian byte string. *)
Fixpoint num (l : list Z) : Z :=
  match l with
  | [] => 0
  | b :: r => b * 256 ^ Z.of_nat (length r) + num r
  end.

Definition value (a : addr) : Z := num (s6 a).
Definition mask_value (a : addr) : Z := num (f_mask a).
Definition LAST : Z := 2 ^ 128 - 1.

(* What every addr object looks like in memory. *)
Definition protocol_ok (p : Z) : Prop :=
  p = IPPROTO_IP \/ p = IPPROTO_TCP \/ p = IPPROTO_UDP.
Record addr_wf (a : addr) : Prop := mk_addr_wf {
  wf_family : sin6_family (f_address a) = AF_INET6;
  wf_port : 0 <= sin6_port (f_address a) < 2 ^ 16;
  wf_flow : 0 <= sin6_flowinfo (f_address a) < 2 ^ 32;
  wf_ip : bytes16 (s6 a);
  wf_scope : 0 <= sin6_scope_id (f_address a) < 2 ^ 32;
  wf_mask : bytes16 (f_mask a);
  wf_protocol : protocol_ok (f_protocol a)
}.

(* a and b agree on everything but the IP address. *)
Record same_but_ip (a b : addr) : Prop := mk_same_but_ip {
  sb_family : sin6_family (f_address a) = sin6_family (f_address b);
  sb_port : sin6_port (f_address a) = sin6_port (f_address b);
  sb_flow : sin6_flowinfo (f_address a) = sin6_flowinfo (f_address b);
  sb_scope : sin6_scope_id (f_address a) = sin6_scope_id (f_address b);
  sb_mask : f_mask a = f_mask b;
  sb_port_defined : f_port_defined a = f_port_defined b;
  sb_protocol_defined : f_protocol_defined a = f_protocol_defined b;
  sb_mask_defined : f_mask_defined a = f_mask_defined b;
  sb_protocol : f_protocol a = f_protocol b;
  sb_network : f_private_network a = f_private_network b;
  sb_interface : f_interface a = f_interface b;
  sb_hostname : f_hostname a = f_hostname b
}.

Definition clamp (lo hi x : Z) : Z := Z.max lo (Z.min hi x).

(* b is a moved by n, clamped to the first and last 128 bit addresses; nothing
   else changes. *)
Definition moved (a : addr) (n : Z) (b : addr) : Prop :=
  addr_wf b /\ same_but_ip a b /\ value b = clamp 0 LAST (value a + n).

(* The IPv4 address d (host order number) as a 128 bit number:
   ::ffff:a.b.c.d *)
Definition v4_base : Z := 0xFFFF * 2 ^ 32.
Definition is_v4_value (v : Z) : Prop := v4_base <= v < v4_base + 2 ^ 32.

(* The mask with n leading ones. *)
Definition prefix_mask (n : Z) : Z := 2 ^ 128 - 2 ^ (128 - n).

(* First and last address of the block of 2^(128-n) addresses around v. *)
Definition block_size (n : Z) : Z := 2 ^ (128 - n).
Definition block_first (n v : Z) : Z := v / block_size n * block_size n.
Definition block_last (n v : Z) : Z := block_first n v + block_size n - 1.

(* Reserved networks.  in_net w net n v: the w bit number v starts with the n
   leading bits of net. *)
Definition in_net (w net n v : Z) : bool :=
  v / 2 ^ (w - n) =? net / 2 ^ (w - n).
Definition quad (a b c d : Z) : Z := ((a * 256 + b) * 256 + c) * 256 + d.
Definition net_table := list (Z * Z * network_type_t).
Definition table4 : net_table :=
  [ (quad 10 0 0 0,     8, NETWORK_TYPE_PRIVATE);
    (quad 172 16 0 0,  12, NETWORK_TYPE_PRIVATE);
    (quad 192 168 0 0, 16, NETWORK_TYPE_PRIVATE);
    (quad 100 64 0 0,  10, NETWORK_TYPE_CARRIER);
    (quad 169 254 0 0, 16, NETWORK_TYPE_LINK_LOCAL);
    (quad 224 0 0 0,    4, NETWORK_TYPE_MULTICAST);
    (quad 127 0 0 0,    8, NETWORK_TYPE_LOOPBACK);
    (quad 0 0 0 0,     32, NETWORK_TYPE_ANY) ].
(* h is the first 16 bit group of the network *)
Definition group0 (h : Z) : Z := h * 2 ^ 112.
Definition nibbles : list Z := [0;1;2;3;4;5;6;7;8;9;10;11;12;13;14;15].
Definition table6 : net_table :=
  [ (0, 128, NETWORK_TYPE_ANY);
    (1, 128, NETWORK_TYPE_LOOPBACK);
    (group0 0xFD00, 8, NETWORK_TYPE_PRIVATE);
    (group0 0xFE80, 10, NETWORK_TYPE_LINK_LOCAL) ]
  ++ map (fun x => (group0 (0xFF02 + 16 * x), 16, NETWORK_TYPE_LINK_LOCAL)) nibbles
  ++ map (fun x => (group0 (0xFF01 + 16 * x), 16, NETWORK_TYPE_LOOPBACK)) nibbles
  ++ [ (group0 0xFF00, 8, NETWORK_TYPE_MULTICAST);
       (group0 0x2001 + 0x0DB8 * 2 ^ 96, 32, NETWORK_TYPE_DOCUMENTATION);
       (group0 0x3FFF, 20, NETWORK_TYPE_DOCUMENTATION) ].
Fixpoint net_lookup (w v : Z) (t : net_table) : network_type_t :=
  match t with
  | [] => NETWORK_TYPE_PUBLIC
  | (net, n, ty) :: r => if in_net w net n v then ty else net_lookup w v r
  end.
Definition spec_network_type (v : Z) : network_type_t :=
  if (v4_base <=? v) && (v <? v4_base + 2 ^ 32)
  then net_lookup 32 (v - v4_base) table4
  else net_lookup 128 v table6.

(* States an object can get into: any sequence of public operations with
   arguments of the right C++ types, exceptions being caught by the caller;
   a call without defined behaviour ends the history. *)
Inductive reachable (y : sys) : addr -> Prop :=
| reach_new : reachable y addr_new
| reach_step a op a' r :
    reachable y a -> addr_op_ok op -> addr_step y a op = (a', r) ->
    r <> UB -> reachable y a'.

(* Operations which change the address in place: everything else either
   replaces the whole address or does not touch it. *)
Definition in_place (op : addr_op) : bool :=
  match op with
  | Op_apply_mask _ | Op_ip_from_uint128 _ | Op_incr | Op_decr
  | Op_add_assign _ | Op_sub_assign _ => true
  | _ => false
  end.
Inductive reachable_without_in_place (y : sys) : addr -> Prop :=
| rwip_new : reachable_without_in_place y addr_new
| rwip_step a op a' r :
    reachable_without_in_place y a -> addr_op_ok op -> in_place op = false ->
    addr_step y a op = (a', r) -> r <> UB ->
    reachable_without_in_place y a'.

(* The calls for which the C++ code has no defined behaviour. *)
Definition out_of_contract (y : sys) (a : addr) (op : addr_op) : Prop :=
  match op with
  | Op_add_assign n | Op_sub_assign n => n = INT_MIN
  | Op_set_port_str p =>
      (* a service name, while the protocol database has no entry for the
         protocol of the address *)
      convert_string y p = None /\ getprotobynumber y (get_protocol a) = NoEntry
  | _ => False
  end.

(* Decimal numbers in text: the value of a string of digits. *)
Definition is_digit (c : Z) : bool := (48 <=? c) && (c <=? 57).
Definition decimal_value (s : str) : Z :=
  fold_left (fun v c => v * 10 + (c - 48)) s 0.
Definition decimal (s : str) (v : Z) : Prop :=
  s <> [] /\ forallb is_digit s = true /\ decimal_value s = v.
(* What the library expects of advgetopt's integer conversion: a string of
   digits whose value fits std::int64_t converts to that value. *)
Definition converts_decimals (y : sys) : Prop :=
  forall s v, decimal s v -> v < 2 ^ 63 -> convert_string y s = Some v.
