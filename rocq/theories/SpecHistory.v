(* What an addr object holds, told from the calls made on it: a history is the
   list of the calls with their outcomes, the last one first, and each
   attribute is a function of the history alone.  No state of the object
   appears below. *)
From Verif Require Import Base Addr Spec.
Local Open Scope Z_scope.

(* One call and what the caller saw: a return or an exception. *)
Record event := mk_event { call : addr_op; outcome : res unit }.
Definition accepted (e : event) : bool := match outcome e with Ok _ => true | _ => false end.

(* The object a was made by the default constructor and went through h. *)
Inductive lived (y : sys) : list event -> addr -> Prop :=
| lived_new : lived y [] addr_new
| lived_call h a op b r : lived y h a -> addr_op_ok op -> addr_step y a op = (b, r) -> r <> UB ->
    lived y (mk_event op r :: h) b.

(* The latest value the calls gave, d when there is none.  f r e is what the
   call e gives after the calls r. *)
Fixpoint latest {A} (f : list event -> event -> option A) (d : A) (h : list event) : A :=
  match h with
  | [] => d
  | e :: r => match f r e with Some v => v | None => latest f d r end
  end.

(* Only the name given last counts. *)
Definition gives_interface (_ : list event) (e : event) : option str :=
  match call e with Op_set_interface s => Some s | _ => None end.
Definition gives_hostname (_ : list event) (e : event) : option str :=
  match call e with Op_set_hostname s => Some s | _ => None end.
Definition interface_told := latest gives_interface [].
Definition hostname_told := latest gives_hostname [].

(* Masks, as 128 bit numbers. *)
Definition gives_mask (_ : list event) (e : event) : option Z :=
  match call e with
  | Op_set_mask m => Some (num m)
  | Op_set_mask_count n => if accepted e then Some (prefix_mask n) else None
  | _ => None
  end.
Definition gives_mask_flag (_ : list event) (e : event) : option bool :=
  match call e with
  | Op_set_mask _ => Some true
  | Op_set_mask_count _ => if accepted e then Some true else None
  | Op_set_mask_defined b => Some b
  | _ => None
  end.
Definition mask_told := latest gives_mask LAST.
Definition mask_flag_told := latest gives_mask_flag false.

(* The name of a socket the object can take: IPv4 or IPv6. *)
Definition ip_name (s : Z) (name : option sockname) : option sockname :=
  if s <? 0 then None
  else match name with Some (SN_in _) | Some (SN_in6 _) => name | _ => None end.
(* The protocol of a socket of that type. *)
Definition socket_protocol (s : Z) (name : option sockname) (type : option Z) : option Z :=
  match ip_name s name, type with
  | Some _, Some t => if t =? SOCK_STREAM then Some IPPROTO_TCP else if t =? SOCK_DGRAM then Some IPPROTO_UDP else None
  | _, _ => None
  end.

Definition gives_protocol (y : sys) (_ : list event) (e : event) : option Z :=
  match call e with
  | Op_set_protocol p => if accepted e then Some p else None
  | Op_set_protocol_str (Some s) =>
      if accepted e then match getprotobyname y s with Found p => Some p | _ => None end else None
  | Op_set_from_socket s n t | Op_recvfrom s n t _ _ => socket_protocol s n t
  | _ => None
  end.
Definition protocol_told (y : sys) := latest (gives_protocol y) IPPROTO_TCP.

(* The protocol becomes defined by set_protocol() when it differs from the
   current one (C17 tells the documentation says otherwise); what a socket
   says about the protocol does not count. *)
Definition gives_protocol_flag (y : sys) (r : list event) (e : event) : option bool :=
  match call e with
  | Op_set_protocol_defined b => Some b
  | Op_set_protocol _ | Op_set_protocol_str _ =>
      match gives_protocol y r e with
      | Some p => if p =? protocol_told y r then None else Some true
      | None => None
      end
  | _ => None
  end.
Definition protocol_flag_told (y : sys) := latest (gives_protocol_flag y) false.

(* Socket structures: number, port, flow information and scope. *)
Record endpoint := mk_endpoint { e_ip : Z; e_port : Z; e_flow : Z; e_scope : Z }.
Definition endpoint_in (x : sockaddr_in) : endpoint :=
  mk_endpoint (v4_base + bswap32 (s_addr x)) (bswap16 (sin_port x)) 0 0.
Definition endpoint_in6 (x : sockaddr_in6) : endpoint :=
  mk_endpoint (num (sin6_addr x)) (bswap16 (sin6_port x)) (sin6_flowinfo x) (sin6_scope_id x).
Definition endpoint_name (n : sockname) : endpoint :=
  match n with SN_in x => endpoint_in x | SN_in6 x => endpoint_in6 x | SN_other => mk_endpoint 0 0 0 0 end.
Definition is_v4b (v : Z) : bool := (v4_base <=? v) && (v <? v4_base + 2 ^ 32).
(* The sender of the message, if the system gave one of the right family. *)
Definition sender (four : bool) (p4 : option sockaddr_in) (p6 : option sockaddr_in6) : option endpoint :=
  if four
  then match p4 with Some x => if sin_family x =? AF_INET then Some (endpoint_in x) else None | None => None end
  else match p6 with Some x => if sin6_family x =? AF_INET6 then Some (endpoint_in6 x) else None | None => None end.
Definition gives_endpoint (e : event) : option endpoint :=
  match call e with
  | Op_set_ipv4 x => if accepted e then Some (endpoint_in x) else None
  | Op_set_ipv6 x => if accepted e then Some (endpoint_in6 x) else None
  | Op_set_from_socket s n _ => option_map endpoint_name (ip_name s n)
  | Op_recvfrom s n t p4 p6 =>
      match ip_name s n with
      | None => None
      | Some w =>
          match socket_protocol s n t with
          | Some p =>
              if p =? IPPROTO_UDP
              then match sender (is_v4b (e_ip (endpoint_name w))) p4 p6 with
                   | Some x => Some x
                   | None => Some (endpoint_name w)
                   end
              else Some (endpoint_name w)
          | None => Some (endpoint_name w)
          end
      end
  | _ => None
  end.

(* The port a text stands for, after the calls r: a number (the conversion of
   std::int64_t to int keeps the low 32 bits, see C15) or the name of a
   service of the current protocol. *)
Definition port_text (y : sys) (r : list event) (s : str) : option Z :=
  match convert_string y s with
  | Some v => Some (v mod 2 ^ 32)
  | None =>
      match getprotobynumber y (protocol_told y r) with
      | NoEntry => None
      | p => match getservbyname y s (match p with Found n => n | _ => [] end) with
             | Found sp => Some (bswap16 sp)
             | _ => None
             end
      end
  end.
Definition gives_port (y : sys) (r : list event) (e : event) : option Z :=
  match call e with
  | Op_set_port p => if accepted e then Some p else None
  | Op_set_port_str s => if accepted e then port_text y r s else None
  | _ => option_map e_port (gives_endpoint e)
  end.
Definition port_told (y : sys) := latest (gives_port y) 0.
(* set_port() defines the port; taking a whole socket structure does not. *)
Definition gives_port_flag (y : sys) (r : list event) (e : event) : option bool :=
  match call e with
  | Op_set_port_defined b => Some b
  | Op_set_port _ | Op_set_port_str _ => option_map (fun _ => true) (gives_port y r e)
  | _ => None
  end.
Definition port_flag_told (y : sys) := latest (gives_port_flag y) false.

(* Flow information and scope come with a structure; the loopback addresses
   have none. *)
Definition gives_flow (_ : list event) (e : event) : option Z :=
  match call e with
  | Op_set_ipv4_loopback | Op_set_ipv6_loopback => Some 0
  | _ => option_map e_flow (gives_endpoint e)
  end.
Definition gives_scope (_ : list event) (e : event) : option Z :=
  match call e with
  | Op_set_ipv4_loopback | Op_set_ipv6_loopback => Some 0
  | _ => option_map e_scope (gives_endpoint e)
  end.
Definition flow_told := latest gives_flow 0.
Definition scope_told := latest gives_scope 0.

(* The address: the number given last, as changed by the arithmetic and by the
   masks applied since then. *)
Fixpoint address_told (h : list event) : Z :=
  match h with
  | [] => 0
  | e :: r =>
      let v := address_told r in
      match call e with
      | Op_set_ipv4_loopback => v4_base + quad 127 0 0 1
      | Op_set_ipv6_loopback => 1
      | Op_ip_from_uint128 u => u
      | Op_apply_mask inversed =>
          if inversed then Z.lor v (LAST - mask_told r) else Z.land v (mask_told r)
      | Op_incr => clamp 0 LAST (v + 1)
      | Op_decr => clamp 0 LAST (v - 1)
      | Op_add_assign n => clamp 0 LAST (v + n)
      | Op_sub_assign n => clamp 0 LAST (v - n)
      | _ => match gives_endpoint e with Some x => e_ip x | None => v end
      end
  end.
