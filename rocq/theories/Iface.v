(* Model of iface (iface.h, iface.cpp) without its cache, which is in
   IfaceCache.v.  What getifaddrs(), if_indextoname() and /proc/net/route
   answer are arguments. *)
From Verif Require Import Base Addr Route.
Local Open Scope Z_scope.

(* IFF_BROADCAST and IFF_POINTOPOINT of <net/if.h>, iface.cpp:325, 330. *)
Definition IFF_BROADCAST : Z := 0x2.
(* iface.cpp:330, 362. *)
Definition IFF_POINTOPOINT : Z := 0x10.

(* struct ifaddrs of <ifaddrs.h>, iface.cpp:280-319; None: a null pointer.
   ifa_broadaddr and ifa_dstaddr are the same member, ifa_ifu. A struct
   sockaddr is what it holds: a sockaddr_in, a sockaddr_in6 or another. *)
Record ifaddrs := mk_ifaddrs {
  ifa_name : str;
  ifa_flags : Z;
  ifa_addr : option sockname;
  ifa_netmask : option sockname;
  ifa_ifu : option sockname
}.

(* The fields of class iface, iface.h:82-86. *)
Record iface := mk_iface {
  f_name : str;
  f_flags : Z;
  f_iaddress : addr;
  f_broadcast_address : addr;
  f_destination_address : addr
}.

(* set_ipv4() with a struct sockaddr cast to a sockaddr_in, iface.cpp:323-334;
   the family of anything else is not AF_INET. *)
Definition set_ipv4_from (a : addr) (s : sockname) : res addr :=
  match s with
  | SN_in x => let (b, r) := set_ipv4 a x in let! _ := r in Ok b
  | _ => Throw E_invalid_argument
  end.
(* set_ipv6() with a struct sockaddr cast to a sockaddr_in6, iface.cpp:353-366.
   Simplification: the whole structure is passed by reference, so that the
   family is tested before anything past a shorter structure is read. *)
Definition set_ipv6_from (a : addr) (s : sockname) : res addr :=
  match s with
  | SN_in6 x => let (b, r) := set_ipv6 a x in let! _ := r in Ok b
  | _ => Throw E_invalid_argument
  end.

(* The mask of an IPv4 interface, iface.cpp:336-349. A sockaddr_in6 read as a
   sockaddr_in has its flow information where the address is; anything else
   is not defined. *)
Definition ipv4_mask (s : sockname) : res (list Z) :=
  let m v := [255; 255; 255; 255; 255; 255; 255; 255; 255; 255; 255; 255] ++
             [u8 (Z.shiftr v 0); u8 (Z.shiftr v 8); u8 (Z.shiftr v 16); u8 (Z.shiftr v 24)] in
  match s with
  | SN_in x => Ok (m (s_addr x))
  | SN_in6 x => Ok (m (sin6_flowinfo x))
  | SN_other => UB
  end.
(* The mask of an IPv6 interface, iface.cpp:368-373. A sockaddr_in is too
   short. *)
Definition ipv6_mask (s : sockname) : res (list Z) :=
  match s with
  | SN_in6 x => Ok (sin6_addr x)
  | _ => UB
  end.

(* Apply a function to what a pointer points to, when the flag is set and the
   pointer is not null, iface.cpp:325-334, 357-366. *)
Definition when (flag : bool) (p : option sockname) (a : addr) (f : addr -> sockname -> res addr) : res addr :=
  match p with
  | Some s => if flag then f a s else Ok a
  | None => Ok a
  end.

(* One turn of the loop of iface::get_local_addresses(), iface.cpp:292-383;
   None: continue. *)
Definition make_iface (ifa : ifaddrs) : res (option iface) :=
  let has f := negb (Z.land (ifa_flags ifa) f =? 0) in
  match ifa_addr ifa with
  | None => Ok None
  | Some (SN_in x) =>
      let! address := set_ipv4_from addr_new (SN_in x) in
      let! broadcast := when (has IFF_BROADCAST) (ifa_ifu ifa) addr_new set_ipv4_from in
      let! destination := when (has IFF_POINTOPOINT) (ifa_ifu ifa) addr_new set_ipv4_from in
      let! address := when true (ifa_netmask ifa) address
        (fun a s => let! m := ipv4_mask s in Ok (set_mask a m)) in
      Ok (Some (mk_iface (ifa_name ifa) (ifa_flags ifa) address broadcast destination))
  | Some (SN_in6 x) =>
      let! address := set_ipv6_from addr_new (SN_in6 x) in
      let! broadcast := when (has IFF_BROADCAST) (ifa_ifu ifa) addr_new set_ipv6_from in
      let! destination := when (has IFF_POINTOPOINT) (ifa_ifu ifa) addr_new set_ipv6_from in
      let! address := when true (ifa_netmask ifa) address
        (fun a s => let! m := ipv6_mask s in Ok (set_mask a m)) in
      Ok (Some (mk_iface (ifa_name ifa) (ifa_flags ifa) address broadcast destination))
  | Some SN_other => Ok None
  end.

(* The loop of iface::get_local_addresses(), iface.cpp:289-384. *)
Fixpoint make_ifaces (l : list ifaddrs) : res (list iface) :=
  match l with
  | [] => Ok []
  | ifa :: r =>
      let! i := make_iface ifa in
      let! is := make_ifaces r in
      Ok (match i with Some i => i :: is | None => is end)
  end.

(* The getters, iface.cpp:442-568. *)
Definition get_name (i : iface) : str := f_name i.
(* iface.cpp:459-462. *)
Definition get_iface_flags (i : iface) : Z := f_flags i.
(* iface.cpp:474-477. *)
Definition get_address (i : iface) : addr := f_iaddress i.
(* iface.cpp:495-498. *)
Definition get_broadcast_address (i : iface) : addr := f_broadcast_address i.
(* iface.cpp:514-517. *)
Definition get_iface_destination_address (i : iface) : addr := f_destination_address i.
(* iface::has_broadcast_address(), iface.cpp:540-543. *)
Definition has_broadcast_address (i : iface) : bool := negb (Z.land (f_flags i) IFF_BROADCAST =? 0).
(* iface::has_destination_address(), iface.cpp:565-568. *)
Definition has_destination_address (i : iface) : bool := negb (Z.land (f_flags i) IFF_POINTOPOINT =? 0).

(* find_addr_interface(), iface.cpp:611-657. interfaces: what
   get_local_addresses() returned, None being a null pointer; routes: what
   route::get_ipv4_routes() returns if it gets called. *)
Definition find_addr_interface (interfaces : option (list iface)) (routes : res (list route))
    (a : addr) (allow_default_destination : bool) : res (option iface) :=
  match interfaces with
  | None => UB
  | Some interfaces =>
      match find (fun i => match_ (get_address i) a false) interfaces with
      | Some i => Ok (Some i)
      | None =>
          if negb allow_default_destination then Ok None
          else
            let! routes := routes in
            match find_default_route routes with
            | None => Ok None
            | Some default_route =>
                Ok (find (fun i => str_eqb (get_name i) (get_interface_name default_route)) interfaces)
            end
      end
  end.

(* is_broadcast_address(), iface.cpp:697-711. *)
Definition is_broadcast_address (interfaces : option (list iface)) (a : addr) : res bool :=
  if negb (is_ipv4 a) then Ok false
  else
    let! ptr := find_addr_interface interfaces (Ok []) a false in
    match ptr with
    | None => Ok false
    | Some i => Ok (eq_ (get_broadcast_address i) a)
    end.

(* get_interface_name_index(), iface.cpp:192-215; indextoname: the answers of
   if_indextoname(), None being a null pointer. fuel: the number of turns of
   the loop. *)
Fixpoint name_index_loop (fuel : nat) (indextoname : Z -> option str) (index : Z)
    (result : list (Z * str)) : res (list (Z * str)) :=
  match fuel with
  | O => OutOfFuel
  | S fuel =>
      match indextoname index with
      | None => Ok result
      | Some name => name_index_loop fuel indextoname (index + 1) (result ++ [(index, name)])
      end
  end.
(* iface.cpp:192-215. *)
Definition get_interface_name_index (fuel : nat) (indextoname : Z -> option str) : res (list (Z * str)) :=
  name_index_loop fuel indextoname 1 [].
