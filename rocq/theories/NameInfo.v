(* Model of addr::get_name() and addr::get_service().  getnameinfo() is an
   argument. *)
From Verif Require Import Base Addr.
Local Open Scope Z_scope.

(* NI_NAMEREQD and NI_DGRAM of <netdb.h>, addr.cpp:2251-2255, 2301-2305. *)
Definition NI_NAMEREQD : Z := 8.
(* addr.cpp:2254, 2304. *)
Definition NI_DGRAM : Z := 16.

(* getnameinfo(), addr.cpp:2260-2267, 2306-2313: the structure, true for the
   service and false for the host, the flags; None: it did not return 0.
   Simplification: the answer fits the buffer, without its final NUL. *)
Definition name_info : Type := sockaddr_in6 -> bool -> Z -> option str.
(* The variable flags, addr.cpp:2251-2255, 2301-2305. *)
Definition name_flags (a : addr) : Z :=
  if f_protocol a =? IPPROTO_UDP then Z.lor NI_NAMEREQD NI_DGRAM else NI_NAMEREQD.

(* addr::get_name(), addr.cpp:2247-2272. *)
Definition host_name (ni : name_info) (a : addr) : str :=
  match ni (f_address a) false (name_flags a) with
  | Some host => host
  | None => []
  end.

(* addr::get_service(), addr.cpp:2292-2319. *)
Definition service_name (ni : name_info) (a : addr) : str :=
  if get_port a =? 0 then []
  else
    match ni (f_address a) true (name_flags a) with
    | Some service => service
    | None => []
    end.
