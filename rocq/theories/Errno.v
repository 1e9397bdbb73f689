(* Model of errno for the functions which report a failure with their result:
   create_socket(), connect(), bind(), sendto(), recvfrom(), the functions
   set_from_socket() and unlink() of addr_unix, and get_ipv4_routes().  errno is
   a value which is passed on: a function takes it as it was before the call
   and gives it as it is afterwards.  What a system call makes of errno is an
   argument.  errno after an exception is not modelled. *)
From Verif Require Import Base Addr Socket Receive Unix Route.
Local Open Scope Z_scope.

(* <errno.h> (Linux values), addr.cpp:1955, 2019. *)
Definition EINVAL : Z := 22.
(* addr_unix.cpp:564. *)
Definition EADDRNOTAVAIL : Z := 99.
(* route.cpp:290. *)
Definition ENODATA : Z := 61.

(* errno after a list of system calls, addr.cpp:1773-1981; after c e: what the
   call c makes of e. *)
Definition after_calls {call : Type} (after : call -> Z -> Z) (calls : list call) (errno : Z) : Z :=
  fold_left (fun e c => after c e) calls errno.

(* addr::create_socket(), addr.cpp:1773-1809: no assignment of errno. *)
Definition create_socket_errno (answer : syscall -> Z) (after : syscall -> Z -> Z) (a : addr) (flags errno : Z)
    : res Z * Z :=
  let '(calls, r) := create_socket answer a flags in (r, after_calls after calls errno).
(* addr::connect(), addr.cpp:1828-1859: no assignment of errno. *)
Definition connect_errno (answer : syscall -> Z) (after : syscall -> Z -> Z) (a : addr) (s errno : Z) : res Z * Z :=
  let '(calls, r) := connect answer a s in (r, after_calls after calls errno).
(* addr::bind() const, addr.cpp:1919-1931: no assignment of errno. *)
Definition bind_const_errno (answer : syscall -> Z) (after : syscall -> Z -> Z) (a : addr) (s errno : Z) : res Z * Z :=
  let '(calls, r) := bind_const answer a s in (r, after_calls after calls errno).
(* addr::bind(), addr.cpp:1890-1905: no assignment of errno; named: what the
   calls of set_from_socket() at line 1900 make of errno. *)
Definition bind_errno (answer : syscall -> Z) (after : syscall -> Z -> Z) (named : Z -> Z)
    (name : option sockname) (type : option Z) (a : addr) (s errno : Z) : res Z * Z :=
  let '(a1, calls, r) := bind_socket answer name type a s in
  let e := after_calls after calls errno in
  (r, match snd (bind_const answer a s) with
      | Ok v => if (v =? 0) && (get_port a =? 0) then named e else e
      | _ => e
      end).
(* addr::sendto(), addr.cpp:1951-1981, with the assignment at line 1955. *)
Definition sendto_errno (answer : syscall -> Z) (after : syscall -> Z -> Z) (a : addr) (s : Z) (buffer : str) (errno : Z)
    : res Z * Z :=
  let '(calls, r) := sendto answer a s buffer in
  (r, if negb (f_protocol a =? IPPROTO_UDP) then EINVAL else after_calls after calls errno).
(* addr::recvfrom(), addr.cpp:2011-2058, with the assignment at line 2019, which
   follows the calls of set_from_socket(). *)
Definition receive_errno (k : kernel) (after : receive_call -> Z -> Z) (a : addr) (s size errno : Z) : res Z * Z :=
  let '(a2, calls, r) := receive k a s size in
  let a1 := fst (Addr.set_from_socket a s (k_name k) (k_type k)) in
  let e := after_calls after calls errno in
  (r, if negb (f_protocol a1 =? IPPROTO_UDP) then EINVAL else e).
(* addr_unix::set_from_socket(), addr_unix.cpp:549-579, with the assignment at
   line 564; after: what getsockname() makes of errno. *)
Definition unix_from_socket_errno (decode : str -> option (list Z)) (after : Z -> Z) (u : addr_unix)
    (name : option (Z * list Z)) (errno : Z) : addr_unix * res bool * Z :=
  let '(u1, r) := Unix.set_from_socket decode u name in
  (u1, r, match name with
          | Some (family, _) => if negb (family =? AF_UNIX) then EADDRNOTAVAIL else after errno
          | None => after errno
          end).
(* addr_unix::unlink(), addr_unix.cpp:779-787: what ::unlink() answers for the
   path and what it makes of errno. *)
Definition unlink_errno (answer : str -> Z) (after : str -> Z -> Z) (u : addr_unix) (errno : Z) : res Z * Z :=
  match Unix.unlink u with
  | Ok (Some p) => (Ok (answer p), after p errno)
  | Ok None => (Ok 0, errno)
  | Throw e => (Throw e, errno)
  | UB => (UB, errno)
  | OutOfFuel => (OutOfFuel, errno)
  end.
(* route::get_ipv4_routes(), route.cpp:253-340, with the assignment at line
   290; opened: what opening and reading the file make of errno. *)
Definition get_ipv4_routes_errno (opened : Z -> Z) (file : option str) (errno : Z) : res (list route) * Z :=
  let s := match file with Some s => s | None => [] end in
  (get_ipv4_routes file,
   match readwords s with
   | None => opened errno
   | Some (headers, _) =>
       if (get_position headers (lit "Iface") =? -1)
          || (get_position headers (lit "Destination") =? -1)
          || (get_position headers (lit "Gateway") =? -1)
       then ENODATA
       else opened errno
   end).
