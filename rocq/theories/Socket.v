(* Model of the socket functions of addr.cpp: create_socket(), connect(),
   bind() and sendto().  A function is given the answers of the system as an
   argument and returns the system calls it makes, in order, with its
   result.  errno is in Errno.v. *)
From Verif Require Import Base Addr.
Local Open Scope Z_scope.

(* SOCK_CLOEXEC and SOCK_NONBLOCK of <sys/socket.h> (Linux values), used at
   addr.cpp:1776-1777. *)
Definition SOCK_CLOEXEC : Z := 0x80000.
(* SOCK_NONBLOCK, addr.cpp:1777. *)
Definition SOCK_NONBLOCK : Z := 0x800.

(* addr.h:155-157. *)
Definition SOCKET_FLAG_CLOEXEC : Z := 1.
(* addr.h:156. *)
Definition SOCKET_FLAG_NONBLOCK : Z := 2.
(* addr.h:157. *)
Definition SOCKET_FLAG_REUSE : Z := 4.

(* The system calls of addr.cpp:1773-1981 with the arguments which vary.  A
   socket address is given by the structure passed with its size: SN_in for
   sockaddr_in, SN_in6 for sockaddr_in6. *)
Inductive syscall : Type :=
| Sys_socket (family type protocol : Z)
| Sys_reuseaddr (s : Z)
| Sys_connect (s : Z) (to : sockname)
| Sys_bind (s : Z) (to : sockname)
| Sys_sendto (s : Z) (buffer : str) (to : sockname).

(* The socket address passed by connect(), bind() and sendto(),
   addr.cpp:1845-1851, 1921-1930, 1959-1979: get_ipv4() of an IPv4 address, the
   f_address field itself otherwise. *)
Definition system_address (a : addr) : res sockname :=
  if is_ipv4 a
  then rbind (get_ipv4 a) (fun x => Ok (SN_in x))
  else Ok (SN_in6 (f_address a)).

(* addr::create_socket(), addr.cpp:1773-1809. *)
Definition create_socket (answer : syscall -> Z) (a : addr) (flags : Z)
    : list syscall * res Z :=
  let sock_flags :=
    Z.lor (if negb (Z.land flags SOCKET_FLAG_CLOEXEC =? 0) then SOCK_CLOEXEC else 0)
          (if negb (Z.land flags SOCKET_FLAG_NONBLOCK =? 0) then SOCK_NONBLOCK else 0) in
  let family := if is_ipv4 a then AF_INET else AF_INET6 in
  if (f_protocol a =? IPPROTO_IP) || (f_protocol a =? IPPROTO_TCP) then
    let call := Sys_socket family (Z.lor SOCK_STREAM sock_flags) IPPROTO_TCP in
    let s := answer call in
    if (s >=? 0) && negb (Z.land flags SOCKET_FLAG_REUSE =? 0)
    then ([call; Sys_reuseaddr s], Ok s)
    else ([call], Ok s)
  else if f_protocol a =? IPPROTO_UDP then
    let call := Sys_socket family (Z.lor SOCK_DGRAM sock_flags) IPPROTO_UDP in
    ([call], Ok (answer call))
  else ([], Ok (-1)).

(* One system call on the address of the object, addr.cpp:1845-1851,
   1921-1930, 1959-1979. *)
Definition call_with (answer : syscall -> Z) (a : addr) (f : sockname -> syscall)
    : list syscall * res Z :=
  match system_address a with
  | Ok n => ([f n], Ok (answer (f n)))
  | Throw e => ([], Throw e)
  | UB => ([], UB)
  | OutOfFuel => ([], OutOfFuel)
  end.

(* addr::connect(), addr.cpp:1828-1859. *)
Definition connect (answer : syscall -> Z) (a : addr) (s : Z)
    : list syscall * res Z :=
  if (f_protocol a =? IPPROTO_IP) || (f_protocol a =? IPPROTO_TCP)
  then call_with answer a (Sys_connect s)
  else ([], Ok (-1)).

(* addr::bind() const, addr.cpp:1919-1931. *)
Definition bind_const (answer : syscall -> Z) (a : addr) (s : Z)
    : list syscall * res Z :=
  call_with answer a (Sys_bind s).

(* addr::bind(), addr.cpp:1890-1905.  [name] and [type] are the answers used
   by set_from_socket(). *)
Definition bind_socket (answer : syscall -> Z) (name : option sockname)
    (type : option Z) (a : addr) (s : Z) : addr * list syscall * res Z :=
  let '(calls, r) := bind_const answer a s in
  match r with
  | Ok v =>
      if (v =? 0) && (get_port a =? 0)
      then let '(a', r') := set_from_socket a s name type in
           (a', calls, rbind r' (fun _ => Ok v))
      else (a, calls, Ok v)
  | _ => (a, calls, r)
  end.

(* addr::sendto(), addr.cpp:1951-1981. *)
Definition sendto (answer : syscall -> Z) (a : addr) (s : Z) (buffer : str)
    : list syscall * res Z :=
  if negb (f_protocol a =? IPPROTO_UDP) then ([], Ok (-1))
  else call_with answer a (Sys_sendto s buffer).
