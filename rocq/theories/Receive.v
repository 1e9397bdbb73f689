(* Model of addr::recvfrom() with the system calls it makes and what it
   returns; [Addr.recvfrom] only has the object it leaves.  The answers of the
   system are an argument. *)
From Verif Require Import Base Addr.
Local Open Scope Z_scope.

(* The system calls of addr::recvfrom(), addr.cpp:2015 (which makes two,
   addr.cpp:2159, 2194) and addr.cpp:2029-2035, 2045-2051, with the arguments
   which vary.  The buffer goes to the system as it is: the library itself does
   not access it. *)
Inductive receive_call : Type :=
| Rc_name (s : Z)             (* getsockname() *)
| Rc_type (s : Z)             (* getsockopt(SO_TYPE) *)
| Rc_receive (s size : Z).    (* recvfrom() *)

(* What the system answers: the name and the type of the socket (None: the call
   failed), what ::recvfrom() returns (an ssize_t) and the whole structure of
   the sender, before it is cut to the size of the variable, addr.cpp:2029-2051. *)
Record kernel := mk_kernel {
  k_name : option sockname;
  k_type : option Z;
  k_count : Z;
  k_sender : sockname }.

(* The variable ipv4 after ::recvfrom(), addr.cpp:2027-2035: at most its 16
   bytes were written, which are family, port and flow information of a
   sockaddr_in6.  Simplification: a sender of another family is one which is
   refused. *)
Definition received4 (n : sockname) : sockaddr_in :=
  match n with
  | SN_in x => x
  | SN_in6 x => mk_in (sin6_family x) (sin6_port x) (sin6_flowinfo x)
  | SN_other => mk_in 0 0 0
  end.
(* The variable ipv6 after ::recvfrom(), addr.cpp:2043-2051.  Simplification: the
   bytes which a shorter structure leaves undefined are zero here; set_ipv6()
   refuses it before it reads them. *)
Definition received6 (n : sockname) : sockaddr_in6 :=
  match n with
  | SN_in x => mk_in6 (sin_family x) (sin_port x) (s_addr x) (zeroes 16) 0
  | SN_in6 x => x
  | SN_other => mk_in6 0 0 0 (zeroes 16) 0
  end.

(* The calls of addr::set_from_socket(s, false), addr.cpp:2138-2227. *)
Definition from_socket_calls (s : Z) (name : option sockname) : list receive_call :=
  if s <? 0 then []
  else match name with
    | Some (SN_in _) | Some (SN_in6 _) => [Rc_name s; Rc_type s]
    | _ => [Rc_name s]
    end.

(* addr::recvfrom(), addr.cpp:2011-2058: the object, the calls and the result;
   r is an int. *)
Definition receive (k : kernel) (a : addr) (s size : Z) : addr * list receive_call * res Z :=
  let calls := from_socket_calls s (k_name k) in
  let '(a1, r) := set_from_socket a s (k_name k) (k_type k) in
  match r with
  | Ok _ =>
      if negb (f_protocol a1 =? IPPROTO_UDP) then (a1, calls, Ok (-1))
      else
        let calls := calls ++ [Rc_receive s size] in
        let r := s32 (k_count k) in
        let '(a2, u) :=
          if r >=? 0
          then if is_ipv4 a1 then set_ipv4 a1 (received4 (k_sender k)) else set_ipv6 a1 (received6 (k_sender k))
          else (a1, Ok tt) in
        (a2, calls, rbind u (fun _ => Ok r))
  | Throw e => (a1, calls, Throw e)
  | UB => (a1, calls, UB)
  | OutOfFuel => (a1, calls, OutOfFuel)
  end.
