(* The comparison operators of the socket structures. *)
From Verif Require Import Base Addr Unix.
Local Open Scope Z_scope.

(* A 16 bit and a 32 bit word in memory, little endian; addr.h:503. *)
Definition bytes_of16 (x : Z) : list Z := [u8 x; u8 (x / 2 ^ 8)].
(* the same for 32 bits; addr.h:503. *)
Definition bytes_of32 (x : Z) : list Z := [u8 x; u8 (x / 2 ^ 8); u8 (x / 2 ^ 16); u8 (x / 2 ^ 24)].
(* The 28 bytes of a struct sockaddr_in6 in the order of its members, which
   has no padding; addr.h:501-534. *)
Definition in6_bytes (x : sockaddr_in6) : list Z :=
  bytes_of16 (sin6_family x) ++ bytes_of16 (sin6_port x) ++ bytes_of32 (sin6_flowinfo x)
  ++ sin6_addr x ++ bytes_of32 (sin6_scope_id x).

(* memcmp() of two structures, addr.h:503. *)
Definition in6_compare (a b : sockaddr_in6) : Z := memcmp (in6_bytes a) (in6_bytes b).
(* operator == of sockaddr_in6, addr.h:501-504. *)
Definition in6_eq (a b : sockaddr_in6) : bool := in6_compare a b =? 0.
(* operator !=, addr.h:507-510. *)
Definition in6_ne (a b : sockaddr_in6) : bool := negb (in6_compare a b =? 0).
(* operator <, addr.h:513-516. *)
Definition in6_lt (a b : sockaddr_in6) : bool := in6_compare a b <? 0.
(* operator <=, addr.h:519-522. *)
Definition in6_le (a b : sockaddr_in6) : bool := in6_compare a b <=? 0.
(* operator >, addr.h:525-528. *)
Definition in6_gt (a b : sockaddr_in6) : bool := in6_compare a b >? 0.
(* operator >=, addr.h:531-534. *)
Definition in6_ge (a b : sockaddr_in6) : bool := in6_compare a b >=? 0.

(* operators == != < <= > >= of in6_addr, addr.h:537-570: memcmp() of 16
   bytes. *)
Definition addr6_eq (a b : list Z) : bool := memcmp a b =? 0.
(* operator !=, addr.h:543-546. *)
Definition addr6_ne (a b : list Z) : bool := negb (memcmp a b =? 0).
(* operator <, addr.h:549-552. *)
Definition addr6_lt (a b : list Z) : bool := memcmp a b <? 0.
(* operator <=, addr.h:555-558. *)
Definition addr6_le (a b : list Z) : bool := memcmp a b <=? 0.
(* operator >, addr.h:561-564. *)
Definition addr6_gt (a b : list Z) : bool := memcmp a b >? 0.
(* operator >=, addr.h:567-570. *)
Definition addr6_ge (a b : list Z) : bool := memcmp a b >=? 0.

(* operators of sockaddr_un, addr_unix.h:141-174. *)
Definition un_eq (a b : sockaddr_un) : bool := memcmp (un_bytes a) (un_bytes b) =? 0.
(* operator !=, addr_unix.h:147-150. *)
Definition un_ne (a b : sockaddr_un) : bool := negb (memcmp (un_bytes a) (un_bytes b) =? 0).
(* operator <, addr_unix.h:153-156. *)
Definition un_lt (a b : sockaddr_un) : bool := memcmp (un_bytes a) (un_bytes b) <? 0.
(* operator <=, addr_unix.h:159-162. *)
Definition un_le (a b : sockaddr_un) : bool := memcmp (un_bytes a) (un_bytes b) <=? 0.
(* operator >, addr_unix.h:165-168. *)
Definition un_gt (a b : sockaddr_un) : bool := memcmp (un_bytes a) (un_bytes b) >? 0.
(* operator >=, addr_unix.h:171-174. *)
Definition un_ge (a b : sockaddr_un) : bool := memcmp (un_bytes a) (un_bytes b) >=? 0.
