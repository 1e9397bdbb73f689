(* Model of addr_unix (addr_unix.h, addr_unix.cpp).  The UTF-8 decoder of
   libutf8, which is not in /repo, is the argument [decode]; None: it throws.
   The texts of the exceptions are not modelled. *)
From Verif Require Import Base.
Local Open Scope Z_scope.

(* AF_UNIX of <sys/socket.h> (Linux value), addr_unix.h:77. *)
Definition AF_UNIX : Z := 1.
(* sizeof(sun_path) of <sys/un.h> (Linux), addr_unix.cpp:246-253. *)
Definition SUN_PATH : nat := 108.

(* struct sockaddr_un of <sys/un.h>; sun_path is an array of SUN_PATH bytes;
   addr_unix.h:128. *)
Record sockaddr_un := mk_un {
  sun_family : Z;
  sun_path : list Z
}.

(* init_un(), addr_unix.h:74-79. *)
Definition init_un : sockaddr_un := mk_un AF_UNIX (repeat 0 SUN_PATH).

(* DEFAULT_MODE, addr_unix.h:82 (octal 0600). *)
Definition DEFAULT_MODE : Z := 384.

(* The fields of class addr_unix, addr_unix.h:127-130. *)
Record addr_unix := mk_unix {
  u_scheme : str;
  u_address : sockaddr_un;
  u_mode : Z;
  u_group : str
}.

(* addr_unix::addr_unix(), addr_unix.cpp:81-83, addr_unix.h:127-130. *)
Definition unix_new : addr_unix := mk_unix [] init_un DEFAULT_MODE [].

(* assignment to f_address.sun_path, addr_unix.cpp:223, 244-253, 343-353. *)
Definition with_path (u : addr_unix) (path : list Z) : addr_unix :=
  mk_unix (u_scheme u) (mk_un (sun_family (u_address u)) path) (u_mode u) (u_group u).

(* addr_unix::set_scheme(), addr_unix.cpp:141-144. *)
Definition set_scheme (u : addr_unix) (scheme : str) : addr_unix :=
  mk_unix (if str_eqb scheme (lit "unix") then [] else scheme) (u_address u) (u_mode u) (u_group u).
(* addr_unix::set_mode(), addr_unix.cpp:283-286. *)
Definition set_mode (u : addr_unix) (mode : Z) : addr_unix :=
  mk_unix (u_scheme u) (u_address u) mode (u_group u).
(* addr_unix::set_group(), addr_unix.cpp:301-304. *)
Definition set_group (u : addr_unix) (group : str) : addr_unix :=
  mk_unix (u_scheme u) (u_address u) (u_mode u) group.
(* addr_unix::make_unnamed(), addr_unix.cpp:221-224. *)
Definition make_unnamed (u : addr_unix) : addr_unix := with_path u (repeat 0 SUN_PATH).

(* The part of a char array before its first NUL; strnlen() is its length,
   addr_unix.cpp:182, 197, and it is what a pointer to a C string gives,
   addr_unix.cpp:344. *)
Fixpoint before_nul (s : list Z) : str :=
  match s with
  | [] => []
  | c :: r => if c =? 0 then [] else c :: before_nul r
  end.
(* A std::string made from a char array (addr_unix.cpp:706-709, 735-748):
   without a NUL in the array the read leaves the array. *)
Definition c_string (s : list Z) : res str :=
  if existsb (Z.eqb 0) s then Ok (before_nul s) else UB.

(* memcpy(dst + at, src, src.length()), addr_unix.cpp:244; a write outside of
   the array is undefined. *)
Definition write_at (dst : list Z) (at_ : nat) (src : list Z) : res (list Z) :=
  if (at_ + length src <=? length dst)%nat
  then Ok (firstn at_ dst ++ src ++ skipn (at_ + length src) dst)
  else UB.
(* strncpy(dst + at, src.c_str(), n), addr_unix.cpp:344: n bytes are written,
   zeroes after the end of src. *)
Definition strncpy_at (dst : list Z) (at_ : nat) (src : str) (n : nat) : res (list Z) :=
  write_at dst at_ (firstn n (before_nul src ++ repeat 0 n)).

(* snapdev::tokenize_string(segments, s, "/", true), which is not in /repo,
   addr_unix.cpp:965: the parts between slashes which are not empty. cur: the
   part read so far. *)
Fixpoint tokenize_slash (s cur : str) : list str :=
  match s with
  | [] => match cur with [] => [] | _ => [cur] end
  | c :: r =>
      if c =? 47
      then match cur with [] => tokenize_slash r [] | _ => cur :: tokenize_slash r [] end
      else tokenize_slash r (cur ++ [c])
  end.
(* snapdev::join_strings(segments, "/"), which is not in /repo,
   addr_unix.cpp:966. *)
Fixpoint join_slash (l : list str) : str :=
  match l with
  | [] => []
  | [s] => s
  | s :: r => s ++ [47] ++ join_slash r
  end.

(* The characters rejected at addr_unix.cpp:986-987. *)
Definition is_control (c : Z) : bool := (c <=? 0x1F) || ((c >=? 0x7F) && (c <=? 0x9F)).

(* addr_unix::verify_path(), addr_unix.cpp:950-1003. *)
Definition verify_path (decode : str -> option (list Z)) (path : str) (abstract : bool) : res str :=
  match path with
  | [] => Throw E_invalid_argument
  | c :: _ =>
      let max_length := if abstract then (SUN_PATH - 1)%nat else SUN_PATH in
      let p := join_slash (tokenize_slash path []) in
      let p := if c =? 47 then [47] ++ p else p in
      if (max_length <=? length p)%nat then Throw E_invalid_argument
      else match decode p with
           | None => Throw E_std
           | Some u32 =>
               if existsb is_control u32 then Throw E_invalid_argument
               else if str_eqb p [47] then Throw E_invalid_argument
               else Ok p
           end
  end.

(* The result of a member function which changes the object: the object
   afterwards and the outcome (e.g. addr_unix.cpp:240-254). *)
Definition and_then {A} (u : addr_unix) (r : res A) (f : A -> addr_unix * res unit) : addr_unix * res unit :=
  match r with
  | Ok a => f a
  | Throw e => (u, Throw e)
  | UB => (u, UB)
  | OutOfFuel => (u, OutOfFuel)
  end.

(* addr_unix::set_file(), addr_unix.cpp:240-254. *)
Definition set_file (decode : str -> option (list Z)) (u : addr_unix) (file : str) : addr_unix * res unit :=
  and_then u (verify_path decode file false) (fun address =>
  and_then u (write_at (sun_path (u_address u)) 0 address) (fun path =>
    if (length address <? SUN_PATH)%nat then
      and_then u (write_at path (length address) (repeat 0 (SUN_PATH - length address)))
        (fun path => (with_path u path, Ok tt))
    else (with_path u path, Ok tt))).

(* addr_unix::set_abstract(), addr_unix.cpp:339-354. *)
Definition set_abstract (decode : str -> option (list Z)) (u : addr_unix) (abstract : str) : addr_unix * res unit :=
  and_then u (verify_path decode abstract true) (fun address =>
  and_then u (write_at (sun_path (u_address u)) 0 [0]) (fun path =>
  and_then u (strncpy_at path 1 address (SUN_PATH - 1)) (fun path =>
    if (length address <? SUN_PATH - 2)%nat then
      and_then u (write_at path (length address + 2) (repeat 0 (SUN_PATH - length address - 2)))
        (fun path => (with_path u path, Ok tt))
    else (with_path u path, Ok tt)))).

(* addr_unix::set_un(), addr_unix.cpp:173-208. *)
Definition set_un (decode : str -> option (list Z)) (u : addr_unix) (un : sockaddr_un) : addr_unix * res unit :=
  if negb (sun_family un =? AF_UNIX) then (u, Throw E_invalid_structure)
  else if negb (nth 0 (sun_path un) 0 =? 0) then
    let name := before_nul (sun_path un) in
    if (length name =? SUN_PATH)%nat then (u, Throw E_invalid_argument)
    else set_file decode u name
  else if negb (nth 1 (sun_path un) 0 =? 0) then
    let name := before_nul (skipn 1 (sun_path un)) in
    if (length name =? SUN_PATH - 1)%nat then (u, Throw E_invalid_argument)
    else set_abstract decode u name
  else (make_unnamed u, Ok tt).

(* addr_unix::addr_unix(sockaddr_un const &), addr_unix.cpp:93-96; no object
   exists after an exception. *)
Definition unix_from_un (decode : str -> option (list Z)) (un : sockaddr_un) : res addr_unix :=
  match set_un decode unix_new un with
  | (u, Ok _) => Ok u
  | (_, Throw e) => Throw e
  | (_, UB) => UB
  | (_, OutOfFuel) => OutOfFuel
  end.
(* addr_unix::addr_unix(std::string const &, bool), addr_unix.cpp:112-126. *)
Definition unix_from_string (decode : str -> option (list Z)) (address : str) (abstract : bool) : res addr_unix :=
  match (if abstract then set_abstract decode unix_new address
         else match address with [] => (unix_new, Ok tt) | _ => set_file decode unix_new address end) with
  | (u, Ok _) => Ok u
  | (_, Throw e) => Throw e
  | (_, UB) => UB
  | (_, OutOfFuel) => OutOfFuel
  end.

(* std::string::find(char), addr_unix.cpp:421, 454. *)
Fixpoint find_at (c : Z) (s : str) : option nat :=
  match s with
  | [] => None
  | x :: r => if x =? c then Some O else option_map S (find_at c r)
  end.
(* 'a' to 'z' and 'A' to 'Z', addr_unix.cpp:435-436. *)
Definition is_letter (c : Z) : bool := ((97 <=? c) && (c <=? 122)) || ((65 <=? c) && (c <=? 90)).
(* '0' to '9', '+', '-' and '.', addr_unix.cpp:438. *)
Definition is_scheme_extra (c : Z) : bool :=
  ((48 <=? c) && (c <=? 57)) || (c =? 43) || (c =? 45) || (c =? 46).
(* The loop over the scheme, addr_unix.cpp:432-450; first: it ==
   scheme.begin(). *)
Fixpoint scheme_ok (s : str) (first : bool) : bool :=
  match s with
  | [] => true
  | c :: r => (is_letter c || (negb first && is_scheme_extra c)) && scheme_ok r false
  end.

(* addr_unix::set_uri(), addr_unix.cpp:411-527. *)
Definition set_uri (decode : str -> option (list Z)) (u : addr_unix) (uri : str) : addr_unix * res unit :=
  match find_at 58 uri with
  | None => (u, Throw E_invalid_argument)
  | Some scheme_pos =>
      let scheme := firstn scheme_pos uri in
      let rest := skipn (scheme_pos + 1) uri in
      match scheme with
      | [] => (u, Throw E_invalid_argument)
      | _ =>
          if negb (scheme_ok scheme true) then (u, Throw E_invalid_argument)
          else
            let '(address, query) :=
              match find_at 63 rest with
              | None => (rest, [])
              | Some query_pos => (firstn query_pos rest, skipn (query_pos + 1) rest)
              end in
            let '(u1, r) :=
              match query with
              | [] => match address with [] => (make_unnamed u, Ok tt) | _ => set_file decode u address end
              | _ =>
                  if str_eqb query (lit "unnamed") then
                    match address with [] => (make_unnamed u, Ok tt) | _ => (u, Throw E_invalid_argument) end
                  else if str_eqb query (lit "file") then set_file decode u address
                  else if str_eqb query (lit "abstract") then set_abstract decode u address
                  else (u, Throw E_invalid_argument)
              end in
            match r with
            | Ok _ => (set_scheme u1 scheme, Ok tt)
            | _ => (u1, r)
            end
      end
  end.

(* addr_unix::set_from_socket(), addr_unix.cpp:549-579.  [name] is the answer
   of getsockname() (None: it failed): the family and the bytes of sun_path
   it wrote, at most SUN_PATH of them; the rest is cleared at lines 568-574.
   errno is in Errno.v. *)
Definition set_from_socket (decode : str -> option (list Z)) (u : addr_unix) (name : option (Z * list Z))
    : addr_unix * res bool :=
  match name with
  | None => (u, Ok false)
  | Some (family, path) =>
      if negb (family =? AF_UNIX) then (u, Ok false)
      else
        let path := firstn SUN_PATH (path ++ repeat 0 SUN_PATH) in
        match set_un decode u (mk_un family path) with
        | (u1, Ok _) => (u1, Ok true)
        | (u1, Throw e) => (u1, Throw e)
        | (u1, UB) => (u1, UB)
        | (u1, OutOfFuel) => (u1, OutOfFuel)
        end
  end.

(* addr_unix::is_file(), addr_unix.cpp:589-592. *)
Definition is_file (u : addr_unix) : bool := negb (nth 0 (sun_path (u_address u)) 0 =? 0).
(* addr_unix::is_abstract(), addr_unix.cpp:605-609. *)
Definition is_abstract (u : addr_unix) : bool :=
  (nth 0 (sun_path (u_address u)) 0 =? 0) && negb (nth 1 (sun_path (u_address u)) 0 =? 0).
(* addr_unix::is_unnamed(), addr_unix.cpp:621-625. *)
Definition is_unnamed (u : addr_unix) : bool :=
  (nth 0 (sun_path (u_address u)) 0 =? 0) && (nth 1 (sun_path (u_address u)) 0 =? 0).

(* addr_unix::get_scheme(), addr_unix.cpp:637-640. *)
Definition get_scheme (u : addr_unix) : str := match u_scheme u with [] => lit "unix" | s => s end.
(* addr_unix::get_un(), addr_unix.cpp:654-657. *)
Definition get_un (u : addr_unix) : sockaddr_un := u_address u.
(* addr_unix::get_mode(), addr_unix.cpp:672-675. *)
Definition get_mode (u : addr_unix) : Z := u_mode u.
(* addr_unix::get_group(), addr_unix.cpp:687-690. *)
Definition get_group (u : addr_unix) : str := u_group u.

(* addr_unix::to_string(), addr_unix.cpp:702-710. *)
Definition to_string (u : addr_unix) : res str :=
  if is_abstract u then c_string (skipn 1 (sun_path (u_address u)))
  else c_string (sun_path (u_address u)).

(* addr_unix::to_uri(), addr_unix.cpp:723-754. *)
Definition to_uri (u : addr_unix) : res str :=
  let result := get_scheme u ++ [58] in
  if is_unnamed u then Ok result
  else
    let path := if is_file u then sun_path (u_address u) else skipn 1 (sun_path (u_address u)) in
    let query := if is_file u then [] else lit "?abstract" in
    let result := if nth 0 path 0 =? 47 then result ++ lit "//" else result in
    let! name := c_string path in
    Ok (result ++ name ++ query).

(* addr_unix::unlink(), addr_unix.cpp:779-787: the path given to ::unlink(),
   if it is called. *)
Definition unlink (u : addr_unix) : res (option str) :=
  if is_file u then let! p := c_string (sun_path (u_address u)) in Ok (Some p)
  else Ok None.

(* The bytes of a struct sockaddr_un: a two byte family (little endian), then
   the path; addr_unix.h:143-173. *)
Definition un_bytes (x : sockaddr_un) : list Z :=
  u8 (sun_family x) :: u8 (sun_family x / 2 ^ 8) :: sun_path x.
(* operators == != < <= > >= of sockaddr_un and addr_unix, addr_unix.h:141-174,
   addr_unix.cpp:807-913. *)
Definition unix_compare (a b : addr_unix) : Z := memcmp (un_bytes (u_address a)) (un_bytes (u_address b)).
(* addr_unix.cpp:807-810. *)
Definition unix_eq (a b : addr_unix) : bool := unix_compare a b =? 0.
(* addr_unix.cpp:827-830. *)
Definition unix_ne (a b : addr_unix) : bool := negb (unix_compare a b =? 0).
(* addr_unix.cpp:848-851. *)
Definition unix_lt (a b : addr_unix) : bool := unix_compare a b <? 0.
(* addr_unix.cpp:868-871. *)
Definition unix_le (a b : addr_unix) : bool := unix_compare a b <=? 0.
(* addr_unix.cpp:889-892. *)
Definition unix_gt (a b : addr_unix) : bool := unix_compare a b >? 0.
(* addr_unix.cpp:910-913. *)
Definition unix_ge (a b : addr_unix) : bool := unix_compare a b >=? 0.

(* The public member functions which can change an object, addr_unix.h:95-104;
   used to state properties of arbitrary call histories. *)
Inductive unix_op : Type :=
| U_set_scheme (scheme : str)
| U_set_un (un : sockaddr_un)
| U_make_unnamed
| U_set_file (file : str)
| U_set_mode (mode : Z)
| U_set_group (group : str)
| U_set_abstract (abstract : str)
| U_set_uri (uri : str)
| U_set_from_socket (name : option (Z * list Z)).

(* One call: the object afterwards; addr_unix.h:95-104. *)
Definition unix_step (decode : str -> option (list Z)) (u : addr_unix) (op : unix_op) : addr_unix :=
  match op with
  | U_set_scheme s => set_scheme u s
  | U_set_un un => fst (set_un decode u un)
  | U_make_unnamed => make_unnamed u
  | U_set_file f => fst (set_file decode u f)
  | U_set_mode m => set_mode u m
  | U_set_group g => set_group u g
  | U_set_abstract s => fst (set_abstract decode u s)
  | U_set_uri s => fst (set_uri decode u s)
  | U_set_from_socket n => fst (set_from_socket decode u n)
  end.
