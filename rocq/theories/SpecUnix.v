(* What the Unix address properties talk about: names, paths as sequences of
   segments, and the objects a program can hold. *)
From Verif Require Import Base Unix.
Local Open Scope Z_scope.

(* A Unix address is unnamed, or it has a file name, or an abstract name. *)
Inductive unix_name : Type :=
| Unnamed
| File (path : str)
| Abstract (path : str).

(* A segment of a path: not empty, without slash. *)
Definition segment (s : str) : Prop := s <> [] /\ ~ In 47 s.

(* [spells s l]: the string is the segments of l, in that order, separated by
   one or more slashes, with any number of slashes at either end. *)
Inductive spells : str -> list str -> Prop :=
| spells_end : forall n, spells (repeat 47 n) []
| spells_last : forall n s m, segment s -> spells (repeat 47 n ++ s ++ repeat 47 m) [s]
| spells_more : forall n s rest l, segment s -> spells rest l ->
    spells (repeat 47 n ++ s ++ 47 :: rest) (s :: l).

(* The string has a slash first. *)
Definition absolute (s : str) : Prop := exists r, s = 47 :: r.

(* Each segment preceded by a slash. *)
Definition slashed (l : list str) : str := concat (map (fun s => 47 :: s) l).

(* [canonical s p]: p is the short way to write the path s: the same
   segments, one slash between two of them, one in front if s had some, none
   at the end. There is at least one segment. *)
Definition canonical (s p : str) : Prop :=
  exists l, l <> [] /\ spells s l /\
    ((absolute s /\ p = slashed l) \/ (~ absolute s /\ 47 :: p = slashed l)).

(* A character which may appear in a name: not one of the C0 controls, not
   DEL and not one of the C1 controls. *)
Definition printable (c : Z) : Prop := 0x20 <= c <= 0x7E \/ 0xA0 <= c.

(* [name_of decode max s p]: the path s can be used as a name of at most max
   bytes, and p is that name. *)
Definition name_of (decode : str -> option (list Z)) (max : nat) (s p : str) : Prop :=
  canonical s p /\ (length p <= max)%nat /\
  exists text, decode p = Some text /\ Forall printable text.

(* The names an address can have. 108 bytes are available: a file name has to
   be followed by a zero, an abstract name is between two of them. *)
Definition good_name (decode : str -> option (list Z)) (n : unix_name) : Prop :=
  match n with
  | Unnamed => True
  | File p => name_of decode 107 p p
  | Abstract p => name_of decode 106 p p
  end.

(* What a program sees of the name of an address. *)
Definition has_name (u : addr_unix) (n : unix_name) : Prop :=
  match n with
  | Unnamed => is_unnamed u = true /\ is_file u = false /\ is_abstract u = false /\ to_string u = Ok []
  | File p => is_unnamed u = false /\ is_file u = true /\ is_abstract u = false /\ to_string u = Ok p
  | Abstract p => is_unnamed u = false /\ is_file u = false /\ is_abstract u = true /\ to_string u = Ok p
  end.

(* The structure the kernel is given for a name: unix(7). *)
Definition kernel_name (n : unix_name) : sockaddr_un :=
  mk_un 1 match n with
          | Unnamed => repeat 0 108
          | File p => p ++ repeat 0 (108 - length p)
          | Abstract p => 0 :: p ++ repeat 0 (107 - length p)
          end.

(* The other fields of two objects are the same. *)
Definition same_settings (u v : addr_unix) : Prop :=
  get_scheme u = get_scheme v /\ get_mode u = get_mode v /\ get_group u = get_group v.

(* The decoder leaves the ASCII characters as they are: one which is in the
   input is in the output. *)
Definition keeps_ascii (decode : str -> option (list Z)) : Prop :=
  forall s text c, decode s = Some text -> In c s -> 0 <= c < 128 -> In c text.

(* A structure passed to set_un() has the 108 bytes of its type. *)
Definition proper_op (op : unix_op) : Prop :=
  match op with
  | U_set_un un => length (sun_path un) = 108%nat
  | _ => True
  end.

(* The objects a program can hold: made by one of the constructors, then
   changed by any calls, including those which end with an exception. *)
Inductive unix_reachable (decode : str -> option (list Z)) : addr_unix -> Prop :=
| reach_new : unix_reachable decode unix_new
| reach_un : forall un u, length (sun_path un) = 108%nat ->
    unix_from_un decode un = Ok u -> unix_reachable decode u
| reach_string : forall s abstract u,
    unix_from_string decode s abstract = Ok u -> unix_reachable decode u
| reach_step : forall u op, unix_reachable decode u -> proper_op op ->
    unix_reachable decode (unix_step decode u op).

(* The schemes of RFC 3986: a letter, then letters, digits, '+', '-', '.'. *)
Definition letter (c : Z) : Prop := 97 <= c <= 122 \/ 65 <= c <= 90.
Definition uri_scheme (s : str) : Prop :=
  exists c r, s = c :: r /\ letter c /\
    Forall (fun d => letter d \/ 48 <= d <= 57 \/ d = 43 \/ d = 45 \/ d = 46) r.

(* The order of names: unnamed first, then the abstract ones, then files; two
   of the same kind as their bytes. *)
Inductive bytes_before : str -> str -> Prop :=
| before_end : forall c r, bytes_before [] (c :: r)
| before_here : forall c d r q, c < d -> bytes_before (c :: r) (d :: q)
| before_later : forall c r q, bytes_before r q -> bytes_before (c :: r) (c :: q).
Inductive name_before : unix_name -> unix_name -> Prop :=
| unnamed_abstract : forall p, name_before Unnamed (Abstract p)
| unnamed_file : forall p, name_before Unnamed (File p)
| abstract_file : forall p q, name_before (Abstract p) (File q)
| abstract_abstract : forall p q, bytes_before p q -> name_before (Abstract p) (Abstract q)
| file_file : forall p q, bytes_before p q -> name_before (File p) (File q).

(* A decoder of UTF-8 (RFC 3629), to show that there is one which meets the
   premises. *)
Definition tail_byte (c : Z) : bool := (0x80 <=? c) && (c <=? 0xBF).
Fixpoint utf8 (s : str) : option (list Z) :=
  match s with
  | [] => Some []
  | c :: r =>
      if (0 <=? c) && (c <? 0x80) then option_map (cons c) (utf8 r)
      else match r with
      | [] => None
      | d :: r =>
          if (0xC2 <=? c) && (c <? 0xE0) && tail_byte d
          then option_map (cons ((c - 0xC0) * 0x40 + (d - 0x80))) (utf8 r)
          else match r with
          | [] => None
          | e :: r =>
              let v := (c - 0xE0) * 0x1000 + (d - 0x80) * 0x40 + (e - 0x80) in
              if (0xE0 <=? c) && (c <? 0xF0) && tail_byte d && tail_byte e
                 && (0x800 <=? v) && negb ((0xD800 <=? v) && (v <? 0xE000))
              then option_map (cons v) (utf8 r)
              else match r with
              | [] => None
              | f :: r =>
                  let v := (c - 0xF0) * 0x40000 + (d - 0x80) * 0x1000 + (e - 0x80) * 0x40 + (f - 0x80) in
                  if (0xF0 <=? c) && (c <? 0xF8) && tail_byte d && tail_byte e && tail_byte f
                     && (0x10000 <=? v) && (v <? 0x110000)
                  then option_map (cons v) (utf8 r)
                  else None
              end
          end
      end
  end.

(* [uri_names decode t scheme n]: t is a URI which names the address n:
   scheme ":" path, then optionally "?" and what the path is. *)
Inductive uri_names (decode : str -> option (list Z)) : str -> str -> unix_name -> Prop :=
| uri_unnamed : forall scheme query, uri_scheme scheme ->
    In query [[]; lit "?"; lit "?unnamed"] ->
    uri_names decode (scheme ++ lit ":" ++ query) scheme Unnamed
| uri_file : forall scheme path query p, uri_scheme scheme ->
    ~ In 63 path -> name_of decode 107 path p ->
    In query [[]; lit "?"; lit "?file"] ->
    uri_names decode (scheme ++ lit ":" ++ path ++ query) scheme (File p)
| uri_abstract : forall scheme path p, uri_scheme scheme ->
    ~ In 63 path -> name_of decode 106 path p ->
    uri_names decode (scheme ++ lit ":" ++ path ++ lit "?abstract") scheme (Abstract p).
