(* Text forms of IP addresses: the C library functions inet_pton(3) and
   inet_ntop(3) the library calls, std::to_string() and small string helpers.
   The code modelled here is not part of /repo: each definition cites the call
   in /repo whose behaviour it gives.  The algorithms are those of glibc
   (resolv/inet_pton.c and resolv/inet_ntop.c), loop for loop. *)
From Verif Require Import Base.
Local Open Scope Z_scope.

(* Digits of n in the given base, at most fuel of them, in front of acc; the
   loop inside std::to_string() (addr.cpp:2395) and printf("%x") of
   inet_ntop() (addr.cpp:1427). *)
Fixpoint digits (base : Z) (fuel : nat) (n : Z) (acc : str) : str :=
  match fuel with
  | O => acc
  | S f =>
      let d := n mod base in
      let c := if d <? 10 then 48 + d else 87 + d in
      if n / base =? 0 then c :: acc else digits base f (n / base) (c :: acc)
  end.

(* std::to_string() of a non-negative number, addr.cpp:1314, 1358, 2395;
   addr_parser.cpp:1719, 2155.  The number of binary digits bounds the number
   of decimal digits. *)
Definition dec_string (n : Z) : str := digits 10 (S (Z.to_nat (Z.log2 n))) n [].
(* std::to_string(int), addr_parser.cpp:1802, 1808 *)
Definition to_string_int (n : Z) : str :=
  if n <? 0 then 45 :: dec_string (- n) else dec_string n.
(* printf("%x") of one 16 bit word in inet_ntop(), addr.cpp:1427. *)
Definition hex_string (n : Z) : str := digits 16 4 n [].

(* inet_ntop(AF_INET): "%u.%u.%u.%u", addr.cpp:1286, 1333. *)
Definition inet_ntop4 (b : list Z) : str :=
  dec_string (at_ b 0) ++ [46] ++ dec_string (at_ b 1) ++ [46]
  ++ dec_string (at_ b 2) ++ [46] ++ dec_string (at_ b 3).

(* The eight words of an IPv6 address: first loop of inet_ntop(AF_INET6),
   called at addr.cpp:1427, 1469. *)
Definition word (b : list Z) (i : nat) : Z := at_ b (2 * i) * 256 + at_ b (2 * i + 1).
(* as above, all the words *)
Definition words (b : list Z) : list Z := map (word b) [0;1;2;3;4;5;6;7]%nat.

(* A run of zero words, (base, length); None for base == -1.  The end of a
   run inside the search loop of inet_ntop(AF_INET6), addr.cpp:1427. *)
Definition better_run (cur best : option (nat * nat)) : option (nat * nat) :=
  match cur, best with
  | None, _ => best
  | Some _, None => cur
  | Some (_, cl), Some (_, bl) => if (bl <? cl)%nat then cur else best
  end.
(* The search loop: the first longest run of zero words; zs tells which words
   are zero.  inet_ntop(AF_INET6), addr.cpp:1427. *)
Fixpoint find_run (zs : list bool) (i : nat) (cur best : option (nat * nat))
  : option (nat * nat) :=
  match zs with
  | [] => better_run cur best
  | true :: r =>
      find_run r (S i)
        (match cur with None => Some (i, 1%nat) | Some (b, l) => Some (b, S l) end) best
  | false :: r => find_run r (S i) None (better_run cur best)
  end.
(* The run which gets replaced by "::"; one zero word alone is not.
   inet_ntop(AF_INET6), addr.cpp:1427. *)
Definition best_run (zs : list bool) : option (nat * nat) :=
  match find_run zs 0 None None with
  | Some (b, l) => if (l <? 2)%nat then None else Some (b, l)
  | None => None
  end.

(* The output loop of inet_ntop(AF_INET6), addr.cpp:1427, over the remaining
   words ws, the first of which has index i. *)
Fixpoint ntop6_loop (b : list Z) (best : option (nat * nat)) (ws : list Z) (i : nat) : str :=
  match ws with
  | [] =>
      match best with
      | Some (bb, bl) => if (bb + bl =? 8)%nat then [58] else []
      | None => []
      end
  | w :: r =>
      match best with
      | Some (bb, bl) =>
          if (bb <=? i)%nat && (i <? bb + bl)%nat
          then (if (i =? bb)%nat then [58] else []) ++ ntop6_loop b best r (S i)
          else (if (i =? 0)%nat then [] else [58]) ++
               if (i =? 6)%nat && (bb =? 0)%nat
                  && ((bl =? 6)%nat || ((bl =? 5)%nat && (word b 5 =? 0xFFFF)))
               then inet_ntop4 (skipn 12 b)
               else hex_string w ++ ntop6_loop b best r (S i)
      | None =>
          (if (i =? 0)%nat then [] else [58]) ++ hex_string w ++ ntop6_loop b best r (S i)
      end
  end.
(* inet_ntop(AF_INET6), addr.cpp:1427, 1469. *)
Definition inet_ntop6 (b : list Z) : str :=
  ntop6_loop b (best_run (map (Z.eqb 0) (words b))) (words b) 0.

(* A C string: std::string::c_str() read by a C function ends at the first
   NUL; addr.cpp:962-963, addr_parser.cpp:1918, 1938. *)
Fixpoint c_str (s : str) : str :=
  match s with
  | [] => []
  | c :: r => if c =? 0 then [] else c :: c_str r
  end.

(* The loop of inet_pton(AF_INET), addr.cpp:962, addr_parser.cpp:1918.  out:
   the octets completed so far; cur: the octet being read; octets: the
   counter; saw: saw_digit. *)
Fixpoint pton4_loop (s : str) (out : list Z) (cur : Z) (octets : Z) (saw : bool)
  : option (list Z) :=
  match s with
  | [] => if octets <? 4 then None else Some (out ++ [cur])
  | ch :: r =>
      if (48 <=? ch) && (ch <=? 57) then
        let new := cur * 10 + (ch - 48) in
        if saw && (cur =? 0) then None
        else if 255 <? new then None
        else if saw then pton4_loop r out new octets true
        else if 4 <? octets + 1 then None
        else pton4_loop r out new (octets + 1) true
      else if (ch =? 46) && saw then
        if octets =? 4 then None
        else pton4_loop r (out ++ [cur]) 0 octets false
      else None
  end.
(* inet_pton(AF_INET, s): the four bytes, or None when it does not return 1;
   s is the C string (see c_str).  addr.cpp:962, addr_parser.cpp:1918. *)
Definition inet_pton4 (s : str) : option (list Z) := pton4_loop s [] 0 0 false.

(* hex_digit_value() of inet_pton(AF_INET6), addr.cpp:963. *)
Definition hex_digit (c : Z) : option Z :=
  if (48 <=? c) && (c <=? 57) then Some (c - 48)
  else if (97 <=? c) && (c <=? 102) then Some (c - 87)
  else if (65 <=? c) && (c <=? 70) then Some (c - 55)
  else None.

(* The end of inet_pton(AF_INET6) (addr.cpp:963, addr_parser.cpp:1938), after
   the loop: flush the last word, expand "::", check the size. *)
Definition pton6_finish (tp : list Z) (colonp : option nat) (xdigits : nat) (val : Z)
  : option (list Z) :=
  let flushed :=
    if (0 <? xdigits)%nat then
      if (16 <? length tp + 2)%nat then None
      else Some (tp ++ [val / 256 mod 256; val mod 256])
    else Some tp in
  match flushed with
  | None => None
  | Some tp =>
      match colonp with
      | Some c =>
          if (length tp =? 16)%nat then None
          else Some (firstn c tp ++ repeat 0 (16 - length tp) ++ skipn c tp)
      | None => if (length tp =? 16)%nat then Some tp else None
      end
  end.

(* The loop of inet_pton(AF_INET6), addr.cpp:963, addr_parser.cpp:1938.
   curtok: the text from the start of the current token on; tp: the bytes
   written so far; colonp: where "::" was found. *)
Fixpoint pton6_loop (s curtok : str) (tp : list Z) (colonp : option nat)
  (xdigits : nat) (val : Z) : option (list Z) :=
  match s with
  | [] => pton6_finish tp colonp xdigits val
  | ch :: r =>
      match hex_digit ch with
      | Some d =>
          if (xdigits =? 4)%nat then None
          else
            let val := val * 16 + d in
            if 0xFFFF <? val then None
            else pton6_loop r curtok tp colonp (S xdigits) val
      | None =>
          if ch =? 58 then
            if (xdigits =? 0)%nat then
              match colonp with
              | Some _ => None
              | None => pton6_loop r r tp (Some (length tp)) 0 val
              end
            else
              match r with
              | [] => None
              | _ :: _ =>
                  if (16 <? length tp + 2)%nat then None
                  else pton6_loop r r (tp ++ [val / 256 mod 256; val mod 256]) colonp 0 0
              end
          else if (ch =? 46) && (length tp + 4 <=? 16)%nat then
            match inet_pton4 curtok with
            | Some q => pton6_finish (tp ++ q) colonp 0 val
            | None => None
            end
          else None
      end
  end.
(* inet_pton(AF_INET6, s): the sixteen bytes, or None when it does not return
   1.  addr.cpp:963, addr_parser.cpp:1938. *)
Definition inet_pton6 (s : str) : option (list Z) :=
  match s with
  | [] => None
  | c :: r =>
      if c =? 58 then
        match r with
        | d :: _ => if d =? 58 then pton6_loop r r [] None 0 0 else None
        | [] => None
        end
      else pton6_loop s s [] None 0 0
  end.

(* isspace() in the C locale, addr_parser.cpp:1066, 1078. *)
Definition isspace (c : Z) : bool := (c =? 32) || ((9 <=? c) && (c <=? 13)).
