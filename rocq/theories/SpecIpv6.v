(* The texts of IPv6 addresses: those of RFC 4291 (2.2) which are read, and
   those of RFC 5952 (4) which are written. *)
From Verif Require Import Base Addr Spec SpecText.
Local Open Scope Z_scope.

(* The value of a hexadecimal digit. *)
Definition hex_char (c d : Z) : Prop :=
  (48 <= c <= 57 /\ d = c - 48) \/ (65 <= c <= 70 /\ d = c - 65 + 10) \/ (97 <= c <= 102 /\ d = c - 97 + 10).
Inductive hexadecimal : str -> Z -> Prop :=
| hex_nil : hexadecimal [] 0
| hex_snoc s v c d : hexadecimal s v -> hex_char c d -> hexadecimal (s ++ [c]) (v * 16 + d).
(* A group: up to four digits. *)
Definition group (s : str) (w : Z) : Prop := hexadecimal s w /\ (1 <= length s <= 4)%nat.

(* Groups with a colon between each two. *)
Inductive groups : str -> list Z -> Prop :=
| groups_one s w : group s w -> groups s [w]
| groups_cons s w t ws : group s w -> groups t ws -> groups (s ++ lit ":" ++ t) (w :: ws).
(* The same, and the last two words can be written like an IPv4 address. *)
Inductive end_groups : str -> list Z -> Prop :=
| end_one s w : group s w -> end_groups s [w]
| end_v4 s v : dotted s v -> end_groups s [v / 2 ^ 16; v mod 2 ^ 16]
| end_cons s w t ws : group s w -> end_groups t ws -> end_groups (s ++ lit ":" ++ t) (w :: ws).

(* s is a text of the IPv6 address with the words ws: all eight words, or "::"
   in the place of one or more words which are zero. *)
Inductive ipv6_text : str -> list Z -> Prop :=
| text_full s ws : end_groups s ws -> length ws = 8%nat -> ipv6_text s ws
| text_short l lws r rws n :
    (l = [] /\ lws = [] \/ groups l lws) -> (r = [] /\ rws = [] \/ end_groups r rws) ->
    (1 <= n)%nat -> (length lws + n + length rws = 8)%nat ->
    ipv6_text (l ++ lit "::" ++ r) (lws ++ repeat 0 n ++ rws).

(* The number of an address with these words. *)
Definition words_value (ws : list Z) : Z := fold_left (fun v w => v * 2 ^ 16 + w) ws 0.

(* ---------- the recommended text ---------- *)
(* Small letters, no needless zero in front. *)
Definition plain_group (s : str) (w : Z) : Prop :=
  group s w /\ (forall c, In c s -> ~ 65 <= c <= 70) /\ (hd 0 s = 48 -> s = lit "0").
Inductive plain_groups : list Z -> str -> Prop :=
| plain_none : plain_groups [] []
| plain_one w s : plain_group s w -> plain_groups [w] s
| plain_cons w s ws t : plain_group s w -> ws <> [] -> plain_groups ws t -> plain_groups (w :: ws) (s ++ lit ":" ++ t).
(* The n words from number b on are zero. *)
Definition zeros (ws : list Z) (b n : nat) : Prop :=
  (b + n <= length ws)%nat /\ forall i, (b <= i < b + n)%nat -> nth i ws 1 = 0.
(* The words which "::" stands for: the longest run of zeros, of at least two
   words, and the first one of those. *)
Definition shortened (ws : list Z) (b n : nat) : Prop :=
  zeros ws b n /\ (2 <= n)%nat /\ forall b' n', zeros ws b' n' -> (n' < n \/ n' = n /\ b <= b')%nat.
(* ::a.b.c.d and ::ffff:a.b.c.d *)
Definition ends_like_ipv4 (ws : list Z) (b n : nat) : Prop :=
  b = 0%nat /\ (n = 6%nat \/ n = 5%nat /\ nth 5 ws 0 = 0xFFFF).
Inductive recommended (ws : list Z) : str -> Prop :=
| rec_full s : (forall b n, zeros ws b n -> (n < 2)%nat) -> plain_groups ws s -> recommended ws s
| rec_short b n l r : shortened ws b n -> ~ ends_like_ipv4 ws b n ->
    plain_groups (firstn b ws) l -> plain_groups (skipn (b + n) ws) r -> recommended ws (l ++ lit "::" ++ r)
| rec_compatible d : shortened ws 0 6 -> dotted d (nth 6 ws 0 * 2 ^ 16 + nth 7 ws 0) -> recommended ws (lit "::" ++ d)
| rec_mapped d : shortened ws 0 5 -> nth 5 ws 0 = 0xFFFF -> dotted d (nth 6 ws 0 * 2 ^ 16 + nth 7 ws 0) ->
    recommended ws (lit "::ffff:" ++ d).
(* s is the recommended text of the address with this number. *)
Definition recommended_text (s : str) (v : Z) : Prop :=
  exists ws, length ws = 8%nat /\ Forall (fun w => 0 <= w < 2 ^ 16) ws /\ words_value ws = v /\ recommended ws s.
