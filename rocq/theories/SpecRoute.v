(* What the route properties talk about: the text the kernel writes in
   /proc/net/route and the routes it means. *)
From Verif Require Import Base Addr Spec Route.
Local Open Scope Z_scope.

(* A line: words, each followed by one or more blanks; blanks may come first.
   (The kernel pads each line with blanks to 127 bytes.) *)
Definition blank (c : Z) : Prop := c = 9 \/ c = 32.
Definition word (w : str) : Prop := w <> [] /\ Forall (fun c => ~ blank c /\ c <> 10) w.
Inductive laid_out : str -> list str -> Prop :=
| laid_out_end : forall b, Forall blank b -> laid_out b []
| laid_out_word : forall b w c rest ws, Forall blank b -> word w -> blank c ->
    laid_out rest ws -> laid_out (b ++ w ++ c :: rest) (w :: ws).

(* [column hs ws name w]: in the row ws of a table with headers hs, the
   column of that name has w. *)
Definition column (hs ws : list str) (name w : str) : Prop :=
  exists i, nth_error hs i = Some name /\ nth_error ws i = Some w.

(* Two hexadecimal digits. *)
Inductive hex_digit : Z -> Z -> Prop :=
| hex_decimal : forall d, 0 <= d <= 9 -> hex_digit (48 + d) d
| hex_upper : forall d, 10 <= d <= 15 -> hex_digit (55 + d) d
| hex_lower : forall d, 10 <= d <= 15 -> hex_digit (87 + d) d.
Definition hex_byte (s : str) (b : Z) : Prop :=
  exists c1 d1 c2 d2, s = [c1; c2] /\ hex_digit c1 d1 /\ hex_digit c2 d2 /\ b = 16 * d1 + d2.
(* The address a.b.c.d as the kernel of a little endian machine writes it:
   the last byte first. *)
Definition hex_quad (s : str) (a b c d : Z) : Prop :=
  exists sa sb sc sd, s = sd ++ sc ++ sb ++ sa /\
    hex_byte sa a /\ hex_byte sb b /\ hex_byte sc c /\ hex_byte sd d.

(* A number as "%d" writes it. *)
Definition number (s : str) (v : Z) : Prop :=
  decimal s v \/ exists t, s = 45 :: t /\ decimal t (- v).

(* A word of 16 bits as "%04X" writes it. *)
Definition digit_of (d : Z) : Z := if d <? 10 then 48 + d else 55 + d.
Definition hex4 (f : Z) : str :=
  [digit_of (f / 4096 mod 16); digit_of (f / 256 mod 16); digit_of (f / 16 mod 16); digit_of (f mod 16)].

(* The same word with its hexadecimal digits taken for decimal ones, up to the
   first letter. *)
Definition misread (f : Z) : Z :=
  let a := f / 4096 mod 16 in
  let b := f / 256 mod 16 in
  let c := f / 16 mod 16 in
  let d := f mod 16 in
  if 10 <=? b then a
  else if 10 <=? c then 10 * a + b
  else if 10 <=? d then 100 * a + 10 * b + c
  else 1000 * a + 100 * b + 10 * c + d.

(* A route of the kernel. *)
Record kernel_route := mk_kroute {
  k_iface : str;
  k_destination : Z * Z * Z * Z;
  k_gateway : Z * Z * Z * Z;
  k_mask : Z * Z * Z * Z;
  k_flags : Z;
  k_refcnt : Z;
  k_use : Z;
  k_metric : Z;
  k_mtu : Z;
  k_window : Z;
  k_irtt : Z
}.

Definition quad_word (w : str) (q : Z * Z * Z * Z) : Prop :=
  let '(a, b, c, d) := q in hex_quad w a b c d.
Definition int (v : Z) : Prop := - 2 ^ 31 <= v < 2 ^ 31.

(* The row ws of the table says k. The flags of IPv4 routes are all below
   0x8000. *)
Record row_says (hs ws : list str) (k : kernel_route) : Prop := mk_row_says {
  row_iface : column hs ws (lit "Iface") (k_iface k);
  row_destination : exists w, column hs ws (lit "Destination") w /\ quad_word w (k_destination k);
  row_gateway : exists w, column hs ws (lit "Gateway") w /\ quad_word w (k_gateway k);
  row_flags : 0 <= k_flags k < 2 ^ 15 /\ column hs ws (lit "Flags") (hex4 (k_flags k));
  row_refcnt : int (k_refcnt k) /\ exists w, column hs ws (lit "RefCnt") w /\ number w (k_refcnt k);
  row_use : int (k_use k) /\ exists w, column hs ws (lit "Use") w /\ number w (k_use k);
  row_metric : int (k_metric k) /\ exists w, column hs ws (lit "Metric") w /\ number w (k_metric k);
  row_mask : exists w, column hs ws (lit "Mask") w /\ quad_word w (k_mask k);
  row_mtu : int (k_mtu k) /\ exists w, column hs ws (lit "MTU") w /\ number w (k_mtu k);
  row_window : int (k_window k) /\ exists w, column hs ws (lit "Window") w /\ number w (k_window k);
  row_irtt : int (k_irtt k) /\ exists w, column hs ws (lit "IRTT") w /\ number w (k_irtt k)
}.

(* The content of the file: a line of headers, one line for each route, each
   ended by a new line. *)
Definition table (hs : list str) (rows : list kernel_route) (file : str) : Prop :=
  exists header lines,
    laid_out header hs /\ NoDup hs /\
    Forall2 (fun line k => exists ws, laid_out line ws /\ row_says hs ws k) lines rows /\
    file = concat (map (fun line => line ++ [10]) (header :: lines)).

(* The address is a.b.c.d. *)
Definition is_quad (a : addr) (q : Z * Z * Z * Z) : Prop :=
  let '(x, y, z, t) := q in value a = v4_base + quad x y z t.

(* The route object has the values of the kernel, flags excepted. *)
Record describes (k : kernel_route) (r : route) : Prop := mk_describes {
  d_iface : get_interface_name r = k_iface k;
  d_destination : is_quad (get_destination_address r) (k_destination k);
  d_mask : is_mask_defined (get_destination_address r) = true /\
    let '(a, b, c, d) := k_mask k in
    mask_value (get_destination_address r) = 2 ^ 128 - 2 ^ 32 + quad a b c d;
  d_gateway : is_quad (get_gateway_address r) (k_gateway k);
  d_wf : addr_wf (get_destination_address r) /\ addr_wf (get_gateway_address r);
  d_refcnt : get_reference_count r = k_refcnt k;
  d_use : get_use r = k_use k;
  d_metric : get_metric r = k_metric k;
  d_mtu : get_mtu r = k_mtu k;
  d_window : get_window r = k_window k;
  d_irtt : get_irtt r = k_irtt k
}.

(* The letters route(8) shows for the flags, in the order of the library:
   bit number and letter. *)
Definition flag_letters : list (Z * Z) :=
  [(0, 85); (1, 71); (9, 33); (2, 72); (3, 82); (4, 68); (5, 77); (16, 100); (17, 97); (18, 99);
   (21, 111); (24, 67); (25, 102); (26, 112); (31, 108); (6, 117); (7, 119); (8, 105)].
