(* What the properties of get_name(), get_service() and of the tools talk
   about. *)
From Verif Require Import Base Addr Spec SpecText SpecIpv6 Inet Route Iface SpecRoute SpecIface.
Local Open Scope Z_scope.

(* ---------- lines and words ---------- *)
(* The text made of these lines. *)
Definition lines (ls : list str) : str := concat (map (fun l => l ++ [10]) ls).
(* The line l is made of these fields, each followed by blanks or not; where
   it is not, two fields run into each other. *)
Inductive fields : str -> list str -> Prop :=
| fields_end : fields [] []
| fields_next : forall w b rest ws, Forall blank b -> fields rest ws -> fields (w ++ b ++ rest) (w :: ws).

(* An integer as people write it. *)
Definition integer (s : str) (v : Z) : Prop :=
  (0 <= v /\ plain_decimal s v) \/ (v < 0 /\ exists t, s = 45 :: t /\ plain_decimal t (- v)).
(* The dotted notation of a.b.c.d. *)
Definition quad_text (s : str) (q : Z * Z * Z * Z) : Prop :=
  let '(a, b, c, d) := q in dotted s (quad a b c d).

(* One of these options was given. *)
Definition given (args options : list str) : bool :=
  existsb (fun a => existsb (str_eqb a) options) args.
(* Nothing but these options was given. *)
Definition only (args options : list str) : Prop := incl args options.

(* ---------- ipv4-routes ---------- *)
Definition opt_default : list str := [lit "-d"; lit "--default"].
Definition opt_hide : list str := [lit "--hide-headers"].
Definition opt_help : list str := [lit "-h"; lit "--help"].
Definition route_settings : list str := opt_default ++ opt_hide.
Definition route_headers : list str :=
  [lit "Iface"; lit "Destination"; lit "Gateway"; lit "Flags"; lit "RefCnt"; lit "Use"; lit "Metric";
   lit "Mask"; lit "MTU"; lit "Window"; lit "IRTT"].
(* The letters of the flags. *)
Definition letters (flags : Z) : str :=
  map snd (filter (fun bl => Z.testbit flags (fst bl)) flag_letters).
(* ws are the fields of the route k, the flags being shown as f. *)
Definition shows_route (k : kernel_route) (f : str) (ws : list str) : Prop :=
  exists d g rc u me m mt wi ir,
    ws = [k_iface k; d; g; f; rc; u; me; m; mt; wi; ir]
    /\ quad_text d (k_destination k) /\ quad_text g (k_gateway k) /\ quad_text m (k_mask k)
    /\ integer rc (k_refcnt k) /\ integer u (k_use k) /\ integer me (k_metric k)
    /\ integer mt (k_mtu k) /\ integer wi (k_window k) /\ integer ir (k_irtt k).
(* The routes to print. *)
Definition wanted_routes (args : list str) (rows : list kernel_route) : list kernel_route :=
  if given args opt_default
  then filter (fun k => match k_destination k with (0, 0, 0, 0) => true | _ => false end) rows
  else rows.
(* The route fits the columns of the table: a name of at most seven
   characters, at least one flag, numbers of at most seven characters; and its
   flags are read correctly (property C61). *)
Definition seven (v : Z) : Prop := - 1000000 < v < 10000000.
Record fits_columns (k : kernel_route) : Prop := mk_fits_columns {
  fits_name : (length (k_iface k) <= 7)%nat;
  fits_flags : 0 < k_flags k < 10;
  fits_refcnt : seven (k_refcnt k);
  fits_use : seven (k_use k);
  fits_metric : seven (k_metric k);
  fits_mtu : seven (k_mtu k);
  fits_window : seven (k_window k);
  fits_irtt : seven (k_irtt k)
}.

(* ---------- ifaces ---------- *)
Definition opt_public : str := lit "--public".
Definition opt_private : str := lit "--private".
Definition opt_loopback : str := lit "--loopback".
Definition opt_asterisk : list str := [lit "--asterisk"].
Definition opt_name_only : list str := [lit "--name-only"].
Definition opt_version : list str := [lit "-V"; lit "--version"].
Definition opt_filters : list str := opt_default ++ [opt_public; opt_private; opt_loopback].
Definition iface_settings : list str := opt_filters ++ opt_hide ++ opt_asterisk ++ opt_name_only.
Definition iface_headers : list str :=
  [lit "Iface"; lit "Flags"; lit "Address"; lit "Broadcast"; lit "Destination"].
(* The filter: the last one given. *)
Definition the_filter (args : list str) : str :=
  last (filter (fun a => existsb (str_eqb a) opt_filters) args) [].
Definition by_default_route (args : list str) : bool := existsb (str_eqb (the_filter args)) opt_default.
(* The type of network the filter wants; None: any. *)
Definition wanted_type (args : list str) : option network_type_t :=
  if str_eqb (the_filter args) opt_public then Some NETWORK_TYPE_PUBLIC
  else if str_eqb (the_filter args) opt_private then Some NETWORK_TYPE_PRIVATE
  else if str_eqb (the_filter args) opt_loopback then Some NETWORK_TYPE_LOOPBACK
  else None.
Definition network_type_eq (a b : network_type_t) : {a = b} + {a <> b}.
Proof. decide equality. Defined.
(* The IP address of an entry. *)
Definition entry_ip (e : ifaddrs) : Z := match ifa_addr e with Some n => ip_of n | None => 0 end.
Definition entry_v4 (e : ifaddrs) : bool := (v4_base <=? entry_ip e) && (entry_ip e <? v4_base + 2 ^ 32).
Definition wanted_entry (args : list str) (e : ifaddrs) : bool :=
  has_ip e &&
  match wanted_type args with
  | Some t => if network_type_eq (spec_network_type (entry_ip e)) t then true else false
  | None => true
  end.

(* The usual text of an IP address. *)
Definition ip_shown (v : Z) (s : str) : Prop :=
  (is_v4_value v /\ dotted s (v - v4_base)) \/
  (~ is_v4_value v /\ recommended_text s v).
(* The broadcast and destination addresses: 0.0.0.0 or :: when there is none,
   or an asterisk when asked for. *)
Definition other_shown (asterisk v4 : bool) (v : Z) (s : str) : Prop :=
  if (v =? 0) || (v =? v4_base)
  then s = (if asterisk then lit "*" else if v4 || (v =? v4_base) then lit "0.0.0.0" else lit "::")
  else ip_shown v s.
Definition entry_broadcast (e : ifaddrs) : Z :=
  match ifa_ifu e with Some b => if flag e 1 then ip_of b else 0 | None => 0 end.
Definition entry_destination (e : ifaddrs) : Z :=
  match ifa_ifu e with Some d => if flag e 4 then ip_of d else 0 | None => 0 end.
Definition shows_entry (asterisk : bool) (e : ifaddrs) (ws : list str) : Prop :=
  exists f a b d, ws = [ifa_name e; f; a; b; d] /\ integer f (ifa_flags e) /\ ip_shown (entry_ip e) a
    /\ other_shown asterisk (entry_v4 e) (entry_broadcast e) b
    /\ other_shown asterisk (entry_v4 e) (entry_destination e) d.
(* A name of at most fifteen characters, as those of Linux, and flags of at
   most five digits. *)
Definition entry_fits (e : ifaddrs) : Prop :=
  word (ifa_name e) /\ (length (ifa_name e) <= 15)%nat /\ 0 <= ifa_flags e < 100000.

(* Each of l once, in the order of their first occurrence. *)
Fixpoint once (l : list str) : list str :=
  match l with
  | [] => []
  | x :: r => x :: filter (fun z => negb (str_eqb z x)) (once r)
  end.
