(* Model of the tools ipv4-routes (tools/ipv4_routes.cpp) and ifaces
   (tools/ifaces.cpp).  What getifaddrs(), /proc/net/route and getnameinfo()
   answer are arguments, so are argv[0] and the version. *)
From Verif Require Import Base Addr Inet AddrText Route Iface NameInfo.
Local Open Scope Z_scope.

(* What a program wrote to stdout and stderr, and how it ended: with a status,
   or with an exception which is not caught, tools/ipv4_routes.cpp:57-144. *)
Record run := mk_run { out : str; err : str; status : res Z }.

(* std::left << std::setw(n) << s, tools/ipv4_routes.cpp:128-138. *)
Definition setw (n : nat) (s : str) : str := s ++ repeat 32 (n - length s).

(* The options of ipv4-routes, tools/ipv4_routes.cpp:52-53: g_show_default and
   g_hide_headers. *)
Record routes_options := mk_routes_options { show_default : bool; ro_hide_headers : bool }.
(* tools/ipv4_routes.cpp:64-69. *)
Definition routes_usage (argv0 : str) : str :=
  lit "Usage: " ++ argv0 ++ lit " [-opts]" ++ [10]
  ++ lit "where -opts is one or more of:" ++ [10]
  ++ lit "  --help | -h        print out this help screen." ++ [10]
  ++ lit "  --default | -d     only print the default route." ++ [10]
  ++ lit "  --hide-headers     do not print the headers." ++ [10].
(* tools/ipv4_routes.cpp:83-86, tools/ifaces.cpp:130-133. *)
Definition unknown_option (arg : str) : str :=
  lit "error: unknown command line option """ ++ arg ++ lit """. Try --help for additional info." ++ [10].
(* The loop over the arguments, tools/ipv4_routes.cpp:59-89; inr: main()
   returns. *)
Fixpoint routes_arguments (argv0 : str) (args : list str) (o : routes_options) : routes_options + run :=
  match args with
  | [] => inl o
  | arg :: args =>
      if str_eqb arg (lit "-h") || str_eqb arg (lit "--help")
      then inr (mk_run (routes_usage argv0) [] (Ok 1))
      else if str_eqb arg (lit "-d") || str_eqb arg (lit "--default")
      then routes_arguments argv0 args (mk_routes_options true (ro_hide_headers o))
      else if str_eqb arg (lit "--hide-headers")
      then routes_arguments argv0 args (mk_routes_options (show_default o) true)
      else inr (mk_run [] (unknown_option arg) (Ok 1))
  end.
(* tools/ipv4_routes.cpp:102-113. *)
Definition routes_header : str :=
  lit "Iface   Destination     Gateway         Flags   RefCnt  Use     Metric  Mask            MTU     Window  IRTT    " ++ [10].
(* The dotted mask, tools/ipv4_routes.cpp:121-127. *)
Definition dotted_mask (a : addr) : str :=
  let m k := to_string_int (nth k (get_mask a) 0) in
  m 12%nat ++ lit "." ++ m 13%nat ++ lit "." ++ m 14%nat ++ lit "." ++ m 15%nat.
(* One line, tools/ipv4_routes.cpp:128-139. Simplification: if a conversion
   threw, what the line had already printed would be left out. *)
Definition route_line (y : sys) (r : route) : res str :=
  let! d := to_ipv4or6_string y (get_destination_address r) STRING_IP_ADDRESS in
  let! g := to_ipv4or6_string y (get_gateway_address r) STRING_IP_ADDRESS in
  Ok (setw 8 (get_interface_name r) ++ setw 16 d ++ setw 16 g ++ setw 8 (flags_to_string r)
      ++ setw 8 (to_string_int (get_reference_count r)) ++ setw 8 (to_string_int (get_use r))
      ++ setw 8 (to_string_int (get_metric r)) ++ setw 16 (dotted_mask (get_destination_address r))
      ++ setw 8 (to_string_int (get_mtu r)) ++ setw 8 (to_string_int (get_window r))
      ++ setw 8 (to_string_int (get_irtt r)) ++ [10]).
(* The loop over the routes, tools/ipv4_routes.cpp:116-143; o: what was
   printed so far. *)
Fixpoint route_lines (y : sys) (default : bool) (routes : list route) (o : str) : run :=
  match routes with
  | [] => mk_run o [] (Ok 0)
  | r :: routes =>
      if negb default || is_default (get_destination_address r) then
        match route_line y r with
        | Ok l => route_lines y default routes (o ++ l)
        | Throw e => mk_run o [] (Throw e)
        | UB => mk_run o [] UB
        | OutOfFuel => mk_run o [] OutOfFuel
        end
      else route_lines y default routes o
  end.
(* main() of ipv4-routes, tools/ipv4_routes.cpp:57-144. *)
Definition ipv4_routes (y : sys) (file : option str) (argv0 : str) (args : list str) : run :=
  match routes_arguments argv0 args (mk_routes_options false false) with
  | inr r => r
  | inl o =>
      match get_ipv4_routes file with
      | Ok [] => mk_run [] (lit "error: no routes found, is your network up?" ++ [10]) (Ok 1)
      | Ok routes => route_lines y (show_default o) routes (if ro_hide_headers o then [] else routes_header)
      | Throw e => mk_run [] [] (Throw e)
      | UB => mk_run [] [] UB
      | OutOfFuel => mk_run [] [] OutOfFuel
      end
  end.

(* filter_t, tools/ifaces.cpp:55-62. *)
Inductive filter_t := FILTER_ALL | FILTER_PUBLIC | FILTER_PRIVATE | FILTER_LOOPBACK | FILTER_DEFAULT.
(* The options of ifaces, tools/ifaces.cpp:64-67. *)
Record ifaces_options := mk_ifaces_options {
  io_filter : filter_t; io_hide_headers : bool; io_asterisk : bool; io_name_only : bool }.
(* tools/ifaces.cpp:78-90. *)
Definition ifaces_usage (argv0 : str) : str :=
  lit "Usage: " ++ argv0 ++ lit " [-opts]" ++ [10]
  ++ lit "where -opts is one or more of:" ++ [10]
  ++ lit "  --help | -h        print out this help screen." ++ [10]
  ++ lit "  --default | -d     only print name of default interface." ++ [10]
  ++ lit "  --hide-headers     do not print the headers." ++ [10]
  ++ lit "  --public           only print name of public interfaces." ++ [10]
  ++ lit "  --private          only print name of private interfaces." ++ [10]
  ++ lit "  --loopback         only print name of loopback interface." ++ [10]
  ++ lit "  --asterisk         print an asterisk for default addresses (instead of 0.0.0.0 or ::)." ++ [10]
  ++ lit "  --name-only        only print the name of the interface." ++ [10]
  ++ lit "  --version | -V     print out the version of ifaces." ++ [10].
(* The loop over the arguments, tools/ifaces.cpp:73-136; inr: main() returns. *)
Fixpoint ifaces_arguments (version argv0 : str) (args : list str) (o : ifaces_options) : ifaces_options + run :=
  match args with
  | [] => inl o
  | arg :: args =>
      let next := ifaces_arguments version argv0 args in
      let filter f := next (mk_ifaces_options f (io_hide_headers o) (io_asterisk o) (io_name_only o)) in
      if str_eqb arg (lit "-h") || str_eqb arg (lit "--help")
      then inr (mk_run (ifaces_usage argv0) [] (Ok 1))
      else if str_eqb arg (lit "--hide-headers")
      then next (mk_ifaces_options (io_filter o) true (io_asterisk o) (io_name_only o))
      else if str_eqb arg (lit "-d") || str_eqb arg (lit "--default") then filter FILTER_DEFAULT
      else if str_eqb arg (lit "--public") then filter FILTER_PUBLIC
      else if str_eqb arg (lit "--private") then filter FILTER_PRIVATE
      else if str_eqb arg (lit "--loopback") then filter FILTER_LOOPBACK
      else if str_eqb arg (lit "--asterisk")
      then next (mk_ifaces_options (io_filter o) (io_hide_headers o) true (io_name_only o))
      else if str_eqb arg (lit "--name-only")
      then next (mk_ifaces_options (io_filter o) (io_hide_headers o) (io_asterisk o) true)
      else if str_eqb arg (lit "-V") || str_eqb arg (lit "--version")
      then inr (mk_run (version ++ [10]) [] (Ok 0))
      else inr (mk_run [] (unknown_option arg) (Ok 1))
  end.
(* tools/ifaces.cpp:149-154. *)
Definition ifaces_header : str :=
  lit "Iface            Flags Address                                  Broadcast                                Destination                              " ++ [10].
(* The loop of tools/ifaces.cpp:166-172. *)
Definition default_interface (routes : list route) : str :=
  fold_left (fun name r => if is_default (get_destination_address r) then get_interface_name r else name) routes [].
(* The switch, tools/ifaces.cpp:179-213: false is continue. *)
Definition keeps (ni : name_info) (filter : filter_t) (default_name : str) (i : iface) : bool :=
  let type := snd (get_network_type (get_address i)) in
  match filter with
  | FILTER_ALL => true
  | FILTER_PUBLIC => match type with NETWORK_TYPE_UNKNOWN => true | _ => false end
  | FILTER_PRIVATE => match type with NETWORK_TYPE_PRIVATE => true | _ => false end
  | FILTER_LOOPBACK => match type with NETWORK_TYPE_LOOPBACK => true | _ => false end
  | FILTER_DEFAULT => str_eqb (host_name ni (get_address i)) default_name
  end.
(* One line, tools/ifaces.cpp:229-243. Simplification: as in [route_line]. *)
Definition iface_line (y : sys) (asterisk : bool) (i : iface) : res str :=
  let mode := Z.lor (Z.lor STRING_IP_ADDRESS (if asterisk then STRING_IP_DEFAULT_AS_ASTERISK else 0))
                (if is_ipv4 (get_address i) then STRING_IP_DEFAULT_AS_IPV4 else 0) in
  let! a := to_ipv4or6_string y (get_address i) STRING_IP_ADDRESS in
  let! b := to_ipv4or6_string y (get_broadcast_address i) mode in
  let! d := to_ipv4or6_string y (get_iface_destination_address i) mode in
  Ok (setw 17 (get_name i) ++ setw 6 (to_string_int (get_iface_flags i))
      ++ setw 41 a ++ setw 41 b ++ setw 41 d ++ [10]).
(* The loop over the interfaces, tools/ifaces.cpp:175-247; found: the names
   already printed; o: what was printed so far. *)
Fixpoint iface_lines (y : sys) (ni : name_info) (opts : ifaces_options) (default_name : str) (is : list iface)
    (found : list str) (o : str) : run :=
  match is with
  | [] => mk_run o [] (Ok 0)
  | i :: is =>
      if negb (keeps ni (io_filter opts) default_name i) then iface_lines y ni opts default_name is found o
      else if io_name_only opts then
        if existsb (str_eqb (get_name i)) found then iface_lines y ni opts default_name is found o
        else iface_lines y ni opts default_name is (get_name i :: found) (o ++ get_name i ++ [10])
      else
        match iface_line y (io_asterisk opts) i with
        | Ok l => iface_lines y ni opts default_name is found (o ++ l)
        | Throw e => mk_run o [] (Throw e)
        | UB => mk_run o [] UB
        | OutOfFuel => mk_run o [] OutOfFuel
        end
  end.
(* iface::get_local_addresses() of a program which calls it once: the cache is
   empty, iface.cpp:264-393; l: what getifaddrs() gives, None when it fails. *)
Definition get_local_addresses (l : option (list ifaddrs)) : res (option (list iface)) :=
  match l with
  | None => Ok None
  | Some l => let! is := make_ifaces l in Ok (Some is)
  end.
(* main() of ifaces, tools/ifaces.cpp:71-248; a null pointer is not checked. *)
Definition ifaces (y : sys) (ni : name_info) (version : str) (file : option str)
    (kernel : option (list ifaddrs)) (argv0 : str) (args : list str) : run :=
  match ifaces_arguments version argv0 args (mk_ifaces_options FILTER_ALL false false false) with
  | inr r => r
  | inl o =>
      match get_local_addresses kernel with
      | Ok None => mk_run [] [] UB
      | Ok (Some []) => mk_run [] (lit "error: no interfaces found, is your network up?" ++ [10]) (Ok 1)
      | Ok (Some is) =>
          let h := if io_hide_headers o || io_name_only o then [] else ifaces_header in
          match io_filter o with
          | FILTER_DEFAULT =>
              match get_ipv4_routes file with
              | Ok [] => mk_run h (lit "error: unknown default route." ++ [10]) (Ok 1)
              | Ok routes => iface_lines y ni o (default_interface routes) is [] h
              | Throw e => mk_run h [] (Throw e)
              | UB => mk_run h [] UB
              | OutOfFuel => mk_run h [] OutOfFuel
              end
          | _ => iface_lines y ni o [] is [] h
          end
      | Throw e => mk_run [] [] (Throw e)
      | UB => mk_run [] [] UB
      | OutOfFuel => mk_run [] [] OutOfFuel
      end
  end.
