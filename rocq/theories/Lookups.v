(* Model of the calls of getaddrinfo() which addr_parser::parse() makes, in
   their order.  Each function here has the calls of the function of Parser.v
   without "asks_" (or "parse_") in its name; p is the parser when it is
   called. *)
From Verif Require Import Base Addr Range Inet AddrText Parser.
Local Open Scope Z_scope.

(* The arguments of a call of getaddrinfo(), addr_parser.cpp:1790, 2198: node,
   service, whether AI_NUMERICHOST is set in the hints, and ai_socktype and
   ai_protocol of the hints. *)
Record question := mk_question {
  q_node : str;
  q_service : str;
  q_numeric : bool;
  q_socktype : Z;
  q_protocol : Z }.

(* A call and what follows when it returns, e.g. addr_parser.cpp:1236-1279. *)
Definition then_asks {A} (first : list question) (r : parser * res A) (next : A -> parser -> list question)
    : list question :=
  first ++ match r with (p1, Ok a) => next a p1 | _ => [] end.

(* addr_parser::parse_address_port(), addr_parser.cpp:1701-1964: the call at
   line 1790. *)
Definition asks_address_port (address port_str : str) (ipv6 : bool) (p : parser) : list question :=
  let defined_port := match port_str with [] => false | _ => true end in
  if negb defined_port && allow p ALLOW_REQUIRED_PORT then []
  else
    let port_str :=
      if negb defined_port && negb (f_default_port p =? -1)
      then to_string_int (f_default_port p) else port_str in
    let no_address := match address with [] => true | _ => false end in
    if no_address && allow p ALLOW_REQUIRED_ADDRESS then []
    else
      let address := if no_address then default_address p ipv6 else address in
      if allow p ALLOW_ADDRESS_LOOKUP then
        let service := match port_str with [] => lit "0" | _ => port_str end in
        [mk_question (c_str address) (c_str service) false (hint_socktype (p_protocol p)) (hint_protocol (p_protocol p))]
      else [].

(* One end of a range, addr_parser.cpp:1620-1635, 1637-1656 (by way of
   parse_address_port_ignore_duplicates(), addr_parser.cpp:1983-2014). *)
Definition asks_range_end (text port_str : str) (ipv6 : bool) (p : parser) : list question :=
  match text with
  | [] => []
  | _ => asks_address_port text port_str ipv6 p
  end.

(* addr_parser::parse_address_range_port(), addr_parser.cpp:1593-1678. *)
Definition asks_address_range_port (y : sys) (g : resolver) (addresses port_str : str) (ipv6 : bool) (p : parser)
    : list question :=
  match (if allow p ALLOW_ADDRESS_RANGE then find_char 45 addresses else None) with
  | None => asks_address_port addresses port_str ipv6 p
  | Some k =>
      let from := firstn k addresses in
      let to := skipn (k + 1) addresses in
      if match from, to with [], [] => true | _, _ => false end then []
      else
        then_asks (asks_range_end from port_str ipv6 p)
          (range_end y g from port_str
             (lit "The ""from"" of an address range must be exactly one address.") ipv6 p)
          (fun r => match r with
                    | None => fun _ => []
                    | Some _ => asks_range_end to port_str ipv6
                    end)
  end.

(* addr_parser::parse_address4(), addr_parser.cpp:1458-1491. *)
Definition asks_address4 (y : sys) (g : resolver) (in_ : str) (p : parser) : list question :=
  match find_char 58 in_ with
  | Some k =>
      if allow p ALLOW_PORT || allow p ALLOW_REQUIRED_PORT
      then asks_address_range_port y g (firstn k in_) (skipn (k + 1) in_) false p
      else []
  | None => asks_address_range_port y g in_ [] false p
  end.

(* addr_parser::parse_address6(), addr_parser.cpp:1511-1571. *)
Definition asks_address6 (y : sys) (g : resolver) (in_ : str) (colons : Z) (p : parser) : list question :=
  if match in_ with c :: _ => c =? 91 | [] => false end then
    match find_char 93 in_ with
    | None => []
    | Some k =>
        let address := firstn (k - 1) (skipn 1 in_) in
        match skipn (k + 1) in_ with
        | [] => asks_address_range_port y g address [] true p
        | c :: port_str =>
            if negb (c =? 58) then []
            else if negb (allow p ALLOW_PORT) && negb (allow p ALLOW_REQUIRED_PORT) then []
            else asks_address_range_port y g address port_str true p
        end
    end
  else if colons =? 1 then
    match find_char 58 in_ with
    | None => []
    | Some k => asks_address_range_port y g (firstn k in_) (skipn (k + 1) in_) true p
    end
  else asks_address_range_port y g in_ [] true p.

(* addr_parser::parse_address(), addr_parser.cpp:1315-1442: which of the two
   functions it calls. *)
Definition asks_address (y : sys) (g : resolver) (in_ mask : str) (p : parser) : list question :=
  let colons := count_char 58 in_ in
  let six := asks_address6 y g in_ colons p in
  let four := asks_address4 y g in_ p in
  let by_mask :=
    match mask with
    | c :: _ =>
        if c =? 91 then six
        else if mask_hint (c_str mask) 0 >? 32 then six else four
    | [] =>
        match f_default_address4 p, f_default_address6 p with
        | [], _ :: _ => six
        | _, _ => four
        end
    end in
  if colons >=? 2 then six
  else
    match in_ with
    | [] => by_mask
    | c0 :: _ =>
        if c0 =? 58 then by_mask
        else if (c0 =? 91) || (match find_char 93 in_ with Some _ => true | None => false end)
        then six
        else if negb (allow p ALLOW_PORT) && negb (allow p ALLOW_REQUIRED_PORT) then
          match find_char 58 in_ with
          | Some k =>
              if match find_char 46 in_ with Some d => (k <? d)%nat | None => true end
              then six else four
          | None => four
          end
        else four
    end.

(* addr_parser::parse_mask(), addr_parser.cpp:2042-2266: the call at line
   2198. *)
Definition asks_mask (mask : str) (cidr : addr) (ipv4 : bool) (p : parser) : list question :=
  match mask with
  | [] => []
  | c0 :: _ =>
      match mask_number (c_str mask) 0 with
      | None => []
      | Some mask_count =>
          if negb (mask_count =? -1) then []
          else if negb (allow p ALLOW_ADDRESS_MASK) then []
          else if ipv4 && (c0 =? 91) then []
          else if negb ipv4 && negb (c0 =? 91) then []
          else if negb ipv4 && negb (back mask =? 93) then []
          else
            let m := if ipv4 then mask else inner mask in
            if negb ipv4 && (match m with [] => true | _ => false end) then []
            else [mk_question (c_str m) (dec_string (get_port cidr)) true
                    (hint_socktype (get_protocol cidr)) (hint_protocol (get_protocol cidr))]
      end
  end.

(* The loop over addr_mask, addr_parser.cpp:1240-1272. *)
Fixpoint asks_masks (g : resolver) (mask : str) (ipv4 : bool) (l : list addr_range) (p : parser) : list question :=
  match l with
  | [] => []
  | am :: rest =>
      let m := effective_mask p mask ipv4 in
      let v4 := ipv4 && is_ipv4 (get_from am) in
      then_asks (asks_mask m (get_from am) v4 p) (parse_mask g m (get_from am) v4 p)
        (fun _ => asks_masks g mask ipv4 rest)
  end.

(* addr_parser::parse_cidr(), addr_parser.cpp:1215-1287. *)
Definition asks_cidr (y : sys) (g : resolver) (in_ : str) (p : parser) : list question :=
  let address := trim_string in_ in
  if allow p ALLOW_MASK then
    let '(address, mask) :=
      match find_char 47 address with
      | Some k => (firstn k address, skipn (k + 1) address)
      | None => (address, [])
      end in
    then_asks (asks_address y g address mask p) (parse_address y g address mask p)
      (fun am => asks_masks g mask (snd am) (fst am))
  else asks_address y g address [] p.

(* The loop of addr_parser::parse(), addr_parser.cpp:1095-1127. *)
Fixpoint asks_loop (y : sys) (g : resolver) (fuel : nat) (seps comments : str) (newlines : bool) (rest : str) (p : parser)
    : list question :=
  match rest with
  | [] => []
  | _ =>
      match fuel with
      | O => []
      | S k =>
          let '(piece, tail) := split_at seps rest in
          match piece with
          | [] => asks_loop y g k seps comments newlines (skipn 1 tail) p
          | _ =>
              let '(text, tail) :=
                match comments with
                | [] => (piece, tail)
                | _ =>
                    (fst (split_at comments piece),
                     match tail with
                     | c :: _ =>
                         if newlines && negb (c =? 10) then snd (split_at [10] tail)
                         else tail
                     | [] => tail
                     end)
                end in
              then_asks (match text with [] => [] | _ => asks_cidr y g text p end)
                (match text with [] => ret [] p | _ => parse_cidr y g text p end)
                (fun _ => asks_loop y g k seps comments newlines (skipn 1 tail))
          end
      end
  end.

(* addr_parser::parse(), addr_parser.cpp:1037-1201; sorting asks nothing. *)
Definition asks_parse (y : sys) (g : resolver) (in_ : str) (p : parser) : list question :=
  match separators p with
  | [] => asks_cidr y g (single_entry (comment_chars p) in_) p
  | seps => asks_loop y g (length in_) seps (comment_chars p) (allow p ALLOW_MULTI_ADDRESSES_NEWLINES) in_ p
  end.
