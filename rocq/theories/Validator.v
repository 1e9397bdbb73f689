(* Model of validator_address (validator_address.h, validator_address.cpp).
   advgetopt::split_string(s, values, {" "}) is not part of /repo, it is the
   argument [split]; what is sent to cppthread::log is kept in a list. *)
From Verif Require Import Base Addr Range Inet AddrText Parser.
Local Open Scope Z_scope.

(* validator_address, validator_address.h:51-67: f_parser, and the message of
   advgetopt::validator::set_error(). *)
Record validator := mk_validator { f_parser : parser; last_error : str }.

(* The name and the values of one option, validator_address.cpp:178-196. *)
Definition name_and_values (split : str -> list str) (p : str) : str * list str :=
  match find_char 61 p with
  | None => (p, [lit "yes"])
  | Some equal =>
      (firstn equal p,
       match split (skipn (S equal) p) with
       | [] => [lit "yes"]
       | values => values
       end)
  end.

(* f_parser.set_allow(), validator_address.cpp:205-481; the flags are valid. *)
Definition set_flag (flag : Z) (b : bool) (p : parser) : parser := fst (set_allow p flag b).
(* std::find(values.begin(), values.end(), v) != values.end(),
   validator_address.cpp:213, 278. *)
Definition has_value (values : list str) (v : str) : bool := existsb (str_eqb v) values.

(* The parser being set up and the messages which were logged. *)
Record setup := mk_setup { s_parser : parser; s_log : list str }.
(* cppthread::log << error << ..., validator_address.cpp:217-505. *)
Definition log (msg : str) (s : setup) : setup := mk_setup (s_parser s) (s_log s ++ [msg]).
(* Changes to f_parser, validator_address.cpp:205-481. *)
Definition change (f : parser -> parser) (s : setup) : setup := mk_setup (f (s_parser s)) (s_log s).

(* One of the values of address=..., validator_address.cpp:228-296; the
   switch on v[0] only avoids comparisons. *)
Definition address_value (values : list str) (v : str) (s : setup) : setup :=
  if str_eqb v (lit "commas") then change (set_flag ALLOW_MULTI_ADDRESSES_COMMAS true) s
  else if str_eqb v (lit "lookup") then change (set_flag ALLOW_ADDRESS_LOOKUP true) s
  else if str_eqb v (lit "newlines") then change (set_flag ALLOW_MULTI_ADDRESSES_NEWLINES true) s
  else if str_eqb v (lit "range") then change (set_flag ALLOW_ADDRESS_RANGE true) s
  else if str_eqb v (lit "required") then change (set_flag ALLOW_REQUIRED_ADDRESS true) s
  else if str_eqb v (lit "spaces") then change (set_flag ALLOW_MULTI_ADDRESSES_SPACES true) s
  else if str_eqb v (lit "yes") then
    if has_value values (lit "required")
    then log (lit "the ""yes"" and ""required"" options are mutually exclusive, use one or the other (or none, which defaults to ""yes"").") s
    else s
  else log (lit "the """ ++ v ++ lit """ parameter is not understood by the ""address"" options.") s.

(* address=..., validator_address.cpp:201-300. *)
Definition address_option (values : list str) (s : setup) : setup :=
  let s := change (set_flag ALLOW_ADDRESS false) s in
  let s := change (set_flag ALLOW_REQUIRED_ADDRESS false) s in
  let s := change (set_flag ALLOW_MULTI_ADDRESSES_COMMAS false) s in
  let s := change (set_flag ALLOW_MULTI_ADDRESSES_SPACES false) s in
  let s := change (set_flag ALLOW_MULTI_ADDRESSES_NEWLINES false) s in
  let s := change (set_flag ALLOW_ADDRESS_RANGE false) s in
  let s := change (set_flag ALLOW_ADDRESS_LOOKUP false) s in
  if has_value values (lit "no") then
    match values with
    | [_] => s
    | _ => log (lit "the ""no"" option in the address=... option must be used by itself.") s
    end
  else
    let s := change (set_flag ALLOW_ADDRESS true) s in
    fold_left (fun s v => address_value values v s) values s.

(* comment=..., validator_address.cpp:304-340. *)
Definition comment_option (values : list str) (s : setup) : setup :=
  let s := change (set_flag ALLOW_COMMENT_HASH false) s in
  let s := change (set_flag ALLOW_COMMENT_SEMICOLON false) s in
  match values with
  | [v] =>
      if str_eqb v (lit "yes") || str_eqb v (lit "all")
      then change (set_flag ALLOW_COMMENT_SEMICOLON true) (change (set_flag ALLOW_COMMENT_HASH true) s)
      else if str_eqb v (lit "hash") then change (set_flag ALLOW_COMMENT_HASH true) s
      else if str_eqb v (lit "semicolon") then change (set_flag ALLOW_COMMENT_SEMICOLON true) s
      else if negb (str_eqb v (lit "no"))
      then log (lit "value """ ++ v ++ lit """ is unexpected for the ""comment"" option which expects one of ""yes"", ""all"", ""hash"", ""semicolon"" or ""no"".") s
      else s
  | _ => log (lit "the ""comment"" option expects one of ""yes"", ""all"", ""hash"", ""semicolon"" or ""no"".") s
  end.

(* One of the values of default=..., validator_address.cpp:366-418. The
   parser of line 366 is a new one. *)
Definition default_value (y : sys) (g : resolver) (param : str) (s : setup) : setup * res unit :=
  let q := fst (parser_set_protocol (set_flag ALLOW_MASK true parser_new) IPPROTO_TCP) in
  match parse y g param q with
  | (q, Ok v) =>
      let bad := (log (lit "the default address """ ++ param ++ lit """ could not be parsed properly. Error: "
                    ++ error_messages q) s, Ok tt) in
      match v with
      | [r] =>
          if has_from r && negb (has_to r) then
            let a := get_from r in
            let p := s_parser s in
            (* lines 380-383 *)
            let '(p, r1) :=
              match snd (get_network_type a) with
              | NETWORK_TYPE_ANY => (p, Ok tt)
              | _ =>
                  match to_ipv4or6_string y a STRING_IP_BRACKET_ADDRESS with
                  | Ok t => set_default_address p t
                  | Throw e => (p, Throw e)
                  | UB => (p, UB)
                  | OutOfFuel => (p, OutOfFuel)
                  end
              end in
            match r1 with
            | Ok _ =>
                (* lines 385-388 *)
                let '(p, r2) :=
                  if negb (get_port a =? 0) then set_default_port_str y p (get_str_port a) else (p, Ok tt) in
                match r2 with
                | Ok _ =>
                    (* lines 390-407 *)
                    let mask := get_mask_size a in
                    let '(p, r3) :=
                      if negb (mask =? -1) && negb (mask =? 128) then
                        if is_ipv4 a then set_default_mask y p (to_string_int mask)
                        else set_default_mask y p (lit "[" ++ to_string_int mask ++ lit "]")
                      else (p, Ok tt) in
                    (mk_setup p (s_log s), r3)
                | _ => (mk_setup p (s_log s), r2)
                end
            | _ => (mk_setup p (s_log s), r1)
            end
          else bad
      | _ => bad
      end
  | (_, Throw e) => (s, Throw e)
  | (_, UB) => (s, UB)
  | (_, OutOfFuel) => (s, OutOfFuel)
  end.
(* The loop over the values of default=..., validator_address.cpp:364-419. *)
Fixpoint default_values (y : sys) (g : resolver) (values : list str) (s : setup) : setup * res unit :=
  match values with
  | [] => (s, Ok tt)
  | v :: values =>
      match default_value y g v s with
      | (s, Ok _) => default_values y g values s
      | (s, r) => (s, r)
      end
  end.
(* default=..., validator_address.cpp:344-422. *)
Definition default_option (y : sys) (g : resolver) (values : list str) (s : setup) : setup * res unit :=
  match values with
  | [v] =>
      if str_eqb v (lit "yes") then
        (change (fun p => fst (set_default_mask y (fst (set_default_port_str y (fst (set_default_address p [])) [])) [])) s,
         Ok tt)
      else default_values y g values s
  | _ => default_values y g values s
  end.

(* mask=..., validator_address.cpp:426-457. *)
Definition mask_option (values : list str) (s : setup) : setup :=
  let s := change (set_flag ALLOW_MASK false) s in
  let s := change (set_flag ALLOW_ADDRESS_MASK false) s in
  match values with
  | [v] =>
      if negb (str_eqb v (lit "no")) then
        let s := change (set_flag ALLOW_MASK true) s in
        if str_eqb v (lit "address") then change (set_flag ALLOW_ADDRESS_MASK true) s
        else if negb (str_eqb v (lit "yes"))
        then log (lit "value """ ++ v ++ lit """ is unexpected for the ""mask"" option which expects one of ""yes"", ""no"", or ""address"".") s
        else s
      else s
  | _ => log (lit "the ""mask"" option expects one of ""yes"", ""no"", or ""address"".") s
  end.

(* port=..., validator_address.cpp:461-495. *)
Definition port_option (values : list str) (s : setup) : setup :=
  let s := change (set_flag ALLOW_PORT false) s in
  let s := change (set_flag ALLOW_REQUIRED_PORT false) s in
  match values with
  | [v] =>
      if negb (str_eqb v (lit "no")) then
        let s := change (set_flag ALLOW_PORT true) s in
        if negb (str_eqb v (lit "yes")) then
          if str_eqb v (lit "required") then change (set_flag ALLOW_REQUIRED_PORT true) s
          else log (lit "unexpected value """ ++ v ++ lit """ for the port=... option which expects one of ""yes"", ""no"", or ""required"".") s
        else s
      else s
  | _ => log (lit "the port=... option expects one of ""yes"", ""no"", or ""required"".") s
  end.

(* One option, validator_address.cpp:173-505. The switch on name[0] only
   avoids comparisons. *)
Definition option_step (split : str -> list str) (y : sys) (g : resolver) (p : str) (s : setup) : setup * res unit :=
  match p with
  | [] => (s, Ok tt)
  | _ =>
      let (name, values) := name_and_values split p in
      if str_eqb name (lit "address") then (address_option values s, Ok tt)
      else if str_eqb name (lit "comment") then (comment_option values s, Ok tt)
      else if str_eqb name (lit "default") || str_eqb name (lit "defaults") then default_option y g values s
      else if str_eqb name (lit "mask") then (mask_option values s, Ok tt)
      else if str_eqb name (lit "port") then (port_option values s, Ok tt)
      else (log (lit """" ++ p ++ lit """ is not a known option for the address validator.") s, Ok tt)
  end.
(* The loop of validator_address::validator_address(),
   validator_address.cpp:167-506. *)
Fixpoint options (split : str -> list str) (y : sys) (g : resolver) (data : list str) (s : setup) : setup * res unit :=
  match data with
  | [] => (s, Ok tt)
  | p :: data =>
      match option_step split y g p s with
      | (s, Ok _) => options split y g data s
      | (s, r) => (s, r)
      end
  end.
(* validator_address::validator_address(), validator_address.cpp:165-507: the
   validator and the log. *)
Definition construct (split : str -> list str) (y : sys) (g : resolver) (data : list str)
    : res (validator * list str) :=
  match options split y g data (mk_setup parser_new []) with
  | (s, Ok _) => Ok (mk_validator (s_parser s) [], s_log s)
  | (_, Throw e) => Throw e
  | (_, UB) => UB
  | (_, OutOfFuel) => OutOfFuel
  end.

(* validator_address::name(), validator_address.cpp:516-519. *)
Definition name (v : validator) : str := lit "address".

(* validator_address::validate(), validator_address.cpp:531-542; f_parser is
   mutable. *)
Definition validate (y : sys) (g : resolver) (v : validator) (value : str) : validator * res bool :=
  match parse y g value (clear_errors (f_parser v)) with
  | (p, Ok _) =>
      if has_errors p then (mk_validator p (error_messages p), Ok false)
      else (mk_validator p (last_error v), Ok true)
  | (p, Throw e) => (mk_validator p (last_error v), Throw e)
  | (p, UB) => (mk_validator p (last_error v), UB)
  | (p, OutOfFuel) => (mk_validator p (last_error v), OutOfFuel)
  end.
