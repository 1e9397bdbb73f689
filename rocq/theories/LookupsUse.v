(* Model of the calls of getaddrinfo() made by the users of addr_parser: the
   validator and string_to_addr(). *)
From Verif Require Import Base Addr Range Inet AddrText Parser Validator Lookups.
Local Open Scope Z_scope.

(* validator_address::validate(), validator_address.cpp:531-542. *)
Definition asks_validate (y : sys) (g : resolver) (v : validator) (value : str) : list question :=
  asks_parse y g value (clear_errors (f_parser v)).

(* One of the values of default=..., validator_address.cpp:366-369; nothing is
   asked after that. *)
Definition asks_default_value (y : sys) (g : resolver) (param : str) : list question :=
  asks_parse y g param (fst (parser_set_protocol (set_flag ALLOW_MASK true parser_new) IPPROTO_TCP)).
(* The loop over the values of default=..., validator_address.cpp:364-419. *)
Fixpoint asks_default_values (y : sys) (g : resolver) (values : list str) (s : setup) : list question :=
  match values with
  | [] => []
  | v :: values =>
      asks_default_value y g v ++
      match default_value y g v s with
      | (s, Ok _) => asks_default_values y g values s
      | _ => []
      end
  end.
(* default=..., validator_address.cpp:344-422. *)
Definition asks_default_option (y : sys) (g : resolver) (values : list str) (s : setup) : list question :=
  match values with
  | [v] => if str_eqb v (lit "yes") then [] else asks_default_values y g values s
  | _ => asks_default_values y g values s
  end.
(* One option, validator_address.cpp:173-505. *)
Definition asks_option_step (split : str -> list str) (y : sys) (g : resolver) (p : str) (s : setup) : list question :=
  match p with
  | [] => []
  | _ =>
      let (name, values) := name_and_values split p in
      if str_eqb name (lit "default") || str_eqb name (lit "defaults") then asks_default_option y g values s else []
  end.
(* The loop of validator_address::validator_address(),
   validator_address.cpp:167-506. *)
Fixpoint asks_options (split : str -> list str) (y : sys) (g : resolver) (data : list str) (s : setup) : list question :=
  match data with
  | [] => []
  | p :: data =>
      asks_option_step split y g p s ++
      match option_step split y g p s with
      | (s, Ok _) => asks_options split y g data s
      | _ => []
      end
  end.
(* validator_address::validator_address(), validator_address.cpp:165-507. *)
Definition asks_construct (split : str -> list str) (y : sys) (g : resolver) (data : list str) : list question :=
  asks_options split y g data (mk_setup parser_new []).

(* string_to_addr(), addr_parser.cpp:2314-2347: the parser it sets up and what
   its one call of parse() asks. *)
Definition asks_string_to_addr (y : sys) (g : resolver) (a default_address : str)
  (default_port : Z) (protocol : str) (mask : bool) : list question :=
  let set_up :=
    let p := parser_new in
    let! p := match default_address with
              | [] => Ok p
              | _ => let '(p', r) := set_default_address p default_address in
                     let! _ := r in Ok p'
              end in
    let! p := if negb (default_port =? -1)
              then let '(p', r) := set_default_port p default_port in let! _ := r in Ok p'
              else Ok p in
    match protocol with
    | [] => Ok p
    | _ => let '(p', r) := parser_set_protocol_str y p protocol in
           let! _ := r in Ok p'
    end in
  match set_up with
  | Ok p => asks_parse y g a (fst (set_allow p ALLOW_MASK mask))
  | _ => []
  end.
