(* Model of the tool validate-ip (tools/validate_ip.cpp). What advgetopt makes
   of the command line is an argument, so are the texts of the exceptions. *)
From Verif Require Import Base Addr Inet AddrText Range Parser TableTools.
Local Open Scope Z_scope.

(* The command line as advgetopt gives it, tools/validate_ip.cpp:94-187. *)
Record validate_options := mk_validate_options {
  vo_canonicalize : bool;
  vo_address : bool;
  vo_default_address : str;
  vo_default_port : Z;
  vo_list : bool;
  vo_mask : bool;
  vo_port : bool;
  vo_protocol : str;
  vo_quiet : bool }.
(* What the tool does by default: the DefaultValue() of the options,
   tools/validate_ip.cpp:126, 134, 163. *)
Definition validate_defaults : validate_options :=
  mk_validate_options false false (lit "127.0.0.1,::") 60000 false false false (lit "tcp") false.

(* The default addresses, tools/validate_ip.cpp:268-280. *)
Definition validate_addresses (default_address : str) : M unit :=
  do! _ <- (fun p => set_default_address p (lit "127.0.0.1")) in
  do! _ <- (fun p => set_default_address p (lit "::")) in
  match find_char 44 default_address with
  | None => fun p => set_default_address p default_address
  | Some pos =>
      do! _ <- (fun p => set_default_address p (firstn pos default_address)) in
      fun p => set_default_address p (skipn (pos + 1) default_address)
  end.
(* `if(b) p.set_allow(flag, true)`, tools/validate_ip.cpp:289-308. *)
Definition allow_when (b : bool) (flag : Z) : M unit :=
  if b then fun p => set_allow p flag true else ret tt.
(* The parser of one argument, tools/validate_ip.cpp:268-308; get_long() is a
   long, set_default_port() takes an int. *)
Definition validate_setup (y : sys) (o : validate_options) : M unit :=
  do! _ <- validate_addresses (vo_default_address o) in
  do! _ <- (fun p => set_default_port p (s32 (vo_default_port o))) in
  do! _ <- (fun p => set_default_mask y p (lit "255.255.255.255")) in
  do! _ <- (fun p => set_default_mask y p (lit "FF:FF:FF:FF:FF:FF:FF:FF")) in
  do! _ <- (fun p => parser_set_protocol_str y p (vo_protocol o)) in
  do! _ <- allow_when true ALLOW_ADDRESS in
  do! _ <- allow_when true ALLOW_PORT in
  do! _ <- allow_when (vo_address o) ALLOW_REQUIRED_ADDRESS in
  do! _ <- allow_when (vo_port o) ALLOW_REQUIRED_PORT in
  do! _ <- allow_when (vo_mask o) ALLOW_MASK in
  do! _ <- allow_when (vo_list o) ALLOW_MULTI_ADDRESSES_COMMAS in
  allow_when (vo_list o) ALLOW_MULTI_ADDRESSES_SPACES.

(* The message, tools/validate_ip.cpp:317-325. *)
Definition validate_message (input : str) (p : parser) : str :=
  lit "address """ ++ input ++ lit """ generated " ++ to_string_int (error_count p)
  ++ lit " error" ++ (if error_count p =? 1 then [] else lit "s") ++ lit ": " ++ error_messages p ++ [10].
(* One line, tools/validate_ip.cpp:332-352. Simplification: nothing of a line
   is printed when making its text throws. *)
Definition canonical_line (y : sys) (r : addr_range) : res str :=
  if is_range r then
    let! from := to_ipv4or6_string y (get_from r) STRING_IP_ALL in
    let! to := to_ipv4or6_string y (get_to r) STRING_IP_ALL in
    Ok (from ++ lit " .. " ++ to ++ [10])
  else if has_from r then let! s := to_ipv4or6_string y (get_from r) STRING_IP_ALL in Ok (s ++ [10])
  else if has_to r then let! s := to_ipv4or6_string y (get_to r) STRING_IP_ALL in Ok (s ++ [10])
  else Throw E_invalid_structure.
(* The loop over the ranges, tools/validate_ip.cpp:330-353: what was printed
   and how it ended. *)
Fixpoint canonical_lines (y : sys) (l : list addr_range) (o : str) : str * res unit :=
  match l with
  | [] => (o, Ok tt)
  | r :: l =>
      match canonical_line y r with
      | Ok s => canonical_lines y l (o ++ s)
      | Throw e => (o, Throw e)
      | UB => (o, UB)
      | OutOfFuel => (o, OutOfFuel)
      end
  end.
(* validate_ip::run(), tools/validate_ip.cpp:259-356: stdout, stderr,
   f_error_count and how it ended. Simplification: the count does not overflow
   (an int). *)
Fixpoint validate_run (y : sys) (g : resolver) (o : validate_options) (inputs : list str)
    (out_ err_ : str) (count : Z) : str * str * Z * res unit :=
  match inputs with
  | [] => (out_, err_, count, Ok tt)
  | input :: inputs =>
      match validate_setup y o parser_new with
      | (p, Ok _) =>
          match parse y g input p with
          | (p, Ok range) =>
              if has_errors p then
                validate_run y g o inputs out_
                  (if vo_quiet o then err_ else err_ ++ validate_message input p) (count + error_count p)
              else if vo_canonicalize o then
                match canonical_lines y range out_ with
                | (out_, Ok _) => validate_run y g o inputs out_ err_ count
                | (out_, r) => (out_, err_, count, r)
                end
              else validate_run y g o inputs out_ err_ count
          | (p, Throw e) => (out_, err_, count, Throw e)
          | (p, UB) => (out_, err_, count, UB)
          | (p, OutOfFuel) => (out_, err_, count, OutOfFuel)
          end
      | (p, r) => (out_, err_, count, r)
      end
  end.
(* main(), tools/validate_ip.cpp:372-390; what: the text of an exception. *)
Definition validate_ip (y : sys) (g : resolver) (what : exn -> str) (o : validate_options) (inputs : list str) : run :=
  match validate_run y g o inputs [] [] 0 with
  | (o, e, count, Ok _) => mk_run o e (Ok (if negb (count =? 0) then 1 else 0))
  | (o, e, _, Throw x) => mk_run o (e ++ lit "error: an error occurred: " ++ what x ++ [10]) (Ok 1)
  | (o, e, _, UB) => mk_run o e UB
  | (o, e, _, OutOfFuel) => mk_run o e OutOfFuel
  end.
