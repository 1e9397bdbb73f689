(* Vocabulary for the properties of validator_address: its options and what
   they ask for. *)
From Verif Require Import Base Addr Range Parser Spec SpecParser SpecParser2 Validator.
Local Open Scope Z_scope.

(* The option p is "name" or "name=v1 v2 ..."; without any value it means
   "yes". *)
Definition an_option (split : str -> list str) (p name : str) (values : list str) : Prop :=
  p <> [] /\ ~ In 61 name
  /\ ((p = name /\ values = [lit "yes"])
      \/ exists t, p = name ++ lit "=" ++ t
           /\ (values = split t /\ values <> [] \/ split t = [] /\ values = [lit "yes"])).

(* The values of the last option with that name; None when there is none. *)
Definition not_given (split : str -> list str) (name : str) (data : list str) : Prop :=
  forall p values, In p data -> ~ an_option split p name values.
Inductive last_option (split : str -> list str) (name : str) : list str -> option (list str) -> Prop :=
| lo_none data : not_given split name data -> last_option split name data None
| lo_some before p after values :
    an_option split p name values -> not_given split name after ->
    last_option split name (before ++ p :: after) (Some values).

(* The words of address=... which turn a feature on. *)
Inductive keyword : Z -> str -> Prop :=
| kw_required : keyword ALLOW_REQUIRED_ADDRESS (lit "required")
| kw_commas : keyword ALLOW_MULTI_ADDRESSES_COMMAS (lit "commas")
| kw_spaces : keyword ALLOW_MULTI_ADDRESSES_SPACES (lit "spaces")
| kw_newlines : keyword ALLOW_MULTI_ADDRESSES_NEWLINES (lit "newlines")
| kw_range : keyword ALLOW_ADDRESS_RANGE (lit "range")
| kw_lookup : keyword ALLOW_ADDRESS_LOOKUP (lit "lookup").

(* What is allowed when the last address=, port=, mask= and comment= options
   have these values. *)
Inductive turned_on (address port mask comment : option (list str)) : Z -> Prop :=
| on_by_default : address = None -> turned_on address port mask comment ALLOW_ADDRESS
| on_lookup_by_default : address = None -> turned_on address port mask comment ALLOW_ADDRESS_LOOKUP
| on_address values : address = Some values -> ~ In (lit "no") values ->
    turned_on address port mask comment ALLOW_ADDRESS
| on_keyword values w flag : address = Some values -> ~ In (lit "no") values -> keyword flag w -> In w values ->
    turned_on address port mask comment flag
| on_port_by_default : port = None -> turned_on address port mask comment ALLOW_PORT
| on_port v : port = Some [v] -> v <> lit "no" -> turned_on address port mask comment ALLOW_PORT
| on_port_required : port = Some [lit "required"] -> turned_on address port mask comment ALLOW_REQUIRED_PORT
| on_mask v : mask = Some [v] -> v <> lit "no" -> turned_on address port mask comment ALLOW_MASK
| on_mask_address : mask = Some [lit "address"] -> turned_on address port mask comment ALLOW_ADDRESS_MASK
| on_hash v : comment = Some [v] -> v = lit "yes" \/ v = lit "all" \/ v = lit "hash" ->
    turned_on address port mask comment ALLOW_COMMENT_HASH
| on_semicolon v : comment = Some [v] -> v = lit "yes" \/ v = lit "all" \/ v = lit "semicolon" ->
    turned_on address port mask comment ALLOW_COMMENT_SEMICOLON.

(* What a parser says about a value: accepted when no error was reported. *)
Definition verdict (r : parser * res (list addr_range)) : res bool :=
  match r with
  | (p, Ok _) => Ok (error_count p =? 0)
  | (_, Throw e) => Throw e
  | (_, UB) => UB
  | (_, OutOfFuel) => OutOfFuel
  end.

(* Calls of validate(), the system and the resolver may change between
   them. *)
Inductive validated (v : validator) : validator -> Prop :=
| no_call : validated v v
| one_more w y g value : validated v w -> validated v (fst (validate y g w value)).

(* The options are understood. *)
Definition one_of (values : list str) (words : list str) : Prop := exists v, values = [v] /\ In v words.
(* A default: read by a new parser which allows masks, for TCP, it has to be
   exactly one address. *)
Definition default_reader : parser :=
  fst (parser_set_protocol (fst (set_allow parser_new ALLOW_MASK true)) IPPROTO_TCP).
Definition reads_default (y : sys) (g : resolver) (param : str) (a : addr) : Prop :=
  exists q r, parse y g param default_reader = (q, Ok [r])
    /\ has_from r = true /\ has_to r = false /\ get_from r = a.
Definition understood (y : sys) (g : resolver) (name : str) (values : list str) : Prop :=
  (name = lit "address"
     /\ (values = [lit "no"]
         \/ (forall v, In v values -> v = lit "yes" \/ exists flag, keyword flag v)
            /\ ~ (In (lit "yes") values /\ In (lit "required") values)))
  \/ (name = lit "comment" /\ one_of values [lit "yes"; lit "all"; lit "hash"; lit "semicolon"; lit "no"])
  \/ ((name = lit "default" \/ name = lit "defaults")
     /\ (values = [lit "yes"] \/ forall v, In v values -> exists a, reads_default y g v a))
  \/ (name = lit "mask" /\ one_of values [lit "yes"; lit "no"; lit "address"])
  \/ (name = lit "port" /\ one_of values [lit "yes"; lit "no"; lit "required"]).

(* The last address=, port=, mask= and comment= options. *)
Definition options_given (split : str -> list str) (data : list str) (address port mask comment : option (list str)) : Prop :=
  last_option split (lit "address") data address /\ last_option split (lit "port") data port
  /\ last_option split (lit "mask") data mask /\ last_option split (lit "comment") data comment.
Definition default_name (name : str) : Prop := name = lit "default" \/ name = lit "defaults".
Definition no_default (split : str -> list str) (data : list str) : Prop :=
  not_given split (lit "default") data /\ not_given split (lit "defaults") data.

(* The validator answers what the parser p answers, whatever was validated
   before; the message of a refusal is the list of errors. *)
Definition acts_as (v : validator) (p : parser) : Prop :=
  forall w y g value, validated v w ->
    snd (validate y g w value) = verdict (parse y g value p)
    /\ (snd (validate y g w value) = Ok false ->
        last_error (fst (validate y g w value)) = error_messages (fst (parse y g value p))).
(* The answer does not depend on what was validated before. *)
Definition says (v : validator) (y : sys) (g : resolver) (value : str) (b : bool) : Prop :=
  forall w, validated v w -> snd (validate y g w value) = Ok b.

(* A feature is not turned on. *)
Definition single_values (on : Z -> Prop) : Prop :=
  ~ on ALLOW_MULTI_ADDRESSES_COMMAS /\ ~ on ALLOW_MULTI_ADDRESSES_SPACES /\ ~ on ALLOW_MULTI_ADDRESSES_NEWLINES
  /\ ~ on ALLOW_COMMENT_HASH /\ ~ on ALLOW_COMMENT_SEMICOLON.
(* The port after a numeric address, or nothing. *)
Inductive port_after (on : Z -> Prop) : str -> Prop :=
| after_none : ~ on ALLOW_REQUIRED_PORT -> port_after on []
| after_port D n : on ALLOW_PORT -> decimal D n -> n <= 65535 -> port_after on (58 :: D).

(* The characters between the entries of a list. *)
Definition list_separator (on : Z -> Prop) (c : Z) : Prop :=
  (on ALLOW_MULTI_ADDRESSES_COMMAS /\ c = 44)
  \/ (on ALLOW_MULTI_ADDRESSES_SPACES /\ c = 32)
  \/ (on ALLOW_MULTI_ADDRESSES_NEWLINES /\ c = 10).
