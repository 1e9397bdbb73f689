(* Vocabulary for the properties of the parser: configurations, histories,
   well-behaved resolvers, and what the pieces of an input are. *)
From Verif Require Import Base Addr Range Spec SpecRange Parser.
Local Open Scope Z_scope.

(* Everything the user can configure is the same; the error log may differ. *)
Record same_config (p q : parser) : Prop := mk_same_config {
  sc_flags : f_flags p = f_flags q;
  sc_sort : f_sort p = f_sort q;
  sc_address4 : f_default_address4 p = f_default_address4 q;
  sc_address6 : f_default_address6 p = f_default_address6 q;
  sc_mask4 : f_default_mask4 p = f_default_mask4 q;
  sc_mask6 : f_default_mask6 p = f_default_mask6 q;
  sc_protocol : p_protocol p = p_protocol q;
  sc_port : f_default_port p = f_default_port q
}.

(* A public call on a parser; an exception is caught by the caller. *)
Inductive parser_op : Type :=
| P_set_allow (flag : Z) (b : bool)
| P_set_sort_order (sort : Z)
| P_set_default_address (s : str)
| P_set_default_port (n : Z)
| P_set_default_port_str (s : str)
| P_set_default_mask (s : str)
| P_set_protocol (n : Z)
| P_set_protocol_str (s : str)
| P_clear_protocol
| P_emit_error (s : str)
| P_clear_errors
| P_parse (s : str).
Definition parser_step (y : sys) (g : resolver) (p : parser) (op : parser_op) : parser :=
  match op with
  | P_set_allow flag b => fst (set_allow p flag b)
  | P_set_sort_order sort => fst (set_sort_order p sort)
  | P_set_default_address s => fst (set_default_address p s)
  | P_set_default_port n => fst (set_default_port p n)
  | P_set_default_port_str s => fst (set_default_port_str y p s)
  | P_set_default_mask s => fst (set_default_mask y p s)
  | P_set_protocol n => fst (parser_set_protocol p n)
  | P_set_protocol_str s => fst (parser_set_protocol_str y p s)
  | P_clear_protocol => clear_protocol p
  | P_emit_error s => emit_error p s
  | P_clear_errors => clear_errors p
  | P_parse s => fst (parse y g s p)
  end.
Inductive parser_reachable (y : sys) (g : resolver) : parser -> Prop :=
| pr_new : parser_reachable y g parser_new
| pr_step p op : parser_reachable y g p -> parser_reachable y g (parser_step y g p op).

(* What getaddrinfo() guarantees: on success the list is not empty and each
   entry holds an address of the family it names. *)
Definition addrinfo_ok (ai : addrinfo) : Prop :=
  (ai_family ai = AF_INET -> sockaddr_in_ok (ai_in ai) /\ sin_family (ai_in ai) = AF_INET)
  /\ (ai_family ai = AF_INET6 -> sockaddr_in6_ok (ai_in6 ai) /\ sin6_family (ai_in6 ai) = AF_INET6).
Definition resolver_ok (g : resolver) : Prop :=
  forall node service numeric socktype protocol l,
    g node service numeric socktype protocol = GAI_list l ->
    l <> [] /\ Forall addrinfo_ok l.

(* The characters which separate entries, which start a comment. *)
Definition separator (p : parser) (c : Z) : Prop :=
  (get_allow p ALLOW_MULTI_ADDRESSES_COMMAS = Ok true /\ c = 44)
  \/ (get_allow p ALLOW_MULTI_ADDRESSES_SPACES = Ok true /\ c = 32)
  \/ (get_allow p ALLOW_MULTI_ADDRESSES_NEWLINES = Ok true /\ c = 10).
Definition starts_comment (p : parser) (c : Z) : Prop :=
  (get_allow p ALLOW_COMMENT_HASH = Ok true /\ c = 35)
  \/ (get_allow p ALLOW_COMMENT_SEMICOLON = Ok true /\ c = 59).
Definition newline (c : Z) : Prop := c = 10.
Definition nobody (P : Z -> Prop) : Prop := forall c, ~ P c.

(* The maximal pieces of s without any separator. *)
Inductive pieces (sep : Z -> Prop) : str -> list str -> Prop :=
| pieces_none s : Forall sep s -> pieces sep s []
| pieces_one seps piece rest l :
    Forall sep seps ->
    piece <> [] -> Forall (fun c => ~ sep c) piece ->
    (rest = [] \/ exists c r, rest = c :: r /\ sep c) ->
    pieces sep rest l ->
    pieces sep (seps ++ piece ++ rest) (piece :: l).

(* t is the part of s before the first character with property stop. *)
Definition up_to (stop : Z -> Prop) (s t : str) : Prop :=
  Forall (fun c => ~ stop c) t
  /\ (s = t \/ exists c r, s = t ++ c :: r /\ stop c).

(* The flags which sort or merge the result. *)
Definition unsorted (p : parser) : Prop :=
  Z.land (f_sort p) (Z.lor (Z.lor SORT_FULL SORT_MERGE) (Z.lor SORT_IPV4_FIRST SORT_IPV6_FIRST)) = 0.

(* Calling f on each string of the list, one after the other, and putting the
   results together; the first exception ends it. *)
Fixpoint one_after_the_other {A} (f : str -> M (list A)) (l : list str) : M (list A) :=
  fun p =>
    match l with
    | [] => (p, Ok [])
    | s :: rest =>
        match f s p with
        | (p1, Ok a) =>
            match one_after_the_other f rest p1 with
            | (p2, Ok b) => (p2, Ok (a ++ b))
            | other => other
            end
        | other => other
        end
    end.

(* The histories as lists of calls, the most recent one first. *)
Fixpoint parser_run (y : sys) (g : resolver) (ops : list parser_op) : parser :=
  match ops with
  | [] => parser_new
  | op :: earlier => parser_step y g (parser_run y g earlier) op
  end.

(* The value a flag has after the calls: turning on one of the two ways to use
   commas turns the other one off. *)
Definition excludes (f flag : Z) : Prop :=
  (f = ALLOW_MULTI_ADDRESSES_COMMAS /\ flag = ALLOW_MULTI_PORTS_COMMAS)
  \/ (f = ALLOW_MULTI_PORTS_COMMAS /\ flag = ALLOW_MULTI_ADDRESSES_COMMAS).
Inductive setting (flag : Z) : list parser_op -> bool -> Prop :=
| setting_default : setting flag []
    ((flag =? ALLOW_ADDRESS) || (flag =? ALLOW_ADDRESS_LOOKUP) || (flag =? ALLOW_PORT))
| setting_own b earlier : setting flag (P_set_allow flag b :: earlier) b
| setting_excluded f earlier : excludes f flag -> setting flag (P_set_allow f true :: earlier) false
| setting_earlier op earlier v :
    (forall b, op <> P_set_allow flag b) ->
    (forall f, excludes f flag -> op <> P_set_allow f true) ->
    setting flag earlier v -> setting flag (op :: earlier) v.

(* White space, as isspace() sees it. *)
Definition blank (c : Z) : Prop := c = 32 \/ 9 <= c <= 13.
(* a text which neither starts nor ends with a blank *)
Definition trimmed (s : str) : Prop :=
  s <> [] /\ (forall c r, s = c :: r -> ~ blank c) /\ (forall c r, s = r ++ [c] -> ~ blank c).
Definition nonempty_str (s : str) : bool := match s with [] => false | _ => true end.

(* What the parser uses of one line when newlines separate entries and
   comments are allowed: the first piece, up to a comment character. *)
Definition line_entry (sep com : Z -> Prop) (line : str) (ts : list str) : Prop :=
  (pieces sep line [] /\ ts = [])
  \/ exists w ps t, pieces sep line (w :: ps) /\ up_to com w t /\ ts = [t].

(* The same parser, which neither sorts nor merges. *)
Definition without_sort (p : parser) : parser :=
  fst (set_sort_order p (Z.land (get_sort_order p) SORT_NO_EMPTY)).

(* Ranges by family, the empty ones apart. *)
Definition is_four (r : addr_range) : bool := negb (is_empty r) && range_is_ipv4 r.
Definition is_six (r : addr_range) : bool := negb (is_empty r) && negb (range_is_ipv4 r).

(* v is in one of the ranges *)
Definition covered (l : list addr_range) (v : Z) : Prop := exists r, In r l /\ element r v.
(* two ranges neither overlap nor touch *)
Definition apart (a b : addr_range) : Prop :=
  nonempty a -> nonempty b -> hi a + 1 < lo b \/ hi b + 1 < lo a.
(* any two elements at different positions *)
Fixpoint pairwise {A} (R : A -> A -> Prop) (l : list A) : Prop :=
  match l with
  | [] => True
  | a :: r => Forall (R a) r /\ pairwise R r
  end.
