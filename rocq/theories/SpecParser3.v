(* Vocabulary for the settings of the parser and its log, in terms of the
   calls made so far (parser_op and parser_run of SpecParser.v, the most recent
   call first). *)
From Verif Require Import Base Addr Parser SpecParser.
Local Open Scope Z_scope.

(* The value given by the latest call which gives one; init if there is none. *)
Inductive latest {V} (gives : parser_op -> V -> Prop) (init : V) : list parser_op -> V -> Prop :=
| latest_none : latest gives init [] init
| latest_now op earlier v : gives op v -> latest gives init (op :: earlier) v
| latest_before op earlier v : (forall w, ~ gives op w) -> latest gives init earlier v ->
    latest gives init (op :: earlier) v.

(* set_sort_order(): the families cannot both be first. *)
Inductive gives_sort : parser_op -> Z -> Prop :=
| sort_given n : Z.testbit n 0 = false \/ Z.testbit n 1 = false -> gives_sort (P_set_sort_order n) n.

(* set_protocol() and clear_protocol(): -1 stands for no protocol. *)
Inductive gives_protocol (y : sys) : parser_op -> Z -> Prop :=
| protocol_number n : n = IPPROTO_IP \/ n = IPPROTO_TCP \/ n = IPPROTO_UDP -> gives_protocol y (P_set_protocol n) n
| protocol_name s n : getprotobyname y s = Found n -> gives_protocol y (P_set_protocol_str s) n
| protocol_cleared : gives_protocol y P_clear_protocol (-1).

(* set_default_port(): -1 stands for no default. A string is converted to a
   64 bit integer, of which the low 32 bits are used. *)
Inductive gives_port (y : sys) : parser_op -> Z -> Prop :=
| port_number n : -1 <= n <= 65535 -> gives_port y (P_set_default_port n) n
| port_none : gives_port y (P_set_default_port_str []) (-1)
| port_string s v n : s <> [] -> convert_string y s = Some v -> n = s32 v -> -1 <= n <= 65535 ->
    gives_port y (P_set_default_port_str s) n.

(* The text is in brackets. *)
Definition in_brackets (s t : str) : Prop := s = [91] ++ t ++ [93].
Definition opens (s : str) : Prop := exists t, s = 91 :: t.
Definition closes (s : str) : Prop := exists t, s = t ++ [93].

(* set_default_address(): an IPv6 address is in brackets or has a colon;
   everything else is for IPv4. The empty string removes both. *)
Inductive gives_address4 : parser_op -> str -> Prop :=
| address4_none : gives_address4 (P_set_default_address []) []
| address4_text s : s <> [] -> ~ opens s -> ~ In 58 s -> gives_address4 (P_set_default_address s) s.
Inductive gives_address6 : parser_op -> str -> Prop :=
| address6_none : gives_address6 (P_set_default_address []) []
| address6_text s : ~ opens s -> In 58 s -> gives_address6 (P_set_default_address s) s
| address6_brackets s t : in_brackets s t -> gives_address6 (P_set_default_address s) t.

(* set_default_mask(): the same, and a number above 32 is for IPv6. *)
Definition plain (s : str) : Prop := s <> [] /\ ~ opens s /\ ~ closes s.
Inductive gives_mask4 (y : sys) : parser_op -> str -> Prop :=
| mask4_none : gives_mask4 y (P_set_default_mask []) []
| mask4_number s n : plain s -> ~ In 58 s -> convert_string y s = Some n -> 0 <= n <= 32 ->
    gives_mask4 y (P_set_default_mask s) s
| mask4_text s : plain s -> ~ In 58 s -> convert_string y s = None -> gives_mask4 y (P_set_default_mask s) s.
Inductive gives_mask6 (y : sys) : parser_op -> str -> Prop :=
| mask6_none : gives_mask6 y (P_set_default_mask []) []
| mask6_number s n : plain s -> ~ In 58 s -> convert_string y s = Some n -> 32 < n <= 128 ->
    gives_mask6 y (P_set_default_mask s) s
| mask6_text s : plain s -> In 58 s -> gives_mask6 y (P_set_default_mask s) s
| mask6_brackets s t : in_brackets s t -> gives_mask6 y (P_set_default_mask s) t.

(* What the caller of an operation sees, other than of parse(). *)
Definition outcome (y : sys) (p : parser) (op : parser_op) : res unit :=
  match op with
  | P_set_allow flag b => snd (set_allow p flag b)
  | P_set_sort_order sort => snd (set_sort_order p sort)
  | P_set_default_address s => snd (set_default_address p s)
  | P_set_default_port n => snd (set_default_port p n)
  | P_set_default_port_str s => snd (set_default_port_str y p s)
  | P_set_default_mask s => snd (set_default_mask y p s)
  | P_set_protocol n => snd (parser_set_protocol p n)
  | P_set_protocol_str s => snd (parser_set_protocol_str y p s)
  | P_clear_protocol | P_emit_error _ | P_clear_errors | P_parse _ => Ok tt
  end.
(* A value which is accepted. *)
Inductive good_value (y : sys) : parser_op -> Prop :=
| good_flag flag b : 0 <= flag < ALLOW_max -> good_value y (P_set_allow flag b)
| good_sort op n : gives_sort op n -> good_value y op
| good_protocol op n : gives_protocol y op n -> good_value y op
| good_port op n : gives_port y op n -> good_value y op
| good_address4 op s : gives_address4 op s -> good_value y op
| good_address6 op s : gives_address6 op s -> good_value y op
| good_mask4 op s : gives_mask4 y op s -> good_value y op
| good_mask6 op s : gives_mask6 y op s -> good_value y op
| good_emit s : good_value y (P_emit_error s)
| good_clear : good_value y P_clear_errors
| good_parse s : good_value y (P_parse s).

(* The messages in the log: those of emit_error() and of parse(), since the
   last clear_errors(). The messages of a parse() are those it logs when the
   log is empty. *)
Definition text_of (messages : list str) : str := concat (map (fun m => m ++ [10]) messages).
Inductive log_after (y : sys) (g : resolver) : list parser_op -> list str -> Prop :=
| log_new : log_after y g [] []
| log_cleared earlier : log_after y g (P_clear_errors :: earlier) []
| log_message s earlier l : log_after y g earlier l -> log_after y g (P_emit_error s :: earlier) (l ++ [s])
| log_parsed s earlier l ms :
    log_after y g earlier l ->
    error_messages (fst (parse y g s (clear_errors (parser_run y g earlier)))) = text_of ms ->
    error_count (fst (parse y g s (clear_errors (parser_run y g earlier)))) = Z.of_nat (length ms) ->
    log_after y g (P_parse s :: earlier) (l ++ ms)
| log_other op earlier l :
    op <> P_clear_errors -> (forall s, op <> P_emit_error s) -> (forall s, op <> P_parse s) ->
    log_after y g earlier l -> log_after y g (op :: earlier) l.
