(* What an addr_unix object holds, told from the calls made on it, the last
   one first. *)
From Verif Require Import Base Unix SpecUnix.
Local Open Scope Z_scope.

(* The name the 108 bytes of a structure hold, unix(7). *)
Inductive structure_names (decode : str -> option (list Z)) (path : list Z) : unix_name -> Prop :=
| holds_nothing : forall r, path = 0 :: 0 :: r -> structure_names decode path Unnamed
| holds_file : forall s r p, s <> [] -> ~ In 0 s -> path = s ++ 0 :: r -> name_of decode 107 s p ->
    structure_names decode path (File p)
| holds_abstract : forall s r p, s <> [] -> ~ In 0 s -> path = 0 :: s ++ 0 :: r -> name_of decode 106 s p ->
    structure_names decode path (Abstract p).

(* The calls which give the address a name. *)
Inductive gives_name (decode : str -> option (list Z)) : unix_op -> unix_name -> Prop :=
| by_make_unnamed : gives_name decode U_make_unnamed Unnamed
| by_set_file : forall s p, name_of decode 107 s p -> gives_name decode (U_set_file s) (File p)
| by_set_abstract : forall s p, name_of decode 106 s p -> gives_name decode (U_set_abstract s) (Abstract p)
| by_set_uri : forall t scheme n, uri_names decode t scheme n -> gives_name decode (U_set_uri t) n
| by_set_un : forall un n, sun_family un = 1 -> structure_names decode (sun_path un) n ->
    gives_name decode (U_set_un un) n
| by_socket : forall path n, structure_names decode (firstn 108 (path ++ repeat 0 108)) n ->
    gives_name decode (U_set_from_socket (Some (1, path))) n.

(* The scheme comes from set_scheme() ("unix" stands for an empty one) and
   from URIs. *)
Inductive gives_scheme (decode : str -> option (list Z)) : unix_op -> str -> Prop :=
| by_scheme : forall s, s <> [] -> gives_scheme decode (U_set_scheme s) s
| by_no_scheme : gives_scheme decode (U_set_scheme []) (lit "unix")
| by_uri : forall t scheme n, uri_names decode t scheme n -> gives_scheme decode (U_set_uri t) scheme.
Inductive gives_mode : unix_op -> Z -> Prop :=
| by_set_mode : forall m, gives_mode (U_set_mode m) m.
Inductive gives_group : unix_op -> str -> Prop :=
| by_set_group : forall g, gives_group (U_set_group g) g.

(* [last_given f d h v]: v is what the last call of h which gives something
   gave, or d when none of them does. *)
Inductive last_given {A} (f : unix_op -> A -> Prop) (d : A) : list unix_op -> A -> Prop :=
| given_never : last_given f d [] d
| given_here : forall op h v, f op v -> last_given f d (op :: h) v
| given_before : forall op h v, (forall w, ~ f op w) -> last_given f d h v -> last_given f d (op :: h) v.

(* The object u was made by the default constructor and went through h. *)
Inductive unix_lived (decode : str -> option (list Z)) : list unix_op -> addr_unix -> Prop :=
| unix_lived_new : unix_lived decode [] unix_new
| unix_lived_call : forall h u op, unix_lived decode h u -> proper_op op ->
    unix_lived decode (op :: h) (unix_step decode u op).
