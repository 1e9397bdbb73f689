(* Lemmas about the validator: flags, defaults, log. *)
From Coq Require Import ZifyBool ZifyNat.
From Verif Require Import Base Addr Spec Range SpecRange Inet AddrText Parser SpecParser SpecParser2 Validator SpecValidator.
From Verif Require ParserProofs ParserProofs3 ParserProofs5 ParserProofs7 RouteProofs.
Import ParserProofs ParserProofs3 ParserProofs5 ParserProofs7 RouteProofs.
Local Open Scope Z_scope.

Lemma upd_len {A} (l : list A) n x : length (upd l n x) = length l.
Proof. revert n. induction l as [|y l IH]; intros [|n]; cbn [upd length]; auto. Qed.

(* ---------- flags ---------- *)
(* The flag 14 is never turned on, so that turning others on changes nothing
   else. *)
Record tidy (p : parser) : Prop := mk_tidy {
  t_length : length (f_flags p) = 16%nat;
  t_ports : allow p ALLOW_MULTI_PORTS_COMMAS = false;
  t_sort : f_sort p = SORT_NO;
  t_protocol : p_protocol p = -1;
  t_error : f_error p = [] /\ f_error_count p = 0
}.
Lemma sixteen (P : Z -> Prop) : P 0 -> P 1 -> P 2 -> P 3 -> P 4 -> P 5 -> P 6 -> P 7 -> P 8 -> P 9 -> P 10 -> P 11
  -> P 12 -> P 13 -> P 14 -> P 15 -> forall k, 0 <= k < 16 -> P k.
Proof.
  intros. assert (k = 0 \/ k = 1 \/ k = 2 \/ k = 3 \/ k = 4 \/ k = 5 \/ k = 6 \/ k = 7 \/ k = 8 \/ k = 9 \/ k = 10
    \/ k = 11 \/ k = 12 \/ k = 13 \/ k = 14 \/ k = 15) as D by lia.
  repeat (destruct D as [->|D]; [assumption|]). now subst.
Qed.
Lemma flags16 (l : list bool) : length l = 16%nat -> exists a b c d e f g h i j k m n o p q,
  l = [a;b;c;d;e;f;g;h;i;j;k;m;n;o;p;q].
Proof.
  intros H. do 16 (destruct l as [|? l]; [discriminate|]). destruct l; [|discriminate]. repeat eexists.
Qed.
Lemma set_flag_allow p f b k : tidy p -> 0 <= f < 16 -> f <> 14 -> 0 <= k < 16 ->
  allow (set_flag f b p) k = if k =? f then b else allow p k.
Proof.
  intros [L T _ _ _] F N K. unfold allow in T. unfold set_flag, set_allow, ALLOW_max.
  replace ((f <? 0) || (f >=? 16)) with false by lia. unfold allow.
  cbn [fst with_flags f_flags].
  destruct (flags16 _ L) as (a&a0&a1&a2&a3&a4&a5&a6&a7&a8&a9&a10&a11&a12&a13&a14&E). rewrite E in *. assert (a13 = false) as -> by exact T.
  revert N. pattern f. apply sixteen; try exact F; intros N; try lia;
    pattern k; apply sixteen; try exact K; destruct b; reflexivity.
Qed.
Lemma set_flag_tidy p f b : tidy p -> 0 <= f < 16 -> f <> 14 -> tidy (set_flag f b p).
Proof.
  intros T F N. pose proof (set_flag_allow p f b 14 T F N ltac:(lia)) as A.
  destruct T as [L T S P E]. constructor.
  - unfold set_flag, set_allow, ALLOW_max. replace ((f <? 0) || (f >=? 16)) with false by lia.
    cbn [fst with_flags f_flags].
    destruct b; [destruct (f =? ALLOW_MULTI_ADDRESSES_COMMAS); [|destruct (f =? ALLOW_MULTI_PORTS_COMMAS)]|]; rewrite ?upd_len; exact L.
  - change ALLOW_MULTI_PORTS_COMMAS with 14 in *. rewrite A. now replace (14 =? f) with false by lia.
  - unfold set_flag, set_allow, ALLOW_max. replace ((f <? 0) || (f >=? 16)) with false by lia. exact S.
  - unfold set_flag, set_allow, ALLOW_max. replace ((f <? 0) || (f >=? 16)) with false by lia. exact P.
  - unfold set_flag, set_allow, ALLOW_max. replace ((f <? 0) || (f >=? 16)) with false by lia. exact E.
Qed.

Lemma new_tidy : tidy parser_new.
Proof. now repeat split. Qed.

(* What an option with these values makes of the flag k of its group. *)
Definition word (k : Z) : option str :=
  if k =? 1 then Some (lit "required") else if k =? 2 then Some (lit "commas") else if k =? 3 then Some (lit "spaces")
  else if k =? 4 then Some (lit "newlines") else if k =? 5 then Some (lit "lookup") else if k =? 6 then Some (lit "range")
  else None.
Definition is_word (k : Z) (v : str) : bool := match word k with Some w => str_eqb v w | None => false end.
Definition single (values : list str) (f : str -> bool) : bool := match values with [v] => f v | _ => false end.
Definition flag_value (values : list str) (k : Z) : bool :=
  if k <=? 6 then negb (has_value values (lit "no")) && ((k =? 0) || existsb (is_word k) values)
  else if k =? 7 then single values (fun v => negb (str_eqb v (lit "no")))
  else if k =? 8 then single values (fun v => str_eqb v (lit "required"))
  else if k =? 9 then single values (fun v => negb (str_eqb v (lit "no")))
  else if k =? 10 then single values (fun v => str_eqb v (lit "address"))
  else if k =? 11 then single values (fun v => str_eqb v (lit "yes") || str_eqb v (lit "all") || str_eqb v (lit "hash"))
  else if k =? 12 then single values (fun v => str_eqb v (lit "yes") || str_eqb v (lit "all") || str_eqb v (lit "semicolon"))
  else false.
Definition group (k : Z) : str :=
  if k <=? 6 then lit "address" else if k <=? 8 then lit "port" else if k <=? 10 then lit "mask"
  else if k <=? 12 then lit "comment" else [].

Definition clean (s : setup) : Prop := tidy (s_parser s).
Definition flag (s : setup) (k : Z) : bool := allow (s_parser s) k.
Lemma change_clean f b s : clean s -> 0 <= f < 16 -> f <> 14 -> clean (change (set_flag f b) s).
Proof. apply set_flag_tidy. Qed.
Lemma change_flag f b s k : clean s -> 0 <= f < 16 -> f <> 14 -> 0 <= k < 16 ->
  flag (change (set_flag f b) s) k = if k =? f then b else flag s k.
Proof. apply set_flag_allow. Qed.
Lemma log_clean m s : clean s -> clean (log m s). Proof. auto. Qed.
Ltac cleans := repeat first [assumption | apply log_clean | apply change_clean; [|now cbv|discriminate]].
Ltac flags K := repeat first [rewrite change_flag; [|cleans|now cbv|discriminate|exact K]].

Lemma address_value_flag values v s k : clean s -> 0 <= k < 16 ->
  clean (address_value values v s) /\ flag (address_value values v s) k = is_word k v || flag s k.
Proof.
  intros C K. unfold address_value.
  destruct (str_eqb v (lit "commas")) eqn:E1;
    [apply str_eqb_true in E1; subst v; split; [cleans|]; flags K; pattern k; apply sixteen; try exact K; reflexivity|].
  destruct (str_eqb v (lit "lookup")) eqn:E2;
    [apply str_eqb_true in E2; subst v; split; [cleans|]; flags K; pattern k; apply sixteen; try exact K; reflexivity|].
  destruct (str_eqb v (lit "newlines")) eqn:E3;
    [apply str_eqb_true in E3; subst v; split; [cleans|]; flags K; pattern k; apply sixteen; try exact K; reflexivity|].
  destruct (str_eqb v (lit "range")) eqn:E4;
    [apply str_eqb_true in E4; subst v; split; [cleans|]; flags K; pattern k; apply sixteen; try exact K; reflexivity|].
  destruct (str_eqb v (lit "required")) eqn:E5;
    [apply str_eqb_true in E5; subst v; split; [cleans|]; flags K; pattern k; apply sixteen; try exact K; reflexivity|].
  destruct (str_eqb v (lit "spaces")) eqn:E6;
    [apply str_eqb_true in E6; subst v; split; [cleans|]; flags K; pattern k; apply sixteen; try exact K; reflexivity|].
  assert (is_word k v = false) as W.
  { pattern k. apply sixteen; try exact K; unfold is_word;
      (replace (word _) with (@None str) by reflexivity; reflexivity)
      || match goal with |- context [word ?k] => let w := eval vm_compute in (word k) in
           match w with Some ?t => change (str_eqb v t = false) end end; assumption. }
  rewrite W. cbn [orb]. destruct (str_eqb v (lit "yes")); [destruct (has_value values (lit "required"))|]; split; cleans; reflexivity.
Qed.
Lemma address_values_flag values l : forall s k, clean s -> 0 <= k < 16 ->
  let s' := fold_left (fun s v => address_value values v s) l s in
  clean s' /\ flag s' k = existsb (is_word k) l || flag s k.
Proof.
  induction l as [|v l IH]; intros s k C K; cbn [fold_left existsb]; [now split|].
  destruct (address_value_flag values v s k C K) as [C1 F1]. destruct (IH _ k C1 K) as [C2 F2].
  split; [exact C2|]. rewrite F2, F1. now destruct (is_word k v), (existsb (is_word k) l).
Qed.

Definition sets (name : str) (values : list str) (s s' : setup) : Prop :=
  clean s' /\ forall k, 0 <= k < 16 -> flag s' k = if str_eqb name (group k) then flag_value values k else flag s k.
Lemma address_option_flag values s : clean s -> sets (lit "address") values s (address_option values s).
Proof.
  intros C. unfold address_option.
  destruct (has_value values (lit "no")) eqn:N.
  - match goal with |- context [match values with [] => log ?m ?x | _ => _ end] => set (s1 := x) end.
    assert (sets (lit "address") values s s1) as [C1 F1].
    { split; [unfold s1; cleans|]. intros k K. unfold s1. flags K. unfold flag_value. rewrite N.
      pattern k. apply sixteen; try exact K; reflexivity. }
    destruct values as [|v [|v' values]]; split; try exact C1; exact F1.
  - match goal with |- context [fold_left ?f values ?x] => set (s1 := x) end.
    assert (clean s1) as C1 by (unfold s1; cleans).
    split; [exact (proj1 (address_values_flag values values s1 0 C1 ltac:(lia)))|]. intros k K.
    rewrite (proj2 (address_values_flag values values s1 k C1 K)). unfold s1. flags K. unfold flag_value. rewrite N. cbn [negb andb].
    pattern k. apply sixteen; try exact K;
      try (replace (existsb (is_word _) values) with false; [reflexivity|];
           clear; induction values as [|v l IH]; [reflexivity|exact IH]);
      change (if str_eqb (lit "address") (group _) then ?x else _) with x; cbn [Z.leb Z.compare Pos.compare Pos.compare_cont Z.eqb Pos.eqb orb];
      now rewrite orb_false_r.
Qed.
Ltac by_flag K := let k := match type of K with _ <= ?k < _ => k end in
  pattern k; apply sixteen; try exact K; reflexivity.
Lemma comment_option_flag values s : clean s -> sets (lit "comment") values s (comment_option values s).
Proof.
  intros C. unfold comment_option.
  match goal with |- context [match values with [] => log ?m ?x | _ => _ end] => set (s1 := x) end.
  assert (clean s1) as C1 by (unfold s1; cleans).
  assert (forall k, 0 <= k < 16 -> flag s1 k = if (k =? 12) then false else if k =? 11 then false else flag s k) as F1.
  { intros k K. unfold s1. flags K. reflexivity. }
  destruct values as [|v [|v' values]]; try (split; [exact C1|]; intros k K; rewrite ?F1 by exact K;
    change (flag (log _ s1) k) with (flag s1 k); rewrite F1 by exact K; by_flag K).
  destruct (str_eqb v (lit "yes")) eqn:E1; cbn [orb].
  { split; [cleans|]. intros k K. flags K. rewrite F1 by exact K. unfold flag_value, single. rewrite E1. by_flag K. }
  destruct (str_eqb v (lit "all")) eqn:E2; cbn [orb].
  { split; [cleans|]. intros k K. flags K. rewrite F1 by exact K. unfold flag_value, single. rewrite E1, E2. by_flag K. }
  destruct (str_eqb v (lit "hash")) eqn:E3.
  { split; [cleans|]. intros k K. flags K. rewrite F1 by exact K. unfold flag_value, single. rewrite E1, E2, E3.
    apply str_eqb_true in E3. subst v. by_flag K. }
  destruct (str_eqb v (lit "semicolon")) eqn:E4.
  { split; [cleans|]. intros k K. flags K. rewrite F1 by exact K. unfold flag_value, single. rewrite E1, E2, E3, E4.
    apply str_eqb_true in E4. subst v. by_flag K. }
  assert (sets (lit "comment") [v] s s1) as [X Y].
  { split; [exact C1|]. intros k K. rewrite F1 by exact K. unfold flag_value, single. rewrite E1, E2, E3, E4. by_flag K. }
  destruct (negb _); split; auto.
Qed.
Lemma mask_option_flag values s : clean s -> sets (lit "mask") values s (mask_option values s).
Proof.
  intros C. unfold mask_option.
  match goal with |- context [match values with [] => log ?m ?x | _ => _ end] => set (s1 := x) end.
  assert (clean s1) as C1 by (unfold s1; cleans).
  assert (forall k, 0 <= k < 16 -> flag s1 k = if (k =? 10) then false else if k =? 9 then false else flag s k) as F1.
  { intros k K. unfold s1. flags K. reflexivity. }
  destruct values as [|v [|v' values]]; try (split; [exact C1|]; intros k K; rewrite ?F1 by exact K;
    change (flag (log _ s1) k) with (flag s1 k); rewrite F1 by exact K; by_flag K).
  destruct (str_eqb v (lit "no")) eqn:E1; cbn [negb].
  { split; [exact C1|]. intros k K. rewrite F1 by exact K. unfold flag_value, single. rewrite E1.
    apply str_eqb_true in E1. subst v. by_flag K. }
  destruct (str_eqb v (lit "address")) eqn:E2.
  { split; [cleans|]. intros k K. flags K. rewrite F1 by exact K. unfold flag_value, single. rewrite E1, E2. by_flag K. }
  assert (sets (lit "mask") [v] s (change (set_flag ALLOW_MASK true) s1)) as [X Y].
  { split; [cleans|]. intros k K. flags K. rewrite F1 by exact K. unfold flag_value, single. rewrite E1, E2. by_flag K. }
  destruct (negb _); split; auto.
Qed.
Lemma port_option_flag values s : clean s -> sets (lit "port") values s (port_option values s).
Proof.
  intros C. unfold port_option.
  match goal with |- context [match values with [] => log ?m ?x | _ => _ end] => set (s1 := x) end.
  assert (clean s1) as C1 by (unfold s1; cleans).
  assert (forall k, 0 <= k < 16 -> flag s1 k = if (k =? 8) then false else if k =? 7 then false else flag s k) as F1.
  { intros k K. unfold s1. flags K. reflexivity. }
  destruct values as [|v [|v' values]]; try (split; [exact C1|]; intros k K; rewrite ?F1 by exact K;
    change (flag (log _ s1) k) with (flag s1 k); rewrite F1 by exact K; by_flag K).
  destruct (str_eqb v (lit "no")) eqn:E1; cbn [negb].
  { split; [exact C1|]. intros k K. rewrite F1 by exact K. unfold flag_value, single. rewrite E1.
    apply str_eqb_true in E1. subst v. by_flag K. }
  destruct (str_eqb v (lit "yes")) eqn:E2; cbn [negb].
  { split; [cleans|]. intros k K. flags K. rewrite F1 by exact K. unfold flag_value, single. rewrite E1.
    apply str_eqb_true in E2. subst v. by_flag K. }
  destruct (str_eqb v (lit "required")) eqn:E3.
  { split; [cleans|]. intros k K. flags K. rewrite F1 by exact K. unfold flag_value, single. rewrite E1, E3. by_flag K. }
  split; [cleans|]. intros k K. change (flag (log ?m ?x) k) with (flag x k). flags K. rewrite F1 by exact K.
  unfold flag_value, single. rewrite E1, E3. by_flag K.
Qed.

(* ---------- default=... ---------- *)
(* Nothing but the defaults changes. *)
Record only_defaults (p q : parser) : Prop := mk_only_defaults {
  od_flags : f_flags q = f_flags p;
  od_sort : f_sort q = f_sort p;
  od_protocol : p_protocol q = p_protocol p;
  od_error : f_error q = f_error p;
  od_count : f_error_count q = f_error_count p
}.
Lemma od_refl p : only_defaults p p. Proof. now constructor. Qed.
Lemma od_trans p q r : only_defaults p q -> only_defaults q r -> only_defaults p r.
Proof. intros [] []. constructor; congruence. Qed.
Lemma od_address p s : only_defaults p (fst (set_default_address p s)).
Proof.
  unfold set_default_address. destruct s as [|c s]; [now constructor|].
  destruct (c =? 91); [destruct (negb _); now constructor|]. destruct (find_char _ _); now constructor.
Qed.
Lemma od_port_n p n : only_defaults p (fst (set_default_port p n)).
Proof. unfold set_default_port. destruct (_ || _); now constructor. Qed.
Lemma od_port y p s : only_defaults p (fst (set_default_port_str y p s)).
Proof.
  unfold set_default_port_str. destruct s; [apply od_port_n|]. destruct (convert_string _ _); [apply od_port_n|apply od_refl].
Qed.
Lemma od_mask y p s : only_defaults p (fst (set_default_mask y p s)).
Proof.
  unfold set_default_mask. destruct s as [|c s]; [now constructor|].
  destruct (_ && _); [now constructor|]. destruct (_ || _); [now constructor|].
  destruct (find_char _ _); [now constructor|]. destruct (convert_string _ _); [|now constructor].
  destruct (_ || _); [now constructor|]. destruct (_ >? _); now constructor.
Qed.
Lemma od_value y g v s s' r : default_value y g v s = (s', r) -> only_defaults (s_parser s) (s_parser s').
Proof.
  unfold default_value. destruct (parse _ _ _ _) as [q [l|e| |]]; [|intros [= <- _]; apply od_refl..].
  destruct l as [|x [|x' l]]; try (intros [= <- _]; apply od_refl).
  destruct (has_from x && negb (has_to x)); [|intros [= <- _]; apply od_refl].
  assert (forall p1 r1, (match snd (get_network_type (get_from x)) with
      | NETWORK_TYPE_ANY => (s_parser s, Ok tt)
      | _ => match to_ipv4or6_string y (get_from x) STRING_IP_BRACKET_ADDRESS with
             | Ok t => set_default_address (s_parser s) t
             | Throw e => (s_parser s, Throw e) | UB => (s_parser s, UB) | OutOfFuel => (s_parser s, OutOfFuel) end
      end) = (p1, r1) -> only_defaults (s_parser s) p1) as A.
  { intros p1 r1. pose proof (fun t => od_address (s_parser s) t) as B.
    destruct (snd (get_network_type (get_from x))); try (intros [= <- _]; apply od_refl);
      (destruct (to_ipv4or6_string _ _ _) as [t|e| |]; try (intros [= <- _]; apply od_refl); intros E; specialize (B t); now rewrite E in B). }
  match goal with |- context [let '(p, r1) := ?m in _] => destruct m as [p1 r1] eqn:E1 end.
  specialize (A _ _ eq_refl). clear E1. destruct r1 as [u|e| |]; try (intros [= <- _]; exact A).
  match goal with |- context [let '(p, r2) := ?m in _] => destruct m as [p2 r2] eqn:E2 end.
  assert (only_defaults p1 p2) as B.
  { destruct (negb (get_port _ =? 0)); [|injection E2 as <- _; apply od_refl]. pose proof (od_port y p1 (get_str_port (get_from x))) as B. now rewrite E2 in B. }
  clear E2. destruct r2 as [u2|e| |]; try (intros [= <- _]; exact (od_trans _ _ _ A B)).
  match goal with |- context [let '(p, r3) := ?m in _] => destruct m as [p3 r3] eqn:E3 end.
  assert (only_defaults p2 p3) as D.
  { destruct (_ && _); [|injection E3 as <- _; apply od_refl]. destruct (is_ipv4 _);
      match type of E3 with set_default_mask ?a ?b ?c = _ => pose proof (od_mask a b c) as D end; now rewrite E3 in D. }
  intros [= <- _]. cbn [s_parser]. eapply od_trans; [exact A|]. eapply od_trans; eassumption.
Qed.
Lemma od_values y g l : forall s s' r, default_values y g l s = (s', r) -> only_defaults (s_parser s) (s_parser s').
Proof.
  induction l as [|v l IH]; intros s s' r; cbn [default_values]; [intros [= <- _]; apply od_refl|].
  destruct (default_value y g v s) as [s1 r1] eqn:E. apply od_value in E.
  destruct r1; try (intros [= <- _]; exact E). intros H. eapply od_trans; [exact E|]. eapply IH. exact H.
Qed.
Lemma od_option y g l s s' r : default_option y g l s = (s', r) -> only_defaults (s_parser s) (s_parser s').
Proof.
  unfold default_option. destruct l as [|v [|v' l]]; try apply od_values.
  destruct (str_eqb v (lit "yes")); [|apply od_values]. intros [= <- _]. now constructor.
Qed.
Lemma od_tidy p q : only_defaults p q -> tidy p -> tidy q.
Proof. intros [F S P E N] [L T X Y [Z1 Z2]]. constructor; unfold allow in *; rewrite ?F, ?S, ?P, ?E, ?N; auto. Qed.
Lemma od_allow p q k : only_defaults p q -> allow q k = allow p k.
Proof. intros [F _ _ _ _]. unfold allow. now rewrite F. Qed.

(* ---------- the options ---------- *)
Lemma default_group k : 0 <= k < 16 -> str_eqb (lit "default") (group k) = false /\ str_eqb (lit "defaults") (group k) = false.
Proof. intros K. split; by_flag K. Qed.
Lemma other_group n k : 0 <= k < 16 -> n <> [] -> str_eqb n (lit "address") = false -> str_eqb n (lit "comment") = false ->
  str_eqb n (lit "mask") = false -> str_eqb n (lit "port") = false -> str_eqb n (group k) = false.
Proof.
  intros K N A C M P. assert (str_eqb n [] = false) as E by (destruct n; [congruence|reflexivity]).
  pattern k. apply sixteen; try exact K; assumption.
Qed.
Lemma empty_name k : 0 <= k < 16 -> str_eqb [] (group k) = (k >=? 13).
Proof. intros K. by_flag K. Qed.

(* The effect of one option on the flags; an option without a name, "=...",
   is not known. *)
Lemma option_step_flag split y g p s s' : option_step split y g p s = (s', Ok tt) -> clean s ->
  clean s' /\ forall k, 0 <= k < 13 ->
    flag s' k = if nonempty_str p && str_eqb (fst (name_and_values split p)) (group k)
                then flag_value (snd (name_and_values split p)) k else flag s k.
Proof.
  intros H C. unfold option_step in H. destruct p as [|c p]; [injection H as <-; now split|].
  cbn [nonempty_str andb]. destruct (name_and_values split (c :: p)) as [n vs]. cbn [fst snd].
  destruct (str_eqb n (lit "address")) eqn:E1.
  { injection H as <-. apply str_eqb_true in E1. subst n. destruct (address_option_flag vs s C) as [X Y]. split; [exact X|].
    intros k K. apply Y. lia. }
  destruct (str_eqb n (lit "comment")) eqn:E2.
  { injection H as <-. apply str_eqb_true in E2. subst n. destruct (comment_option_flag vs s C) as [X Y]. split; [exact X|].
    intros k K. apply Y. lia. }
  destruct (str_eqb n (lit "default") || str_eqb n (lit "defaults")) eqn:E3.
  { apply od_option in H. split; [now apply (od_tidy _ _ H)|]. intros k K.
    replace (str_eqb n (group k)) with false; [apply od_allow; exact H|]. symmetry.
    destruct (default_group k ltac:(lia)) as [D1 D2].
    apply orb_true_iff in E3. destruct E3 as [E3|E3]; apply str_eqb_true in E3; now subst n. }
  destruct (str_eqb n (lit "mask")) eqn:E4.
  { injection H as <-. apply str_eqb_true in E4. subst n. destruct (mask_option_flag vs s C) as [X Y]. split; [exact X|].
    intros k K. apply Y. lia. }
  destruct (str_eqb n (lit "port")) eqn:E5.
  { injection H as <-. apply str_eqb_true in E5. subst n. destruct (port_option_flag vs s C) as [X Y]. split; [exact X|].
    intros k K. apply Y. lia. }
  injection H as <-. split; [exact C|]. intros k K. destruct n as [|c' n].
  - rewrite empty_name by lia. now replace (k >=? 13) with false by lia.
  - rewrite other_group by (auto; lia || discriminate). reflexivity.
Qed.
(* The flags 13 to 15 stay off. *)
Lemma option_step_high split y g p s s' : option_step split y g p s = (s', Ok tt) -> clean s ->
  forall k, 13 <= k < 16 -> flag s k = false -> flag s' k = false.
Proof.
  intros H C k K F. unfold option_step in H. destruct p as [|c p]; [now injection H as <-|].
  destruct (name_and_values split (c :: p)) as [n vs].
  assert (forall name s2, str_eqb name (group k) = false -> sets name vs s s2 -> flag s2 k = false) as G.
  { intros name s2 N [_ Y]. rewrite Y by lia. now rewrite N. }
  assert (group k = []) as GK by (unfold group; repeat match goal with |- context [k <=? ?n] => replace (k <=? n) with false by lia end; reflexivity).
  rewrite GK in G.
  destruct (str_eqb n (lit "address")); [injection H as <-; eapply G; [|now apply address_option_flag]; reflexivity|].
  destruct (str_eqb n (lit "comment")); [injection H as <-; eapply G; [|now apply comment_option_flag]; reflexivity|].
  destruct (_ || _); [apply od_option in H; unfold flag in *; now rewrite (od_allow _ _ k H)|].
  destruct (str_eqb n (lit "mask")); [injection H as <-; eapply G; [|now apply mask_option_flag]; reflexivity|].
  destruct (str_eqb n (lit "port")); [injection H as <-; eapply G; [|now apply port_option_flag]; reflexivity|].
  now injection H as <-.
Qed.

Fixpoint last_values (split : str -> list str) (n : str) (data : list str) : option (list str) :=
  match data with
  | [] => None
  | p :: data =>
      match last_values split n data with
      | Some vs => Some vs
      | None => if nonempty_str p && str_eqb (fst (name_and_values split p)) n
                then Some (snd (name_and_values split p)) else None
      end
  end.
Lemma options_flag split y g data : forall s s', options split y g data s = (s', Ok tt) -> clean s ->
  clean s'
  /\ (forall k, 0 <= k < 13 -> flag s' k = match last_values split (group k) data with
                                           | Some vs => flag_value vs k | None => flag s k end)
  /\ (forall k, 13 <= k < 16 -> flag s k = false -> flag s' k = false).
Proof.
  induction data as [|p data IH]; intros s s' H C; cbn [options last_values] in *; [now injection H as <-|].
  destruct (option_step split y g p s) as [s1 [[]|e| |]] eqn:E; try discriminate.
  destruct (option_step_flag _ _ _ _ _ _ E C) as [C1 F1]. destruct (IH _ _ H C1) as (C2 & F2 & F3).
  split; [exact C2|]. split.
  - intros k K. rewrite F2 by exact K. destruct (last_values split (group k) data); [reflexivity|].
    rewrite F1 by exact K. destruct (nonempty_str p && _); reflexivity.
  - intros k K F. apply F3; [exact K|]. eapply option_step_high; eassumption.
Qed.

(* The options as a reader sees them. *)
Lemma find_char_split c s n : find_char c s = Some n -> exists a b, s = a ++ c :: b /\ ~ In c a /\ length a = n.
Proof.
  revert n. induction s as [|x s IH]; intros n; [discriminate|]. cbn [find_char]. destruct (x =? c) eqn:E.
  - intros [= <-]. exists [], s. replace x with c by lia. repeat split. auto.
  - destruct (find_char c s) as [m|]; [|discriminate]. intros [= <-]. destruct (IH m eq_refl) as (a & b & -> & N & L).
    exists (x :: a), b. repeat split; [intros [I|I]; [lia|auto]|cbn [length]; lia].
Qed.
Lemma find_char_none_in c s : find_char c s = None -> ~ In c s.
Proof.
  induction s as [|x s IH]; intros H I; [exact I|]. cbn [find_char] in H. destruct (x =? c) eqn:E; [discriminate|].
  destruct (find_char c s); [discriminate|]. destruct I as [I|I]; [lia|now apply IH].
Qed.
Lemma name_and_values_spec split p n vs : an_option split p n vs <-> p <> [] /\ name_and_values split p = (n, vs).
Proof.
  unfold an_option, name_and_values. split.
  - intros (N & I & [[-> ->]|(t & -> & V)]); (split; [exact N|]).
    + now rewrite find_char_none.
    + change (n ++ lit "=" ++ t) with (n ++ 61 :: t). rewrite find_char_first by exact I.
      rewrite firstn_app, firstn_all, Nat.sub_diag. cbn [firstn]. rewrite app_nil_r.
      replace (skipn (S (length n)) (n ++ 61 :: t)) with t.
      * destruct V as [[-> V]|[-> ->]]; [|reflexivity]. destruct (split t); [congruence|reflexivity].
      * replace (S (length n)) with (length (n ++ [61])) by (rewrite app_length; cbn [length]; lia).
        replace (n ++ 61 :: t) with ((n ++ [61]) ++ t) by now rewrite <- app_assoc.
        now rewrite skipn_app, skipn_all, Nat.sub_diag.
  - intros [N E]. split; [exact N|]. destruct (find_char 61 p) as [m|] eqn:F.
    + destruct (find_char_split _ _ _ F) as (a & b & -> & I & <-).
      rewrite firstn_app, firstn_all, Nat.sub_diag in E. cbn [firstn] in E. rewrite app_nil_r in E.
      replace (skipn (S (length a)) (a ++ 61 :: b)) with b in E.
      2: { replace (S (length a)) with (length (a ++ [61])) by (rewrite app_length; cbn [length]; lia).
           replace (a ++ 61 :: b) with ((a ++ [61]) ++ b) by now rewrite <- app_assoc.
           now rewrite skipn_app, skipn_all, Nat.sub_diag. }
      injection E as <- <-. split; [exact I|]. right. exists b. split; [reflexivity|].
      destruct (split b) eqn:S; [right; now split|left; split; [reflexivity|discriminate]].
    + injection E as <- <-. split; [now apply find_char_none_in|]. left. now split.
Qed.
Lemma last_values_none split n data : not_given split n data -> last_values split n data = None.
Proof.
  induction data as [|p data IH]; intros H; [reflexivity|]. cbn [last_values].
  rewrite IH by (intros q vs I; apply H; now right).
  destruct (nonempty_str p && str_eqb (fst (name_and_values split p)) n) eqn:E; [|reflexivity].
  apply andb_true_iff in E. destruct E as [E1 E2]. apply str_eqb_true in E2.
  elim (H p (snd (name_and_values split p)) (or_introl eq_refl)). apply name_and_values_spec.
  split; [destruct p; discriminate|]. destruct (name_and_values split p). cbn [fst snd] in *. congruence.
Qed.
Lemma last_option_spec split n data A : last_option split n data A -> last_values split n data = A.
Proof.
  intros [d H|before p after vs H N]; [now apply last_values_none|].
  apply name_and_values_spec in H. destruct H as [NE E].
  induction before as [|q before IH]; cbn [app last_values].
  - rewrite last_values_none by exact N. rewrite E. cbn [fst snd].
    replace (nonempty_str p) with true by (destruct p; [congruence|reflexivity]).
    now rewrite (proj2 (str_eqb_true n n) eq_refl).
  - now rewrite IH.
Qed.
