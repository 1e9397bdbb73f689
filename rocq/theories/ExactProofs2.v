(* Proofs for PropExact.v: the default masks of validator_address. *)
From Coq Require Import Lia ZifyBool ZifyNat.
From Verif Require Import Base Addr Spec Range SpecRange Inet SpecText AddrText Parser SpecParser SpecParser2 Validator SpecValidator.
From Verif Require AddrProofs4 ParserProofs ParserProofs7 ParserProofs9 ParserProofs10 RouteProofs ValidatorProofs ValidatorProofs2
  PropParser PropParser2 PropParser4 PropParser5.
Import AddrProofs4 ParserProofs ParserProofs7 ParserProofs9 ParserProofs10 RouteProofs ValidatorProofs ValidatorProofs2 PropParser PropParser2 PropParser4 PropParser5.
Local Open Scope Z_scope.

Definition masks (p : parser) : str * str := (f_default_mask4 p, f_default_mask6 p).

Lemma masks_address p t : masks (fst (set_default_address p t)) = masks p.
Proof.
  unfold set_default_address. destruct t as [|c t]; [reflexivity|]. destruct (c =? 91); [destruct (negb _); reflexivity|].
  destruct (find_char _ _); reflexivity.
Qed.
Lemma masks_port y p t : masks (fst (set_default_port_str y p t)) = masks p.
Proof.
  unfold set_default_port_str, set_default_port. destruct t as [|c t]; [destruct (_ || _); reflexivity|].
  destruct (convert_string _ _); [|reflexivity]. destruct (_ || _); reflexivity.
Qed.

(* The default masks after a default with a mask of n bits. *)
Definition new_masks (four : bool) (n : Z) (m : str * str) : str * str :=
  if (n =? -1) || (n =? 128) then m
  else if four && (n <=? 32) then (dec_string n, snd m) else (fst m, dec_string n).

Lemma masks_mask y p a : converts_decimals y -> -1 <= get_mask_size a <= 128 ->
  masks (fst (if negb (get_mask_size a =? -1) && negb (get_mask_size a =? 128)
     then if is_ipv4 a then set_default_mask y p (to_string_int (get_mask_size a))
          else set_default_mask y p (lit "[" ++ to_string_int (get_mask_size a) ++ lit "]")
     else (p, Ok tt))) = new_masks (is_ipv4 a) (get_mask_size a) (masks p).
Proof.
  intros C B. unfold new_masks. destruct (get_mask_size a =? -1) eqn:E1; [reflexivity|].
  destruct (get_mask_size a =? 128) eqn:E2; [reflexivity|]. cbn [negb andb orb].
  rewrite to_string_dec by lia. set (n := get_mask_size a) in *.
  pose proof (PropText.plain_dec_string n ltac:(lia)) as [D _].
  destruct (is_ipv4 a); cbn [andb].
  - unfold set_default_mask.
    pose proof (C _ _ D ltac:(lia)) as CV. pose proof (decimal_hd _ _ D) as [HN HD].
    destruct (dec_string n) as [|c t]; [congruence|].
    assert (48 <= c <= 57) as HC by (apply HD; now left).
    replace (c =? 91) with false by lia.
    assert (back (c :: t) =? 93 = false) as ->.
    { assert (In (back (c :: t)) (c :: t)) as I.
      { unfold back. clear. revert c. induction t as [|d t IH]; intros c; [left; reflexivity|right; apply IH]. }
      specialize (HD _ I). lia. }
    cbn [andb orb].
    assert (find_char 58 (c :: t) = None) as ->.
    { apply find_char_none. intros I. specialize (HD _ I). lia. }
    rewrite CV. replace ((n <? 0) || (n >? 128)) with false by lia.
    destruct (n >? 32) eqn:G; [replace (n <=? 32) with false by lia|replace (n <=? 32) with true by lia]; reflexivity.
  - unfold set_default_mask. generalize (dec_string n) as t. intros t. change (lit "[" ++ t ++ lit "]") with (91 :: t ++ [93]).
    assert (back (91 :: t ++ [93]) = 93) as ->.
    { unfold back. change (91 :: t ++ [93]) with ((91 :: t) ++ [93]). apply last_last. }
    cbn [Z.eqb andb Pos.eqb]. cbn [fst]. rewrite inner_brackets. reflexivity.
Qed.

Lemma default_value_masks y g param s s' a : converts_decimals y -> reads_default y g param a ->
  -1 <= get_mask_size a <= 128 ->
  default_value y g param s = (s', Ok tt) ->
  masks (s_parser s') = new_masks (is_ipv4 a) (get_mask_size a) (masks (s_parser s)).
Proof.
  intros C (q & r & EP & F & T & <-) B. unfold default_value. rewrite reader_eq, EP, F, T. cbn [andb negb].
  set (p := s_parser s). set (a := get_from r) in *.
  destruct (match snd (get_network_type a) with NETWORK_TYPE_ANY => _ | _ => _ end) as [p1 r1] eqn:E1.
  assert (M1 : masks p1 = masks p).
  { pose proof (fun t => masks_address p t) as MA.
    destruct (snd (get_network_type a)); try (injection E1 as <- _; reflexivity);
      (destruct (to_ipv4or6_string _ _ _) as [t| | |]; [|injection E1 as <- _; reflexivity..];
       specialize (MA t); rewrite E1 in MA; exact MA). }
  destruct r1 as [[]| | |]; try discriminate.
  destruct (if negb (get_port a =? 0) then _ else _) as [p2 r2] eqn:E2.
  assert (M2 : masks p2 = masks p1).
  { destruct (negb _); [|injection E2 as <- _; reflexivity].
    rewrite <- (masks_port y p1 (get_str_port a)). now rewrite E2. }
  destruct r2 as [[]| | |]; try discriminate. cbv zeta.
  pose proof (masks_mask y p2 a C B) as M3.
  destruct (if _ && _ then _ else _) as [p3 r3]. cbn [fst] in M3. intros H. injection H as <- _. cbn [s_parser].
  now rewrite M3, M2, M1.
Qed.

Lemma only_default_masks split y g before p after param a s s' nm :
  converts_decimals y -> -1 <= get_mask_size a <= 128 ->
  nm = lit "default" \/ nm = lit "defaults" -> an_option split p nm [param] ->
  no_default split before -> no_default split after ->
  reads_default y g param a -> param <> lit "yes" ->
  options split y g (before ++ p :: after) s = (s', Ok tt) ->
  masks (s_parser s') = new_masks (is_ipv4 a) (get_mask_size a) (masks (s_parser s)).
Proof.
  intros C B Hn AO NB N RD NY H. apply options_app in H. destruct H as (s1 & H0 & H). cbn [options] in H.
  destruct (sd_options _ _ _ _ NB _ _ H0) as [_ _ S3 S4 _].
  destruct (option_step split y g p s1) as [s2 [[]|e| |]] eqn:E; try discriminate.
  destruct (sd_options _ _ _ _ N _ _ H) as [_ _ T3 T4 _].
  apply name_and_values_spec in AO. destruct AO as [NE EN]. unfold option_step in E.
  destruct p as [|c p]; [congruence|]. rewrite EN in E.
  assert (default_option y g [param] s1 = (s2, Ok tt)) as D.
  { destruct Hn as [-> | ->]; exact E. }
  unfold default_option in D. destruct (str_eqb param (lit "yes")) eqn:Y; [now apply str_eqb_true in Y|].
  cbn [default_values] in D. destruct (default_value y g param s1) as [s3 r3] eqn:DV.
  destruct r3 as [[]| | |]; try discriminate. injection D as ->.
  pose proof (default_value_masks _ _ _ _ _ _ C RD B DV) as M. unfold masks in *. rewrite S3, S4 in M. now rewrite T3, T4.
Qed.
