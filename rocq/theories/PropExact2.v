(* What the code does in all the cases, for properties of the parser and the
   validator whose full statement is refuted: C97. *)
From Coq Require Import Lia ZifyBool ZifyNat.
From Verif Require Import Base Addr Spec Range SpecRange Inet SpecText AddrText Parser SpecParser SpecParser2 Validator SpecValidator.
From Verif Require AddrProofs4 ParserProofs ParserProofs7 ParserProofs9 ParserProofs10 RouteProofs ValidatorProofs ValidatorProofs2
  PropParser PropParser2 PropParser4 PropParser5 PropAddr PropValidator ExactProofs2.
Import AddrProofs4 ParserProofs ParserProofs7 ParserProofs9 ParserProofs10 RouteProofs ValidatorProofs ValidatorProofs2 PropParser PropParser2 PropParser4 PropParser5.
Local Open Scope Z_scope.

(* ---------- C97 ---------- *)
(* The default masks of a validator with one default option: the prefix
   length of the mask of the address, counted over 128 bits, goes to the IPv6
   mask, except up to 32 with an address which counts as IPv4.  A default
   without a mask, with /128 or with a mask which is not a prefix sets none. *)
Theorem C97_default_masks : forall split y g before p after name param a v log,
  converts_decimals y -> addr_wf a ->
  default_name name -> an_option split p name [param] -> no_default split before -> no_default split after ->
  param <> lit "yes" -> reads_default y g param a ->
  construct split y g (before ++ p :: after) = Ok (v, log) ->
  exists q, acts_as v q
    /\ (forall n, 0 <= n < 128 -> mask_value a = prefix_mask n ->
        (is_v4_value (value a) -> n <= 32 -> decimal (get_default_mask4 q) n /\ get_default_mask6 q = [])
        /\ (~ is_v4_value (value a) \/ 32 < n -> get_default_mask4 q = [] /\ decimal (get_default_mask6 q) n))
    /\ ((forall n, 0 <= n < 128 -> mask_value a <> prefix_mask n) ->
        get_default_mask4 q = [] /\ get_default_mask6 q = []).
Proof.
  intros split y g before p after nm param a v lg C W Hn AO NB N NY RD H. exists (f_parser v).
  split; [exact (PropValidator.C63_verdict _ _ _ _ _ _ H)|].
  destruct (PropValidator.construct_setup _ _ _ _ _ _ H) as (s & E & -> & _).
  destruct (PropAddr.C09_mask_size_characterisation a W) as (M1 & M2 & M3).
  pose proof (ExactProofs2.only_default_masks split y g before p after param a _ _ nm C M3 Hn AO NB N RD NY E) as M.
  unfold ExactProofs2.masks, ExactProofs2.new_masks in M. cbn [s_parser f_default_mask4 f_default_mask6 fst snd] in M.
  unfold get_default_mask4, get_default_mask6.
  assert (V4 := AddrProofs2.is_ipv4_value a W).
  assert (M128 : get_mask_size a <> -1 -> get_mask_size a <> 128 -> exists n, 0 <= n < 128 /\ mask_value a = prefix_mask n).
  { intros X1 X2. exists (get_mask_size a). split; [lia|]. now apply (M1 (get_mask_size a)); [lia|]. }
  split.
  - intros n B P. assert (get_mask_size a = n) as G by (apply M1; [lia|split; [lia|exact P]]). rewrite G in M.
    replace ((n =? -1) || (n =? 128)) with false in M by lia.
    pose proof (PropText.plain_dec_string n ltac:(lia)) as [D _].
    split.
    + intros V L. apply V4 in V. rewrite V in M. replace (n <=? 32) with true in M by lia. cbn [andb] in M.
      injection M as -> ->. split; [exact D|reflexivity].
    + intros V. assert (is_ipv4 a && (n <=? 32) = false) as X.
      { destruct (is_ipv4 a); [|reflexivity]. destruct V as [V|V]; [now elim V; apply V4|]. cbn. lia. }
      rewrite X in M. injection M as -> ->. split; [reflexivity|exact D].
  - intros NP. destruct (_ || _) eqn:X in M; [injection M as -> ->; split; reflexivity|].
    exfalso. destruct M128 as (n & B & P); [lia|lia|]. exact (NP n B P).
Qed.
Print Assumptions C97_default_masks.
(* A resolver which knows one IPv6 host. *)
Definition host6 (bytes : list Z) : resolver := fun _ _ _ _ _ =>
  GAI_list [mk_ai AF_INET6 SIZEOF_IN6 6 (mk_in 0 0 0) (mk_in6 AF_INET6 0 0 bytes 0)].
Definition doc6 : resolver := host6 [0x20;1;13;0xB8;0;0;0;0;0;0;0;0;0;0;0;1].
Definition mapped6 : resolver := host6 [0;0;0;0;0;0;0;0;0;0;255;255;10;0;0;1].
Example C97_witness_masks :
  (exists a, reads_default ref_sys doc6 (lit "[2001:db8::1]/48") a /\ addr_wf a /\ mask_value a = prefix_mask 48
     /\ ~ is_v4_value (value a))
  /\ (exists v, construct PropValidator.words ref_sys doc6 [lit "mask=yes"; lit "default=[2001:db8::1]/48"] = Ok (v, [])
        /\ get_default_mask4 (f_parser v) = [] /\ get_default_mask6 (f_parser v) = lit "48")
  /\ (exists v, construct PropValidator.words ref_sys mapped6 [lit "mask=yes"; lit "default=[::ffff:10.0.0.1]/24"] = Ok (v, [])
        /\ get_default_mask4 (f_parser v) = lit "24" /\ get_default_mask6 (f_parser v) = []).
Proof.
  split.
  { eexists. split; [eexists _, _; split; [vm_compute; reflexivity|repeat split]|].
    split; [apply addr_wfb_ok; vm_compute; reflexivity|]. split; [vm_compute; reflexivity|].
    vm_compute. intros [A B]. now apply A. }
  split; (eexists; split; [vm_compute; reflexivity|split; vm_compute; reflexivity]).
Qed.
