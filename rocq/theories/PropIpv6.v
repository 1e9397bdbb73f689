(* Properties C133 and C134: the texts of IPv6 addresses which are printed and
   which are read. *)
From Coq Require Import ZifyBool ZifyNat.
From Verif Require Import Base Addr Spec Range SpecRange Inet SpecText SpecIpv6 AddrText Parser SpecParser SpecParser2.
From Verif Require AddrProofs AddrProofs2 InetProofs TextProofs DottedProofs Ipv6Proofs Ipv6Proofs2 Ipv6Proofs3 ParserProofs2 ParserProofs9 ParserProofs13 PropAddr PropText PropParser2 PropParser4 PropParser5.
Import AddrProofs2 InetProofs TextProofs DottedProofs Ipv6Proofs Ipv6Proofs2 Ipv6Proofs3 ParserProofs9 ParserProofs13.
Local Open Scope Z_scope.

(* ---------- C133 ---------- *)
(* What is printed is the text which RFC 5952 recommends, and nothing else. *)
Theorem C133_recommended_text : forall y a s, addr_wf a -> value a <> v4_base ->
  to_ipv6_string y a STRING_IP_ADDRESS = Ok s <-> recommended_text s (value a).
Proof.
  intros y a s W N. rewrite PropText.text6_address_only by auto.
  pose proof (ntop6_text _ (wf_ip _ W)) as R. split; [intros E; now injection E as <-|].
  intros T. f_equal. apply (text_unique _ _ (value a)); assumption.
Qed.
Print Assumptions C133_recommended_text.
(* It is a text which RFC 4291 defines, of the same address. *)
Theorem C133_well_formed : forall s v, recommended_text s v -> exists ws, ipv6_text s ws /\ words_value ws = v.
Proof.
  intros s v R. pose proof R as (ws & L & F & V & _).
  assert (B : bytes16 (word_list_bytes ws)).
  { split; [rewrite wlb_length; lia|]. apply Forall_forall. intros x X. unfold word_list_bytes in X. apply in_concat in X as (l & IL & X).
    apply in_map_iff in IL as (w & <- & _). unfold is_byte. destruct X as [<-|[<-|[]]]; apply Z.mod_pos_bound; lia. }
  pose proof (ntop6_text _ B) as R2. rewrite num_words, V in R2 by exact F. rewrite (text_unique _ _ _ R R2).
  destruct (proj2 (six_iff (inet_ntop6 (word_list_bytes ws)) v)) as (ws2 & T & ->); [|now exists ws2].
  exists (word_list_bytes ws). split; [now apply ntop6_pton6|]. now rewrite num_words.
Qed.
Print Assumptions C133_well_formed.

(* ---------- C134 ---------- *)
(* The host name up to its first NUL. *)
Definition before_nul (h t : str) : Prop := ~ In 0 t /\ (h = t \/ exists u, h = t ++ 0 :: u).
Theorem C134_hostname : forall a t, before_nul (f_hostname a) t ->
  is_hostname_an_ip a = true <-> f_hostname a = [] \/ exists v, denotes t v.
Proof.
  intros a t [N E]. assert (C : c_str (f_hostname a) = t).
  { destruct E as [->|[u ->]]; [now apply PropText.c_str_no_nul|]. clear - N. induction t as [|c t IH]; [reflexivity|].
    cbn [app c_str]. destruct (c =? 0) eqn:Z; [exfalso; apply N; left; lia|]. f_equal. apply IH. intros X. apply N. now right. }
  assert (H : is_hostname_an_ip a = match f_hostname a with [] => true | _ :: _ =>
      match inet_pton4 t with Some _ => true | None => match inet_pton6 t with Some _ => true | None => false end end end).
  { unfold is_hostname_an_ip. rewrite <- C. now destruct (f_hostname a). }
  rewrite H. clear H. destruct (f_hostname a) as [|c h] eqn:EH; [split; auto|].
  split.
  - intros X. right. destruct (inet_pton4 t) as [q|] eqn:P4.
    + destruct (PropText.C20_only_dotted_accepted t q P4) as (_ & _ & D). exists (v4_base + num q). left. eauto.
    + destruct (inet_pton6 t) as [q|] eqn:P6; [|discriminate]. exists (num q). apply denotes_iff. right. eauto.
  - intros [X|[v D]]; [discriminate|]. apply denotes_iff in D. destruct D as [(w & D & _)|(q & -> & _)].
    + destruct (dotted_pton _ _ D) as (q & -> & _). reflexivity.
    + now destruct (inet_pton4 t).
Qed.
Print Assumptions C134_hostname.
(* A text in brackets is taken for the address which it denotes, and for no
   other; a text which denotes none is refused. *)
Theorem C134_brackets : forall y g p s v,
  converts_decimals y -> takes_numbers p -> get_allow p ALLOW_REQUIRED_PORT = Ok false -> get_default_port p = -1 ->
  s <> [] -> ~ In 0 s -> ~ In 93 s -> ~ In 47 s -> ~ In 45 s \/ get_allow p ALLOW_ADDRESS_RANGE = Ok false ->
  (exists p2 r, parse y g (lit "[" ++ s ++ lit "]") p = (p2, Ok [r]) /\ value (get_from r) = v) <-> denotes s v.
Proof.
  intros y g p s v C TN RP DP NE N0 N93 N47 N45.
  assert (OK : forall w, denotes s w -> exists r, parse y g (lit "[" ++ s ++ lit "]") p = (p, Ok [r]) /\ value (get_from r) = w).
  { intros w D. destruct (PropParser5.C76_one_address y g p s w [] 0 false (lit "[" ++ s ++ lit "]") C TN D) as (r & E & _ & _ & S1).
    - now apply port_none.
    - apply (written_brackets s []).
    - exists r. split; [exact E|exact (st_value _ _ _ _ _ _ S1)]. }
  split.
  - intros (p2 & r & E & V). destruct (denotes_dec s) as [[w D]|ND].
    + destruct (OK w D) as (r2 & E2 & V2). rewrite E in E2. injection E2 as _ <-. congruence.
    + exfalso. destruct (PropParser5.C76_rejected y g p s [] (lit "[" ++ s ++ lit "]") TN NE ND N0 N45) as (p3 & E3 & _).
      * right. left. split; [reflexivity|exact N93].
      * split; [discriminate|]. split; [intros c z X; injection X as <- _|intros c z X].
        -- unfold blank. lia.
        -- change (lit "]") with [93] in X. rewrite app_assoc in X. apply app_inj_tail in X as [_ <-]. unfold blank. lia.
      * rewrite !in_app_iff. intros [[X|[]]|[X|[X|[]]]]; [discriminate X|now apply N47|discriminate X].
      * rewrite E in E3. discriminate.
  - intros D. destruct (OK v D) as (r & E & V). now exists p, r.
Qed.
Print Assumptions C134_brackets.
(* A text denotes at most one address. *)
Theorem C134_one_meaning : forall s v w, denotes s v -> denotes s w -> v = w.
Proof. intros s v w. apply denotes_fun. Qed.
Print Assumptions C134_one_meaning.

(* ---------- examples ---------- *)
Example C133_witness :
  addr_wf PropAddr.w6 /\ value PropAddr.w6 <> v4_base
  /\ recommended_text (lit "2001:db8::1:ffff") (value PropAddr.w6)
  /\ ~ recommended_text (lit "2001:DB8::1:ffff") (value PropAddr.w6)
  /\ (exists ws, ipv6_text (lit "2001:DB8::1:ffff") ws /\ words_value ws = value PropAddr.w6)
  /\ recommended_text (lit "::ffff:192.168.3.17") (value PropAddr.w4)
  /\ recommended_text (lit "::") 0.
Proof.
  assert (W : addr_wf PropAddr.w6) by apply PropAddr.w6_wf.
  assert (N : value PropAddr.w6 <> v4_base) by (vm_compute; discriminate).
  assert (P : to_ipv6_string PropText.y0 PropAddr.w6 STRING_IP_ADDRESS = Ok (lit "2001:db8::1:ffff")) by (vm_compute; reflexivity).
  assert (R : recommended_text (lit "2001:db8::1:ffff") (value PropAddr.w6)) by (now apply (C133_recommended_text PropText.y0)).
  split; [exact W|]. split; [exact N|]. split; [exact R|].
  split. { intros X. pose proof (text_unique _ _ _ R X). discriminate. }
  split. { destruct (proj2 (six_iff (lit "2001:DB8::1:ffff") (value PropAddr.w6))) as (ws & T & V); [|now exists ws].
    eexists. split; [vm_compute; reflexivity|vm_compute; reflexivity]. }
  split.
  - pose proof (ntop6_text _ (wf_ip _ PropAddr.w4_wf)) as X. replace (inet_ntop6 (s6 PropAddr.w4)) with (lit "::ffff:192.168.3.17") in X by (vm_compute; reflexivity). exact X.
  - assert (B : bytes16 (repeat 0 16)) by (split; [reflexivity|apply Forall_forall; intros x X; apply repeat_spec in X; subst; unfold is_byte; lia]).
    pose proof (ntop6_text _ B) as X. replace (inet_ntop6 (repeat 0 16)) with (lit "::") in X by (vm_compute; reflexivity). exact X.
Qed.
Example C134_witness :
  before_nul (lit "fe80::1" ++ 0 :: lit "x") (lit "fe80::1") /\ (exists v, denotes (lit "fe80::1") v)
  /\ is_hostname_an_ip (set_hostname PropAddr.w6 (lit "fe80::1" ++ 0 :: lit "x")) = true
  /\ is_hostname_an_ip (set_hostname PropAddr.w6 (lit "fe80:::1")) = false
  /\ (forall v, ~ denotes (lit "1:2:3:4:5:6:7") v)
  /\ takes_numbers PropParser4.bare /\ get_allow PropParser4.bare ALLOW_REQUIRED_PORT = Ok false /\ get_default_port PropParser4.bare = -1
  /\ denotes (lit "64:FF9B::192.0.2.33") (words_value [0x64; 0xff9b; 0; 0; 0; 0; 0xc000; 0x0221]).
Proof.
  split. { split; [now apply PropParser2.not_in|right; now exists (lit "x")]. }
  split; [eexists; now apply PropParser5.denotes_lit|]. split; [vm_compute; reflexivity|]. split; [vm_compute; reflexivity|].
  split. { intros v D. apply denotes_iff in D. destruct D as [(w & D & _)|(q & D & _)]; [|discriminate].
    destruct (dotted_pton _ _ D) as (q & Q & _). discriminate. }
  split. { constructor; [now apply PropParser4.no_seps|now apply PropParser2.no_comments|reflexivity|reflexivity|now left|right; now split]. }
  split; [reflexivity|]. split; [reflexivity|]. apply denotes_iff. right. eexists. split; vm_compute; reflexivity.
Qed.
