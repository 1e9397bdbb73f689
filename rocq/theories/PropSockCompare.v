(* Property C137: the comparison operators of socket structures. *)
From Coq Require Import Lia ZifyBool ZifyNat.
From Verif Require Import Base Addr Spec Unix SockCompare SpecSockCompare.
From Verif Require AddrProofs AddrProofs2.
Import AddrProofs AddrProofs2.
Local Open Scope Z_scope.
Ltac Zify.zify_post_hook ::= Z.div_mod_to_equations.

Lemma memcmp_app a b c d : length a = length b ->
  memcmp (a ++ c) (b ++ d) = if memcmp a b =? 0 then memcmp c d else memcmp a b.
Proof.
  revert b. induction a as [|x a IH]; intros [|y b] L; try discriminate; [reflexivity|]. cbn [app memcmp].
  destruct (x <? y); [reflexivity|]. destruct (y <? x); [reflexivity|]. apply IH. now injection L.
Qed.

Lemma bytes_of16_num x : 0 <= x < 2 ^ 16 -> num (bytes_of16 x) = bswap16 x.
Proof. intros H. unfold bytes_of16, num, bswap16, u8. cbn [length Z.of_nat]. change (256 ^ Z.of_nat 1) with 256. change (256 ^ 0) with 1. change (2 ^ 8) with 256. lia. Qed.
Lemma bytes_of32_num x : 0 <= x < 2 ^ 32 -> num (bytes_of32 x) = bswap32 x.
Proof.
  intros H. unfold bytes_of32, num, bswap32, u8. cbn [length].
  change (256 ^ Z.of_nat 3) with 16777216. change (256 ^ Z.of_nat 2) with 65536. change (256 ^ Z.of_nat 1) with 256. change (256 ^ Z.of_nat 0) with 1.
  change (2 ^ 8) with 256. change (2 ^ 16) with 65536. change (2 ^ 24) with 16777216. lia.
Qed.
Lemma bytes_of16_ok x : Forall is_byte (bytes_of16 x).
Proof. repeat constructor; apply u8_byte. Qed.
Lemma bytes_of32_ok x : Forall is_byte (bytes_of32 x).
Proof. repeat constructor; apply u8_byte. Qed.

(* the sign of memcmp() is the comparison of tuples of numbers *)
Definition sign_of (c : Z) (a b : list Z) : Prop :=
  (c = 0 /\ a = b) \/ (c = -1 /\ before a b) \/ (c = 1 /\ before b a).

Lemma sign_nil : sign_of 0 [] [].
Proof. left. auto. Qed.
Lemma sign_app a b c d x y p q : length a = length b -> Forall is_byte a -> Forall is_byte b ->
  num a = x -> num b = y -> sign_of (memcmp c d) p q -> sign_of (memcmp (a ++ c) (b ++ d)) (x :: p) (y :: q).
Proof.
  intros L A B <- <- S. rewrite memcmp_app by exact L.
  destruct (memcmp_num a b A B L) as [[-> E]|[[-> E]|[-> E]]]; cbn [Z.eqb].
  - rewrite E. destruct S as [[-> ->]|[[-> S]|[-> S]]]; [left|right; left|right; right]; cbn; auto.
  - right. left. cbn. auto.
  - right. right. cbn. split; [auto|left; lia].
Qed.
Lemma sign_bytes a : forall b, length a = length b -> sign_of (memcmp a b) a b.
Proof.
  induction a as [|x a IH]; intros [|y b] L; try discriminate; [exact sign_nil|]. cbn [memcmp].
  destruct (Z.ltb_spec x y); [right; left; cbn; auto|]. destruct (Z.ltb_spec y x); [right; right; cbn; auto|].
  assert (x = y) by lia. subst. destruct (IH b ltac:(now injection L)) as [[-> ->]|[[-> S]|[-> S]]]; [left|right; left|right; right]; cbn; auto.
Qed.

Lemma before_irrefl a : ~ before a a.
Proof. induction a as [|x a IH]; cbn; [tauto|]. intros [H|[_ H]]; [lia|auto]. Qed.
Lemma before_trans a : forall b c, before a b -> before b c -> before a c.
Proof.
  induction a as [|x a IH]; intros [|y b] [|z c]; cbn; try tauto.
  intros [H|[-> H]] [K|[-> K]]; [left; lia|left; lia|left; lia|right; split; eauto].
Qed.

Lemma order_from {A} (dom : A -> Prop) (cmp : A -> A -> Z) (key : A -> list Z) :
  (forall a b, dom a -> dom b -> sign_of (cmp a b) (key a) (key b)) ->
  (forall a b, dom a -> dom b -> key a = key b -> a = b) ->
  one_order dom (fun a b => before (key a) (key b)) (fun a b => cmp a b =? 0) (fun a b => negb (cmp a b =? 0))
    (fun a b => cmp a b <? 0) (fun a b => cmp a b <=? 0) (fun a b => cmp a b >? 0) (fun a b => cmp a b >=? 0).
Proof.
  intros S I.
  assert (N : forall a b, before (key a) (key b) -> before (key b) (key a) -> False).
  { intros a b H K. exact (before_irrefl _ (before_trans _ _ _ H K)). }
  constructor.
  - intros a b Ha Hb. split; [|intros ->]; rewrite Z.eqb_eq.
    + intros E. destruct (S a b Ha Hb) as [[_ K]|[[K _]|[K _]]]; [auto|lia..].
    + destruct (S b b Hb Hb) as [[K _]|[[_ K]|[_ K]]]; [auto|elim (before_irrefl _ K)..].
  - intros a b Ha Hb. rewrite Z.ltb_lt. destruct (S a b Ha Hb) as [[-> K]|[[-> K]|[-> K]]].
    + rewrite K. split; [lia|]. intros H. elim (before_irrefl _ H).
    + split; [auto|lia].
    + split; [lia|]. intros H. elim (N a b H K).
  - reflexivity.
  - intros a b Ha Hb. destruct (S a b Ha Hb) as [[-> K]|[[-> K]|[-> K]]], (S b a Hb Ha) as [[-> L]|[[-> L]|[-> L]]]; try reflexivity; exfalso;
      try (rewrite K in L; exact (before_irrefl _ L)); try (rewrite L in K; exact (before_irrefl _ K)); eauto.
  - intros a b Ha Hb. lia.
  - intros a b Ha Hb. destruct (S a b Ha Hb) as [[-> K]|[[-> K]|[-> K]]], (S b a Hb Ha) as [[-> L]|[[-> L]|[-> L]]]; try reflexivity; exfalso;
      try (rewrite K in L; exact (before_irrefl _ L)); try (rewrite L in K; exact (before_irrefl _ K)); eauto.
  - intros a _. apply before_irrefl.
  - intros a b c _ _ _. apply before_trans.
  - intros a b Ha Hb. destruct (S a b Ha Hb) as [[_ K]|[[_ K]|[_ K]]]; auto.
Qed.

Lemma bswap16_inj x y : 0 <= x < 2 ^ 16 -> 0 <= y < 2 ^ 16 -> bswap16 x = bswap16 y -> x = y.
Proof. intros Hx Hy E. rewrite <- (bswap16_invol x Hx), <- (bswap16_invol y Hy). now rewrite E. Qed.
Lemma bswap32_inj x y : 0 <= x < 2 ^ 32 -> 0 <= y < 2 ^ 32 -> bswap32 x = bswap32 y -> x = y.
Proof.
  intros Hx Hy E. rewrite <- (bytes_of32_num x Hx), <- (bytes_of32_num y Hy) in E.
  apply num_inj in E; auto using bytes_of32_ok. unfold bytes_of32, u8 in E.
  change (2 ^ 8) with 256 in E. change (2 ^ 16) with (256 * 256) in E. change (2 ^ 24) with (256 * 256 * 256) in E.
  rewrite <- !Z.div_div in E by lia. change (2 ^ 32) with 4294967296 in *.
  injection E as E1 E2 E3 E4. lia.
Qed.

(* ---------- C137 ---------- *)
Theorem C137_sockaddr_in6 : one_order sockaddr_in6_ok (fun a b => before (in6_key a) (in6_key b))
  in6_eq in6_ne in6_lt in6_le in6_gt in6_ge.
Proof.
  apply (order_from sockaddr_in6_ok in6_compare in6_key).
  - intros a b (F & P & Fl & [L B] & S) (F' & P' & Fl' & [L' B'] & S').
    unfold in6_compare, in6_bytes, in6_key.
    apply sign_app; auto using bytes_of16_ok, bytes_of16_num.
    apply sign_app; auto using bytes_of16_ok, bytes_of16_num.
    apply sign_app; auto using bytes_of32_ok, bytes_of32_num.
    apply sign_app; auto; [congruence|].
    rewrite <- (app_nil_r (bytes_of32 (sin6_scope_id a))), <- (app_nil_r (bytes_of32 (sin6_scope_id b))).
    apply sign_app; auto using bytes_of32_ok, bytes_of32_num. exact sign_nil.
  - intros [f p fl l s] [f' p' fl' l' s'] (F & P & Fl & [L B] & S) (F' & P' & Fl' & [L' B'] & S') E.
    cbn [sin6_family sin6_port sin6_flowinfo sin6_addr sin6_scope_id] in *.
    unfold in6_key in E. cbn [sin6_family sin6_port sin6_flowinfo sin6_addr sin6_scope_id] in E.
    injection E as E1 E2 E3 E4 E5.
    apply bswap16_inj in E1; auto. apply bswap16_inj in E2; auto. apply bswap32_inj in E3; auto. apply bswap32_inj in E5; auto.
    apply num_inj in E4; auto; congruence.
Qed.
Print Assumptions C137_sockaddr_in6.

(* The port counts first, then the address, when there is neither flow
   information nor scope. *)
Theorem C137_port_then_address : forall a b, sockaddr_in6_ok a -> sockaddr_in6_ok b ->
  sin6_family a = AF_INET6 -> sin6_family b = AF_INET6 ->
  sin6_flowinfo a = 0 -> sin6_flowinfo b = 0 -> sin6_scope_id a = 0 -> sin6_scope_id b = 0 ->
  (in6_lt a b = true <-> bswap16 (sin6_port a) < bswap16 (sin6_port b)
     \/ (bswap16 (sin6_port a) = bswap16 (sin6_port b) /\ num (sin6_addr a) < num (sin6_addr b))).
Proof.
  intros a b A B F F' Fl Fl' S S'. rewrite (o_lt _ _ _ _ _ _ _ _ C137_sockaddr_in6 a b A B).
  unfold in6_key. rewrite F, F', Fl, Fl', S, S'. cbn [before]. lia.
Qed.
Print Assumptions C137_port_then_address.

Theorem C137_in6_addr : one_order bytes16 (fun a b => num a < num b)
  addr6_eq addr6_ne addr6_lt addr6_le addr6_gt addr6_ge.
Proof.
  pose proof (order_from bytes16 (fun a b => memcmp a b) (fun a => [num a])) as O.
  destruct O as [O1 O2 O3 O4 O5 O6 O7 O8 O9].
  - intros a b [L B] [L' B']. rewrite <- (app_nil_r a), <- (app_nil_r b). rewrite !app_nil_r at 2.
    apply sign_app; try rewrite app_nil_r; auto; [congruence|exact sign_nil].
  - intros a b [L B] [L' B'] E. injection E as E. apply num_inj in E; auto. congruence.
  - cbn [before] in *.
    constructor; try assumption.
    + intros a b A B. unfold addr6_lt. rewrite (O2 a b A B). tauto.
    + intros a A. lia.
    + intros a b c A B C. lia.
    + intros a b A B. specialize (O9 a b A B). tauto.
Qed.
Print Assumptions C137_in6_addr.

Theorem C137_sockaddr_un : one_order sockaddr_un_ok (fun a b => before (un_key a) (un_key b))
  un_eq un_ne un_lt un_le un_gt un_ge.
Proof.
  apply (order_from sockaddr_un_ok (fun a b => memcmp (un_bytes a) (un_bytes b)) un_key).
  - intros a b (F & L & B) (F' & L' & B'). unfold un_key.
    change (un_bytes a) with (bytes_of16 (sun_family a) ++ sun_path a). change (un_bytes b) with (bytes_of16 (sun_family b) ++ sun_path b).
    apply sign_app; auto using bytes_of16_ok, bytes_of16_num. apply sign_bytes. congruence.
  - intros [f p] [f' p'] (F & L & B) (F' & L' & B') E. cbn in *. unfold un_key in E. cbn in E. injection E as E1 E2.
    apply bswap16_inj in E1; auto. congruence.
Qed.
Print Assumptions C137_sockaddr_un.

Definition s53 : sockaddr_in6 := mk_in6 AF_INET6 (bswap16 53) 0 (repeat 255 16) 0.
Definition s256 : sockaddr_in6 := mk_in6 AF_INET6 (bswap16 256) 0 (repeat 0 16) 0.
Example C137_witness : sockaddr_in6_ok s53 /\ sockaddr_in6_ok s256 /\ in6_lt s53 s256 = true /\ in6_gt s53 s256 = false
  /\ addr6_lt (sin6_addr s256) (sin6_addr s53) = true
  /\ sockaddr_un_ok init_un /\ un_eq init_un init_un = true /\ un_lt init_un (mk_un 1 (47 :: repeat 0 107)) = true.
Proof.
  assert (K : forall l, length l = 16%nat -> forallb (fun b => (0 <=? b) && (b <? 256)) l = true -> bytes16 l).
  { intros l L F. split; [exact L|]. apply Forall_forall. intros x H. rewrite forallb_forall in F. specialize (F x H). unfold is_byte. lia. }
  split; [|split; [|split; [|split; [|split; [|split]]]]]; try (vm_compute; reflexivity).
  - repeat split; try (vm_compute; congruence). now apply K.
  - repeat split; try (vm_compute; congruence). now apply K.
  - repeat split; try (vm_compute; congruence). apply Forall_forall. intros x H.
    assert (x = 0) by (cbn [init_un sun_path] in H; now apply repeat_spec in H). subst. unfold is_byte. lia.
  - vm_compute. auto.
Qed.
