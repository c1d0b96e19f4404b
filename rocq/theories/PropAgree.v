(** Property C80: multiples of points as shared secrets.  Two parties who exchange multiples of a point arrive at the same point;
    on the built-in curves that point is never infinity and tells the private keys apart; and a point that is not on the curve is
    taken without complaint, so one such point makes the result show the parity of the private key.
    [on_curve], [decode], [sound_curve] are in EllSpec.v, [ec_multiple] in EcdsaSpec.v, [builtin_curves] in PropCurves.v. *)
From Coq Require Import Znumtheory.
From Verif Require Import Base NumTheory RsaModel RsaEncModel HashModel HashApi EllModel EllSpec EllProofs EllApi DsaSpec DsaModel EcdsaModel EcdsaSpec EcdsaGroup EcdsaProofs
  PropDsa PropEc PropEcdsa PropCurves CurveGroup PropOrder P256Model P256Debug P256Point PropP256Api P224Model P224Spec P224Api PropP224.
Local Open Scope Z_scope.

(** ** Agreement *)
(** Each party multiplies the common point by its own number, and then the other's result by its own number. *)
Theorem C80_agreement : forall c x y a b, sound_curve (cp_p c) (cp_b c) -> on_curve (cp_p c) (cp_b c) (decode (x, y)) -> 0 <= a -> 0 <= b ->
  exists xa ya xb yb, curve_scalar c x y a = Some (xa, ya) /\ curve_scalar c x y b = Some (xb, yb) /\
    curve_scalar c xb yb a = curve_scalar c xa ya b /\ curve_scalar c xb yb a = curve_scalar c x y (a * b).
Proof.
  intros c x y a b S O A B.
  destruct (C49_scalar_of_product c x y a b S O A B) as (xb & yb & EB & P1). destruct (C49_scalar_of_product c x y b a S O B A) as (xa & ya & EA & P2).
  exists xa, ya, xb, yb. split; [exact EA|]. split; [exact EB|]. rewrite <- P1, <- P2, (Z.mul_comm b a). split; reflexivity.
Qed.
Print Assumptions C80_agreement.

(** CurveP256, with overflow checks off. *)
Theorem C80_p256 : forall a b, 0 <= a -> 0 <= b ->
  exists xa ya xb yb, c256_scalar_base false a = Some (xa, ya) /\ c256_scalar_base false b = Some (xb, yb) /\
    c256_scalar false xb yb a = c256_scalar false xa ya b /\ c256_scalar false xb yb a = c256_scalar_base false (a * b).
Proof.
  intros a b A B. destruct (C59_scalar_base_multiple a A) as (xa & ya & EA & _ & _ & OA & _). destruct (C59_scalar_base_multiple b B) as (xb & yb & EB & _ & _ & OB & _).
  exists xa, ya, xb, yb. split; [exact EA|]. split; [exact EB|]. rewrite !C59_scalar by assumption. rewrite C59_scalar_base by (apply Z.mul_nonneg_nonneg; assumption).
  rewrite C59_scalar_base in EA, EB by assumption.
  destruct (C80_agreement p256 (cp_gx p256) (cp_gy p256) a b (C50_sound_curves p256 in256) (proj1 (proj2 (C50_base_point p256 in256))) A B) as (xa' & ya' & xb' & yb' & EA' & EB' & R).
  unfold curve_scalar_base in EA, EB. rewrite EA in EA'. rewrite EB in EB'. injection EA' as <- <-. injection EB' as <- <-. exact R.
Qed.
Print Assumptions C80_p256.

(** CurveP224 agrees when neither public point has a coordinate that is returned wrongly (C53). *)
Lemma in224 : In p224 builtin_curves. Proof. left. reflexivity. Qed.
Theorem C80_p224 : forall x y a b xa ya xb yb, 0 <= x < 2 ^ 224 -> 0 <= y < 2 ^ 224 -> c224_is_on_curve x y = true -> 0 <= a -> 0 <= b ->
  curve_scalar p224 x y a = Some (xa, ya) -> curve_scalar p224 x y b = Some (xb, yb) ->
  bad_coordinate xa = false -> bad_coordinate ya = false -> bad_coordinate xb = false -> bad_coordinate yb = false ->
  c224_scalar x y a = (xa, ya) /\ c224_scalar x y b = (xb, yb) /\ c224_scalar xb yb a = c224_scalar xa ya b.
Proof.
  intros x y a b xa ya xb yb X Y ON A B EA EB B1 B2 B3 B4. rewrite C58_is_on_curve_generic in ON by assumption.
  assert (SC := C50_sound_curves p224 in224). destruct (point_some p224 (C50_prime_order p224 in224) x y ON) as [_ O].
  assert (R : forall k u v, 0 <= k -> curve_scalar p224 x y k = Some (u, v) -> bad_coordinate u = false -> bad_coordinate v = false ->
    c224_scalar x y k = (u, v) /\ 0 <= u < 2 ^ 224 /\ 0 <= v < 2 ^ 224 /\ on_curve (cp_p p224) (cp_b p224) (decode (u, v))).
  { intros k u v K E U V. pose proof (C58_scalar x y k X Y K O) as Q. rewrite E in Q. cbn [as_returned] in Q. unfold returned in Q. rewrite U, V in Q.
    injection Q as Q. split; [exact Q|]. destruct (scalar_some p224 SC x y k O K) as (u' & v' & E' & U' & V' & O' & _). rewrite E in E'. injection E' as <- <-.
    assert (LP : cp_p p224 < 2 ^ 224) by reflexivity. split; [lia|]. split; [lia|exact O']. }
  destruct (R a xa ya A EA B1 B2) as (RA & XA & YA & OA). destruct (R b xb yb B EB B3 B4) as (RB & XB & YB & OB).
  split; [exact RA|]. split; [exact RB|].
  destruct (C80_agreement p224 x y a b SC O A B) as (xa' & ya' & xb' & yb' & EA' & EB' & E & _). rewrite EA in EA'. rewrite EB in EB'.
  injection EA' as <- <-. injection EB' as <- <-.
  pose proof (C58_scalar xb yb a XB YB A OB) as Q1. pose proof (C58_scalar xa ya b XA YA B OA) as Q2. rewrite E in Q1. rewrite <- Q2 in Q1. injection Q1 as Q1. exact Q1.
Qed.
Print Assumptions C80_p224.

(** ** The secrets on the built-in curves *)
(** With a valid point of the peer and a private key in range the secret is a finite point of the curve. *)
Theorem C80_not_infinity : forall c qx qy a, In c builtin_curves -> is_on_curve c qx qy = true -> 1 <= a <= cp_n c - 1 ->
  exists u v, curve_scalar c qx qy a = Some (u, v) /\ (u, v) <> (0, 0) /\ is_on_curve c u v = true.
Proof.
  intros c qx qy a B ON A. destruct (C60_exact_order c qx qy a B ON ltac:(lia)) as (u & v & E & N & _ & _ & O). exists u, v. auto.
Qed.
Print Assumptions C80_not_infinity.
Lemma opp_on p b x y : on_curve p b (decode (x, y)) -> on_curve p b (decode (x, - y)).
Proof. rewrite decode_opp. destruct (decode (x, y)) as [[u v]|]; cbn [on_curve]; [|trivial]. intros O. replace (- v * - v) with (v * v) by ring. exact O. Qed.
(** Private keys that differ modulo n give different secrets, the same ones do not. *)
Theorem C80_secret_tells_keys_apart : forall c qx qy a a', In c builtin_curves -> is_on_curve c qx qy = true -> 0 <= a -> 0 <= a' ->
  curve_scalar c qx qy a = curve_scalar c qx qy a' <-> a mod cp_n c = a' mod cp_n c.
Proof.
  intros c qx qy a a' B ON A A'. assert (GR := C50_prime_order c B). assert (PN := C50_prime_n c B). assert (N2 := prime_ge_2 _ PN).
  assert (S := C50_sound_curves c B). destruct (point_some c GR qx qy ON) as [_ O].
  split; intros E.
  2: { rewrite (C60_scalar_mod c qx qy a B O A), (C60_scalar_mod c qx qy a' B O A'), E. reflexivity. }
  rewrite (C60_scalar_mod c qx qy a B O A), (C60_scalar_mod c qx qy a' B O A') in E.
  pose proof (Z.mod_pos_bound a (cp_n c) ltac:(lia)) as R. pose proof (Z.mod_pos_bound a' (cp_n c) ltac:(lia)) as R'.
  revert E R R'. generalize (a mod cp_n c) (a' mod cp_n c). clear a a' A A'.
  assert (K : forall j k, curve_scalar c qx qy j = curve_scalar c qx qy k -> 0 <= j -> j < k < cp_n c -> False).
  { intros j k E J K. destruct (C49_scalar_of_sum c qx qy (k - j) j S O ltac:(lia) J) as (x1 & y1 & x2 & y2 & E1 & E2 & O1 & O2 & E3).
    replace (k - j + j) with k in E3 by ring. rewrite <- E, E2 in E3.
    destruct (C60_exact_order c qx qy (k - j) B ON ltac:(lia)) as (x1' & y1' & E1' & NI & _ & _ & ON1). rewrite E1 in E1'. injection E1' as <- <-.
    destruct (C49_addition c x1 y1 x2 y2 S O1 O2) as (x3 & y3 & E4 & _ & _ & _ & SM). rewrite <- E3 in E4. injection E4 as <- <-.
    destruct (C49_associative c x1 y1 x2 y2 x2 (- y2) S O1 O2 ltac:(apply opp_on; exact O2)) as (u & v & s & t & x & y & F1 & F2 & F3 & F4).
    rewrite <- E3 in F1. injection F1 as <- <-. rewrite (proj2 (C49_identity_and_inverse c x2 y2 S O2)) in F2, F3. injection F2 as <- <-. injection F3 as <- <-.
    rewrite (proj1 (C49_identity_and_inverse c x1 y1 S O1)) in F4. injection F4 as F4x F4y.
    destruct (C60_exact_order c qx qy (k - j) B ON ltac:(lia)) as (x1' & y1' & E1' & _ & RX & RY & _). rewrite E1 in E1'. injection E1' as <- <-.
    rewrite Z.mod_small in F4x, F4y by assumption. apply NI. congruence. }
  intros j k E J KR. destruct (Z.lt_trichotomy j k) as [L|[L|L]]; [exfalso; apply (K j k); auto; lia|exact L|exfalso; apply (K k j); auto; lia].
Qed.
Print Assumptions C80_secret_tells_keys_apart.

(** ** Points that are not on the curve *)
(** The curve y^2 = x^3 - 3x + b' through the point (x, y). *)
Definition other_b (x y : Z) : Z := y * y - x * x * x + 3 * x.
(** [scalar] computes on the curve through its argument, whether or not it is the one asked for; nothing is refused. *)
Theorem C80_off_curve : forall c x y k, sound_curve (cp_p c) (other_b x y) -> 0 <= k ->
  exists u v, curve_scalar c x y k = Some (u, v) /\ 0 <= u < cp_p c /\ 0 <= v < cp_p c /\
    on_curve (cp_p c) (other_b x y) (decode (u, v)) /\ ec_multiple (cp_p c) (Z.to_nat k) (decode (x, y)) (decode (u, v)).
Proof.
  intros c x y k S K. set (c' := mkCurve (cp_p c) (cp_n c) (other_b x y) (cp_gx c) (cp_gy c) (cp_bits c) (cp_name c)).
  assert (O : on_curve (cp_p c') (cp_b c') (decode (x, y))).
  { unfold decode. cbn [fst snd]. destruct (_ && _); [exact I|]. cbn [on_curve c' cp_p cp_b]. exists 0. unfold other_b. ring. }
  destruct (scalar_some c' S x y k O K) as (u & v & E & U & V & OU & _). exists u, v. split; [exact E|]. split; [exact U|]. split; [exact V|]. split; [exact OU|].
  apply (multiple_ok c' S x y _ _ O). exists u, v. split; [rewrite Z2Nat.id by exact K; exact E|apply same_refl].
Qed.
Print Assumptions C80_off_curve.
(** Such a point of small order m turns the result into one of m values, given by the private key modulo m. *)
Theorem C80_small_order : forall c x y m k, sound_curve (cp_p c) (other_b x y) -> 0 < m -> curve_scalar c x y m = Some (0, 0) -> 0 <= k ->
  curve_scalar c x y k = curve_scalar c x y (k mod m).
Proof.
  intros c x y m k S M EM K. set (c' := mkCurve (cp_p c) (cp_n c) (other_b x y) (cp_gx c) (cp_gy c) (cp_bits c) (cp_name c)).
  assert (O : on_curve (cp_p c') (cp_b c') (decode (x, y))).
  { unfold decode. cbn [fst snd]. destruct (_ && _); [exact I|]. cbn [on_curve c' cp_p cp_b]. exists 0. unfold other_b. ring. }
  change (curve_scalar c' x y k = curve_scalar c' x y (k mod m)). change (curve_scalar c' x y m = Some (0, 0)) in EM. change (sound_curve (cp_p c') (cp_b c')) in S.
  pose proof (Z.mod_pos_bound k m M) as R. pose proof (Z.div_pos k m K M) as Q.
  destruct (C49_scalar_of_product c' x y (k / m) m S O Q ltac:(lia)) as (x1 & y1 & E1 & E2). rewrite EM in E1. injection E1 as <- <-.
  assert (Z0 : forall j, 0 <= j -> curve_scalar c' 0 0 j = Some (0, 0)).
  { intros j J. destruct (C49_scalar_of_product c' x y j 0 S O J ltac:(lia)) as (x2 & y2 & F1 & F2).
    assert (F0 : curve_scalar c' x y 0 = Some (0, 0)) by (rewrite C49_scalar_is_repeated_addition by (try exact S; try exact O; lia); reflexivity).
    rewrite F0 in F1. injection F1 as <- <-. rewrite <- F2, Z.mul_0_r. exact F0. }
  rewrite Z0 in E2 by exact Q.
  destruct (C49_scalar_of_sum c' x y (k mod m) (k / m * m) S O ltac:(lia) ltac:(nia)) as (x1 & y1 & x2 & y2 & E3 & E4 & O1 & _ & E5).
  rewrite E2 in E4. injection E4 as <- <-. replace (k mod m + k / m * m) with k in E5 by (rewrite (Z.div_mod k m) at 1 by lia; ring).
  rewrite E5, E3, (proj1 (C49_identity_and_inverse c' x1 y1 S O1)).
  destruct (scalar_some c' S x y (k mod m) O ltac:(lia)) as (u & v & E6 & U & V & _). rewrite E3 in E6. injection E6 as <- <-. rewrite !Z.mod_small by assumption. reflexivity.
Qed.
Print Assumptions C80_small_order.
(** (x, 0) has order two: the result is infinity or the point itself, and shows the lowest bit of the private key. *)
Theorem C80_parity : forall c x k, sound_curve (cp_p c) (other_b x 0) -> 0 <= k ->
  curve_scalar c x 0 k = Some (if Z.even k then (0, 0) else (x mod cp_p c, 0)).
Proof.
  intros c x k S K. set (c' := mkCurve (cp_p c) (cp_n c) (other_b x 0) (cp_gx c) (cp_gy c) (cp_bits c) (cp_name c)).
  assert (O : on_curve (cp_p c') (cp_b c') (decode (x, 0))).
  { unfold decode. cbn [fst snd]. destruct (_ && _); [exact I|]. cbn [on_curve c' cp_p cp_b]. exists 0. unfold other_b. ring. }
  assert (S' : sound_curve (cp_p c') (cp_b c')) by exact S.
  assert (E1 : curve_scalar c' x 0 1 = Some (x mod cp_p c, 0)).
  { rewrite C49_scalar_is_repeated_addition by (try exact S'; try exact O; lia). change (Z.to_nat 1) with 1%nat. cbn [Nat.iter nat_rect].
    rewrite (proj1 (C49_identity_and_inverse c' x 0 S' O)). rewrite Z.mod_0_l by (destruct S' as (_ & L & _); lia). reflexivity. }
  assert (E2 : curve_scalar c' x 0 2 = Some (0, 0)).
  { destruct (C49_scalar_of_sum c' x 0 1 1 S' O ltac:(lia) ltac:(lia)) as (x1 & y1 & x2 & y2 & F1 & F2 & O1 & _ & F). rewrite E1 in F1, F2. injection F1 as <- <-. injection F2 as <- <-.
    change (1 + 1) with 2 in F. rewrite F. exact (proj2 (C49_identity_and_inverse c' (x mod cp_p c) 0 S' O1)). }
  rewrite (C80_small_order c x 0 2 k S ltac:(lia) E2 K). rewrite Zmod_even. destruct (Z.even k); [|exact E1].
  change (curve_scalar c' x 0 0 = Some (0, 0)). rewrite C49_scalar_is_repeated_addition by (try exact S'; try exact O; lia). reflexivity.
Qed.
Print Assumptions C80_parity.
(** No point of a built-in curve has order two, but (5, 0) is taken by all four. *)
Theorem C80_parity_builtin : forall c, In c builtin_curves -> is_on_curve c 5 0 = false /\
  forall k, 0 <= k -> curve_scalar c 5 0 k = Some (if Z.even k then (0, 0) else (5, 0)).
Proof.
  intros c B. assert (S := proj1 (C50_sound_curves c B)).
  assert (SO : sound_curve (cp_p c) (other_b 5 0)).
  { split; [exact S|]. destruct B as [<-|[<-|[<-|[<-|[]]]]]; (split; [reflexivity|split; apply ncong; [reflexivity|vm_compute; discriminate|reflexivity|vm_compute; discriminate]]). }
  split; [destruct B as [<-|[<-|[<-|[<-|[]]]]]; vm_compute; reflexivity|]. intros k K. rewrite (C80_parity c 5 k SO K). rewrite Z.mod_small; [reflexivity|].
  destruct B as [<-|[<-|[<-|[<-|[]]]]]; split; (discriminate || reflexivity).
Qed.
Print Assumptions C80_parity_builtin.

(** CurveP224 does the same, up to the coordinates it returns wrongly. *)
Theorem C80_p224_off_curve : forall x y k, 0 <= x < 2 ^ 224 -> 0 <= y < 2 ^ 224 -> sound_curve P224 (other_b x y) -> 0 <= k ->
  Some (c224_scalar x y k) = as_returned (curve_scalar p224 x y k).
Proof.
  intros x y k X Y S K. set (c' := mkCurve (cp_p p224) (cp_n p224) (other_b x y) (cp_gx p224) (cp_gy p224) (cp_bits p224) (cp_name p224)).
  assert (O : on_curve (cp_p c') (cp_b c') (decode (x, y))).
  { unfold decode. cbn [fst snd]. destruct (_ && _); [exact I|]. cbn [on_curve c' cp_p cp_b]. exists 0. unfold other_b. ring. }
  change (curve_scalar p224 x y k) with (curve_scalar c' x y k). set (Hp := proj1 (C50_sound_curves p224 in224)). assert (P3 := proj1 (proj2 S)). assert (Hd := proj2 (proj2 (proj2 S))).
  rewrite (curve_scalar_ok P224 (other_b x y) Hp P3 Hd c' eq_refl x y k O K). refine (result_api (C50_sound_curves p224 in224) _ _ _).
  fold Hp.
  apply (P224Field.scalar_result P224 (other_b x y) eq_refl Hp); try assumption. apply (on_phi P224 (other_b x y) Hp P3); assumption.
Qed.
Print Assumptions C80_p224_off_curve.

Theorem C80_p224_parity : c224_is_on_curve 5 0 = false /\ forall k, 0 <= k -> c224_scalar 5 0 k = if Z.even k then (0, 0) else (5, 0).
Proof.
  split; [vm_compute; reflexivity|]. intros k K.
  assert (SO : sound_curve P224 (other_b 5 0)).
  { split; [exact (proj1 (C50_sound_curves p224 in224))|]. split; [reflexivity|split; apply ncong; [reflexivity|vm_compute; discriminate|reflexivity|vm_compute; discriminate]]. }
  assert (E := C80_p224_off_curve 5 0 k ltac:(lia) ltac:(lia) SO K). rewrite (proj2 (C80_parity_builtin p224 in224) k K) in E.
  destruct (Z.even k); cbn [as_returned] in E; injection E as E; rewrite E; vm_compute; reflexivity.
Qed.
Print Assumptions C80_p224_parity.

(** A public point with a coordinate that CurveP224 returns wrongly breaks the agreement: with private keys 1 and 2 and this valid
    common point, the two sides end with different points. *)
Definition bad_x : Z := 6249846793029195505132993417681461260653261761075236472107163931605.
Theorem C80_p224_agreement_refuted : c224_is_on_curve bad_x (P224 - 1) = true /\ exists xa ya xb yb,
  c224_scalar bad_x (P224 - 1) 1 = (xa, ya) /\ c224_scalar bad_x (P224 - 1) 2 = (xb, yb) /\ c224_is_on_curve xa ya = false /\
  c224_scalar xb yb 1 <> c224_scalar xa ya 2.
Proof.
  assert (ON : is_on_curve p224 bad_x (P224 - 1) = true) by (vm_compute; reflexivity).
  assert (X : 0 <= bad_x < 2 ^ 224) by (split; [discriminate|reflexivity]). assert (Y : 0 <= P224 - 1 < 2 ^ 224) by (split; [discriminate|reflexivity]).
  destruct (point_some p224 (C50_prime_order p224 in224) bad_x (P224 - 1) ON) as [_ O]. split; [rewrite C58_is_on_curve_generic by assumption; exact ON|].
  set (xb := 17214760605933595930557623686143120461878165945978611780859776449731). set (yb := 2521170811042222018506151310763429113861484555751641123305074056611).
  assert (OB : is_on_curve p224 xb yb = true) by (vm_compute; reflexivity). destruct (point_some p224 (C50_prime_order p224 in224) xb yb OB) as [_ O2].
  assert (XB : 0 <= xb < 2 ^ 224) by (split; [discriminate|reflexivity]). assert (YB : 0 <= yb < 2 ^ 224) by (split; [discriminate|reflexivity]).
  exists bad_x, (2 ^ 28 - 1), xb, yb.
  assert (YA : 0 <= 2 ^ 28 - 1 < 2 ^ 224) by (split; [discriminate|reflexivity]).
  assert (SO : sound_curve P224 (other_b bad_x (2 ^ 28 - 1))).
  { split; [exact (proj1 (C50_sound_curves p224 in224))|]. split; [reflexivity|split; apply ncong; [reflexivity|vm_compute; discriminate|reflexivity|vm_compute; discriminate]]. }
  split; [|split; [|split]].
  - apply some_inj. rewrite C58_scalar by (assumption || lia). vm_compute. reflexivity.
  - apply some_inj. rewrite C58_scalar by (assumption || lia). vm_compute. reflexivity.
  - rewrite C58_is_on_curve_generic by assumption. vm_compute. reflexivity.
  - intros E. apply (f_equal Some) in E. rewrite (C58_scalar xb yb 1 XB YB ltac:(lia) O2), (C80_p224_off_curve bad_x (2 ^ 28 - 1) 2 X YA SO ltac:(lia)) in E. revert E. vm_compute. discriminate.
Qed.
Print Assumptions C80_p224_agreement_refuted.

(** ** Cases *)
(** The premises hold of every built-in curve with its base point, and of the curve of 17 elements; (12, 5) is a point of order five
    of another curve. *)
Example C80_case : (forall c, In c builtin_curves -> sound_curve (cp_p c) (cp_b c) /\ on_curve (cp_p c) (cp_b c) (decode (cp_gx c, cp_gy c)) /\ is_on_curve c (cp_gx c) (cp_gy c) = true) /\
  curve_scalar toy_curve 1 1 5 = Some (11, 14) /\ curve_scalar toy_curve 1 1 3 = Some (9, 5) /\ curve_scalar toy_curve 11 14 3 = curve_scalar toy_curve 9 5 5 /\
  is_on_curve toy_curve 12 5 = false /\ curve_scalar toy_curve 12 5 5 = Some (0, 0) /\ curve_scalar toy_curve 12 5 7 = curve_scalar toy_curve 12 5 2.
Proof.
  split; [|vm_compute; auto 10]. intros c B. destruct (C50_base_point c B) as (H & O & _). split; [exact (C50_sound_curves c B)|]. split; [exact O|exact H].
Qed.
Example C80_other_curve_met : sound_curve 17 (other_b 12 5).
Proof.
  split; [exact (proj1 (proj1 C49_met))|]. split; [reflexivity|split; apply ncong; [reflexivity|vm_compute; discriminate|reflexivity|vm_compute; discriminate]].
Qed.
(** Public points of CurveP224 without a bad coordinate. *)
Example C80_p224_met : c224_is_on_curve (cp_gx p224) (cp_gy p224) = true /\ exists xa ya, curve_scalar p224 (cp_gx p224) (cp_gy p224) 2 = Some (xa, ya) /\
  bad_coordinate xa = false /\ bad_coordinate ya = false.
Proof. split; [rewrite C58_is_on_curve_generic by apply base_range; vm_compute; reflexivity|]. eexists. eexists. split; [vm_compute; reflexivity|]. split; vm_compute; reflexivity. Qed.
