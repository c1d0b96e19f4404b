(** Properties C52, C53 and C58: the P-224 code of src/elliptic/p224.rs.
    [P224], [val28], [limbs_below], [stands_for], [bad_coordinate] and [returned] are in P224Spec.v,
    [on_curve], [decode], [cong] in EllSpec.v. *)
From Coq Require Import Znumtheory.
From Verif Require Import Base Words HashModel NumTheory RsaModel RsaEncModel EllModel EllSpec EllProofs PropCurves P224Model P224Spec P224Api.
Local Open Scope Z_scope.

(** Limbs used in the examples: the largest ones each bound admits. *)
Definition full (B : Z) : list Z := repeat (B - 1) 8.
Lemma full_below B : 0 < B -> limbs_below B (full B).
Proof. intros H. split; [reflexivity|]. unfold full. cbn [repeat]. repeat (constructor; [lia|]). constructor. Qed.

(** ** C52: the field operations *)
Theorem C52_add : forall A B a b, limbs_below A a -> limbs_below B b -> A + B <= 2 ^ 32 ->
  limbs_below (A + B) (p224_add a b) /\ stands_for (p224_add a b) (val28 a + val28 b).
Proof. exact limbs_add. Qed.
Print Assumptions C52_add.
Example C52_add_met : limbs_below (2 ^ 31) (full (2 ^ 31)) /\ p224_add (full (2 ^ 31)) (full (2 ^ 31)) = repeat 4294967294 8.
Proof. split; [apply full_below; lia|vm_compute; reflexivity]. Qed.

Theorem C52_sub : forall a b, limbs_below (2 ^ 30) a -> limbs_below (2 ^ 30) b ->
  limbs_below (2 ^ 32) (p224_sub a b) /\ stands_for (p224_sub a b) (val28 a - val28 b).
Proof. exact limbs_sub. Qed.
Print Assumptions C52_sub.
Example C52_sub_met : limbs_below (2 ^ 30) (full (2 ^ 30)) /\ limbs_below (2 ^ 30) (full 1) /\ p224_sub (full 1) (full (2 ^ 30)) = [1073741833; 1073741817; 1073741817; 1073709049; 1073741817; 1073741817; 1073741817; 1073741817].
Proof. split; [apply full_below; lia|]. split; [split; [reflexivity|unfold full; cbn [repeat]; repeat (constructor; [lia|]); constructor]|vm_compute; reflexivity]. Qed.

(** One factor may have limbs of 30 bits. *)
Theorem C52_mul : forall a b, limbs_below (2 ^ 29) a /\ limbs_below (2 ^ 30) b \/ limbs_below (2 ^ 30) a /\ limbs_below (2 ^ 29) b ->
  limbs_below (2 ^ 29) (p224_mul a b) /\ stands_for (p224_mul a b) (val28 a * val28 b).
Proof. exact limbs_mul. Qed.
Print Assumptions C52_mul.
Example C52_mul_met : limbs_below (2 ^ 29) (full (2 ^ 29)) /\ limbs_below (2 ^ 30) (full (2 ^ 30)) /\
  val28 (p224_mul (full (2 ^ 29)) (full (2 ^ 30))) mod P224 = (val28 (full (2 ^ 29)) * val28 (full (2 ^ 30))) mod P224.
Proof. split; [apply full_below; lia|]. split; [apply full_below; lia|vm_compute; reflexivity]. Qed.

Theorem C52_square : forall a, limbs_below (2 ^ 29) a ->
  limbs_below (2 ^ 29) (p224_square a) /\ stands_for (p224_square a) (val28 a * val28 a).
Proof. exact limbs_square. Qed.
Print Assumptions C52_square.
Example C52_square_met : limbs_below (2 ^ 29) (full (2 ^ 29)) /\ p224_square (full (2 ^ 29)) = p224_mul (full (2 ^ 29)) (full (2 ^ 29)).
Proof. split; [apply full_below; lia|vm_compute; reflexivity]. Qed.

Theorem C52_reduce : forall a, limbs_below (2 ^ 31 + 2 ^ 30) a -> limbs_below (2 ^ 29) (p224_reduce a) /\ stands_for (p224_reduce a) (val28 a).
Proof. exact limbs_reduce. Qed.
Print Assumptions C52_reduce.
Example C52_reduce_met : limbs_below (2 ^ 31 + 2 ^ 30) (full (2 ^ 31 + 2 ^ 30)) /\ val28 (p224_reduce (full (2 ^ 31 + 2 ^ 30))) < 2 ^ 225 < val28 (full (2 ^ 31 + 2 ^ 30)).
Proof. split; [apply full_below; lia|split; reflexivity]. Qed.

Theorem C52_reduce_large : forall t, length t = 15%nat -> Forall (fun x => 0 <= x < 2 ^ 62) t ->
  limbs_below (2 ^ 29) (p224_reduce_large t) /\ stands_for (p224_reduce_large t) (val28 t).
Proof. exact limbs_large. Qed.
Print Assumptions C52_reduce_large.
Example C52_reduce_large_met : let t := repeat (2 ^ 62 - 1) 15 in length t = 15%nat /\ Forall (fun x => 0 <= x < 2 ^ 62) t.
Proof. split; [reflexivity|]. cbn [repeat]. repeat (constructor; [lia|]). constructor. Qed.

(** [invert] gives the inverse of what is not zero, and zero for zero. *)
Theorem C52_invert : forall a, limbs_below (2 ^ 29) a -> limbs_below (2 ^ 29) (p224_invert a) /\
  (stands_for a 0 -> stands_for (p224_invert a) 0) /\ (~ stands_for a 0 -> cong P224 (val28 (p224_invert a) * val28 a) 1).
Proof. exact limbs_invert. Qed.
Print Assumptions C52_invert.
Example C52_invert_met : limbs_below (2 ^ 29) (full (2 ^ 29)) /\ ~ stands_for (full (2 ^ 29)) 0 /\ stands_for p224_p 0.
Proof.
  split; [apply full_below; lia|]. split; [|exists 1; reflexivity]. intros D. apply (Z.mod_divide _ P224) in D; [|discriminate]. vm_compute in D. discriminate D.
Qed.

(** Numbers of more than 224 bits lose their upper bits. *)
Theorem C52_from_bigint : forall n, 0 <= n -> limbs_below (2 ^ 28) (p224_from_bigint n) /\ val28 (p224_from_bigint n) = n mod 2 ^ 224.
Proof. exact limbs_from. Qed.
Print Assumptions C52_from_bigint.
Example C52_from_bigint_met : p224_from_bigint (2 ^ 230 + 2 ^ 200 + 5) = [5; 0; 0; 0; 0; 0; 0; 16].
Proof. vm_compute. reflexivity. Qed.

Theorem C52_to_bigint : forall a, limbs_below (2 ^ 28) a -> p224_to_bigint a = val28 a.
Proof. exact limbs_to. Qed.
Print Assumptions C52_to_bigint.
Theorem C52_copy_conditional : forall a b, limbs_below (2 ^ 32) a -> limbs_below (2 ^ 32) b -> copy_conditional a b 0 = a /\ copy_conditional a b 1 = b.
Proof. exact limbs_copy. Qed.
Print Assumptions C52_copy_conditional.
Example C52_to_bigint_met : limbs_below (2 ^ 28) (full (2 ^ 28)) /\ limbs_below (2 ^ 32) (full (2 ^ 32)) /\ p224_to_bigint (full (2 ^ 28)) = 2 ^ 224 - 1.
Proof. split; [apply full_below; lia|]. split; [apply full_below; lia|vm_compute; reflexivity]. Qed.

(** ** C53: the canonical form *)
(** What [p224_contract] yields, read as a number.  [returned x] is x unless x = p - 1, or x is below 2^96 - 1 with its 28 low bits
    all one: then it is x + 2^28 modulo p. *)
Theorem C53_contract : forall a, limbs_below (2 ^ 30) a ->
  p224_to_bigint (p224_contract a) = if val28 a <? 2 ^ 96 - 1 then val28 a else returned (val28 a mod P224).
Proof. exact contract_exact. Qed.
Print Assumptions C53_contract.
(** So it is the representative below p of every class but those. *)
Theorem C53_contract_canonical : forall a, limbs_below (2 ^ 30) a -> bad_coordinate (val28 a mod P224) = false ->
  p224_to_bigint (p224_contract a) = val28 a mod P224.
Proof.
  intros a H B. rewrite (contract_exact a H). destruct (Z.ltb_spec (val28 a) (2 ^ 96 - 1)) as [L|L]; [|unfold returned; rewrite B; reflexivity].
  symmetry. apply Z.mod_small. split; [|unfold P224; lia]. destruct H as [_ F]. clear - F. induction F; cbn [val28]; lia.
Qed.
Print Assumptions C53_contract_canonical.
Example C53_contract_met : limbs_below (2 ^ 30) (full (2 ^ 30)) /\ bad_coordinate (val28 (full (2 ^ 30)) mod P224) = false /\ 8 * P224 < 2 * val28 (full (2 ^ 30)).
Proof. split; [apply full_below; lia|split; vm_compute; reflexivity]. Qed.
(** The full claim, that the result is always the representative below p, fails: for p - 1 the result is 2^28 - 1, and two vectors
    for the class of 2^28 - 1 give different results. *)
Theorem C53_contract_refuted : exists a b c, limbs_below (2 ^ 30) a /\ limbs_below (2 ^ 30) b /\ limbs_below (2 ^ 30) c /\
  val28 a = P224 - 1 /\ p224_to_bigint (p224_contract a) = 2 ^ 28 - 1 /\
  stands_for b (2 ^ 28 - 1) /\ p224_to_bigint (p224_contract b) = 2 ^ 29 - 1 /\
  stands_for c (2 ^ 28 - 1) /\ p224_to_bigint (p224_contract c) = 2 ^ 28 - 1.
Proof.
  exists (p224_from_bigint (P224 - 1)), (p224_from_bigint (P224 + 2 ^ 28 - 1)), (p224_from_bigint (2 ^ 28 - 1)).
  assert (G : forall n, 0 <= n -> limbs_below (2 ^ 30) (p224_from_bigint n)).
  { intros n N. destruct (limbs_from n N) as [[L F] _]. split; [exact L|]. eapply Forall_impl; [|exact F]. cbn. lia. }
  split; [apply G; discriminate|]. split; [apply G; discriminate|]. split; [apply G; discriminate|].
  split; [vm_compute; reflexivity|]. split; [vm_compute; reflexivity|]. split; [exists 1; vm_compute; reflexivity|]. split; [vm_compute; reflexivity|].
  split; [exists 0; vm_compute; reflexivity|vm_compute; reflexivity].
Qed.
Print Assumptions C53_contract_refuted.
(** The test for zero, which starts from the same contraction, is right for every class. *)
Theorem C53_is_zero : forall a, limbs_below (2 ^ 30) a -> (p224_is_zero a = 1 <-> stands_for a 0) /\ (p224_is_zero a = 0 <-> ~ stands_for a 0).
Proof. exact limbs_zero. Qed.
Print Assumptions C53_is_zero.
Example C53_is_zero_met : limbs_below (2 ^ 30) p224_p /\ p224_is_zero p224_p = 1 /\ p224_is_zero fe0 = 1 /\ p224_is_zero fe1 = 0.
Proof. split; [split; [reflexivity|repeat (constructor; [lia|]); constructor]|]. repeat split; vm_compute; reflexivity. Qed.

(** ** C58: the interface of CurveP224 *)
Lemma p224_sound : sound_curve (cp_p p224) (cp_b p224).
Proof. apply C50_sound_curves. left. reflexivity. Qed.
(** What CurveP224 returns where the generic code of EllipticCurve returns (X, Y): each coordinate goes through [returned]. *)
Definition as_returned (o : option (Z * Z)) : option (Z * Z) := match o with Some (x, y) => Some (returned x, returned y) | None => None end.

Lemma some_inj {A} (a b : A) : Some a = Some b -> a = b.
Proof. intros H. injection H. auto. Qed.
Theorem C58_add : forall x1 y1 x2 y2, 0 <= x1 < 2 ^ 224 -> 0 <= y1 < 2 ^ 224 -> 0 <= x2 < 2 ^ 224 -> 0 <= y2 < 2 ^ 224 ->
  on_curve (cp_p p224) (cp_b p224) (decode (x1, y1)) -> on_curve (cp_p p224) (cp_b p224) (decode (x2, y2)) ->
  Some (c224_add x1 y1 x2 y2) = as_returned (curve_add p224 x1 y1 x2 y2).
Proof. exact (p224_add_api p224_sound). Qed.
Print Assumptions C58_add.
(** Doubling needs no point of the curve. *)
Theorem C58_double : forall x y, 0 <= x < 2 ^ 224 -> 0 <= y < 2 ^ 224 -> Some (c224_double x y) = as_returned (curve_double p224 x y).
Proof. exact (p224_double_api p224_sound). Qed.
Print Assumptions C58_double.
Theorem C58_scalar : forall x y k, 0 <= x < 2 ^ 224 -> 0 <= y < 2 ^ 224 -> 0 <= k -> on_curve (cp_p p224) (cp_b p224) (decode (x, y)) ->
  Some (c224_scalar x y k) = as_returned (curve_scalar p224 x y k).
Proof. exact (p224_scalar_api p224_sound). Qed.
Print Assumptions C58_scalar.
Lemma base_range : 0 <= cp_gx p224 < 2 ^ 224 /\ 0 <= cp_gy p224 < 2 ^ 224.
Proof. split; split; (discriminate || reflexivity). Qed.
Theorem C58_scalar_base_point : forall k, 0 <= k -> Some (c224_scalar_base k) = as_returned (curve_scalar_base p224 k).
Proof.
  intros k K. apply (C58_scalar (cp_gx p224) (cp_gy p224) k (proj1 base_range) (proj2 base_range) K).
  apply C50_base_point. left. reflexivity.
Qed.
Print Assumptions C58_scalar_base_point.
(** [is_on_curve] decides the equation, of the 224 low bits of its arguments. *)
Theorem C58_is_on_curve : forall x y, 0 <= x -> 0 <= y ->
  let x' := x mod 2 ^ 224 in let y' := y mod 2 ^ 224 in
  c224_is_on_curve x y = true <-> cong P224 (y' * y') (x' * x' * x' - 3 * x' + cp_b p224).
Proof. exact p224_on_curve. Qed.
Print Assumptions C58_is_on_curve.
Theorem C58_is_on_curve_generic : forall x y, 0 <= x < 2 ^ 224 -> 0 <= y < 2 ^ 224 -> c224_is_on_curve x y = is_on_curve p224 x y.
Proof.
  intros x y X Y. apply Bool.eq_iff_eq_true. rewrite (EllApi.api_on_curve p224 x y) by reflexivity.
  rewrite (p224_on_curve x y) by lia. unfold rhs_of. rewrite !Z.mod_small by assumption. reflexivity.
Qed.
Print Assumptions C58_is_on_curve_generic.
(** Hence the two implementations agree wherever the result has no bad coordinate. *)
Theorem C58_agreement : forall x1 y1 x2 y2 x3 y3, 0 <= x1 < 2 ^ 224 -> 0 <= y1 < 2 ^ 224 -> 0 <= x2 < 2 ^ 224 -> 0 <= y2 < 2 ^ 224 ->
  on_curve (cp_p p224) (cp_b p224) (decode (x1, y1)) -> on_curve (cp_p p224) (cp_b p224) (decode (x2, y2)) ->
  curve_add p224 x1 y1 x2 y2 = Some (x3, y3) -> (c224_add x1 y1 x2 y2 = (x3, y3) <-> bad_coordinate x3 = false /\ bad_coordinate y3 = false).
Proof.
  intros x1 y1 x2 y2 x3 y3 B1 B2 B3 B4 O1 O2 E. pose proof (C58_add x1 y1 x2 y2 B1 B2 B3 B4 O1 O2) as A. rewrite E in A. cbn [as_returned] in A. apply some_inj in A. rewrite A. clear A.
  assert (N : forall x, returned x = x <-> bad_coordinate x = false).
  { intros x. unfold returned. destruct (bad_coordinate x) eqn:Eb; [|tauto]. split; [|discriminate]. intros F. exfalso.
    assert (D := Z.div_mod (x + 2 ^ 28) P224 ltac:(discriminate)). rewrite F in D. unfold P224 in D. clear F. set (k := (x + 2 ^ 28) / _) in *. clearbody k. lia. }
  rewrite <- !N. split; [intros H; injection H; auto|intros [-> ->]; reflexivity].
Qed.
Print Assumptions C58_agreement.
Definition add_x := 22653872992320774601168042139170522313389337471937427769555060210264.
Definition add_y := 20743325167975038442491727846560490192240496053838814046394936600979.
Example C58_met : is_on_curve p224 add_x add_y = true /\ 0 <= add_x < 2 ^ 224 /\ 0 <= add_y < 2 ^ 224 /\ is_on_curve p224 1 1 = false /\
  option_map fst (curve_double p224 (cp_gx p224) (cp_gy p224)) = Some 11838696407187388799350957250141035264678915751356546206913969278886.
Proof. split; [vm_compute; reflexivity|]. split; [split; (discriminate || reflexivity)|]. split; [split; (discriminate || reflexivity)|]. split; vm_compute; reflexivity. Qed.
(** The full claim, that the two always agree, fails: there is a point Q such that G + Q = (x, p - 1), and CurveP224 returns
    (x, 2^28 - 1), which is not on the curve. *)
Theorem C58_agreement_refuted : exists x y x3, c224_is_on_curve x y = true /\ c224_is_on_curve (cp_gx p224) (cp_gy p224) = true /\
  curve_add p224 (cp_gx p224) (cp_gy p224) x y = Some (x3, P224 - 1) /\ c224_add (cp_gx p224) (cp_gy p224) x y = (x3, 2 ^ 28 - 1) /\
  c224_is_on_curve x3 (2 ^ 28 - 1) = false.
Proof.
  exists add_x, add_y, 6249846793029195505132993417681461260653261761075236472107163931605.
  assert (E : curve_add p224 (cp_gx p224) (cp_gy p224) add_x add_y = Some (6249846793029195505132993417681461260653261761075236472107163931605, P224 - 1)) by (vm_compute; reflexivity).
  assert (Q : is_on_curve p224 add_x add_y = true) by (vm_compute; reflexivity).
  destruct C58_met as (_ & X & Y & _). destruct (C50_base_point p224 (or_introl eq_refl)) as (G & OG & _).
  split; [rewrite C58_is_on_curve_generic by assumption; exact Q|]. split; [rewrite C58_is_on_curve_generic by apply base_range; exact G|].
  split; [exact E|]. split.
  - assert (A : Some (c224_add (cp_gx p224) (cp_gy p224) add_x add_y) = as_returned (curve_add p224 (cp_gx p224) (cp_gy p224) add_x add_y)).
    { apply C58_add; try apply base_range; try assumption.
      apply (EllApi.api_on_curve p224 add_x add_y eq_refl) in Q. exact Q. }
    rewrite E in A. cbn [as_returned] in A. apply some_inj in A. rewrite A. clear A. vm_compute. reflexivity.
  - rewrite (C58_is_on_curve_generic _ (2 ^ 28 - 1)) by lia. vm_compute. reflexivity.
Qed.
Print Assumptions C58_agreement_refuted.
