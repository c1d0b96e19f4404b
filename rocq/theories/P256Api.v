(** The facts of P256Field restated for the routines of CurveP256. *)
From Coq Require Import Znumtheory.
From Verif Require Import Base Words HashModel NumTheory RsaModel RsaEncModel EcGroup Fp EllModel EllSpec EllProofs P224Model P256Model P256Spec P256Limbs P256Red P256Mul P256Ops P256Field P256Conv CurvePrimes.
Local Open Scope Z_scope.

Lemma prime_P256 : prime P256. Proof. exact prime_p256. Qed.
Lemma degree_ok t : length t = 17%nat -> Forall (fun x => 0 <= x < 2 ^ 64) t -> nth 16 t 0 <= 2 ^ 60 ->
  exists m, p256_reduce_degree false t = Some m /\ element m /\ cong P256 (val256 m * 2 ^ 257) (val256 t).
Proof.
  intros L F B. do 17 (destruct t as [|? t]; [discriminate L|]). destruct t; [|discriminate L]. cbn [nth] in B.
  destruct (reduce_degree_17 z z0 z1 z2 z3 z4 z5 z6 z7 z8 z9 z10 z11 z12 z13 z14 z15) as (a0 & a1 & a2 & a3 & a4 & a5 & a6 & a7 & a8 & E & F1 & F2 & V).
  - eapply Forall_impl; [|exact F]. cbn beta. lia.
  - lia.
  - eexists. split; [exact E|]. split; [apply element_of; assumption|exact V].
Qed.
Lemma stands_all a : exists x, stands256 a x.
Proof.
  exists (val256 a * R_INV). destruct r_inv_ok as [j J]. exists (- j * val256 a). generalize dependent P256. intros m J. generalize dependent R_INV. intros r J. generalize dependent (2 ^ 257). intros w J.
  replace (val256 a - val256 a * r * w) with (- (w * r - 1) * val256 a) by ring. rewrite J. ring.
Qed.
Lemma mul_algebra p w r l M A B x y i j k : w * r = 1 + l * p -> M * w - A * B = i * p -> A - x * w = j * p -> B - y * w = k * p -> exists q, M - x * y * w = q * p.
Proof.
  intros EW EM EA EB. exists (- M * l + r * i + r * (j * B + x * w * k) + x * y * w * l).
  replace ((- M * l + r * i + r * (j * B + x * w * k) + x * y * w * l) * p) with (- M * (l * p) + r * (i * p) + r * ((j * p) * B + x * w * (k * p)) + x * y * w * (l * p)) by ring.
  rewrite <- EM, <- EA, <- EB. replace (l * p) with (w * r - 1) by lia. ring.
Qed.
Lemma mul_stands a b m x y : cong P256 (val256 m * 2 ^ 257) (val256 a * val256 b) -> stands256 a x -> stands256 b y -> stands256 m (x * y).
Proof.
  intros [i I] [j J] [k K]. destruct r_inv_ok as [l L]. assert (L' : 2 ^ 257 * R_INV = 1 + l * P256) by (generalize dependent (l * P256); intros; lia).
  exact (mul_algebra _ _ _ _ _ _ _ _ _ _ _ _ L' I J K).
Qed.
Lemma mul_value a b : element a -> element b -> exists m, p256_mul false a b = Some m /\ element m /\ forall x y, stands256 a x -> stands256 b y -> stands256 m (x * y).
Proof. intros A B. destruct (mul_ok a b A B) as (m & E & M & V). exists m. split; [exact E|]. split; [exact M|]. intros x y. exact (mul_stands a b m x y V). Qed.
Lemma square_value a : element a -> exists m, p256_square false a = Some m /\ element m /\ forall x, stands256 a x -> stands256 m (x * x).
Proof. intros A. destruct (square_ok a A) as (m & E & M & V). exists m. split; [exact E|]. split; [exact M|]. intros x X. exact (mul_stands a a m x x V X X). Qed.
Lemma invert_value a : element a -> exists m, p256_invert false a = Some m /\ element m /\
  forall x, stands256 a x -> (cong P256 x 0 -> stands256 m 0) /\ (~ cong P256 x 0 -> exists y, cong P256 (y * x) 1 /\ stands256 m y).
Proof.
  intros A. destruct (stands_all a) as [x0 X0].
  assert (RA : R P256 prime_P256 a (of_Z P256 prime_P256 x0)) by (apply R_stands; [reflexivity|split; assumption]).
  destruct (f_invert P256 eq_refl prime_P256 a _ RA) as (m & E & M). exists m. split; [exact E|]. split; [apply M|]. intros x X.
  assert (RX : R P256 prime_P256 a (of_Z P256 prime_P256 x)) by (apply R_stands; [reflexivity|split; assumption]).
  rewrite (R_fun P256 eq_refl prime_P256 a _ _ RA RX) in M. clear x0 X0 RA. set (u := of_Z P256 prime_P256 x) in *.
  assert (P3 : 3 < P256) by reflexivity. split.
  - intros Z0. assert (U : u = f0 P256 prime_P256) by (unfold u, f0; apply (oz_cong P256 prime_P256 P3); exact Z0).
    assert (I0 : finv P256 prime_P256 u = of_Z P256 prime_P256 0).
    { rewrite U. unfold finv, f0. rewrite to_of. assert (E2 : 0 < P256 - 2) by reflexivity. generalize dependent (P256 - 2). intros e E2. rewrite Z.mod_0_l by discriminate. rewrite Z.pow_0_l by exact E2. reflexivity. }
    rewrite I0 in M. apply R_stands in M; [apply M|reflexivity].
  - intros N. exists (to_Z P256 (finv P256 prime_P256 u)). split.
    + apply (oz_cong P256 prime_P256 P3). rewrite of_mul, of_to. fold u. change (of_Z P256 prime_P256 1) with (f1 P256 prime_P256).
      apply (Field_theory.Finv_l (Fp_field P256 prime_P256)). intros U. apply N. unfold u, f0 in U. apply (oz_cong P256 prime_P256 P3) in U. exact U.
    + rewrite <- (of_to P256 prime_P256 (finv P256 prime_P256 u)) in M. apply R_stands in M; [apply M|reflexivity].
Qed.
Lemma to_bigint_value a x : element a -> stands256 a x -> p256_to_bigint a = x mod P256.
Proof. intros [L _]. exact (to_bigint_ok a x L). Qed.
