(** Scalar multiplication of CurveP256 against the generic one. *)
From Coq Require Import Znumtheory.
From Verif Require Import Base Words HashModel NumTheory RsaModel RsaEncModel EcGroup Fp EllModel EllSpec EllProofs P224Model P256Model P256Spec P256Ops P256Digits P256Conv P256Table P256Field EcdsaGroup CurvePrimes.
Local Open Scope Z_scope.

Section POINT.
Notation p := (cp_p p256). Notation b := (cp_b p256). Notation n := (cp_n p256).
Hypothesis S : sound_curve p b.
Let Hp : prime p := proj1 S.
Let P3 : 3 < p := proj1 (proj2 S).
Let Hb : ~ cong p b 0 := proj1 (proj2 (proj2 S)).
Let Hd : ~ cong p (b * b) 4 := proj2 (proj2 (proj2 S)).
Lemma EP : p = P256. Proof. symmetry. reflexivity. Qed.
Notation oz := (of_Z p Hp).
Lemma from_R x : R p Hp (p256_from_bigint x) (oz x).
Proof. apply (R_stands p EP Hp). destruct (from_bigint_ok x) as [E ST]. split; assumption. Qed.
Lemma n_prime : prime n. Proof. exact prime_n256. Qed.
Lemma point_scalar x y k : 0 <= k -> on_curve p b (decode (x, y)) -> zmul p Hp n (phi p Hp (x, y)) = None ->
  c256_scalar false x y k = curve_scalar p256 x y k.
Proof.
  intros K O N. rewrite (curve_scalar_ok p b Hp P3 Hd p256 eq_refl x y k O K). assert (FO := proj1 (on_phi p b Hp P3 (x, y)) O).
  assert (RB := reduced_bound k K). destruct (scalar_val k K) as [SB _]. unfold c256_scalar. destruct (decode (x, y)) as [[x' y']|] eqn:DE.
  - pose proof (decode_some (x, y) (x', y') DE) as E'. injection E' as <- <-.
    assert (PH : phi p Hp (x, y) = Some (oz x, oz y)) by (unfold phi; rewrite DE; reflexivity). rewrite PH in *.
    destruct (scalar_mult_ok p b EP Hp Hd (p256_from_bigint x) (p256_from_bigint y) (oz x) (oz y) n (from_R x) (from_R y) FO ltac:(reflexivity) N) with (scalar := p256_get_scalar k) (k := reduced k) as (J & EJ & AJ).
    + intros j J E. apply (order_none p256 S n_prime _ FO N) in E; [|discriminate|lia]. apply Z.divide_pos_le in E; lia.
    + exact RB.
    + intros i I. apply scalar_window; assumption.
    + assert (H := n_256). lia.
    + rewrite EJ, AJ. f_equal. f_equal. rewrite reduced_mod by exact K. apply (order_mod p256 S n_prime _ FO N). exact K.
  - pose proof (decode_none (x, y) DE) as E. injection E as -> ->. unfold phi. rewrite DE, zmul_O. cbn [psi].
    destruct (mult_none p b EP Hp (p256_from_bigint 0) (p256_from_bigint 0) (p256_get_scalar k) (from_R 0) (from_R 0) SB) as (J & EJ & NJ). rewrite EJ. exact (none_affine p EP Hp J NJ).
Qed.
Lemma point_total x y k : 0 <= k -> exists u v, c256_scalar false x y k = Some (u, v) /\ 0 <= u < p /\ 0 <= v < p.
Proof.
  intros K. destruct (scalar_val k K) as [SB _]. unfold c256_scalar.
  destruct (mult_total p b EP Hp _ _ _ _ (p256_get_scalar k) (from_R x) (from_R y) SB) as (J & EJ & X & Y & Z & T). rewrite EJ, (affine_three p EP Hp J X Y Z T).
  match goal with |- context [psi p ?Q] => assert (B := psi_range p Hp P3 Q); destruct (psi p Q) as [u v] end. exists u, v. split; [reflexivity|exact B].
Qed.
Hypothesis OG : on_curve p b (decode (cp_gx p256, cp_gy p256)).
Hypothesis NG : zmul p Hp n (phi p Hp (cp_gx p256, cp_gy p256)) = None.
Lemma base_scalar k : 0 <= k -> c256_scalar_base false k = curve_scalar_base p256 k.
Proof.
  intros K. unfold curve_scalar_base. rewrite (curve_scalar_ok p b Hp P3 Hd p256 eq_refl _ _ k OG K). assert (FO := proj1 (on_phi p b Hp P3 _) OG). assert (RB := reduced_bound k K).
  assert (SG : forall j, 0 < j < n -> zmul p Hp j (phi p Hp (cp_gx p256, cp_gy p256)) <> None).
  { intros j J E. apply (order_none p256 S n_prime _ FO NG) in E; [apply Z.divide_pos_le in E; lia|discriminate|lia]. }
  rewrite (base_mult_ok p b EP Hp Hd n OG NG SG k K (proj2 RB)).
  f_equal. f_equal. rewrite reduced_mod by exact K. apply (order_mod p256 S n_prime _ FO NG). exact K.
Qed.
End POINT.
