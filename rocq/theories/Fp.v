(** The field of residues modulo a prime, with Leibniz equality. *)
From Coq Require Import Znumtheory Field Eqdep_dec.
From Verif Require Import Base NumTheory.

Section FP.
Variable p : Z.
Hypothesis Hp : prime p.
Definition Fp : Type := {z : Z | (z mod p =? z) = true}.
Lemma p_pos : 0 < p.
Proof. pose proof (prime_ge_2 p Hp). lia. Qed.
Lemma of_Z_ok z : ((z mod p) mod p =? z mod p) = true.
Proof. apply Z.eqb_eq. rewrite Z.mod_mod; [reflexivity|]. pose proof p_pos. lia. Qed.
Definition of_Z (z : Z) : Fp := exist _ (z mod p) (of_Z_ok z).
Definition to_Z (x : Fp) : Z := proj1_sig x.
Lemma Fp_ext (x y : Fp) : to_Z x = to_Z y -> x = y.
Proof.
  destruct x as [x hx], y as [y hy]. cbn. intros E. subst y. f_equal. apply UIP_dec. apply Bool.bool_dec.
Qed.
Lemma to_of z : to_Z (of_Z z) = z mod p.
Proof. reflexivity. Qed.
Lemma to_Z_mod x : to_Z x mod p = to_Z x.
Proof. destruct x as [x hx]. cbn. apply Z.eqb_eq, hx. Qed.
Lemma to_Z_range x : 0 <= to_Z x < p.
Proof. rewrite <- to_Z_mod. apply Z.mod_pos_bound, p_pos. Qed.
Lemma of_to x : of_Z (to_Z x) = x.
Proof. apply Fp_ext. rewrite to_of. apply to_Z_mod. Qed.
Lemma of_Z_eq x y : of_Z x = of_Z y <-> x mod p = y mod p.
Proof. split; [intros E; apply (f_equal to_Z) in E; exact E|intros E; apply Fp_ext; exact E]. Qed.
Lemma of_Z_mod x : of_Z (x mod p) = of_Z x.
Proof. apply of_Z_eq. apply Z.mod_mod. pose proof p_pos. lia. Qed.

Definition f0 := of_Z 0.
Definition f1 := of_Z 1.
Definition fadd (x y : Fp) := of_Z (to_Z x + to_Z y).
Definition fmul (x y : Fp) := of_Z (to_Z x * to_Z y).
Definition fsub (x y : Fp) := of_Z (to_Z x - to_Z y).
Definition fopp (x : Fp) := of_Z (- to_Z x).
Definition finv (x : Fp) := of_Z (to_Z x ^ (p - 2)).
Definition fdiv (x y : Fp) := fmul x (finv y).
Lemma of_add x y : of_Z (x + y) = fadd (of_Z x) (of_Z y).
Proof. apply of_Z_eq. rewrite !to_of. apply Zplus_mod. Qed.
Lemma of_mul x y : of_Z (x * y) = fmul (of_Z x) (of_Z y).
Proof. apply of_Z_eq. rewrite !to_of. apply Zmult_mod. Qed.
Lemma of_sub x y : of_Z (x - y) = fsub (of_Z x) (of_Z y).
Proof. apply of_Z_eq. rewrite !to_of. apply Zminus_mod. Qed.
Lemma of_opp x : of_Z (- x) = fopp (of_Z x).
Proof.
  apply of_Z_eq. rewrite to_of. symmetry.
  replace (- (x mod p)) with (0 - x mod p) by lia. replace (- x) with (0 - x) by lia. apply Zminus_mod_idemp_r. Qed.
Lemma Fp_eq_dec (x y : Fp) : {x = y} + {x <> y}.
Proof.
  destruct (Z.eq_dec (to_Z x) (to_Z y)) as [E|N]; [left; apply Fp_ext, E|right; intros E; apply N; rewrite E; reflexivity].
Qed.
Ltac reps := repeat match goal with x : Fp |- _ => rewrite <- (of_to x); generalize (to_Z x); clear x; intros x end.
Lemma Fp_ring : ring_theory f0 f1 fadd fmul fsub fopp eq.
Proof.
  constructor; intros; reps; unfold f0, f1; repeat (rewrite <- ?of_add, <- ?of_mul, <- ?of_sub, <- ?of_opp); f_equal; ring.
Qed.
Lemma of_p : of_Z p = f0.
Proof. apply of_Z_eq. rewrite Z_mod_same_full. symmetry. apply Z.mod_0_l. pose proof p_pos. lia. Qed.
Lemma of_Z_0 x : of_Z x = f0 <-> (p | x).
Proof.
  unfold f0. rewrite of_Z_eq. pose proof p_pos as P. rewrite (Z.mod_0_l p) by lia. split; [apply Z.mod_divide; lia|intros D; apply Z.mod_divide; [lia|exact D]].
Qed.
Lemma Fp_field : field_theory f0 f1 fadd fmul fsub fopp fdiv finv eq.
Proof.
  constructor.
  - exact Fp_ring.
  - unfold f1, f0. rewrite of_Z_eq. pose proof (prime_ge_2 p Hp). rewrite !Z.mod_small by lia. lia.
  - reflexivity.
  - intros x N. unfold finv. rewrite <- (of_to x) at 2. rewrite <- of_mul. unfold f1. apply of_Z_eq.
    pose proof (prime_ge_2 p Hp). rewrite (Z.mod_small 1) by lia.
    rewrite <- (fermat_inverse_ok p (to_Z x) Hp).
    + rewrite Zmult_mod_idemp_l. reflexivity.
    + intros D. apply N. rewrite <- (of_to x). apply of_Z_0, D.
Qed.
End FP.
