(** The size estimate of RSA key generation: bounds on the computed value, over the real numbers. *)
From Coq Require Import Reals Lra Lia ZArith.
From Verif Require Import RsaSizeModel.
Open Scope R_scope.

Lemma ln2_lo : 65/100 < ln 2.
Proof.
  assert (H : exp (65/100) < 2).
  { assert (A : 1 + - (65/800) < exp (- (65/800))) by (apply exp_ineq1; lra).
    assert (B : exp (-(65/100)) = exp (-(65/800)) ^ 8).
    { rewrite <- (exp_ln (exp (-(65/800)) ^ 8)) by (apply pow_lt, exp_pos). rewrite ln_pow, ln_exp by apply exp_pos. f_equal. cbn [INR]. lra. }
    assert (C : (1/2) < exp (-(65/100))).
    { rewrite B. apply Rlt_le_trans with ((1 + -(65/800))^8); [lra|]. apply pow_incr. lra. }
    rewrite exp_Ropp in C. apply Rinv_lt_contravar in C; [|apply Rmult_lt_0_compat; [lra|apply Rinv_0_lt_compat, exp_pos]].
    rewrite Rinv_inv in C. lra. }
  rewrite <- (ln_exp (65/100)). apply ln_increasing; [apply exp_pos|exact H].
Qed.
Lemma exp_dbl x y b c : y = 2 * x -> 0 <= b -> b <= exp x -> c <= b * b -> c <= exp y.
Proof. intros -> B E C. replace (2 * x) with (x + x) by lra. rewrite exp_plus. nra. Qed.
Lemma ln2_hi : ln 2 < 696/1000.
Proof.
  assert (A : 1 + 696/128000 < exp (696/128000)) by (apply exp_ineq1; lra).
  assert (A0 : 10054375/10000000 <= exp (696/128000)) by lra.
  assert (A1 : 10109045/10000000 <= exp (696/64000)) by (apply (exp_dbl (696/128000) _ (10054375/10000000)); lra).
  assert (A2 : 10219279/10000000 <= exp (696/32000)) by (apply (exp_dbl (696/64000) _ (10109045/10000000)); lra).
  assert (A3 : 10443366/10000000 <= exp (696/16000)) by (apply (exp_dbl (696/32000) _ (10219279/10000000)); lra).
  assert (A4 : 10906389/10000000 <= exp (696/8000)) by (apply (exp_dbl (696/16000) _ (10443366/10000000)); lra).
  assert (A5 : 11894932/10000000 <= exp (696/4000)) by (apply (exp_dbl (696/8000) _ (10906389/10000000)); lra).
  assert (A6 : 14148940/10000000 <= exp (696/2000)) by (apply (exp_dbl (696/4000) _ (11894932/10000000)); lra).
  assert (A7 : 20019250/10000000 <= exp (696/1000)) by (apply (exp_dbl (696/2000) _ (14148940/10000000)); lra).
  rewrite <- (ln_exp (696/1000)). apply ln_increasing; lra.
Qed.

Lemma eps : 0 < / 2 ^ 50 < 1/1000000.
Proof.
  split; [apply Rinv_0_lt_compat, pow_lt; lra|]. replace (1 / 1000000) with (/ 1000000) by lra. apply Rinv_lt_contravar; [|].
  - apply Rmult_lt_0_compat; [lra|apply pow_lt; lra].
  - lra.
Qed.
Lemma rounds_pos x y lo hi : rounds x y -> 0 <= lo -> lo <= y <= hi -> lo * (999999/1000000) <= x <= hi * (1000001/1000000).
Proof.
  unfold rounds. intros H L [A B]. pose proof eps as [E0 E1]. rewrite (Rabs_pos_eq y) in H by lra.
  assert (y * / 2 ^ 50 <= y * (1/1000000)) by (apply Rmult_le_compat_l; lra).
  assert (Rabs (x - y) <= y * (1/1000000)) as K by lra. apply Rabs_def2b in K || idtac.
  pose proof (Rle_abs (x - y)). pose proof (Rle_abs (-(x - y))) as K2. rewrite Rabs_Ropp in K2. lra.
Qed.
Lemma rounds_neg x y : rounds x y -> y <= 0 -> x <= 0.
Proof.
  unfold rounds. intros H A. pose proof eps as [E0 E1]. rewrite (Rabs_left1 y) in H by lra.
  assert (- y * / 2 ^ 50 <= - y * (1/1000000)) by (apply Rmult_le_compat_l; lra). pose proof (Rle_abs (x - y)). lra.
Qed.

(** The computed value for shares of [k] bits. *)
Definition est (k : nat) (pi : R) : Prop :=
  exists lnl den q a : R, rounds lnl (ln (2 ^ k)) /\ rounds den (lnl - 1) /\ rounds q (2 ^ k / den) /\ rounds a (q / 4) /\ rounds pi (a / 2).
Lemma div_bounds L d lo hi : 0 < L -> 0 < lo -> lo <= d <= hi -> L / hi <= L / d <= L / lo.
Proof.
  intros HL H0 [A B]. unfold Rdiv. split; apply Rmult_le_compat_l; try lra; apply Rinv_le_contravar; lra.
Qed.
Lemma est_pos k pi dl dh : est k pi -> 0 < dl ->
  dl <= (INR k * (65/100) * (999999/1000000) - 1) * (999999/1000000) ->
  (INR k * (696/1000) * (1000001/1000000) - 1) * (1000001/1000000) <= dh ->
  2 ^ k / dh / 8 * (99999/100000) <= pi <= 2 ^ k / dl / 8 * (100001/100000).
Proof.
  intros (lnl & den & q & a & R1 & R2 & R3 & R4 & R5) D DL DH.
  rewrite ln_pow in R1 by lra. pose proof ln2_lo as L1. pose proof ln2_hi as L2. pose proof (pos_INR k) as K0.
  pose proof (pow_lt 2 k ltac:(lra)) as P.
  assert (B1 : INR k * (65/100) <= INR k * ln 2 <= INR k * (696/1000)) by (split; apply Rmult_le_compat_l; lra).
  apply (rounds_pos _ _ _ _ R1) in B1; [|lra]. destruct B1 as [B1 B1'].
  assert (B2 : INR k * (65/100) * (999999/1000000) - 1 <= lnl - 1 <= INR k * (696/1000) * (1000001/1000000) - 1) by lra.
  apply (rounds_pos _ _ _ _ R2) in B2; [|lra]. destruct B2 as [B2 B2'].
  assert (B3 : 2 ^ k / dh <= 2 ^ k / den <= 2 ^ k / dl) by (apply div_bounds; lra).
  assert (Q0 : 0 < 2 ^ k / dh) by (apply Rdiv_lt_0_compat; lra).
  apply (rounds_pos _ _ _ _ R3) in B3; [|lra]. destruct B3 as [B3 B3'].
  assert (B4 : 2 ^ k / dh * (999999 / 1000000) / 4 <= q / 4 <= 2 ^ k / dl * (1000001 / 1000000) / 4) by lra.
  apply (rounds_pos _ _ _ _ R4) in B4; [|lra]. destruct B4 as [B4 B4'].
  match type of B4 with ?u <= _ => match type of B4' with _ <= ?v => assert (B5 : u / 2 <= a / 2 <= v / 2) by lra end end.
  apply (rounds_pos _ _ _ _ R5) in B5; [|lra]. lra.
Qed.
Lemma est_small k pi : (k < 2)%nat -> est k pi -> pi <= 0.
Proof.
  intros K (lnl & den & q & a & R1 & R2 & R3 & R4 & R5). pose proof ln2_lo as L1. pose proof ln2_hi as L2.
  assert (H : lnl <= 9/10).
  { destruct k as [|[|k]]; [| |lia].
    - rewrite pow_O, ln_1 in R1. apply rounds_neg in R1; lra.
    - rewrite pow_1 in R1. apply (rounds_pos _ _ 0 (696/1000)) in R1; lra. }
  assert (D : den < 0).
  { unfold rounds in R2. pose proof eps as [E0 E1]. rewrite (Rabs_left1 (lnl - 1)) in R2 by lra.
    assert (- (lnl - 1) * / 2 ^ 50 <= - (lnl - 1) * (1/1000000)) by (apply Rmult_le_compat_l; lra). pose proof (Rle_abs (den - (lnl - 1))). lra. }
  assert (Q : 2 ^ k / den <= 0).
  { unfold Rdiv. pose proof (pow_lt 2 k ltac:(lra)). pose proof (Rinv_lt_0_compat den D). nra. }
  apply rounds_neg in R3; [|exact Q]. apply rounds_neg in R4; [|lra]. apply rounds_neg in R5; lra.
Qed.

Ltac est_case H lo hi :=
  let K := fresh in pose proof (fun dl dh => est_pos _ _ dl dh H) as K; specialize (K lo hi); cbn [INR] in K;
  specialize (K ltac:(lra) ltac:(lra) ltac:(lra)); simpl pow in K; lra.
Lemma est_5 k pi : (k <= 5)%nat -> est k pi -> pi <= 2.
Proof.
  intros K H. destruct (Nat.lt_ge_cases k 2) as [L|L]; [pose proof (est_small k pi L H); lra|].
  assert (E : (k = 2 \/ k = 3 \/ k = 4 \/ k = 5)%nat) by lia. destruct E as [-> | [-> | [-> | ->]]].
  - est_case H (29/100) (1/2).
  - est_case H (94/100) (12/10).
  - est_case H (159/100) (2).
  - est_case H (224/100) (3).
Qed.
Lemma est_6 pi : est 6 pi -> 2 < pi < 3.
Proof. intros H. est_case H (289/100) (32/10). Qed.
Lemma est_7 pi : est 7 pi -> 4 < pi < 5.
Proof. intros H. est_case H (354/100) (388/100). Qed.
Lemma est_8 k pi : (8 <= k < 32)%nat -> est k pi -> 7 < pi.
Proof.
  intros K H.
  assert (DH : 0 < INR k * (65/100) * (999999/1000000) - 1).
  { assert (K8 : (8 <= k)%nat) by lia. assert (8 <= INR k) by (apply (le_INR 8) in K8; cbn [INR] in K8; lra). lra. }
  assert (DH' : 0 < (INR k * (65/100) * (999999/1000000) - 1) * (999999/1000000)) by (apply Rmult_lt_0_compat; [exact DH|lra]).
  pose proof (est_pos k pi _ _ H DH' (Rle_refl _) (Rle_refl _)) as [B _].
  eapply Rlt_le_trans; [|exact B]. clear - K.
  assert (G : forall k, (8 <= k)%nat -> 7001/1000 * 8 * ((INR k * (696 / 1000) * (1000001 / 1000000) - 1) * (1000001 / 1000000)) <= 2 ^ k).
  { clear. induction k as [|k IH]; intros K; [lia|]. destruct (Nat.eq_dec k 7) as [-> | N].
    - simpl pow. cbn [INR]. lra.
    - specialize (IH ltac:(lia)). rewrite S_INR, <- tech_pow_Rmult.
      assert (8 <= INR k) by (assert (K8 : (8 <= k)%nat) by lia; apply (le_INR 8) in K8; cbn [INR] in K8; lra). lra. }
  specialize (G k ltac:(lia)).
  assert (8 <= INR k) by (assert (K8 : (8 <= k)%nat) by lia; apply (le_INR 8) in K8; cbn [INR] in K8; lra).
  set (d := (INR k * (696 / 1000) * (1000001 / 1000000) - 1) * (1000001 / 1000000)) in *.
  assert (D : 0 < d) by (unfold d; apply Rmult_lt_0_compat; lra).
  apply Rlt_le_trans with (7001/1000 * (99999 / 100000)); [lra|]. apply Rmult_le_compat_r; [lra|].
  apply Rmult_le_reg_r with (8 * d); [lra|]. replace (2 ^ k / d / 8 * (8 * d)) with (2 ^ k) by (field; lra). lra.
Qed.
