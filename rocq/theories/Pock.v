(** A primality criterion (Pocklington; Brillhart, Lehmer and Selfridge): N is prime when enough prime factors
    of N - 1 are known together with elements whose orders they divide.  Used for the curve constants only. *)
From Coq Require Import Znumtheory Zpow_facts.
From Verif Require Import Base NumTheory.

Lemma prime_divisor n : 1 < n -> exists p, prime p /\ (p | n).
Proof.
  intros H. assert (forall k n, 1 < n < Z.of_nat k -> exists p, prime p /\ (p | n)) as G.
  { clear. induction k as [|k IH]; intros n H; [lia|].
    destruct (prime_dec n) as [P|P]; [exists n; split; [exact P|apply Z.divide_refl]|].
    destruct (not_prime_divide n ltac:(lia) P) as (m & B & D).
    destruct (IH m ltac:(lia)) as (p & Hp & Dp). exists p; split; [exact Hp|]. eapply Z.divide_trans; eassumption. }
  apply (G (S (Z.to_nat n)) n); lia.
Qed.

Lemma gcd_closed (Q : Z -> Prop) : (forall m n, 0 <= n -> n <= m -> Q m -> Q n -> Q (m - n)) ->
  forall m n, 0 <= m -> 0 <= n -> Q m -> Q n -> Q (Z.gcd m n).
Proof.
  intros S1. assert (forall k m n, 0 <= m -> 0 <= n -> m + n < Z.of_nat k -> Q m -> Q n -> Q (Z.gcd m n)) as G.
  { induction k as [|k IH]; intros m n Hm Hn K E1 E2; [lia|].
    destruct (Z.eq_dec m 0) as [->|M0]; [rewrite Z.gcd_0_l, Z.abs_eq by lia; exact E2|].
    destruct (Z.eq_dec n 0) as [->|N0]; [rewrite Z.gcd_0_r, Z.abs_eq by lia; exact E1|].
    destruct (Z_le_gt_dec m n) as [L|L].
    - rewrite <- (Z.gcd_sub_diag_r m n). apply IH; [lia|lia|lia|exact E1|]. apply S1; [lia|lia|exact E2|exact E1].
    - rewrite Z.gcd_comm, <- (Z.gcd_sub_diag_r n m). apply IH; [lia|lia|lia|exact E2|]. apply S1; [lia|lia|exact E1|exact E2]. }
  intros m n Hm Hn. apply (G (S (Z.to_nat (m + n)))); lia.
Qed.
Lemma pow_gcd_one r b : 1 < r -> forall m n, 0 <= m -> 0 <= n -> b ^ m mod r = 1 -> b ^ n mod r = 1 -> b ^ Z.gcd m n mod r = 1.
Proof.
  intros Hr. apply (gcd_closed (fun x => b ^ x mod r = 1)). intros m n Hn Hm E1 E2.
  assert (b ^ m = b ^ (m - n) * b ^ n) as E by (rewrite <- Z.pow_add_r by (clear E1 E2; lia); f_equal; clear E1 E2; lia).
  assert (r <> 0) as R0 by (clear E1 E2; lia).
  rewrite E in E1. rewrite <- Z.mul_mod_idemp_r in E1 by exact R0. rewrite E2, Z.mul_1_r in E1. exact E1.
Qed.

Lemma pos_factor a b c : 0 < c -> 0 < b -> c = a * b -> 0 < a.
Proof. nia. Qed.
Lemma prime_power_proper q e g : prime q -> 1 <= e -> 0 < g -> (g | q ^ e) -> g <> q ^ e -> (g | q ^ (e - 1)).
Proof.
  intros Hq He Hg [h E] N. pose proof (prime_ge_2 q Hq) as Q2.
  assert (0 < q ^ e) as P0 by (apply Z.pow_pos_nonneg; lia).
  assert (0 < h) as H0 by nia.
  assert (q | h) as D.
  { destruct (Zdivide_dec q h) as [D|D]; [exact D|exfalso].
    assert (rel_prime h q) as RP by (apply rel_prime_sym, prime_rel_prime; assumption).
    assert (rel_prime h (q ^ e)) as R2 by (apply rel_prime_Zpower_r; [lia|exact RP]).
    assert (h | 1) as D1.
    { apply (Gauss h (q ^ e) 1); [exists g; lia|exact R2]. }
    apply Z.divide_1_r_nonneg in D1; [|lia]. subst h. lia. }
  destruct D as [h' E']. exists h'. subst h.
  assert (q ^ e = q * q ^ (e - 1)) as E2 by (rewrite <- Z.pow_succ_r by lia; f_equal; lia).
  rewrite E2 in E. apply (Z.mul_reg_l _ _ q); [lia|]. lia.
Qed.

Lemma bls_arith N F R a b : 0 < F -> 1 < a * F + 1 -> 1 < b * F + 1 -> N = (b * F + 1) * (a * F + 1) -> N - 1 = F * R -> N < F * F * F ->
  R / F = a * b /\ R mod F = a + b /\ 0 < a * b.
Proof.
  intros F0 Ha Hb E HF B.
  assert (0 < a) as A0 by (apply (pos_factor a F (a * F)); [clear -Ha; lia|exact F0|reflexivity]).
  assert (0 < b) as B0 by (apply (pos_factor b F (b * F)); [clear -Hb; lia|exact F0|reflexivity]).
  assert (R = a + b + (a * b) * F) as ER.
  { apply (Z.mul_reg_l _ _ F); [clear -F0; lia|]. rewrite <- HF, E. ring. }
  assert (N = F * F * (a * b) + F * (a + b) + 1) as EN by (rewrite E; ring).
  assert (0 < F * F) as FF by (apply Z.mul_pos_pos; exact F0).
  assert (0 < F * (a + b)) as FA by (apply Z.mul_pos_pos; [exact F0|clear -A0 B0; lia]).
  assert (a * b < F) as AB.
  { destruct (Z_lt_ge_dec (a * b) F) as [|G]; [assumption|exfalso].
    assert (F * F * F <= F * F * (a * b)) as H by (apply Z.mul_le_mono_nonneg_l; [clear -FF; lia|clear -G; lia]).
    set (X := F * F * F) in *. set (Y := F * F * (a * b)) in *. set (W := F * (a + b)) in *. clear -EN B H FA. lia. }
  assert (0 < a * b) as AB0 by (apply Z.mul_pos_pos; assumption).
  assert (a + b <= a * b + 1) as AB1 by (clear -A0 B0; nia).
  assert (a + b < F) as AB2.
  { destruct (Z.eq_dec (a + b) F) as [G|G]; [exfalso|clear -AB AB1 G; lia].
    assert (a * b = F - 1) as AB3 by (clear -AB AB1 G; lia). rewrite AB3, G in EN.
    replace (F * F * (F - 1) + F * F + 1) with (F * F * F + 1) in EN by ring. set (X := F * F * F) in *. clear -EN B. lia. }
  split; [|split; [|exact AB0]]; rewrite ER.
  - rewrite Z.div_add by (clear -F0; lia). rewrite Z.div_small by (clear -AB2 A0 B0; lia). ring.
  - rewrite Z.mod_add by (clear -F0; lia). apply Z.mod_small. clear -AB2 A0 B0; lia.
Qed.

Section Criterion.
Variables N : Z.
Hypothesis HN : 1 < N.
(** a witnesses that q^e divides r - 1 for every prime factor r of N *)
Definition witness (q a : Z) : Prop := a ^ (N - 1) mod N = 1 /\ Z.gcd (a ^ ((N - 1) / q) - 1) N = 1.

Lemma witness_divides q e a r : prime q -> 1 <= e -> (q ^ e | N - 1) -> witness q a -> prime r -> (r | N) -> (q ^ e | r - 1).
Proof.
  intros Hq He [c Ec] [W1 W2] Hr Dr. pose proof (prime_ge_2 q Hq) as Q2. pose proof (prime_ge_2 r Hr) as R2.
  assert (0 < q ^ e) as P0 by (apply Z.pow_pos_nonneg; lia).
  assert (q ^ e = q * q ^ (e - 1)) as E2 by (rewrite <- Z.pow_succ_r by lia; f_equal; lia).
  assert (0 < q ^ (e - 1)) as P1 by (apply Z.pow_pos_nonneg; lia).
  assert (0 < c) as C0 by (apply (pos_factor c (q ^ e) (N - 1)); [clear W1 W2; lia|exact P0|exact Ec]).
  assert ((N - 1) / q = c * q ^ (e - 1)) as Eq.
  { rewrite Ec, E2. replace (c * (q * q ^ (e - 1))) with (c * q ^ (e - 1) * q) by ring. apply Z.div_mul. lia. }
  assert (a ^ (N - 1) mod r = 1) as A1.
  { rewrite <- (mod_divide_mod (a ^ (N - 1)) N r) by (lia || assumption). rewrite W1. apply Z.mod_1_l. lia. }
  assert (a ^ ((N - 1) / q) mod r <> 1) as A2.
  { intro C. assert (r | a ^ ((N - 1) / q) - 1) as D by (apply mod_eq_divide; [lia|rewrite C; symmetry; apply Z.mod_1_l; lia]).
    pose proof (Z.gcd_greatest _ _ _ D Dr) as G. rewrite W2 in G. apply Z.divide_1_r_nonneg in G; lia. }
  assert (~ (r | a)) as NA.
  { intros [k Ek]. rewrite Ek in A1. replace (N - 1) with (Z.succ (N - 2)) in A1 by lia. rewrite Z.pow_succ_r in A1 by lia.
    replace (k * r * (k * r) ^ (N - 2)) with (k * (k * r) ^ (N - 2) * r) in A1 by ring. rewrite Z.mod_mul in A1 by lia. lia. }
  set (b := a ^ c).
  assert (b ^ (q ^ e) mod r = 1) as B1.
  { unfold b. rewrite <- Z.pow_mul_r by lia. replace (c * q ^ e) with (N - 1) by lia. exact A1. }
  assert (b ^ (q ^ (e - 1)) mod r <> 1) as B2.
  { unfold b. rewrite <- Z.pow_mul_r by lia. rewrite <- Eq. exact A2. }
  assert (b ^ (r - 1) mod r = 1) as B3.
  { unfold b. apply fermat; [exact Hr|]. intro D. apply NA. clear -D Hr C0.
    assert (forall n : nat, (r | a ^ Z.of_nat n) -> (r | a)) as G.
    { induction n as [|n IH]; intro D'; [cbn in D'; apply Z.divide_1_r_nonneg in D'; pose proof (prime_ge_2 r Hr); lia|].
      rewrite Nat2Z.inj_succ, Z.pow_succ_r in D' by lia. apply prime_div_mult_or in D'; [|exact Hr]. destruct D'; auto. }
    apply (G (Z.to_nat c)). rewrite Z2Nat.id by lia. exact D. }
  pose proof (pow_gcd_one r b ltac:(lia) (r - 1) (q ^ e) ltac:(lia) ltac:(lia) B3 B1) as B4.
  destruct (Z.eq_dec (Z.gcd (r - 1) (q ^ e)) (q ^ e)) as [G|G].
  - rewrite <- G. apply Z.gcd_divide_l.
  - exfalso. apply B2.
    assert (0 < Z.gcd (r - 1) (q ^ e)) as G0.
    { pose proof (Z.gcd_nonneg (r - 1) (q ^ e)). destruct (Z.eq_dec (Z.gcd (r - 1) (q ^ e)) 0) as [Z0|]; [|lia]. apply Z.gcd_eq_0_r in Z0. lia. }
    destruct (prime_power_proper q e _ Hq He G0 (Z.gcd_divide_r _ _) G) as [h Eh].
    assert (0 <= h) as H0 by (apply Z.lt_le_incl, (pos_factor h (Z.gcd (r - 1) (q ^ e)) (q ^ (e - 1))); assumption).
    clear -Eh H0 G0 B4 R2. set (g := Z.gcd (r - 1) (q ^ e)) in *. clearbody g.
    rewrite Eh, Z.mul_comm, Z.pow_mul_r by (assumption || apply Z.lt_le_incl; assumption).
    rewrite <- pow_mod_idemp by exact H0. rewrite B4. rewrite Z.pow_1_l by exact H0. apply Z.mod_1_l. clear -R2. lia.
Qed.

Definition ppow (l : list (Z * Z)) : list Z := map (fun qe => fst qe ^ snd qe) l.
Lemma prime_pow_coprime p q e f : prime p -> prime q -> p <> q -> 0 <= e -> 0 <= f -> Z.gcd (p ^ e) (q ^ f) = 1.
Proof.
  intros Hp Hq Hn He Hf. apply Zgcd_1_rel_prime. apply rel_prime_Zpower; try lia.
  apply Zgcd_1_rel_prime, primes_coprime; assumption.
Qed.
Lemma ppow_divide l x : Forall (fun qe => prime (fst qe) /\ 1 <= snd qe) l -> NoDup (map fst l) ->
  (forall qe, In qe l -> (fst qe ^ snd qe | x)) -> (zprod (ppow l) | x).
Proof.
  induction l as [|[q e] l IH]; intros HP ND H; [cbn; exists x; ring|].
  inversion HP as [|? ? [P1 P2] HP']; subst. inversion ND as [|? ? NI ND']; subst. cbn in P1, P2, NI.
  cbn [ppow map zprod fold_right fst snd]. apply coprime_divide_mul.
  - apply gcd_zprod. intros y Hy. apply in_map_iff in Hy. destruct Hy as ([q' e'] & <- & I). cbn [fst snd].
    rewrite Forall_forall in HP'. specialize (HP' _ I). cbn in HP'. apply prime_pow_coprime; try tauto; try lia.
    intros ->. apply NI. apply in_map_iff. exists (q', e'). auto.
  - apply (H (q, e)). left; reflexivity.
  - apply IH; [exact HP'|exact ND'|intros qe I; apply H; right; exact I].
Qed.

Variable l : list (Z * Z).
Hypothesis LP : Forall (fun qe => prime (fst qe) /\ 1 <= snd qe) l.
Hypothesis LN : NoDup (map fst l).
Hypothesis LW : Forall (fun qe => exists a, witness (fst qe) a) l.
Let F := zprod (ppow l).
Variable R : Z.
Hypothesis HF : N - 1 = F * R.

Lemma F_pos : 0 < F.
Proof.
  unfold F. clear LN LW HF. induction l as [|[q e] k IH]; [cbn; lia|]. inversion LP as [|? ? [P1 P2] HP']; subst.
  cbn [ppow map zprod fold_right fst snd]. cbn in P1, P2. pose proof (prime_ge_2 _ P1).
  apply Z.mul_pos_pos; [apply Z.pow_pos_nonneg; lia|apply IH; assumption].
Qed.
Lemma in_ppow qe : In qe l -> (fst qe ^ snd qe | N - 1).
Proof.
  intro I. rewrite HF. apply Z.divide_mul_l. unfold F. apply in_zprod_divide. unfold ppow. apply in_map_iff. exists qe. auto.
Qed.
Lemma prime_factor_1 r : prime r -> (r | N) -> (F | r - 1).
Proof.
  intros Hr Dr. unfold F. apply ppow_divide; [exact LP|exact LN|]. intros qe I.
  rewrite Forall_forall in LP, LW. destruct (LW _ I) as [a W]. destruct (LP _ I) as [P1 P2].
  eapply witness_divides; try eassumption. apply in_ppow; exact I.
Qed.
Lemma factor_1 d : 0 < d -> (d | N) -> (F | d - 1).
Proof.
  intros H. assert (forall k d, 0 < d < Z.of_nat k -> (d | N) -> (F | d - 1)) as G.
  { clear d H. induction k as [|k IH]; intros d H D; [lia|].
    destruct (Z.eq_dec d 1) as [->|D1]; [exists 0; ring|].
    destruct (prime_divisor d ltac:(lia)) as (r & Hr & [d' E]). pose proof (prime_ge_2 r Hr) as R2.
    assert (0 < d') as D0 by nia.
    destruct (IH d' ltac:(nia)) as [u Eu]; [apply (Z.divide_trans d' d N); [exists r; rewrite E; ring|exact D]|].
    destruct (prime_factor_1 r Hr) as [w Ew]; [eapply Z.divide_trans; [exists d'; exact E|exact D]|].
    exists (u * r + w). clear -E Eu Ew. assert (d' = u * F + 1) as -> by lia. assert (r = w * F + 1) as E2 by lia. rewrite E, E2. ring. }
  intro D. apply (G (S (Z.to_nat d)) d); [lia|exact D].
Qed.
Theorem bls : N < F * F * F -> (R / F = 0 \/ forall x, x * x <> (R mod F) * (R mod F) - 4 * (R / F)) -> prime N.
Proof.
  intros B SQ. destruct (prime_dec N) as [P|NP]; [exact P|exfalso]. pose proof F_pos as F0.
  destruct (not_prime_divide N HN NP) as (u & Bu & [v E]).
  assert (1 < v) as Bv by nia.
  destruct (factor_1 u ltac:(lia)) as [a Ea]; [exists v; lia|].
  destruct (factor_1 v ltac:(lia)) as [b Eb]; [exists u; lia|].
  assert (u = a * F + 1) as Eu by lia. assert (v = b * F + 1) as Ev by lia. clear Ea Eb.
  destruct (bls_arith N F R a b F0) as (ED & EM & AB); [rewrite <- Eu; clear -Bu; lia|rewrite <- Ev; exact Bv|rewrite <- Eu, <- Ev; exact E|exact HF|exact B|].
  destruct SQ as [Z0|SQ]; [rewrite Z0 in ED; clear -ED AB; lia|]. apply (SQ (a - b)). rewrite ED, EM. ring.
Qed.
End Criterion.
