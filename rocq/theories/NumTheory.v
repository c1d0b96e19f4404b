(** Number theory used by the public key proofs: Fermat's theorem, inverses, products of distinct primes.
    Nothing here is about the repository. *)
From Coq Require Import ZArith Znumtheory Zpow_facts List Lia Permutation.
Import ListNotations.
Open Scope Z_scope.

Definition zprod (l : list Z) : Z := fold_right Z.mul 1 l.
Lemma zprod_app a b : zprod (a ++ b) = zprod a * zprod b.
Proof. induction a as [|x a IH]; cbn [zprod fold_right app] in *; [unfold zprod; lia|]. fold (zprod (a ++ b)) (zprod a). unfold zprod in *. rewrite IH. ring. Qed.
Lemma zprod_perm a b : Permutation a b -> zprod a = zprod b.
Proof. induction 1; cbn [zprod fold_right] in *; unfold zprod in *; cbn [fold_right]; lia || congruence || idtac. Qed.

(** ** Fermat *)
Definition residues (p : Z) : list Z := map Z.of_nat (seq 1 (Z.to_nat (p - 1))).
Lemma residues_in p x : In x (residues p) <-> 1 <= x < p.
Proof.
  unfold residues. rewrite in_map_iff. split.
  - intros (n & <- & H). apply in_seq in H. lia.
  - intros H. exists (Z.to_nat x). split; [lia|]. apply in_seq. lia.
Qed.
Lemma residues_nodup p : NoDup (residues p).
Proof. unfold residues. apply FinFun.Injective_map_NoDup; [intros a b; lia|apply seq_NoDup]. Qed.

Lemma prime_div_mult_or p a b : prime p -> (p | a * b) -> (p | a) \/ (p | b).
Proof. intros P D. apply prime_mult; assumption. Qed.
Lemma mod_eq_divide a b n : n <> 0 -> a mod n = b mod n -> (n | a - b).
Proof.
  intros N H. apply Z.mod_divide; [exact N|]. rewrite Zminus_mod, H, Z.sub_diag. apply Z.mod_0_l. exact N.
Qed.
Lemma divide_mod_eq a b n : 0 < n -> (n | a - b) -> a mod n = b mod n.
Proof.
  intros N [k H]. replace a with (b + k * n) by lia. apply Z_mod_plus_full.
Qed.

Lemma prod_map_mod a p l : (zprod (map (fun x => (a * x) mod p) l)) mod p = (a ^ Z.of_nat (length l) * zprod l) mod p.
Proof.
  induction l as [|x l IH].
  - cbn [map zprod fold_right length]. change (Z.of_nat 0) with 0. rewrite Z.pow_0_r. reflexivity.
  - cbn [map zprod fold_right length]. fold (zprod l) (zprod (map (fun x => (a * x) mod p) l)).
    rewrite Zmult_mod_idemp_l, <- Zmult_mod_idemp_r, IH, Zmult_mod_idemp_r. f_equal.
    rewrite Nat2Z.inj_succ, Z.pow_succ_r by lia. ring.
Qed.

Lemma residues_perm p a : prime p -> ~ (p | a) -> Permutation (map (fun x => (a * x) mod p) (residues p)) (residues p).
Proof.
  intros P NA. pose proof (prime_ge_2 p P) as P2. apply NoDup_Permutation_bis.
  - assert (G : forall l, NoDup l -> (forall x, In x l -> 1 <= x < p) -> NoDup (map (fun x => (a * x) mod p) l)).
    { induction l as [|x l IH]; intros ND IN; [constructor|]. inversion ND as [|? ? N1 N2]; subst. cbn [map]. constructor.
      - intros K. apply in_map_iff in K. destruct K as (y & E & Iy). apply mod_eq_divide in E; [|lia].
        replace (a * y - a * x) with (a * (y - x)) in E by ring. apply (prime_div_mult_or p) in E; [|exact P].
        destruct E as [E|E]; [contradiction|]. pose proof (IN x (or_introl eq_refl)). pose proof (IN y (or_intror Iy)).
        assert (y = x); [|subst; contradiction]. destruct E as [k E]. assert (k = 0) by nia. lia.
      - apply IH; [exact N2|]. intros y Iy. apply IN. right. exact Iy. }
    apply G; [apply residues_nodup|]. intros x. apply residues_in.
  - rewrite map_length. lia.
  - intros y Iy. apply in_map_iff in Iy. destruct Iy as (x & <- & Ix). apply residues_in in Ix. apply residues_in.
    pose proof (Z.mod_pos_bound (a * x) p ltac:(lia)) as B. destruct (Z.eq_dec ((a * x) mod p) 0) as [E|E]; [|lia]. exfalso.
    apply Z.mod_divide in E; [|lia]. apply (prime_div_mult_or p) in E; [|exact P]. destruct E as [E|E]; [contradiction|].
    destruct E as [k E]. assert (k <= 0 \/ 1 <= k) as [K|K] by lia; nia.
Qed.

Lemma prime_not_div_prod p l : prime p -> (forall x, In x l -> 1 <= x < p) -> ~ (p | zprod l).
Proof.
  intros P. induction l as [|x l IH]; intros B D.
  - cbn [zprod fold_right] in D. pose proof (prime_ge_2 p P). apply Z.divide_1_r_nonneg in D; lia.
  - cbn [zprod fold_right] in D. fold (zprod l) in D. apply (prime_div_mult_or p) in D; [|exact P]. destruct D as [D|D].
    + specialize (B x (or_introl eq_refl)). destruct D as [k E]. assert (k <= 0 \/ 1 <= k) as [K|K] by lia; nia.
    + apply IH; [|exact D]. intros y Iy. apply B. right. exact Iy.
Qed.

Theorem fermat p a : prime p -> ~ (p | a) -> a ^ (p - 1) mod p = 1.
Proof.
  intros P NA. pose proof (prime_ge_2 p P) as P2.
  pose proof (prod_map_mod a p (residues p)) as H. rewrite (zprod_perm _ _ (residues_perm p a P NA)) in H.
  assert (L : Z.of_nat (length (residues p)) = p - 1) by (unfold residues; rewrite map_length, seq_length; lia).
  rewrite L in H. apply mod_eq_divide in H; [|lia].
  replace (zprod (residues p) - a ^ (p - 1) * zprod (residues p)) with ((1 - a ^ (p - 1)) * zprod (residues p)) in H by ring.
  apply (prime_div_mult_or p) in H; [|exact P]. destruct H as [H|H].
  - apply divide_mod_eq in H; [|lia]. rewrite <- H. apply Z.mod_small. lia.
  - exfalso. revert H. apply prime_not_div_prod; [exact P|]. intros x. apply residues_in.
Qed.

(** Exponents congruent to 1 modulo p-1 act as the identity modulo p. *)
Lemma pow_mod_ext a b e n : 0 <= e -> a mod n = b mod n -> a ^ e mod n = b ^ e mod n.
Proof.
  intros E H. destruct (Z.eq_dec n 0) as [->|N]; [rewrite !Zmod_0_r in *; congruence|].
  revert e E. apply natlike_ind; [reflexivity|]. intros e E IH. rewrite !Z.pow_succ_r by exact E.
  rewrite Zmult_mod, H, IH, <- Zmult_mod. reflexivity.
Qed.
Lemma pow_mod_idemp a e n : 0 <= e -> (a mod n) ^ e mod n = a ^ e mod n.
Proof. intros E. apply pow_mod_ext; [exact E|apply Zmod_mod]. Qed.
Lemma pow_cong1 p a e : prime p -> 1 <= e -> (e mod (p - 1) = 1 mod (p - 1)) -> a ^ e mod p = a mod p.
Proof.
  intros P E H. pose proof (prime_ge_2 p P) as P2.
  destruct (Zdivide_dec p a) as [D|D].
  - destruct D as [k ->]. rewrite Z_mod_mult. rewrite <- pow_mod_idemp by lia. rewrite Z_mod_mult, Z.pow_0_l by lia. apply Z.mod_0_l. lia.
  - apply mod_eq_divide in H; [|lia]. destruct H as [k H]. replace e with ((p - 1) * k + 1) by lia.
    assert (0 <= k) by nia.
    rewrite Z.pow_add_r, Z.pow_1_r, Z.pow_mul_r by nia. rewrite Zmult_mod, <- pow_mod_idemp by lia.
    rewrite (fermat p a P D). rewrite Z.pow_1_l by lia. rewrite <- Zmult_mod, Z.mul_1_l. reflexivity.
Qed.
(** Exponents may be reduced modulo p-1 for bases not divisible by p, and when both are positive for every base. *)
Lemma pow_exp_mod p a e : prime p -> ~ (p | a) -> 0 <= e -> a ^ (e mod (p - 1)) mod p = a ^ e mod p.
Proof.
  intros P NA E. pose proof (prime_ge_2 p P) as P2. destruct (Z.eq_dec p 2) as [->|P3].
  - change (2 - 1) with 1. rewrite Z.mod_1_r, Z.pow_0_r. pose proof (fermat 2 a P NA) as F. change (2 - 1) with 1 in F. rewrite Z.pow_1_r in F.
    rewrite <- pow_mod_idemp, F, Z.pow_1_l by lia. reflexivity.
  - pose proof (Z.mod_pos_bound e (p - 1) ltac:(lia)) as B.
    rewrite (Z.div_mod e (p - 1)) at 2 by lia.
    rewrite Z.pow_add_r, Z.pow_mul_r by (try apply Z.mul_nonneg_nonneg; try apply Z.div_pos; lia).
    rewrite (Zmult_mod ((a ^ (p - 1)) ^ _)), <- (pow_mod_idemp (a ^ (p - 1))) by (apply Z.div_pos; lia).
    rewrite (fermat p a P NA). rewrite Z.pow_1_l by (apply Z.div_pos; lia). rewrite <- Zmult_mod, Z.mul_1_l. reflexivity.
Qed.
Lemma pow_exp_mod_pos p a e : prime p -> 1 <= e mod (p - 1) -> 0 <= e -> a ^ (e mod (p - 1)) mod p = a ^ e mod p.
Proof.
  intros P H E. pose proof (prime_ge_2 p P) as P2. destruct (Zdivide_dec p a) as [D|D]; [|apply pow_exp_mod; assumption].
  assert (1 <= e). { destruct (Z.eq_dec e 0) as [->|]; [|lia]. rewrite Zmod_0_l in H. lia. }
  destruct D as [k ->]. rewrite <- pow_mod_idemp, <- (pow_mod_idemp _ e) by lia. rewrite !Z_mod_mult, !Z.pow_0_l by lia. reflexivity.
Qed.

(** ** Inverses *)
(** The extended Euclidean algorithm, with fuel: [egcd f a b = (g, u)] with [g = gcd a b] and [u * a = g] modulo [b]. *)
Fixpoint egcd (f : nat) (r0 r1 u0 u1 : Z) : Z * Z :=
  match f with
  | O => (r0, u0)
  | S f => if r1 =? 0 then (r0, u0) else egcd f r1 (r0 mod r1) u1 (u0 - (r0 / r1) * u1)
  end.
Definition egcd_fuel (a n : Z) : nat := Z.to_nat (2 * Z.log2 n + 4).
(** The inverse of [a] modulo [n], in [0, n), or [None] when [a] and [n] are not coprime. *)
Definition inv_mod (a n : Z) : option Z :=
  let '(g, u) := egcd (egcd_fuel a n) n (a mod n) 0 1 in
  if g =? 1 then Some (u mod n) else None.

Lemma egcd_inv f : forall r0 r1 u0 u1 a n, 0 < n -> (u0 * a) mod n = r0 mod n -> (u1 * a) mod n = r1 mod n ->
  let '(g, u) := egcd f r0 r1 u0 u1 in (u * a) mod n = g mod n.
Proof.
  induction f as [|f IH]; intros r0 r1 u0 u1 a n N H0 H1; cbn [egcd]; [exact H0|].
  destruct (r1 =? 0) eqn:Z1; [exact H0|]. apply (IH _ _ _ _ a n N H1).
  apply Z.eqb_neq in Z1. rewrite (Z.mod_eq r0 r1) by exact Z1.
  apply divide_mod_eq; [exact N|]. apply mod_eq_divide in H0; [|lia]. apply mod_eq_divide in H1; [|lia].
  destruct H0 as [k0 H0], H1 as [k1 H1]. exists (k0 - (r0 / r1) * k1). nia.
Qed.
Lemma egcd_gcd f : forall r0 r1 u0 u1, 0 <= r1 -> 0 <= r0 -> (r1 = 0 \/ (r0 * r1 < 2 ^ (Z.of_nat f - 1) /\ r1 <= r0)) ->
  fst (egcd f r0 r1 u0 u1) = Z.gcd r0 r1.
Proof.
  induction f as [|f IH]; intros r0 r1 u0 u1 B1 B0 H.
  - cbn [egcd fst]. destruct H as [->|[H1 H2]]; [rewrite Z.gcd_0_r; lia|]. rewrite Z.pow_neg_r in H1 by lia.
    assert (r1 = 0) by nia. subst. rewrite Z.gcd_0_r. lia.
  - cbn [egcd]. destruct (r1 =? 0) eqn:Z1.
    + apply Z.eqb_eq in Z1. subst. cbn [fst]. rewrite Z.gcd_0_r. lia.
    + apply Z.eqb_neq in Z1. destruct H as [H|[H1 H2]]; [contradiction|]. pose proof (Z.mod_pos_bound r0 r1 ltac:(lia)) as B.
      rewrite IH; [|lia|lia|].
      * rewrite Z.gcd_comm, Z.gcd_mod by exact Z1. rewrite Z.gcd_comm. reflexivity.
      * right. split; [|lia]. replace (Z.of_nat (S f) - 1) with (Z.of_nat f - 1 + 1) in H1 by lia.
        destruct f as [|f]; [change (Z.of_nat 0 - 1 + 1) with 0 in H1; rewrite Z.pow_0_r in H1; nia|].
        rewrite Z.pow_add_r, Z.pow_1_r in H1 by lia.
        assert (2 * (r0 mod r1) <= r0). { pose proof (Z.div_mod r0 r1 Z1). assert (1 <= r0 / r1) by (apply Z.div_le_lower_bound; lia). nia. }
        nia.
Qed.
Lemma inv_mod_gcd a n : 0 < n -> inv_mod a n = None <-> Z.gcd a n <> 1.
Proof.
  intros N. unfold inv_mod. pose proof (egcd_gcd (egcd_fuel a n) n (a mod n) 0 1) as G. pose proof (Z.mod_pos_bound a n N) as B.
  destruct (egcd (egcd_fuel a n) n (a mod n) 0 1) as [g u]. cbn [fst] in G. rewrite G.
  - rewrite Z.gcd_comm, Z.gcd_mod by lia. rewrite (Z.gcd_comm n a). destruct (Z.gcd a n =? 1) eqn:E.
    + apply Z.eqb_eq in E. split; [discriminate|contradiction].
    + apply Z.eqb_neq in E. tauto.
  - lia. - lia.
  - right. split; [|lia]. unfold egcd_fuel. pose proof (Z.log2_nonneg n). rewrite Z2Nat.id by lia.
    replace (2 * Z.log2 n + 4 - 1) with (Z.succ (Z.log2 n) + Z.succ (Z.log2 n) + 1) by lia.
    rewrite !Z.pow_add_r by lia. pose proof (Z.log2_spec n N). nia.
Qed.
Lemma inv_mod_some a n x : 0 < n -> inv_mod a n = Some x -> 0 <= x < n /\ (x * a) mod n = 1 mod n.
Proof.
  intros N. unfold inv_mod. pose proof (egcd_inv (egcd_fuel a n) n (a mod n) 0 1 a n N) as G.
  destruct (egcd (egcd_fuel a n) n (a mod n) 0 1) as [g u]. destruct (g =? 1) eqn:E; [|discriminate]. apply Z.eqb_eq in E. subst g.
  intros H. injection H as <-. split; [apply Z.mod_pos_bound; exact N|]. rewrite Zmult_mod_idemp_l. apply G.
  - rewrite Z.mul_0_l, Z_mod_same_full. apply Zmod_0_l.
  - rewrite Z.mul_1_l, Zmod_mod. reflexivity.
Qed.
Lemma inv_mod_coprime a n : 0 < n -> Z.gcd a n = 1 -> exists x, inv_mod a n = Some x /\ 0 <= x < n /\ (x * a) mod n = 1 mod n.
Proof.
  intros N G. destruct (inv_mod a n) as [x|] eqn:E.
  - exists x. split; [reflexivity|]. apply inv_mod_some; assumption.
  - apply inv_mod_gcd in E; [contradiction|exact N].
Qed.
(** An inverse witnesses coprimality, and is unique in the range. *)
Lemma inverse_gcd a n x : 0 < n -> (x * a) mod n = 1 mod n -> Z.gcd a n = 1.
Proof.
  intros N H. apply mod_eq_divide in H; [|lia]. destruct H as [k H]. apply Zgcd_1_rel_prime. apply bezout_rel_prime.
  apply (Bezout_intro _ _ _ x (- k)). lia.
Qed.
Lemma inverse_unique a n x y : 0 < n -> 0 <= x < n -> 0 <= y < n -> (x * a) mod n = 1 mod n -> (y * a) mod n = 1 mod n -> x = y.
Proof.
  intros N X Y HX HY. assert (E : x mod n = y mod n).
  { transitivity ((x * (y * a)) mod n).
    - rewrite <- Zmult_mod_idemp_r, HY, Zmult_mod_idemp_r, Z.mul_1_r. reflexivity.
    - replace (x * (y * a)) with (y * (x * a)) by ring. rewrite <- Zmult_mod_idemp_r, HX, Zmult_mod_idemp_r, Z.mul_1_r. reflexivity. }
  rewrite !Z.mod_small in E by assumption. exact E.
Qed.
Lemma inv_mod_iff a n x : 0 < n -> inv_mod a n = Some x <-> 0 <= x < n /\ (x * a) mod n = 1 mod n.
Proof.
  intros N. split; [apply inv_mod_some; exact N|]. intros [B H].
  destruct (inv_mod_coprime a n N (inverse_gcd a n x N H)) as (y & E & By & Hy). rewrite E. f_equal.
  apply (inverse_unique a n); assumption.
Qed.
Lemma prime_gcd_1 p a : prime p -> ~ (p | a) -> Z.gcd a p = 1.
Proof. intros P NA. apply Zgcd_1_rel_prime, rel_prime_sym, prime_rel_prime; assumption. Qed.
Lemma primes_coprime p q : prime p -> prime q -> p <> q -> Z.gcd p q = 1.
Proof.
  intros P Q NE. apply prime_gcd_1; [exact Q|]. intros D. apply NE. symmetry. apply prime_div_prime; assumption.
Qed.

(** Fermat inverse. *)
Lemma fermat_inverse_ok p a : prime p -> ~ (p | a) -> (a ^ (p - 2) mod p * a) mod p = 1.
Proof.
  intros P NA. pose proof (prime_ge_2 p P). rewrite Zmult_mod_idemp_l. rewrite Z.mul_comm, <- Z.pow_succ_r by lia.
  replace (Z.succ (p - 2)) with (p - 1) by lia. apply fermat; assumption.
Qed.

(** ** Products of distinct primes *)
Lemma coprime_divide_mul a b x : Z.gcd a b = 1 -> (a | x) -> (b | x) -> (a * b | x).
Proof.
  intros G [k H1] H2. subst x. rewrite Z.mul_comm in H2. apply Z.gauss in H2; [|rewrite Z.gcd_comm; exact G].
  destruct H2 as [j ->]. exists j. ring.
Qed.
Lemma gcd_zprod p l : (forall x, In x l -> Z.gcd p x = 1) -> Z.gcd p (zprod l) = 1.
Proof.
  induction l as [|x l IH]; intros H; cbn [zprod fold_right]; [apply Z.gcd_1_r|]. fold (zprod l).
  apply Zgcd_1_rel_prime. apply rel_prime_mult; apply Zgcd_1_rel_prime.
  - apply H. left. reflexivity.
  - apply IH. intros y Iy. apply H. right. exact Iy.
Qed.
Lemma zprod_divide l x : Forall prime l -> NoDup l -> (forall p, In p l -> (p | x)) -> (zprod l | x).
Proof.
  induction l as [|p l IH]; intros P ND D; cbn [zprod fold_right]; [apply Z.divide_1_l|]. fold (zprod l).
  inversion P as [|? ? P1 P2]; subst. inversion ND as [|? ? N1 N2]; subst. apply coprime_divide_mul.
  - apply gcd_zprod. intros q Iq. apply primes_coprime; [exact P1|rewrite Forall_forall in P2; auto|]. intros ->. contradiction.
  - apply D. left. reflexivity.
  - apply IH; [exact P2|exact N2|]. intros q Iq. apply D. right. exact Iq.
Qed.
Lemma zprod_pos l : Forall (fun p => 0 < p) l -> 0 < zprod l.
Proof. induction 1; cbn [zprod fold_right]; [lia|]. fold (zprod l). nia. Qed.
Lemma primes_pos l : Forall prime l -> Forall (fun p => 0 < p) l.
Proof. intros H. eapply Forall_impl; [|exact H]. intros p P. pose proof (prime_ge_2 p P). lia. Qed.
Lemma in_zprod_divide l p : In p l -> (p | zprod l).
Proof.
  induction l as [|x l IH]; intros []; cbn [zprod fold_right]; fold (zprod l).
  - subst. apply Z.divide_factor_l.
  - apply Z.divide_mul_r, IH. assumption.
Qed.
Lemma mod_zprod_ext l x y : Forall prime l -> NoDup l -> (forall p, In p l -> x mod p = y mod p) -> x mod zprod l = y mod zprod l.
Proof.
  intros P ND H. apply divide_mod_eq; [apply zprod_pos, primes_pos, P|]. apply zprod_divide; [exact P|exact ND|].
  intros p Ip. apply mod_eq_divide; [|apply H; exact Ip]. rewrite Forall_forall in P. pose proof (prime_ge_2 p (P p Ip)). lia.
Qed.
Lemma mod_divide_mod x n p : 0 < p -> 0 < n -> (p | n) -> (x mod n) mod p = x mod p.
Proof. intros P N D. symmetry. apply Zmod_div_mod; assumption. Qed.

(** The RSA identity. *)
Theorem rsa_identity l m k : Forall prime l -> NoDup l -> 1 <= k ->
  (forall p, In p l -> k mod (p - 1) = 1 mod (p - 1)) -> m ^ k mod zprod l = m mod zprod l.
Proof.
  intros P ND K H. apply mod_zprod_ext; [exact P|exact ND|]. intros p Ip. apply pow_cong1; [|exact K|apply H; exact Ip].
  rewrite Forall_forall in P. apply P. exact Ip.
Qed.

(** ** Primality by trial division *)
Fixpoint no_div (fuel : nat) (d p : Z) : bool :=
  match fuel with O => true | S f => negb (p mod d =? 0) && no_div f (d + 1) p end.
Lemma no_div_ok p : forall fuel d, 0 < d -> no_div fuel d p = true -> forall x, d <= x < d + Z.of_nat fuel -> ~ (x | p).
Proof.
  induction fuel as [|f IH]; intros d D H x B; [lia|]. cbn [no_div] in H. apply Bool.andb_true_iff in H. destruct H as [H1 H2].
  apply Bool.negb_true_iff, Z.eqb_neq in H1. destruct (Z.eq_dec x d) as [->|N].
  - intros DV. apply H1. apply Z.mod_divide; [lia|exact DV].
  - apply (IH (d + 1)); [lia|exact H2|lia].
Qed.
Lemma trial_prime fuel p : no_div fuel 2 p = true -> 2 <= p -> p < (2 + Z.of_nat fuel) * (2 + Z.of_nat fuel) -> prime p.
Proof.
  intros H P B. destruct (prime_dec p) as [|NP]; [assumption|]. exfalso.
  destruct (not_prime_divide p ltac:(lia) NP) as (x & X & [y E]).
  assert (Y : 1 < y < p) by nia.
  destruct (Z_lt_ge_dec x (2 + Z.of_nat fuel)) as [L|L].
  - apply (no_div_ok p fuel 2 ltac:(lia) H x ltac:(lia)). exists y. exact E.
  - destruct (Z_lt_ge_dec y (2 + Z.of_nat fuel)) as [L2|L2].
    + apply (no_div_ok p fuel 2 ltac:(lia) H y ltac:(lia)). exists x. lia.
    + nia.
Qed.
Definition primeb (fuel : nat) (p : Z) : bool := no_div fuel 2 p && (2 <=? p) && (p <? (2 + Z.of_nat fuel) * (2 + Z.of_nat fuel)).
Lemma primeb_ok fuel p : primeb fuel p = true -> prime p.
Proof.
  unfold primeb. rewrite !Bool.andb_true_iff, Z.leb_le, Z.ltb_lt. intros ((A & B) & C). exact (trial_prime fuel p A B C).
Qed.
