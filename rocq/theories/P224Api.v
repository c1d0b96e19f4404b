(** The facts of P224Field restated for the interface of CurveP224. *)
From Coq Require Import Znumtheory.
From Verif Require Import Base Words HashModel NumTheory RsaModel RsaEncModel DsaProofs EcGroup Fp EllModel EllSpec EllProofs P224Model P224Spec LimbTac P224Large P224Reduce P224Conv P224Field CurvePrimes.
Local Open Scope Z_scope.

(** ** Limbs *)
Lemma limbs_add A B a b : limbs_below A a -> limbs_below B b -> A + B <= 2 ^ 32 -> limbs_below (A + B) (p224_add a b) /\ stands_for (p224_add a b) (val28 a + val28 b).
Proof.
  intros HA HB S. apply below_limbs in HA, HB. destruct (add_limbs _ _ a b HA HB ltac:(unfold M32; lia)) as [H E]. split; [|exists 0; rewrite E; ring].
  apply below_limbs. apply (below_le (A - 1 + (B - 1))); [lia|exact H].
Qed.
Lemma limbs_sub a b : limbs_below (2 ^ 30) a -> limbs_below (2 ^ 30) b -> limbs_below (2 ^ 32) (p224_sub a b) /\ stands_for (p224_sub a b) (val28 a - val28 b).
Proof.
  intros HA HB. apply below_limbs in HA, HB. destruct (sub_limbs _ _ a b HA HB ltac:(lia) ltac:(lia)) as [H E]. split; [|exact E].
  apply below_limbs. apply (below_le (2 ^ 32 - 16)); [lia|exact H].
Qed.
Lemma tight_limbs a : tight a -> limbs_below (2 ^ 29) a.
Proof. intros H. apply below_limbs, (below_le (2 ^ 29 - 2)); [lia|]. apply tight_below, H. Qed.
Lemma limbs_mul a b : limbs_below (2 ^ 29) a /\ limbs_below (2 ^ 30) b \/ limbs_below (2 ^ 30) a /\ limbs_below (2 ^ 29) b ->
  limbs_below (2 ^ 29) (p224_mul a b) /\ stands_for (p224_mul a b) (val28 a * val28 b).
Proof. intros H. rewrite <- !below_limbs in H. destruct (mul_ok a b H) as (T & E & _). split; [apply tight_limbs, T|exact E]. Qed.
Lemma limbs_square a : limbs_below (2 ^ 29) a -> limbs_below (2 ^ 29) (p224_square a) /\ stands_for (p224_square a) (val28 a * val28 a).
Proof. intros H. rewrite <- below_limbs in H. destruct (square_ok a H) as (T & E & _). split; [apply tight_limbs, T|exact E]. Qed.
Lemma limbs_reduce a : limbs_below (2 ^ 31 + 2 ^ 30) a -> limbs_below (2 ^ 29) (p224_reduce a) /\ stands_for (p224_reduce a) (val28 a).
Proof.
  intros H. rewrite <- below_limbs in H. destruct (reduce_ok a) as [T E]; [apply (below_le (2 ^ 31 + 2 ^ 30 - 1)); [lia|exact H]|].
  split; [apply below_limbs, T|exact E].
Qed.
Lemma limbs_large t : length t = 15%nat -> Forall (fun x => 0 <= x < 2 ^ 62) t -> limbs_below (2 ^ 29) (p224_reduce_large t) /\ stands_for (p224_reduce_large t) (val28 t).
Proof.
  intros L F. do 15 (destruct t as [|? t]; [discriminate L|]). destruct t; [|discriminate L]. destruct (large_tight z z0 z1 z2 z3 z4 z5 z6 z7 z8 z9 z10 z11 z12 z13) as (T & E & _).
  - eapply Forall_impl; [|exact F]. cbn. lia.
  - split; [apply tight_limbs, T|exact E].
Qed.
Lemma prime_P224 : prime P224. Proof. exact prime_p224. Qed.
Lemma limbs_invert a : limbs_below (2 ^ 29) a -> limbs_below (2 ^ 29) (p224_invert a) /\
  (stands_for a 0 -> stands_for (p224_invert a) 0) /\ (~ stands_for a 0 -> cong P224 (val28 (p224_invert a) * val28 a) 1).
Proof.
  intros H. rewrite <- below_limbs in H. set (u := of_Z P224 prime_P224 (val28 a)).
  destruct (invert_limbs P224 eq_refl prime_P224 a u (conj H eq_refl)) as [T E]. split; [apply below_limbs, T|].
  assert (P3 : 3 < P224) by reflexivity. split.
  - intros Z0. apply (oz_cong P224 prime_P224 P3). rewrite E. assert (U : u = f0 P224 prime_P224) by (unfold u, f0; apply (oz_cong P224 prime_P224 P3); exact Z0).
    rewrite U. unfold finv, f0. rewrite to_of. assert (E2 : 0 < P224 - 2) by reflexivity. clear E T. generalize dependent (P224 - 2). intros e E2. rewrite Z.mod_0_l by discriminate. rewrite Z.pow_0_l by exact E2. reflexivity.
  - intros N. apply (oz_cong P224 prime_P224 P3). rewrite of_mul, E. fold u. change (of_Z P224 prime_P224 1) with (f1 P224 prime_P224).
    apply (Field_theory.Finv_l (Fp_field P224 prime_P224)). intros U. apply N. unfold u, f0 in U. apply (oz_cong P224 prime_P224 P3) in U. exact U.
Qed.
Lemma limbs_from n : 0 <= n -> limbs_below (2 ^ 28) (p224_from_bigint n) /\ val28 (p224_from_bigint n) = n mod 2 ^ 224.
Proof. exact (from_bigint_8 n). Qed.
Lemma limbs_to a : limbs_below (2 ^ 28) a -> p224_to_bigint a = val28 a.
Proof.
  intros [L F]. eight_of a. rewrite to_bigint_8.
  - f_equal. cbn [map]. rewrite !Forall_cons_iff in F. rewrite !Z.mod_small by lia. reflexivity.
  - eapply Forall_impl; [|exact F]. unfold M32. cbn. lia.
Qed.
Lemma limbs_zero a : limbs_below (2 ^ 30) a -> (p224_is_zero a = 1 <-> stands_for a 0) /\ (p224_is_zero a = 0 <-> ~ stands_for a 0).
Proof.
  intros H. destruct (is_zero_8 a H) as [[E C]|[E C]]; rewrite E; split; split; auto; try discriminate; intros X; contradiction.
Qed.
Lemma limbs_copy a b : limbs_below (2 ^ 32) a -> limbs_below (2 ^ 32) b -> copy_conditional a b 0 = a /\ copy_conditional a b 1 = b.
Proof.
  intros A B. rewrite <- below_limbs in A, B. split; [apply copy_0; destruct A, B; congruence|]. apply (copy_1 (2 ^ 32 - 1)); [reflexivity|exact A|exact B].
Qed.
(** ** The contraction *)
Lemma contract_exact a : limbs_below (2 ^ 30) a -> p224_to_bigint (p224_contract a) = if val28 a <? 2 ^ 96 - 1 then val28 a else returned (val28 a mod P224).
Proof.
  intros H. destruct (contract_bigint a H) as (v & V & C & R96 & E). rewrite E. unfold rep96 in R96. destruct (Z.ltb_spec (val28 a) (2 ^ 96 - 1)) as [L|L].
  - subst v. unfold contracted. destruct (Z.ltb_spec (val28 a) (2 ^ 224 - 2 ^ 96 + 1 - 1)); [reflexivity|lia].
  - rewrite contracted_exact by lia. f_equal. apply divide_mod_eq; [reflexivity|exact C].
Qed.

(** ** Points *)
Section API.
Hypothesis S : sound_curve (cp_p p224) (cp_b p224).
Let p := cp_p p224. Let b := cp_b p224.
Let EP : p = 2 ^ 224 - 2 ^ 96 + 1. Proof. reflexivity. Qed.
Let Hp : prime p := proj1 S.
Let P3 : 3 < p := proj1 (proj2 S).
Let Hb : ~ cong p b 0 := proj1 (proj2 (proj2 S)).
Let Hd : ~ cong p (b * b) 4 := proj2 (proj2 (proj2 S)).
Definition returned_pair (o : option (Z * Z)) : option (Z * Z) := match o with Some (x, y) => Some (returned x, returned y) | None => None end.
Lemma result_api P out : result p Hp P out -> Some out = returned_pair (Some (psi p P)).
Proof.
  destruct P as [[u v]|]; cbn [result psi returned_pair].
  - destruct out as [x y]. cbn [fst snd]. intros [U V]. rewrite (coord_exact p EP Hp u x U), (coord_exact p EP Hp v y V). reflexivity.
  - intros ->. reflexivity.
Qed.
Notation on xy := (on_curve (cp_p p224) (cp_b p224) (decode xy)).
Lemma p224_add_api x1 y1 x2 y2 : 0 <= x1 < 2 ^ 224 -> 0 <= y1 < 2 ^ 224 -> 0 <= x2 < 2 ^ 224 -> 0 <= y2 < 2 ^ 224 -> on (x1, y1) -> on (x2, y2) ->
  Some (c224_add x1 y1 x2 y2) = returned_pair (curve_add p224 x1 y1 x2 y2).
Proof.
  intros B1 B2 B3 B4 O1 O2. rewrite (add_ok p b Hp P3 p224 eq_refl x1 y1 x2 y2 O1 O2).
  apply result_api. apply (add_result p b EP Hp); try assumption; apply (on_phi p b Hp P3); assumption.
Qed.
Lemma p224_double_api x y : 0 <= x < 2 ^ 224 -> 0 <= y < 2 ^ 224 -> Some (c224_double x y) = returned_pair (curve_double p224 x y).
Proof.
  intros B1 B2. rewrite (double_ok p Hp P3 p224 eq_refl x y). apply result_api. apply (double_result p EP Hp); assumption.
Qed.
Lemma p224_scalar_api x y k : 0 <= x < 2 ^ 224 -> 0 <= y < 2 ^ 224 -> 0 <= k -> on (x, y) -> Some (c224_scalar x y k) = returned_pair (curve_scalar p224 x y k).
Proof.
  intros B1 B2 K O. rewrite (curve_scalar_ok p b Hp P3 Hd p224 eq_refl x y k O K).
  apply result_api. apply (scalar_result p b EP Hp); try assumption. apply (on_phi p b Hp P3); assumption.
Qed.
End API.
(** is_on_curve *)
Lemma b_limbs : below (2 ^ 28 - 1) c224_b /\ val28 c224_b = cp_b p224.
Proof.
  assert (E : (length c224_b =? 8)%nat && forallb (fun m => (0 <=? m) && (m <=? 2 ^ 28 - 1)) c224_b && (val28 c224_b =? cp_b p224) = true) by (vm_cast_no_check (eq_refl true)).
  apply andb_true_iff in E as [E V]. apply andb_true_iff in E as [L F]. split; [|apply Z.eqb_eq, V].
  split; [apply Nat.eqb_eq, L|]. apply Forall_forall. intros m I. rewrite forallb_forall in F. specialize (F m I). lia.
Qed.
Lemma val28_nonneg B l : Forall (fun x => 0 <= x <= B) l -> 0 <= val28 l.
Proof. induction 1; cbn [val28]; lia. Qed.
Lemma eq_algebra n r s m w v B : cong n w (v * v) -> cong n m (w * v) -> cong n s (m - 3 * v) -> cong n r s -> cong n (r + B) (v * v * v - 3 * v + B).
Proof.
  intros [k2 E2] [k3 E3] [k5 E5] [k6 E6]. exists (k6 + k5 + k3 + k2 * v).
  replace r with (s + k6 * n) by lia. replace s with (m - 3 * v + k5 * n) by lia. replace m with (w * v + k3 * n) by lia. replace w with (v * v + k2 * n) by lia. ring.
Qed.
Definition lhs_of (a : list Z) : list Z := p224_add (p224_reduce (p224_sub (p224_mul (p224_square a) a) (map (fun m => (m * 3) mod M32) a))) c224_b.
Definition rhs_of (x : Z) : Z := (x mod 2 ^ 224) * (x mod 2 ^ 224) * (x mod 2 ^ 224) - 3 * (x mod 2 ^ 224) + cp_b p224.
Lemma is_on_curve_eq x y : c224_is_on_curve x y = limbs_eq (p224_contract (lhs_of (p224_from_bigint x))) (p224_contract (p224_square (p224_from_bigint y))).
Proof. unfold c224_is_on_curve, lhs_of. cbv zeta. exact eq_refl. Qed.
Lemma equation_limbs x : 0 <= x -> below (2 ^ 30 - 1) (lhs_of (p224_from_bigint x)) /\ cong P224 (val28 (lhs_of (p224_from_bigint x))) (rhs_of x) /\ 2 ^ 96 - 1 <= val28 (lhs_of (p224_from_bigint x)).
Proof.
  intros X. destruct (from_bigint_8 x X) as [A V]. unfold rhs_of. rewrite <- V. unfold lhs_of. set (a := p224_from_bigint x) in *. clearbody a. rewrite <- below_limbs in A.
  destruct (square_ok a) as (T2 & C2 & BIG); [apply (below_le (2 ^ 28 - 1)); [lia|exact A]|].
  destruct (mul_ok (p224_square a) a) as (T3 & C3 & _); [left; split; [apply (below_le (2 ^ 29 - 2)); [lia|apply tight_below, T2]|apply (below_le (2 ^ 28 - 1)); [lia|exact A]]|].
  destruct (triple2_limbs (2 ^ 28 - 1) a A ltac:(unfold M32; lia)) as [T4 V4].
  destruct (sub_limbs (2 ^ 29 - 2) (3 * (2 ^ 28 - 1)) _ _ (tight_below _ T3) T4 ltac:(lia) ltac:(lia)) as [T5 C5].
  destruct (reduce_ok _ T5) as [T6 C6].
  destruct b_limbs as [Bb Vb].
  destruct (add_limbs (2 ^ 29 - 1) (2 ^ 28 - 1) _ _ T6 Bb ltac:(unfold M32; lia)) as [T7 V7].
  split; [apply (below_le (2 ^ 29 - 1 + (2 ^ 28 - 1))); [lia|exact T7]|]. rewrite V7, Vb.
  rewrite V4 in C5. split; [exact (eq_algebra _ _ _ _ _ _ _ C2 C3 C5 C6)|]. assert (0 <= val28 (p224_reduce (p224_sub (p224_mul (p224_square a) a) (map (fun m => (m * 3) mod M32) a)))) by (apply (val28_nonneg (2 ^ 29 - 1)), T6). assert (2 ^ 96 - 1 <= cp_b p224) by (vm_compute; discriminate). lia.
Qed.
Lemma square_limbs y : 0 <= y -> let s := p224_square (p224_from_bigint y) in below (2 ^ 30 - 1) s /\ cong P224 (val28 s) ((y mod 2 ^ 224) * (y mod 2 ^ 224)) /\ 2 ^ 96 - 1 <= val28 s.
Proof.
  intros Y s. destruct (from_bigint_8 y Y) as [A V]. rewrite <- below_limbs in A. rewrite <- V.
  destruct (square_ok (p224_from_bigint y)) as (T2 & C2 & BIG); [apply (below_le (2 ^ 28 - 1)); [lia|exact A]|]. split; [apply (below_le (2 ^ 29 - 2)); [lia|apply tight_below, T2]|]. split; [exact C2|exact BIG].
Qed.
Lemma cong_join n a b c d : cong n a b -> cong n a c -> cong n b d -> cong n d c.
Proof. intros [i I] [j J] [k K]. exists (j - i - k). lia. Qed.
Lemma cong_meet n a b c d : cong n a b -> cong n c d -> cong n d b -> cong n a c.
Proof. intros [i I] [j J] [k K]. exists (i - j - k). lia. Qed.
Lemma p224_on_curve x y : 0 <= x -> 0 <= y -> c224_is_on_curve x y = true <-> cong P224 ((y mod 2 ^ 224) * (y mod 2 ^ 224)) (rhs_of x).
Proof.
  intros X Y. rewrite is_on_curve_eq. destruct (equation_limbs x X) as (B1 & C1 & L1). destruct (square_limbs y Y) as (B2 & C2 & L2). cbv zeta in B2, C2, L2. split.
  - intros E. pose proof (contract_eq_cong _ _ B1 B2 E) as G. exact (cong_join _ _ _ _ _ G C1 C2).
  - intros E. pose proof (cong_meet _ _ _ _ _ C1 C2 E) as G. exact (contract_cong_eq _ _ B1 B2 G L1 L2).
Qed.
