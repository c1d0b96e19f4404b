(** Proofs about P256Model.v: builds with overflow checks. *)
From Coq Require Import Znumtheory.
From Verif Require Import Base Words HashModel NumTheory EllModel EllSpec P224Model P256Model P256Spec.
Local Open Scope Z_scope.

Lemma spread_fold tmp l : forall t2 c, exists r c', fold_left (spread_step tmp) l (t2, c) = (t2 ++ r, c').
Proof.
  induction l as [|i l IH]; intros t2 c; cbn [fold_left].
  - exists [], c. rewrite app_nil_r. reflexivity.
  - unfold spread_step at 2. destruct (if Nat.even i then spread_even tmp i c else spread_odd tmp i c) as [t c'].
    destruct (IH (t2 ++ [t]) c') as (r & c'' & ->). exists (t :: r), c''. rewrite <- app_assoc. reflexivity.
Qed.
Lemma spread_head tmp : exists t1 r, spread tmp = Z.land (u32 tmp.[0]) BOT29 :: t1 :: r.
Proof.
  unfold spread, spread_first. cbv zeta. match goal with |- context [fold_left _ _ (?a, ?c)] => destruct (spread_fold tmp (seq 2 15) a c) as (r & c' & ->) end.
  eexists _, _. cbn [app]. reflexivity.
Qed.
Lemma top_eq t i : elim_top true t i =
  (let x := Z.land (upd t (i + 1) (add32 t.[i + 1] (shr t.[i] 29))).[i] BOT29 in if (x <? 1) || (shr x 1 <? 1) then None else elim_top false t i).
Proof. exact eq_refl. Qed.
Lemma elim_top_none t0 t1 r : Z.land t0 BOT29 <= 1 -> elim_top true (t0 :: t1 :: r) 0 = None.
Proof.
  intros H. assert (E : (Z.land t0 BOT29 <? 1) || (shr (Z.land t0 BOT29) 1 <? 1) = true).
  { set (x := Z.land t0 BOT29) in *. clearbody x. destruct (Z.ltb_spec x 1); [reflexivity|]. assert (x = 1) as -> by lia. reflexivity. }
  rewrite top_eq. cbv zeta. change ((upd (t0 :: t1 :: r) (0 + 1) (add32 (t0 :: t1 :: r).[0 + 1] (shr (t0 :: t1 :: r).[0] 29))).[0]) with t0. rewrite E. reflexivity.
Qed.
Lemma reduce_none L : Z.land (Z.land (u32 L.[0]) BOT29) BOT29 <= 1 -> p256_reduce_degree true L = None.
Proof.
  intros H. unfold p256_reduce_degree. destruct (spread_head L) as (t1 & r & ->).
  unfold elim_loop. cbn [fold_left]. rewrite elim_top_none by exact H. reflexivity.
Qed.
Lemma low29 x : Z.land (Z.land (u32 (x mod M64)) BOT29) BOT29 = x mod 2 ^ 29.
Proof.
  unfold u32. change 0xffffffff with (Z.ones 32). change BOT29 with (Z.ones 29). rewrite !Z.land_ones by lia. rewrite Z.mod_mod by lia. change M64 with (2 ^ 64).
  rewrite <- (Znumtheory.Zmod_div_mod (2 ^ 29) (2 ^ 32)); [|lia|lia|exists (2 ^ 3); reflexivity].
  rewrite <- (Znumtheory.Zmod_div_mod (2 ^ 29) (2 ^ 64)); [reflexivity|lia|lia|exists (2 ^ 35); reflexivity].
Qed.
Lemma mul_none a b : (nth 0 a 0 * nth 0 b 0) mod 2 ^ 29 <= 1 -> p256_mul true a b = None.
Proof. intros H. unfold p256_mul. apply reduce_none. unfold mul_tmp. cbn [nth]. unfold mul64. rewrite low29. exact H. Qed.
Lemma square_none a : (nth 0 a 0 * nth 0 a 0) mod 2 ^ 29 <= 1 -> p256_square true a = None.
Proof. intros H. unfold p256_square. apply reduce_none. unfold square_tmp. cbn [nth]. unfold mul64. rewrite low29. exact H. Qed.

(** What such a build computes, when it does not stop, is the same. *)
Lemma top_same t i t' : elim_top true t i = Some t' -> elim_top false t i = Some t'.
Proof. rewrite top_eq. cbv zeta. destruct (_ || _); [discriminate|auto]. Qed.
Lemma bottom_eq t i : elim_bottom true t i =
  (let x := Z.land (upd t (i + 2) (add32 t.[i + 2] (shr t.[i + 1] 28))).[i + 1] BOT28 in if x <? 1 then None else elim_bottom false t i).
Proof. exact eq_refl. Qed.
Lemma bottom_same t i t' : elim_bottom true t i = Some t' -> elim_bottom false t i = Some t'.
Proof. rewrite bottom_eq. cbv zeta. destruct (_ <? _); [discriminate|auto]. Qed.
Definition round (dbg : bool) (ot : option (list Z)) (i : nat) : option (list Z) :=
  let? t := ot in let? t := elim_top dbg t i in if Nat.eqb (i + 1) 9 then Some t else elim_bottom dbg t i.
Lemma round_none l : fold_left (round true) l None = None.
Proof. induction l as [|i l IH]; [reflexivity|exact IH]. Qed.
Lemma loop_same l : forall t t', fold_left (round true) l (Some t) = Some t' -> fold_left (round false) l (Some t) = Some t'.
Proof.
  induction l as [|i l IH]; intros t t' H; [exact H|]. cbn [fold_left] in *.
  destruct (round true (Some t) i) as [u|] eqn:E; [|rewrite round_none in H; discriminate H].
  assert (E' : round false (Some t) i = Some u).
  { unfold round in *. destruct (elim_top true t i) as [v|] eqn:T; [|discriminate E]. rewrite (top_same _ _ _ T). destruct (Nat.eqb (i + 1) 9); [exact E|]. apply bottom_same, E. }
  rewrite E'. apply IH, H.
Qed.
Lemma reduce_same L m : p256_reduce_degree true L = Some m -> p256_reduce_degree false L = Some m.
Proof.
  unfold p256_reduce_degree. assert (G : forall t', elim_loop true (spread L) = Some t' -> elim_loop false (spread L) = Some t') by (intros t'; exact (loop_same _ _ _)).
  destruct (elim_loop true (spread L)) as [t|]; [|discriminate]. rewrite (G t eq_refl). auto.
Qed.
Lemma mul_same a b m : p256_mul true a b = Some m -> p256_mul false a b = Some m. Proof. exact (reduce_same _ m). Qed.
Lemma square_same a m : p256_square true a = Some m -> p256_square false a = Some m. Proof. exact (reduce_same _ m). Qed.

(** The first addition of both multiplications squares zero. *)
Lemma square_zero : p256_square true fz = None. Proof. apply square_none. cbn. lia. Qed.
Lemma window_none table scalar l : fold_left (window_round true table scalar) l None = None.
Proof. induction l as [|i l IH]; [reflexivity|exact IH]. Qed.
Lemma base_none scalar l : fold_left (base_round true scalar) l None = None.
Proof. induction l as [|i l IH]; [reflexivity|exact IH]. Qed.
Lemma scalar_debug x y k : c256_scalar true x y k = None.
Proof.
  unfold c256_scalar, p256_scalar_mult. destruct (precomp true _ _) as [table|]; [|reflexivity].
  change (seq 0 64) with (0%nat :: seq 1 63). cbn [fold_left]. generalize (seq 1 63). intros l.
  assert (E : window_round true table (p256_get_scalar k) (Some (fz, fz, fz, M32 - 1)) 0 = None).
  { unfold window_round. cbn [Nat.eqb]. cbv zeta. destruct (p256_select_jacobian _ _) as [[qx qy] qz]. unfold p256_point_add. rewrite square_zero. reflexivity. }
  rewrite E, window_none. reflexivity.
Qed.
Lemma base_debug k : c256_scalar_base true k = None.
Proof.
  unfold c256_scalar_base, p256_scalar_base_mult. change (seq 0 32) with (0%nat :: seq 1 31). cbn [fold_left]. generalize (seq 1 31). intros l.
  assert (E : base_round true (p256_get_scalar k) (Some (fz, fz, fz, M32 - 1)) 0 = None).
  { unfold base_round. cbn [Nat.eqb]. unfold base_step. cbv zeta. destruct (p256_select_affine _ _) as [px py]. unfold p256_point_add_mixed. rewrite square_zero. reflexivity. }
  rewrite E, base_none. reflexivity.
Qed.
