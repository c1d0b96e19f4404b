(** Proofs about P256Model.v: conversions from and to numbers. *)
From Coq Require Import Znumtheory.
From Verif Require Import Base Words HashModel NumTheory EllModel EllSpec P224Model LimbTac P224Large P256Model P256Spec P256Limbs P256Ops.
Local Open Scope Z_scope.

Lemma small_element l : length l = 9%nat -> small true l -> element l.
Proof.
  intros L S. destruct l as [|a0 [|a1 [|a2 [|a3 [|a4 [|a5 [|a6 [|a7 [|a8 [|a9 r]]]]]]]]]]; try discriminate L. cbn [small negb] in S.
  destruct S as (? & ? & ? & ? & ? & ? & ? & ? & ? & _). apply element_of; repeat (apply Forall_cons; [lia|]); constructor.
Qed.
Fixpoint room (n : nat) (even : bool) : Z := match n with O => 1 | S n => (if even then 2 ^ 29 else 2 ^ 28) * room n (negb even) end.
Lemma room_pos n : forall even, 0 < room n even.
Proof. induction n as [|n IH]; intros even; cbn [room]; [lia|]. specialize (IH (negb even)). destruct even; lia. Qed.
Lemma from_limbs_ok n : forall even v, 0 <= v < room n even -> length (from_limbs n even v) = n /\ small even (from_limbs n even v) /\ mixed even (from_limbs n even v) = v.
Proof.
  induction n as [|n IH]; intros even v V.
  - cbn [room] in V. cbn [from_limbs length small mixed]. split; [reflexivity|]. split; [exact I|lia].
  - cbn [room] in V. cbn [from_limbs].
    assert (G : forall w, 0 <= w <= 32 -> Z.land (v mod M32) (Z.ones w) = v mod 2 ^ w).
    { intros w Hw. rewrite Z.land_ones by lia. change M32 with (2 ^ 32). symmetry. apply Znumtheory.Zmod_div_mod; try (apply Z.pow_pos_nonneg; lia).
      exists (2 ^ (32 - w)). rewrite <- Z.pow_add_r by lia. f_equal. lia. }
    destruct even.
    + change BOT29 with (Z.ones 29). rewrite G by lia. rewrite Z.shiftr_div_pow2 by lia. clear G.
      assert (D := Z.div_mod v (2 ^ 29) ltac:(lia)). assert (B := Z.mod_pos_bound v (2 ^ 29) ltac:(lia)). set (q := v / 2 ^ 29) in *. set (r := v mod 2 ^ 29) in *. clearbody q r.
      cbn [negb] in V. assert (P := room_pos n false). destruct (IH false q) as (L & S & E); [change (2 ^ 29) with 536870912 in *; nia|].
      cbn [length small mixed negb]. split; [lia|]. split; [split; [lia|exact S]|]. rewrite E. lia.
    + change BOT28 with (Z.ones 28). rewrite G by lia. rewrite Z.shiftr_div_pow2 by lia. clear G.
      assert (D := Z.div_mod v (2 ^ 28) ltac:(lia)). assert (B := Z.mod_pos_bound v (2 ^ 28) ltac:(lia)). set (q := v / 2 ^ 28) in *. set (r := v mod 2 ^ 28) in *. clearbody q r.
      cbn [negb] in V. assert (P := room_pos n true). destruct (IH true q) as (L & S & E); [change (2 ^ 28) with 268435456 in *; nia|].
      cbn [length small mixed negb]. split; [lia|]. split; [split; [lia|exact S]|]. rewrite E. lia.
Qed.
Lemma cp_p_256 : cp_p p256 = P256. Proof. reflexivity. Qed.
Lemma from_bigint_ok x : element (p256_from_bigint x) /\ stands256 (p256_from_bigint x) x.
Proof.
  unfold p256_from_bigint, stands256, val256. rewrite cp_p_256, Z.shiftl_mul_pow2 by lia. set (y := x * 2 ^ 257). clearbody y.
  assert (B := Z.mod_pos_bound y P256 eq_refl). assert (Q : P256 <= room 9 true) by (vm_compute; discriminate).
  destruct (from_limbs_ok 9 true (y mod P256) ltac:(lia)) as (L & S & E). split; [apply small_element; assumption|]. rewrite E.
  exists (- (y / P256)). rewrite (Z.mod_eq y P256) by discriminate. generalize P256. intros m. ring.
Qed.
Lemma to_bigint_val a : length a = 9%nat -> p256_to_bigint a = (val256 a * R_INV) mod P256.
Proof.
  intros L. destruct a as [|a0 [|a1 [|a2 [|a3 [|a4 [|a5 [|a6 [|a7 [|a8 [|a9 r]]]]]]]]]]; try discriminate L.
  unfold p256_to_bigint. rewrite cp_p_256. cbn [fold_left Nat.even nth]. f_equal. f_equal. rewrite !Z.shiftl_mul_pow2 by lia. unfold val256. cbn [mixed negb]. ring.
Qed.
Lemma r_inv_ok : cong P256 (2 ^ 257 * R_INV) 1.
Proof. exists ((2 ^ 257 * R_INV) / P256). vm_compute. reflexivity. Qed.
Lemma to_bigint_ok a x : length a = 9%nat -> stands256 a x -> p256_to_bigint a = x mod P256.
Proof.
  intros L [k K]. rewrite to_bigint_val by exact L. apply divide_mod_eq; [reflexivity|]. destruct r_inv_ok as [j J].
  exists (k * R_INV + x * j). generalize dependent P256. intros m K J. generalize dependent R_INV. intros r J. generalize dependent (2 ^ 257). intros w K J.
  replace (val256 a) with (x * w + k * m) by lia.
  replace ((x * w + k * m) * r - x) with (x * (w * r - 1) + k * r * m) by ring. rewrite J. ring.
Qed.
