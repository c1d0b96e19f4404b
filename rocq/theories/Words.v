(** Fixed-width words: generic facts about bytes, words and xor. *)
From Verif Require Import Base.
From Coq Require Export Btauto.

(** Table lookup (Rust indexing of a constant table by a byte). *)
Definition tbl (t : list Z) (i : Z) : Z := nth (Z.to_nat i) t 0.

(** Equalities between xors of the same terms. *)
Ltac xor_ac :=
  apply Z.bits_inj'; intros ? _; rewrite ?Z.lxor_spec, ?Z.bits_0; btauto.

(** [xor] of numerals read off byte strings. *)
Lemma lxor_shift_add a b x y : byte a -> byte b -> 0 <= x -> 0 <= y ->
  Z.lxor (a + 256 * x) (b + 256 * y) = Z.lxor a b + 256 * Z.lxor x y.
Proof.
  intros Ha Hb Hx Hy. unfold byte in *.
  assert (H : forall u v, 0 <= u < 256 -> u + 256 * v = Z.lor u (Z.shiftl v 8)).
  { intros u v Hu. rewrite Z.shiftl_mul_pow2 by lia. change (2 ^ 8) with 256.
    rewrite Z.add_nocarry_lxor; [rewrite Z.mul_comm|].
    - symmetry. rewrite <- Z.lxor_lor; auto. apply Z.bits_inj'. intros i Hi.
      rewrite Z.land_spec, Z.bits_0. destruct (Z.ltb_spec i 8).
      + replace (v * 256) with (Z.shiftl v 8) by (rewrite Z.shiftl_mul_pow2 by lia; reflexivity).
        rewrite Z.shiftl_spec_low by lia. apply Bool.andb_false_r.
      + replace u with (u mod 2 ^ 8) by (apply Z.mod_small; auto).
        rewrite Z.mod_pow2_bits_high by lia. reflexivity.
    - apply Z.bits_inj'. intros i Hi. rewrite Z.land_spec, Z.bits_0. destruct (Z.ltb_spec i 8).
      + replace (256 * v) with (Z.shiftl v 8) by (rewrite Z.shiftl_mul_pow2 by lia; ring).
        rewrite Z.shiftl_spec_low by lia. apply Bool.andb_false_r.
      + replace u with (u mod 2 ^ 8) by (apply Z.mod_small; auto).
        rewrite Z.mod_pow2_bits_high by lia. reflexivity. }
  pose proof (lxor_byte a b Ha Hb) as Hab. unfold byte in Hab.
  rewrite !H by auto. apply Z.bits_inj'. intros i Hi.
  rewrite Z.lor_spec, Z.lxor_spec, !Z.lor_spec. destruct (Z.ltb_spec i 8).
  - rewrite !Z.shiftl_spec_low by lia. rewrite Z.lxor_spec, !Bool.orb_false_r. reflexivity.
  - rewrite !Z.shiftl_spec by lia. rewrite Z.lxor_spec.
    assert (Hz : forall u, 0 <= u < 256 -> Z.testbit u i = false).
    { intros u Hu. replace u with (u mod 2 ^ 8) by (apply Z.mod_small; auto).
      apply Z.mod_pow2_bits_high; lia. }
    rewrite !Hz by auto. cbn. rewrite Z.lxor_spec. reflexivity.
Qed.

Lemma le_val_nonneg l : bytes l -> 0 <= le_val l.
Proof. intros H. apply le_val_bound in H. lia. Qed.

Lemma le_val_lxor a : forall b, bytes a -> bytes b -> length a = length b ->
  Z.lxor (le_val a) (le_val b) = le_val (xorl a b).
Proof.
  induction a as [|x a IH]; intros [|y b] Ha Hb Hl; cbn in Hl; try discriminate; [reflexivity|].
  inversion Ha; inversion Hb; subst. cbn [le_val xorl].
  rewrite lxor_shift_add by (auto; apply le_val_nonneg; auto). rewrite IH by (auto; lia). reflexivity.
Qed.

Lemma xorl_rev a : forall b, length a = length b -> xorl (rev a) (rev b) = rev (xorl a b).
Proof.
  induction a as [|x a IH]; intros [|y b] Hl; cbn in Hl; try discriminate; [reflexivity|].
  cbn [rev xorl]. rewrite xorl_app by (rewrite !rev_length; lia). rewrite IH by lia. reflexivity.
Qed.

Lemma be_val_lxor a b : bytes a -> bytes b -> length a = length b ->
  Z.lxor (be_val a) (be_val b) = be_val (xorl a b).
Proof.
  intros Ha Hb Hl. rewrite !be_val_rev, le_val_lxor, xorl_rev; auto using bytes_rev.
  rewrite !rev_length. auto.
Qed.

(** [u32] operations. *)
Definition M32 : Z := 4294967296.
Definition w32 (x : Z) : Prop := 0 <= x < M32.
Definition add32 (a b : Z) : Z := (a + b) mod M32.
Definition rotl32 (x : Z) (n : Z) : Z :=
  Z.lor ((Z.shiftl x n) mod M32) (Z.shiftr x (32 - n)).
Definition not32 (x : Z) : Z := M32 - 1 - x.

Lemma w32_be l : bytes l -> length l = 4%nat -> w32 (be_val l).
Proof. intros H Hl. apply be_val_bound in H. rewrite Hl in H. exact H. Qed.

Lemma be4_word w : w32 w -> be_val (be_bytes 4 w) = w.
Proof. intros H. rewrite be_val_bytes. apply Z.mod_small. exact H. Qed.

Lemma be4_bytes l : bytes l -> length l = 4%nat -> be_bytes 4 (be_val l) = l.
Proof. intros H Hl. rewrite <- Hl at 1. apply be_bytes_val; auto. Qed.

(** All bytes, for exhaustive checks. *)
Definition all_bytes : list Z := map Z.of_nat (seq 0 256).
Lemma all_bytes_in b : byte b -> In b all_bytes.
Proof.
  intros H. unfold byte in H. unfold all_bytes. apply in_map_iff. exists (Z.to_nat b).
  split; [lia|]. apply in_seq. lia.
Qed.
Lemma forall_byte (P : Z -> bool) : forallb P all_bytes = true -> forall b, byte b -> P b = true.
Proof. intros H b Hb. rewrite forallb_forall in H. apply H. apply all_bytes_in; auto. Qed.
Lemma forall_byte2 (P : Z -> Z -> bool) :
  forallb (fun a => forallb (P a) all_bytes) all_bytes = true ->
  forall a b, byte a -> byte b -> P a b = true.
Proof.
  intros H a b Ha Hb. pose proof (forall_byte _ H a Ha) as H1. cbv beta in H1.
  exact (forall_byte _ H1 b Hb).
Qed.

(** Rotation as arithmetic. *)
Lemma rotl32_add x n : w32 x -> 0 <= n <= 32 ->
  rotl32 x n = (x * 2 ^ n) mod M32 + x / 2 ^ (32 - n).
Proof.
  intros Hx Hn. unfold rotl32. rewrite Z.shiftl_mul_pow2, Z.shiftr_div_pow2 by lia.
  rewrite <- Z.lxor_lor.
  - symmetry. apply Z.add_nocarry_lxor. apply Z.bits_inj'. intros i Hi. rewrite Z.land_spec, Z.bits_0.
    destruct (Z.ltb_spec i n).
    + replace ((x * 2 ^ n) mod M32) with (((x mod 2 ^ (32 - n)) * 2 ^ n)).
      * rewrite Z.mul_pow2_bits_low by lia. reflexivity.
      * rewrite <- Z.mul_mod_distr_r by (apply Z.pow_nonzero; lia).
        rewrite <- Z.pow_add_r by lia. replace (32 - n + n) with 32 by lia. reflexivity.
    + replace (x / 2 ^ (32 - n)) with ((x / 2 ^ (32 - n)) mod 2 ^ n).
      * rewrite Z.mod_pow2_bits_high by lia. apply Bool.andb_false_r.
      * apply Z.mod_small. unfold w32, M32 in Hx. split; [apply Z.div_pos; [lia|apply Z.pow_pos_nonneg; lia]|].
        apply Z.div_lt_upper_bound; [apply Z.pow_pos_nonneg; lia|].
        rewrite <- Z.pow_add_r by lia. replace (32 - n + n) with 32 by lia. apply Hx.
  - apply Z.bits_inj'. intros i Hi. rewrite Z.land_spec, Z.bits_0.
    destruct (Z.ltb_spec i n).
    + replace ((x * 2 ^ n) mod M32) with (((x mod 2 ^ (32 - n)) * 2 ^ n)).
      * rewrite Z.mul_pow2_bits_low by lia. reflexivity.
      * rewrite <- Z.mul_mod_distr_r by (apply Z.pow_nonzero; lia).
        rewrite <- Z.pow_add_r by lia. replace (32 - n + n) with 32 by lia. reflexivity.
    + replace (x / 2 ^ (32 - n)) with ((x / 2 ^ (32 - n)) mod 2 ^ n).
      * rewrite Z.mod_pow2_bits_high by lia. apply Bool.andb_false_r.
      * apply Z.mod_small. unfold w32, M32 in Hx. split; [apply Z.div_pos; [lia|apply Z.pow_pos_nonneg; lia]|].
        apply Z.div_lt_upper_bound; [apply Z.pow_pos_nonneg; lia|].
        rewrite <- Z.pow_add_r by lia. replace (32 - n + n) with 32 by lia. apply Hx.
Qed.

Lemma be_val4 a b c d : be_val [a; b; c; d] = ((a * 256 + b) * 256 + c) * 256 + d.
Proof. unfold be_val. cbn [fold_left]. ring. Qed.

Lemma rotl32_w32 x n : w32 x -> 0 <= n <= 32 -> w32 (rotl32 x n).
Proof.
  intros Hx Hn. rewrite rotl32_add by auto. unfold w32, M32 in *.
  assert (Hp : 0 < 2 ^ n) by (apply Z.pow_pos_nonneg; lia).
  assert (Hq : 0 < 2 ^ (32 - n)) by (apply Z.pow_pos_nonneg; lia).
  assert (Hpq : 2 ^ (32 - n) * 2 ^ n = 4294967296).
  { rewrite <- Z.pow_add_r by lia. replace (32 - n + n) with 32 by lia. reflexivity. }
  replace ((x * 2 ^ n) mod 4294967296) with ((x mod 2 ^ (32 - n)) * 2 ^ n).
  2:{ rewrite <- Z.mul_mod_distr_r by lia. rewrite Hpq. reflexivity. }
  pose proof (Z.mod_pos_bound x (2 ^ (32 - n)) Hq).
  assert (0 <= x / 2 ^ (32 - n)) by (apply Z.div_pos; lia).
  assert (x / 2 ^ (32 - n) < 2 ^ n) by (apply Z.div_lt_upper_bound; lia).
  nia.
Qed.
Lemma lxor_w32 a b : w32 a -> w32 b -> w32 (Z.lxor a b).
Proof. intros. apply (lxor_range 32); auto; lia. Qed.
