(** Words of any width: closure and the arithmetic reading of the rotations. *)
From Verif Require Import Base Words HashModel HashSpec.

Definition ww (w x : Z) : Prop := 0 <= x < 2 ^ w.
Lemma pow_pos w : 0 <= w -> 0 < 2 ^ w.
Proof. intros. apply Z.pow_pos_nonneg; lia. Qed.
Lemma ww_high w x i : 0 <= w -> ww w x -> w <= i -> Z.testbit x i = false.
Proof.
  intros Hw [H0 H1] Hi. rewrite <- (Z.mod_small x (2 ^ w)) by lia. apply Z.mod_pow2_bits_high. lia.
Qed.
Lemma ww_bits w x : 0 <= w -> 0 <= x -> (forall i, w <= i -> Z.testbit x i = false) -> ww w x.
Proof.
  intros Hw H0 H. split; [exact H0|]. replace x with (x mod 2 ^ w); [apply Z.mod_pos_bound, pow_pos; auto|].
  apply Z.bits_inj'. intros i Hi. destruct (Z.ltb_spec i w).
  - rewrite Z.mod_pow2_bits_low by lia. reflexivity.
  - rewrite Z.mod_pow2_bits_high by lia. symmetry. apply H; auto.
Qed.
Lemma ww_lxor w a b : 0 <= w -> ww w a -> ww w b -> ww w (Z.lxor a b).
Proof. intros. apply lxor_range; auto. Qed.
Lemma ww_land w a b : 0 <= w -> ww w a -> ww w b -> ww w (Z.land a b).
Proof.
  intros Hw Ha Hb. apply ww_bits; auto. { apply Z.land_nonneg. left. apply Ha. }
  intros i Hi. rewrite Z.land_spec, (ww_high w a) by auto. reflexivity.
Qed.
Lemma ww_lor w a b : 0 <= w -> ww w a -> ww w b -> ww w (Z.lor a b).
Proof.
  intros Hw Ha Hb. apply ww_bits; auto. { apply Z.lor_nonneg. split; [apply Ha|apply Hb]. }
  intros i Hi. rewrite Z.lor_spec, (ww_high w a), (ww_high w b) by auto. reflexivity.
Qed.
Lemma ww_NOT w a : ww w a -> ww w (NOT w a).
Proof. unfold ww, NOT. lia. Qed.
Lemma ww_ADD w a b : 0 <= w -> ww w (ADD w a b).
Proof. intros. apply Z.mod_pos_bound, pow_pos; auto. Qed.
Lemma ww_SHR w n a : 0 <= n -> ww w a -> ww w (SHR n a).
Proof.
  intros Hn [H0 H1]. unfold SHR, ww. assert (Hp := pow_pos n Hn). split; [apply Z.div_pos; lia|].
  apply Z.le_lt_trans with a; [|lia]. apply Z.div_le_upper_bound; nia.
Qed.
Lemma ROTL_split w n x : 0 <= n <= w -> (x * 2 ^ n) mod 2 ^ w = (x mod 2 ^ (w - n)) * 2 ^ n.
Proof.
  intros Hn. rewrite <- Z.mul_mod_distr_r by (apply Z.pow_nonzero; lia).
  rewrite <- Z.pow_add_r by lia. replace (w - n + n) with w by lia. reflexivity.
Qed.
Lemma ww_ROTL w n x : 0 <= n <= w -> ww w x -> ww w (ROTL w n x).
Proof.
  intros Hn [H0 H1]. unfold ROTL, ww. rewrite ROTL_split by auto.
  assert (Hp := pow_pos n ltac:(lia)). assert (Hq := pow_pos (w - n) ltac:(lia)).
  assert (E : 2 ^ w = 2 ^ (w - n) * 2 ^ n) by (rewrite <- Z.pow_add_r by lia; f_equal; lia).
  pose proof (Z.mod_pos_bound x (2 ^ (w - n)) Hq).
  assert (0 <= x / 2 ^ (w - n)) by (apply Z.div_pos; lia).
  assert (x / 2 ^ (w - n) < 2 ^ n) by (apply Z.div_lt_upper_bound; lia).
  nia.
Qed.
Lemma lor_add_split w n a b : 0 <= n <= w -> ww n b -> Z.lor (a * 2 ^ n) b = a * 2 ^ n + b.
Proof.
  intros Hn Hb. symmetry. rewrite Z.add_nocarry_lxor.
  - apply Z.lxor_lor. apply Z.bits_inj'. intros i Hi. rewrite Z.land_spec, Z.bits_0. destruct (Z.ltb_spec i n).
    + rewrite Z.mul_pow2_bits_low by lia. reflexivity.
    + rewrite (ww_high n b) by (auto; lia). apply Bool.andb_false_r.
  - apply Z.bits_inj'. intros i Hi. rewrite Z.land_spec, Z.bits_0. destruct (Z.ltb_spec i n).
    + rewrite Z.mul_pow2_bits_low by lia. reflexivity.
    + rewrite (ww_high n b) by (auto; lia). apply Bool.andb_false_r.
Qed.
Lemma rotl_gen w n x : 0 <= n <= w -> ww w x ->
  Z.lor ((Z.shiftl x n) mod 2 ^ w) (Z.shiftr x (w - n)) = ROTL w n x.
Proof.
  intros Hn Hx. unfold ROTL. rewrite Z.shiftl_mul_pow2, Z.shiftr_div_pow2 by lia. rewrite ROTL_split by auto.
  apply (lor_add_split w); auto. assert (Hq := pow_pos (w - n) ltac:(lia)). destruct Hx. split; [apply Z.div_pos; lia|].
  apply Z.div_lt_upper_bound; [lia|]. rewrite <- Z.pow_add_r by lia. replace (w - n + n) with w by lia. auto.
Qed.
Lemma rotl32_ROTL x n : ww 32 x -> 0 <= n <= 32 -> rotl32 x n = ROTL 32 n x.
Proof. intros Hx Hn. rewrite <- rotl_gen by auto. reflexivity. Qed.
Lemma rotr32_ROTR x n : ww 32 x -> 0 <= n <= 32 -> rotr32 x n = ROTR 32 n x.
Proof.
  intros Hx Hn. unfold ROTR. rewrite <- rotl_gen by (auto; lia). unfold rotr32. rewrite Z.lor_comm.
  replace (32 - (32 - n)) with n by lia. reflexivity.
Qed.
Lemma rotr64_ROTR x n : ww 64 x -> 0 <= n <= 64 -> rotr64 x n = ROTR 64 n x.
Proof.
  intros Hx Hn. unfold ROTR. rewrite <- rotl_gen by (auto; lia). unfold rotr64. rewrite Z.lor_comm.
  replace (64 - (64 - n)) with n by lia. reflexivity.
Qed.
Lemma ww_ROTR w n x : 0 <= n <= w -> ww w x -> ww w (ROTR w n x).
Proof. intros. apply ww_ROTL; auto; lia. Qed.
Lemma ww_XOR3 w a b c : 0 <= w -> ww w a -> ww w b -> ww w c -> ww w (XOR3 a b c).
Proof. intros. apply ww_lxor; auto. apply ww_lxor; auto. Qed.
Lemma xor3_assoc a b c : Z.lxor (Z.lxor a b) c = XOR3 a b c.
Proof. apply Z.lxor_assoc. Qed.
Lemma ww_Ch w x y z : 0 <= w -> ww w x -> ww w y -> ww w z -> ww w (Ch w x y z).
Proof. intros. apply ww_lxor; auto; apply ww_land; auto. apply ww_NOT; auto. Qed.
Lemma ww_Maj w x y z : 0 <= w -> ww w x -> ww w y -> ww w z -> ww w (Maj x y z).
Proof. intros. apply ww_XOR3; auto; apply ww_land; auto. Qed.

(** [!x] is complement bit by bit. *)
Lemma NOT_bits w x i : 0 <= i < w -> ww w x -> Z.testbit (NOT w x) i = negb (Z.testbit x i).
Proof.
  intros Hi Hx. replace (NOT w x) with (Z.lnot x mod 2 ^ w).
  - rewrite Z.mod_pow2_bits_low by lia. apply Z.lnot_spec. lia.
  - unfold NOT, Z.lnot. rewrite <- Z.sub_1_r. replace (- x - 1) with ((2 ^ w - 1 - x) + (-1) * 2 ^ w) by lia.
    unfold ww in Hx. rewrite Z.mod_add by lia. apply Z.mod_small. lia.
Qed.
Lemma ww_eq w a b : 0 <= w -> ww w a -> ww w b -> (forall i, 0 <= i < w -> Z.testbit a i = Z.testbit b i) -> a = b.
Proof.
  intros Hw Ha Hb H. apply Z.bits_inj'. intros i Hi. destruct (Z.ltb_spec i w); [apply H; lia|].
  rewrite (ww_high w a), (ww_high w b) by auto. reflexivity.
Qed.

(** Schedules: an array filled in place against a growing list. *)
Lemma upd_app a v z b : upd (a ++ z :: b) (length a) v = a ++ v :: b.
Proof.
  unfold upd. rewrite firstn_app, Nat.sub_diag, firstn_O, app_nil_r, firstn_all.
  replace (S (length a)) with (length (a ++ [z])) by (rewrite app_length; cbn; lia).
  replace (a ++ z :: b) with ((a ++ [z]) ++ b) by (rewrite <- app_assoc; reflexivity).
  rewrite skipn_app, skipn_all, Nat.sub_diag. reflexivity.
Qed.
Lemma extend_fill (P : Z -> Prop) (ext : list Z -> nat -> list Z) (next : list Z -> Z) :
  (forall W tl, (16 <= length W)%nat -> Forall P W -> ext (W ++ 0 :: tl) (length W) = upd (W ++ 0 :: tl) (length W) (next W) /\ P (next W)) ->
  forall n W, (16 <= length W)%nat -> Forall P W ->
  fold_left ext (seq (length W) n) (W ++ repeat 0 n) = extend next n W /\ Forall P (extend next n W).
Proof.
  intros H. induction n as [|n IH]; intros W HW HP; cbn [seq fold_left repeat extend]; [rewrite app_nil_r; auto|].
  destruct (H W (repeat 0 n) HW HP) as [E E2]. rewrite E, upd_app.
  replace (W ++ next W :: repeat 0 n) with ((W ++ [next W]) ++ repeat 0 n) by (rewrite <- app_assoc; reflexivity).
  replace (S (length W)) with (length (W ++ [next W])) by (rewrite app_length; cbn; lia).
  apply IH; [rewrite app_length; lia|]. apply Forall_app. auto.
Qed.
Lemma extend_length next n : forall W, length (extend next n W) = (length W + n)%nat.
Proof. induction n as [|n IH]; intros W; cbn [extend]; [lia|]. rewrite IH, app_length. cbn. lia. Qed.
Lemma extend_prefix next n : forall W, firstn (length W) (extend next n W) = W.
Proof.
  induction n as [|n IH]; intros W; cbn [extend]; [apply firstn_all|].
  specialize (IH (W ++ [next W])). rewrite app_length in IH. cbn [length] in IH.
  rewrite <- (firstn_firstn _ (length W) (length W + 1)) in * || idtac.
  assert (E : firstn (length W) (firstn (length W + 1) (extend next n (W ++ [next W]))) = firstn (length W) (W ++ [next W])) by (rewrite IH; reflexivity).
  rewrite firstn_firstn, Nat.min_l in E by lia. rewrite E, firstn_app, firstn_all, Nat.sub_diag, firstn_O, app_nil_r. reflexivity.
Qed.
Lemma extend_nth_low next n W i : (i < length W)%nat -> nth i (extend next n W) 0 = nth i W 0.
Proof.
  intros H. rewrite <- (extend_prefix next n W) at 2. rewrite <- (firstn_skipn (length W) (extend next n W)) at 1.
  apply app_nth1. rewrite firstn_length, extend_length. lia.
Qed.
Lemma extend_rec next n : forall W t, (length W <= t < length W + n)%nat ->
  nth t (extend next n W) 0 = next (firstn t (extend next n W)).
Proof.
  induction n as [|n IH]; intros W t Ht; [lia|]. cbn [extend].
  destruct (Nat.eq_dec t (length W)) as [->|N].
  - rewrite extend_nth_low by (rewrite app_length; cbn; lia). rewrite app_nth2, Nat.sub_diag by lia. cbn [nth].
    f_equal. symmetry. pose proof (extend_prefix next n (W ++ [next W])) as E. rewrite app_length in E. cbn [length] in E.
    assert (F : firstn (length W) (firstn (length W + 1) (extend next n (W ++ [next W]))) = firstn (length W) (W ++ [next W])) by (rewrite E; reflexivity).
    rewrite firstn_firstn, Nat.min_l in F by lia. rewrite F, firstn_app, firstn_all, Nat.sub_diag, firstn_O, app_nil_r. reflexivity.
  - apply IH. rewrite app_length. cbn. lia.
Qed.
Lemma nth_firstn {A} (l : list A) n i d : (i < n)%nat -> nth i (firstn n l) d = nth i l d.
Proof.
  revert n i. induction l as [|x l IH]; intros n i H; [rewrite firstn_nil; destruct i; reflexivity|].
  destruct n; [lia|]. destruct i; cbn; [reflexivity|]. apply IH. lia.
Qed.
Lemma nth_app_l W tl i : (i < length W)%nat -> nth i (W ++ tl) 0 = nth i W 0.
Proof. intros. apply app_nth1; auto. Qed.
Lemma nth_ww w W i : 0 <= w -> Forall (ww w) W -> ww w (nth i W 0).
Proof.
  intros Hw H. destruct (Nat.ltb_spec i (length W)); [apply Forall_nth; auto|].
  rewrite nth_overflow by auto. split; [lia|]. apply pow_pos; auto.
Qed.
Lemma fold_inv {A I} (P : A -> Prop) (f g : A -> I -> A) (l : list I) :
  (forall a i, P a -> In i l -> f a i = g a i /\ P (g a i)) ->
  forall a, P a -> fold_left f l a = fold_left g l a /\ P (fold_left g l a).
Proof.
  induction l as [|i l IH]; intros H a Ha; cbn [fold_left]; [auto|].
  destruct (H a i Ha ltac:(left; auto)) as [-> Hp]. apply IH; auto. intros; apply H; auto. right; auto.
Qed.
Lemma chunks_be_ww k blk : (0 < k)%nat -> bytes blk -> (length blk mod k = 0)%nat ->
  Forall (ww (8 * Z.of_nat k)) (map be_val (chunks k blk)).
Proof.
  intros Hk Hb Hl. apply Forall_map. pose proof (chunks_lengths k blk ltac:(lia) Hl) as L. pose proof (chunks_bytes k blk Hk Hb) as Bs.
  revert L Bs. generalize (chunks k blk). induction l as [|c l IH]; intros L Bs; [constructor|]. inversion L; inversion Bs; subst.
  constructor; [|auto]. pose proof (be_val_bound c H5) as V. unfold ww. rewrite Z.pow_mul_r by lia. exact V.
Qed.
Lemma chunks_le_ww k blk : (0 < k)%nat -> bytes blk -> (length blk mod k = 0)%nat ->
  Forall (ww (8 * Z.of_nat k)) (map le_val (chunks k blk)).
Proof.
  intros Hk Hb Hl. apply Forall_map. pose proof (chunks_lengths k blk ltac:(lia) Hl) as L. pose proof (chunks_bytes k blk Hk Hb) as Bs.
  revert L Bs. generalize (chunks k blk). induction l as [|c l IH]; intros L Bs; [constructor|]. inversion L; inversion Bs; subst.
  constructor; [|auto]. pose proof (le_val_bound c H5) as V. unfold ww. rewrite Z.pow_mul_r by lia. exact V.
Qed.
Lemma chunks_count k blk : (0 < k)%nat -> (length blk mod k = 0)%nat -> length (chunks k blk) = (length blk / k)%nat.
Proof.
  intros Hk Hl. unfold chunks. rewrite map_length, seq_length. unfold nblocks.
  apply Nat.mod_divides in Hl; [|lia]. destruct Hl as [q ->]. rewrite (Nat.mul_comm k q), Nat.div_mul by lia.
  symmetry. apply Nat.div_unique with (k - 1)%nat; lia.
Qed.
Global Hint Resolve ww_lxor ww_land ww_lor ww_NOT ww_ADD ww_SHR ww_ROTL ww_ROTR ww_XOR3 ww_Ch ww_Maj nth_ww : ww.
