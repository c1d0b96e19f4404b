(** Proofs about P224Model.v: canonical form, test for zero, conversions. *)
From Coq Require Import Znumtheory.
From Verif Require Import Base Words HashModel NumTheory RsaModel RsaEncModel DsaProofs EllModel EllSpec P224Model P224Spec LimbTac P224Large P224Reduce.
Local Open Scope Z_scope.
Local Notation p := (2 ^ 224 - 2 ^ 96 + 1).

(** What the contraction does to normalised limbs. *)
Lemma sub_p_8 o0 o1 o2 o3 o4 o5 o6 o7 : Forall (fun x => 0 <= x <= 2 ^ 28 - 1) [o0; o1; o2; o3; o4; o5; o6; o7] ->
  sub_p [o0; o1; o2; o3; o4; o5; o6; o7] (contract_mask [o0; o1; o2; o3; o4; o5; o6; o7]) =
    if val28 [o0; o1; o2; o3; o4; o5; o6; o7] <? p - 1 then [o0; o1; o2; o3; o4; o5; o6; o7] else [if o0 =? 0 then M32 - 1 else o0 - 1; o1; o2; o3 - 0xffff000; 0; 0; 0; 0].
Proof.
  intros HA. rewrite (mask_8 _ _ _ _ _ _ _ _ HA). split_bounds. rewrite Z.leb_antisym.
  destruct (Z.ltb_spec (val28 [o0; o1; o2; o3; o4; o5; o6; o7]) (p - 1)) as [C|C]; cbn [negb]; cbv [sub_p upd nth firstn skipn app].
  - change (Z.land 1 0) with 0. change (Z.land 0xffff000 0) with 0. change (Z.land 0xfffffff 0) with 0.
    unfold sub32. rewrite !Z.sub_0_r, !Z.mod_small by (unfold M32; lia). reflexivity.
  - change (Z.land 1 (M32 - 1)) with 1. change (Z.land 0xffff000 (M32 - 1)) with 0xffff000. change (Z.land 0xfffffff (M32 - 1)) with 0xfffffff.
    cbn [val28] in C. assert (E7 : o7 = 0xfffffff) by lia. assert (E6 : o6 = 0xfffffff) by lia. assert (E5 : o5 = 0xfffffff) by lia.
    assert (E4 : o4 = 0xfffffff) by lia. assert (E3 : 0xffff000 <= o3) by lia. subst o4 o5 o6 o7. change (sub32 0xfffffff 0xfffffff) with 0.
    assert (S3 : sub32 o3 0xffff000 = o3 - 0xffff000) by (apply Z.mod_small; unfold M32; lia). rewrite S3.
    destruct (Z.eqb_spec o0 0) as [->|N]; [reflexivity|]. assert (S0 : sub32 o0 1 = o0 - 1) by (apply Z.mod_small; unfold M32; lia). rewrite S0. reflexivity.
Qed.

(** p224_to_bigint takes the low 28 bits of each limb. *)
Lemma land_ff x k : 0 <= k -> Z.land (shr x k) 0xff = (x / 2 ^ k) mod 256.
Proof. intros K. unfold shr. rewrite Z.shiftr_div_pow2 by lia. exact (Z.land_ones _ 8 ltac:(lia)). Qed.
Lemma nibbles x y : 0 <= x < 16 -> 0 <= y < 16 -> Z.lor x (16 * y) = x + 16 * y.
Proof.
  intros X Y. rewrite (Z.mul_comm 16). change 16 with (2 ^ 4). rewrite <- Z.shiftl_mul_pow2 by lia.
  rewrite <- Z.lxor_lor, <- Z.add_nocarry_lxor; try reflexivity; apply Z.bits_inj'; intros n N; rewrite Z.land_spec, Z.bits_0; destruct (Z.ltb_spec n 4).
  all: try (rewrite (Z.shiftl_spec_low y 4 n) by lia; apply andb_false_r).
  all: (assert (T : Z.testbit x n = false); [destruct (Z.eq_dec x 0) as [->|X0]; [apply Z.bits_0|]; apply Z.bits_above_log2; [lia|]; enough (Z.log2 x < 4) by lia; apply Z.log2_lt_pow2; lia|rewrite T; reflexivity]).
Qed.
Lemma limb_bytes_val e0 e1 : 0 <= e0 < M32 -> 0 <= e1 < M32 ->
  be_val (limb_bytes e0 e1) = e0 mod 2 ^ 28 + 2 ^ 28 * (e1 mod 2 ^ 28) /\ length (limb_bytes e0 e1) = 7%nat.
Proof.
  intros H0 H1. split; [|reflexivity]. unfold limb_bytes, be_val. cbn [fold_left]. rewrite !land_ff by lia.
  assert (N1 : Z.land (shr e0 24) 0x0f = (e0 / 2 ^ 24) mod 16) by (unfold shr; rewrite Z.shiftr_div_pow2 by lia; exact (Z.land_ones _ 4 ltac:(lia))).
  assert (N2 : Z.land (shl32 e1 4) 0xf0 = 16 * (e1 mod 16)).
  { unfold shl32. rewrite Z.shiftl_mul_pow2 by lia. change M32 with (2 ^ 28 * 2 ^ 4). rewrite Z.mul_mod_distr_r by lia.
    rewrite <- Z.shiftl_mul_pow2 by lia. change 0xf0 with (Z.shiftl 15 4). rewrite <- Z.shiftl_land. rewrite Z.shiftl_mul_pow2 by lia.
    change 15 with (Z.ones 4). rewrite Z.land_ones by lia. change (2 ^ 4) with 16. rewrite Z.mul_comm. f_equal.
    symmetry. apply Znumtheory.Zmod_div_mod; [lia|lia|]. exists (2 ^ 24). reflexivity. }
  rewrite N1, N2, nibbles by (apply Z.mod_pos_bound; lia).
  assert (F : Z.land e0 0xff = e0 mod 256) by exact (Z.land_ones _ 8 ltac:(lia)). rewrite F.
  Z.to_euclidean_division_equations. lia.
Qed.
Lemma be_val_app7 l k : length k = 7%nat -> be_val (l ++ k) = be_val l * 2 ^ 56 + be_val k.
Proof. intros L. rewrite be_val_app, L. reflexivity. Qed.
Lemma to_bigint_8 o0 o1 o2 o3 o4 o5 o6 o7 : Forall (fun x => 0 <= x < M32) [o0; o1; o2; o3; o4; o5; o6; o7] ->
  p224_to_bigint [o0; o1; o2; o3; o4; o5; o6; o7] = val28 (map (fun x => x mod 2 ^ 28) [o0; o1; o2; o3; o4; o5; o6; o7]).
Proof.
  intros HA. split_bounds. unfold p224_to_bigint. cbn [nth map val28].
  destruct (limb_bytes_val o0 o1) as [V0 L0]; [assumption..|]. destruct (limb_bytes_val o2 o3) as [V2 L2]; [assumption..|].
  destruct (limb_bytes_val o4 o5) as [V4 L4]; [assumption..|]. destruct (limb_bytes_val o6 o7) as [V6 L6]; [assumption..|].
  rewrite !app_assoc, !be_val_app7, V0, V2, V4, V6 by assumption. ring.
Qed.

(** The contraction, as seen through p224_to_bigint and through the test for zero. *)
Lemma contract_8 a0 a1 a2 a3 a4 a5 a6 a7 : Forall (fun x => 0 <= x <= 1073741823) [a0; a1; a2; a3; a4; a5; a6; a7] ->
  exists o0 o1 o2 o3 o4 o5 o6 o7, let v := val28 [o0; o1; o2; o3; o4; o5; o6; o7] in
    cong p v (val28 [a0; a1; a2; a3; a4; a5; a6; a7]) /\ Forall (fun x => 0 <= x <= 2 ^ 28 - 1) [o0; o1; o2; o3; o4; o5; o6; o7] /\
    p224_contract [a0; a1; a2; a3; a4; a5; a6; a7] = (if v <? p - 1 then [o0; o1; o2; o3; o4; o5; o6; o7] else [if o0 =? 0 then M32 - 1 else o0 - 1; o1; o2; o3 - 0xffff000; 0; 0; 0; 0]) /\
    rep96 (val28 [a0; a1; a2; a3; a4; a5; a6; a7]) v.
Proof.
  intros HA. destruct (contract_norm_8 _ _ _ _ _ _ _ _ HA) as (o0 & o1 & o2 & o3 & o4 & o5 & o6 & o7 & E & B & C & P96). exists o0, o1, o2, o3, o4, o5, o6, o7. intros v.
  split; [exact C|]. split; [exact B|]. split; [|exact P96]. unfold p224_contract. rewrite E. exact (sub_p_8 _ _ _ _ _ _ _ _ B).
Qed.
Definition contracted (v : Z) : Z := if v <? p - 1 then v else v - p + (if v mod 2 ^ 28 =? 0 then 2 ^ 28 else 0).
Lemma val28_mod0 x l : 0 <= x <= 2 ^ 28 - 1 -> val28 (x :: l) mod 2 ^ 28 = x.
Proof. intros B. cbn [val28]. rewrite Z.mul_comm, Z.mod_add by lia. apply Z.mod_small. lia. Qed.
Lemma contract_bigint a : limbs_below (2 ^ 30) a -> exists v, 0 <= v < 2 ^ 224 /\ cong p v (val28 a) /\ rep96 (val28 a) v /\ p224_to_bigint (p224_contract a) = contracted v.
Proof.
  intros [LA HA]. do 8 (destruct a as [|? a]; [discriminate LA|]). destruct a; [|discriminate LA].
  assert (HB : Forall (fun x => 0 <= x <= 1073741823) [z; z0; z1; z2; z3; z4; z5; z6]) by (eapply Forall_impl; [|exact HA]; cbn; lia).
  destruct (contract_8 _ _ _ _ _ _ _ _ HB) as (o0 & o1 & o2 & o3 & o4 & o5 & o6 & o7 & C & B & E & P96). exists (val28 [o0; o1; o2; o3; o4; o5; o6; o7]).
  assert (B' : id (Forall (fun x => 0 <= x <= 2 ^ 28 - 1) [o0; o1; o2; o3; o4; o5; o6; o7])) by exact B. split_bounds. split; [cbn [val28]; lia|]. split; [exact C|]. split; [exact P96|]. rewrite E. clear P96. unfold contracted. rewrite val28_mod0 by assumption.
  destruct (Z.ltb_spec (val28 [o0; o1; o2; o3; o4; o5; o6; o7]) (p - 1)) as [S|S].
  - rewrite to_bigint_8 by (eapply Forall_impl; [|exact B']; unfold M32; cbn; lia). cbn [map]. rewrite !Z.mod_small by lia. reflexivity.
  - cbn [val28] in S. assert (E7 : o7 = 0xfffffff) by lia. assert (E6 : o6 = 0xfffffff) by lia. assert (E5 : o5 = 0xfffffff) by lia.
    assert (E4 : o4 = 0xfffffff) by lia. assert (E3 : 0xffff000 <= o3) by lia. subst o4 o5 o6 o7.
    rewrite to_bigint_8 by (repeat (apply Forall_cons; [destruct (Z.eqb_spec o0 0); unfold M32; lia|]); constructor).
    cbn [map]. rewrite (Z.mod_small o1), (Z.mod_small o2), (Z.mod_small (o3 - 0xffff000)) by lia. change (0 mod 2 ^ 28) with 0.
    destruct (Z.eqb_spec o0 0) as [->|N]; [change ((M32 - 1) mod 2 ^ 28) with (2 ^ 28 - 1)|rewrite (Z.mod_small (o0 - 1)) by lia]; cbn [val28]; lia.
Qed.
Lemma fold_lor_zero l x : fold_left Z.lor l x = 0 <-> x = 0 /\ Forall (fun y => y = 0) l.
Proof.
  revert x. induction l as [|y l IH]; intros x; cbn [fold_left]; [split; [intros ->; split; [reflexivity|constructor]|tauto]|].
  rewrite IH, lor_zero, Forall_cons_iff. tauto.
Qed.
Lemma fold_lor_range l x : 0 <= x < 2 ^ 32 -> Forall (fun y => 0 <= y < 2 ^ 32) l -> 0 <= fold_left Z.lor l x < 2 ^ 32.
Proof.
  revert x. induction l as [|y l IH]; intros x X F; cbn [fold_left]; [exact X|]. apply Forall_cons_iff in F. apply IH; [|apply F]. apply lor_range; [lia|exact X|apply F].
Qed.
Lemma cong_small q v : 0 < q -> cong q v 0 -> 0 <= v < q -> v = 0.
Proof. intros Q [k E] B. assert (k = 0) by nia. lia. Qed.
Lemma is_zero_bits i j : 0 <= i < M32 -> 0 <= j < M32 -> Z.land (not32 (Z.land (or_fold i) (or_fold j))) 1 = if (i =? 0) || (j =? 0) then 1 else 0.
Proof.
  intros I J. change 1 with (Z.ones 1) at 1. rewrite Z.land_ones by lia. change (2 ^ 1) with 2.
  assert (P : (not32 (Z.land (or_fold i) (or_fold j))) mod 2 = if Z.testbit (Z.land (or_fold i) (or_fold j)) 0 then 0 else 1).
  { unfold not32, M32. set (x := Z.land _ _). clearbody x. rewrite Z.bit0_odd. rewrite (Zodd_mod x).
    assert (D := Z.mod_pos_bound x 2 eq_refl). destruct (Zeq_bool (x mod 2) 1) eqn:Q.
    - apply Zeq_bool_eq in Q. Z.to_euclidean_division_equations. lia.
    - apply Zeq_bool_neq in Q. Z.to_euclidean_division_equations. lia. }
  rewrite P, Z.land_spec, !or_fold_bit by assumption. destruct (i =? 0), (j =? 0); reflexivity.
Qed.
Lemma lor_list_zero l : Forall (fun y => y = 0) l <-> fold_left Z.lor l 0 = 0.
Proof. rewrite fold_lor_zero. tauto. Qed.
Lemma sub32_zero x y : 0 <= x < M32 -> 0 <= y < M32 -> (sub32 x y = 0 <-> x = y).
Proof. intros X Y. unfold sub32. unfold M32 in *. split; intros E; [|subst; rewrite Z.sub_diag; reflexivity]. Z.to_euclidean_division_equations. lia. Qed.
Lemma cong_zero_cases v : 0 <= v < 2 ^ 224 -> (cong p v 0 <-> v = 0 \/ v = p).
Proof. intros V. split; [intros [k E]; assert (k = 0 \/ k = 1) by lia; lia|]. intros [->| ->]; [exists 0|exists 1]; lia. Qed.
Lemma is_zero_8 a : limbs_below (2 ^ 30) a -> (p224_is_zero a = 1 /\ cong p (val28 a) 0) \/ (p224_is_zero a = 0 /\ ~ cong p (val28 a) 0).
Proof.
  intros [LA HA]. do 8 (destruct a as [|? a]; [discriminate LA|]). destruct a; [|discriminate LA].
  assert (HB : Forall (fun x => 0 <= x <= 1073741823) [z; z0; z1; z2; z3; z4; z5; z6]) by (eapply Forall_impl; [|exact HA]; cbn; lia).
  destruct (contract_8 _ _ _ _ _ _ _ _ HB) as (o0 & o1 & o2 & o3 & o4 & o5 & o6 & o7 & C & B & E & _). set (va := val28 [z; z0; z1; z2; z3; z4; z5; z6]) in *. clearbody va.
  unfold p224_is_zero. rewrite E. clear E HB HA LA z z0 z1 z2 z3 z4 z5 z6. set (v := val28 [o0; o1; o2; o3; o4; o5; o6; o7]) in *.
  assert (V : 0 <= v < 2 ^ 224) by (subst v; split_bounds; cbn [val28]; lia).
  assert (CC : cong p va 0 <-> v = 0 \/ v = p).
  { rewrite <- (cong_zero_cases v V). destruct C as [k C]. split; intros [m E]; [exists (m + k)|exists (m - k)]; lia. }
  set (m := if v <? p - 1 then _ else _).
  assert (M : exists m0 m1 m2 m3 m4 m5 m6 m7, m = [m0; m1; m2; m3; m4; m5; m6; m7] /\ Forall (fun x => 0 <= x < M32) m /\ (m = [0;0;0;0;0;0;0;0] \/ m = p224_p <-> v = 0 \/ v = p)).
  { subst m. destruct (Z.ltb_spec v (p - 1)) as [S|S].
    - exists o0, o1, o2, o3, o4, o5, o6, o7. split; [reflexivity|]. split; [eapply Forall_impl; [|exact B]; unfold M32; cbn; lia|].
      split; [intros [Q|Q]; [left|right]; subst v; rewrite Q; reflexivity|]. intros [Q|Q]; [left|lia]. subst v. split_bounds. cbn [val28] in *.
      assert (o7 = 0) by lia. assert (o6 = 0) by lia. assert (o5 = 0) by lia. assert (o4 = 0) by lia. assert (o3 = 0) by lia. assert (o2 = 0) by lia. assert (o1 = 0) by lia. assert (o0 = 0) by lia. subst. reflexivity.
    - do 8 eexists. split; [reflexivity|]. subst v. split_bounds. cbn [val28] in S. assert (E7 : o7 = 0xfffffff) by lia. assert (E6 : o6 = 0xfffffff) by lia. assert (E5 : o5 = 0xfffffff) by lia.
      assert (E4 : o4 = 0xfffffff) by lia. assert (E3 : 0xffff000 <= o3) by lia. subst o4 o5 o6 o7.
      split; [repeat (apply Forall_cons; [destruct (Z.eqb_spec o0 0); unfold M32; lia|]); constructor|].
      split.
      + intros [Q|Q]; [|discriminate Q]. right. injection Q as Q0 Q1 Q2 Q3. destruct (Z.eqb_spec o0 0); [discriminate Q0|]. cbn [val28]. lia.
      + cbn [val28]. intros [Q|Q]; [lia|]. left. assert (o3 = 0xffff000) by lia. assert (o2 = 0) by lia. assert (o1 = 0) by lia. assert (o0 = 1) by lia. subst. reflexivity. }
  clearbody m. destruct M as (m0 & m1 & m2 & m3 & m4 & m5 & m6 & m7 & -> & BM & QM). clear B C.
  rewrite is_zero_bits.
  - assert (T : (fold_left Z.lor [m0; m1; m2; m3; m4; m5; m6; m7] 0 =? 0) || (fold_left Z.lor (zip_with sub32 [m0; m1; m2; m3; m4; m5; m6; m7] p224_p) 0 =? 0) = true <-> v = 0 \/ v = p).
    { rewrite <- QM, orb_true_iff, !Z.eqb_eq, <- !lor_list_zero. unfold p224_p, zip_with. cbn [combine map fst snd].
      rewrite !Forall_cons_iff in BM |- *. split.
      - intros [Q|Q]; [left|right]; [intuition congruence|]. rewrite !Forall_cons_iff in Q. rewrite !sub32_zero in Q by (unfold M32 in *; lia). intuition congruence.
      - intros [Q|Q]; injection Q as -> -> -> -> -> -> -> ->; [left; repeat split; constructor|right; repeat constructor]. }
    destruct (_ || _); [left|right]; (split; [reflexivity|]); rewrite CC, <- T; [reflexivity|discriminate].
  - apply fold_lor_range; [lia|exact BM].
  - apply fold_lor_range; [lia|]. unfold p224_p, zip_with. cbn [combine map fst snd]. repeat (apply Forall_cons; [unfold sub32, M32; apply Z.mod_pos_bound; reflexivity|]). constructor.
Qed.

(** * Reading a coordinate *)
Lemma last_byte l : bytes l -> l <> [] -> l.[length l - 1] = be_val l mod 256 /\ be_val (firstn (length l - 1) l) = be_val l / 256 /\ bytes (firstn (length l - 1) l).
Proof.
  intros B N. destruct (exists_last N) as (k & b & ->). apply Forall_app in B. destruct B as [Bk Bb]. apply Forall_cons_iff in Bb. destruct Bb as [Bb _].
  rewrite app_length. cbn [length]. rewrite Nat.add_sub, nth_middle, firstn_app, Nat.sub_diag, firstn_all. cbn [firstn]. rewrite app_nil_r, be_val_app. cbn [length]. change (256 ^ Z.of_nat 1) with 256.
  replace (be_val [b]) with b by (unfold be_val; cbn; lia). unfold byte in Bb. split; [|split; [|assumption]]; Z.to_euclidean_division_equations; lia.
Qed.
Definition next_byte (buf : list Z) : Z := if (0 <? length buf)%nat then buf.[length buf - 1] else 0.
Definition drop_byte (buf : list Z) : list Z := if (0 <? length buf)%nat then firstn (length buf - 1) buf else buf.
Lemma next_drop l : bytes l -> next_byte l = be_val l mod 256 /\ be_val (drop_byte l) = be_val l / 256 /\ bytes (drop_byte l).
Proof.
  intros B. unfold next_byte, drop_byte. destruct (Nat.ltb_spec 0 (length l)) as [S|S].
  - apply last_byte; [assumption|]. intros ->. cbn in S. lia.
  - destruct l; [|cbn in S; lia]. repeat split; assumption.
Qed.
Lemma get28_unfold buf shift :
  get28 buf shift =
  let b0 := next_byte buf in let buf := drop_byte buf in
  let b1 := next_byte buf in let buf := drop_byte buf in
  let b2 := next_byte buf in let buf := drop_byte buf in
  let b3 := next_byte buf in let buf := if shift =? 4 then drop_byte buf else buf in
  (Z.land (Z.lor (Z.lor (Z.lor (Z.lor 0 (shr (shl32 b0 0) shift)) (shr (shl32 b1 8) shift)) (shr (shl32 b2 16) shift)) (shr (shl32 b3 24) shift)) bot28, buf).
Proof.
  unfold get28. cbn [seq fold_left]. cbn [Nat.eqb negb orb].  
  unfold next_byte, drop_byte. rewrite !andb_true_r. destruct (shift =? 4); [rewrite !andb_true_r|rewrite !andb_false_r]; reflexivity.
Qed.
Lemma testbit_hi x m k : 0 <= x < 2 ^ m -> m <= k -> Z.testbit x k = false.
Proof.
  intros Hx Hk. destruct (Z.eq_dec x 0) as [->|]; [apply Z.bits_0|].
  apply Z.bits_above_log2; [lia|]. apply Z.lt_le_trans with m; [apply Z.log2_lt_pow2; lia|auto].
Qed.
Lemma lor_shift_sum a m y : 0 <= m -> 0 <= a < 2 ^ m -> Z.lor a (Z.shiftl y m) = a + 2 ^ m * y.
Proof.
  intros Hm Ha. rewrite Z.shiftl_mul_pow2 by lia. rewrite <- Z.add_nocarry_lxor at 1 || idtac.
  rewrite (Z.mul_comm (2 ^ m)). symmetry.
  assert (D : Z.land a (y * 2 ^ m) = 0).
  { apply Z.bits_inj'. intros k Hk. rewrite Z.land_spec, Z.bits_0.
    destruct (Z.lt_ge_cases k m).
    - rewrite Z.mul_pow2_bits_low by lia. apply Bool.andb_false_r.
    - rewrite (testbit_hi a m k) by auto. reflexivity. }
  rewrite <- Z.lxor_lor by exact D. apply Z.add_nocarry_lxor. exact D.
Qed.
Lemma lor_sum x y n : 0 <= n -> 0 <= x < 2 ^ n -> Z.lor x (y * 2 ^ n) = x + y * 2 ^ n.
Proof. intros N X. rewrite <- Z.shiftl_mul_pow2 by exact N. rewrite lor_shift_sum, Z.shiftl_mul_pow2 by assumption. ring. Qed.
Lemma get28_words b0 b1 b2 b3 : byte b0 -> byte b1 -> byte b2 -> byte b3 ->
  Z.land (Z.lor (Z.lor (Z.lor (Z.lor 0 (shr (shl32 b0 0) 0)) (shr (shl32 b1 8) 0)) (shr (shl32 b2 16) 0)) (shr (shl32 b3 24) 0)) bot28
    = (b0 + 256 * b1 + 65536 * b2 + 16777216 * b3) mod 2 ^ 28 /\
  Z.land (Z.lor (Z.lor (Z.lor (Z.lor 0 (shr (shl32 b0 0) 4)) (shr (shl32 b1 8) 4)) (shr (shl32 b2 16) 4)) (shr (shl32 b3 24) 4)) bot28
    = (b0 + 256 * b1 + 65536 * b2 + 16777216 * b3) / 16.
Proof.
  intros B0 B1 B2 B3. unfold byte in *. unfold shr, shl32.
  change bot28 with (Z.ones 28). rewrite !Z.land_ones, !Z.shiftr_div_pow2, !Z.shiftl_mul_pow2, !Z.lor_0_l by lia.
  unfold M32. rewrite !(Z.mod_small (_ * _) 4294967296) by lia. change (2 ^ 0) with 1. rewrite !Z.mul_1_r, !Z.div_1_r.
  replace (b1 * 2 ^ 8 / 2 ^ 4) with (b1 * 2 ^ 4) by (change (2 ^ 8) with (2 ^ 4 * 2 ^ 4); rewrite Z.mul_assoc, Z.div_mul by lia; reflexivity).
  replace (b2 * 2 ^ 16 / 2 ^ 4) with (b2 * 2 ^ 12) by (change (2 ^ 16) with (2 ^ 12 * 2 ^ 4); rewrite Z.mul_assoc, Z.div_mul by lia; reflexivity).
  replace (b3 * 2 ^ 24 / 2 ^ 4) with (b3 * 2 ^ 20) by (change (2 ^ 24) with (2 ^ 20 * 2 ^ 4); rewrite Z.mul_assoc, Z.div_mul by lia; reflexivity).
  assert (D : 0 <= b0 / 2 ^ 4 < 16) by (Z.to_euclidean_division_equations; lia).
  rewrite (lor_sum b0 b1 8), (lor_sum (b0 / 2 ^ 4) b1 4), (lor_sum (_ + _) b2 16), (lor_sum (_ + _) b2 12), (lor_sum (_ + _ + _) b3 24), (lor_sum (_ + _ + _) b3 20) by lia.
  split; [f_equal; ring|]. rewrite Z.mod_small by lia. Z.to_euclidean_division_equations. lia.
Qed.
Lemma get28_ok buf : bytes buf -> let v := be_val buf in
  (fst (get28 buf 0) = v mod 2 ^ 28 /\ be_val (snd (get28 buf 0)) = v / 2 ^ 24 /\ bytes (snd (get28 buf 0))) /\
  (fst (get28 buf 4) = v / 2 ^ 4 mod 2 ^ 28 /\ be_val (snd (get28 buf 4)) = v / 2 ^ 32 /\ bytes (snd (get28 buf 4))).
Proof.
  intros B v. rewrite !get28_unfold. cbv zeta. cbn [fst snd]. change (0 =? 4) with false. change (4 =? 4) with true. cbv iota.
  destruct (next_drop buf B) as (N0 & D0 & B0). destruct (next_drop _ B0) as (N1 & D1 & B1). destruct (next_drop _ B1) as (N2 & D2 & B2). destruct (next_drop _ B2) as (N3 & D3 & B3).
  fold v in N0, D0. rewrite D0 in N1, D1. rewrite D1 in N2, D2. rewrite D2 in N3, D3. rewrite D2, D3.
  assert (W := get28_words (v mod 256) (v / 256 mod 256) (v / 256 / 256 mod 256) (v / 256 / 256 / 256 mod 256)
    (Z.mod_pos_bound _ 256 eq_refl) (Z.mod_pos_bound _ 256 eq_refl) (Z.mod_pos_bound _ 256 eq_refl) (Z.mod_pos_bound _ 256 eq_refl)).
  rewrite N0, N1, N2, N3. destruct W as [W0 W4]. rewrite W0, W4. clear W0 W4. clearbody v. clear - B2 B3.
  repeat split; try assumption; clear; Z.to_euclidean_division_equations; lia.
Qed.

Lemma bytes_to_be x : bytes (to_be_bytes x).
Proof. unfold to_be_bytes. apply be_bytes_bytes. Qed.
Lemma from_bigint_8 n : 0 <= n -> limbs_below (2 ^ 28) (p224_from_bigint n) /\ val28 (p224_from_bigint n) = n mod 2 ^ 224.
Proof.
  intros N. unfold p224_from_bigint. assert (B := bytes_to_be n). assert (V := be_val_to_be_bytes n N). set (b := to_be_bytes n) in *. clearbody b.
  destruct (get28_ok b B) as [(F0 & V0 & B0) _]. destruct (get28 b 0) as [o0 b0]. cbn [fst snd] in *. rewrite V in *. clear b B V.
  destruct (get28_ok b0 B0) as [_ (F1 & V1 & B1)]. destruct (get28 b0 4) as [o1 b1]. cbn [fst snd] in *. rewrite V0 in *. clear b0 B0 V0.
  destruct (get28_ok b1 B1) as [(F2 & V2 & B2) _]. destruct (get28 b1 0) as [o2 b2]. cbn [fst snd] in *. rewrite V1 in *. clear b1 B1 V1.
  destruct (get28_ok b2 B2) as [_ (F3 & V3 & B3)]. destruct (get28 b2 4) as [o3 b3]. cbn [fst snd] in *. rewrite V2 in *. clear b2 B2 V2.
  destruct (get28_ok b3 B3) as [(F4 & V4 & B4) _]. destruct (get28 b3 0) as [o4 b4]. cbn [fst snd] in *. rewrite V3 in *. clear b3 B3 V3.
  destruct (get28_ok b4 B4) as [_ (F5 & V5 & B5)]. destruct (get28 b4 4) as [o5 b5]. cbn [fst snd] in *. rewrite V4 in *. clear b4 B4 V4.
  destruct (get28_ok b5 B5) as [(F6 & V6 & B6) _]. destruct (get28 b5 0) as [o6 b6]. cbn [fst snd] in *. rewrite V5 in *. clear b5 B5 V5.
  destruct (get28_ok b6 B6) as [_ (F7 & _ & _)]. destruct (get28 b6 4) as [o7 b7]. cbn [fst snd] in *. rewrite V6 in *. clear b6 B6 V6.
  rewrite !Z.div_div in F1, F2, F3, F4, F5, F6, F7 by first [reflexivity|discriminate]. subst.
  split.
  - split; [reflexivity|]. repeat (apply Forall_cons; [apply Z.mod_pos_bound; reflexivity|]). constructor.
  - cbn [val28].
    change (2 ^ 24 * 2 ^ 4) with (2 ^ 28). change (2 ^ 24 * 2 ^ 32) with (2 ^ 56). change (2 ^ 56 * 2 ^ 24 * 2 ^ 4) with (2 ^ 84).
    change (2 ^ 56 * 2 ^ 24 * 2 ^ 32) with (2 ^ 112). change (2 ^ 112 * 2 ^ 24 * 2 ^ 4) with (2 ^ 140). change (2 ^ 112 * 2 ^ 24 * 2 ^ 32) with (2 ^ 168).
    change (2 ^ 168 * 2 ^ 24 * 2 ^ 4) with (2 ^ 196).
    clear. Z.to_euclidean_division_equations. lia.
Qed.
