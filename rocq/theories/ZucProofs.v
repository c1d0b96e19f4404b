(** The ZUC generator of the model and the specification. *)
From Verif Require Import Base Words HashSpec HashModel WordW ZucModel ZucSpec.

Lemma mask31 x : Z.land x LFSR_MASK = x mod 2 ^ 31.
Proof. unfold LFSR_MASK. change 0x7fffffff with (Z.ones 31). apply Z.land_ones. lia. Qed.
Lemma shl32_mul x k : 0 <= k -> shl32 x k = (x * 2 ^ k) mod 2 ^ 32.
Proof. intros. unfold shl32. rewrite Z.shiftl_mul_pow2 by lia. reflexivity. Qed.

Definition c31 (x : Z) : Prop := 1 <= x <= P31.
Definition d31 (x : Z) : Prop := 0 <= x <= P31.
Lemma c_d x : c31 x -> d31 x. Proof. unfold c31, d31. lia. Qed.
Lemma P31_val : P31 = 2147483647. Proof. reflexivity. Qed.

Lemma rhl31_rot a k : d31 a -> 0 <= k <= 31 -> rhl31 a k = ROTL 31 k a.
Proof.
  intros Ha Hk. unfold rhl31. rewrite mask31, shl32_mul by lia.
  rewrite Z.shiftr_div_pow2 by lia.
  assert (W : ww 31 a) by (unfold ww, d31 in *; rewrite P31_val in *; change (2 ^ 31) with 2147483648; lia).
  rewrite (ROTL_split 32 k) by lia.
  assert (Q : ww k (a / 2 ^ (31 - k))).
  { unfold ww in *. split; [apply Z.div_pos; [lia|apply pow_pos; lia]|].
    apply Z.div_lt_upper_bound; [apply pow_pos; lia|].
    rewrite <- Z.pow_add_r by lia. replace (31 - k + k) with 31 by lia. lia. }
  rewrite (lor_add_split 32 k) by (try assumption; lia).
  unfold ROTL.
  rewrite <- (Z.mod_small ((a * 2 ^ k) mod 2 ^ 31 + a / 2 ^ (31 - k)) (2 ^ 31)) by (apply (ww_ROTL 31 k a); [lia|exact W]).
  rewrite <- (ROTL_split 32 k) by lia.
  rewrite (Zplus_mod ((a * 2 ^ k) mod 2 ^ 32)), (Zplus_mod ((a * 2 ^ k) mod 2 ^ 31)).
  f_equal. f_equal. rewrite Z.mod_mod by lia.
  change (2 ^ 32) with (2 ^ 31 * 2). rewrite Z.rem_mul_r by lia.
  rewrite Z.mul_comm with (n := 2 ^ 31), Z_mod_plus_full, Z.mod_mod by lia. reflexivity.
Qed.

Lemma eqm_intro a b k : a = b + k * P31 -> a mod P31 = b mod P31.
Proof. intros ->. apply Z_mod_plus_full. Qed.

Lemma rhl31_mod a k : d31 a -> 0 <= k <= 31 -> (rhl31 a k) mod P31 = (2 ^ k * a) mod P31.
Proof.
  intros Ha Hk. rewrite rhl31_rot by assumption. unfold ROTL.
  rewrite ROTL_split by lia.
  pose proof (pow_pos (31 - k) ltac:(lia)).
  pose proof (Z.div_mod a (2 ^ (31 - k)) ltac:(lia)) as E.
  symmetry. apply (eqm_intro _ _ (a / 2 ^ (31 - k))).
  rewrite E at 1.
  assert (2 ^ 31 = 2 ^ k * 2 ^ (31 - k)) by (rewrite <- Z.pow_add_r by lia; f_equal; lia).
  unfold P31. rewrite H0. ring.
Qed.

Lemma rhl31_range a k : d31 a -> 0 <= k <= 31 -> d31 (rhl31 a k).
Proof.
  intros Ha Hk. unfold rhl31. rewrite mask31. unfold d31. rewrite P31_val.
  match goal with |- context [?x mod 2 ^ 31] => pose proof (Z.mod_pos_bound x (2 ^ 31) ltac:(reflexivity)) end.
  change (2 ^ 31) with 2147483648 in *. lia.
Qed.

Lemma add_mod31_ok a b : d31 a -> d31 b ->
  d31 (add_mod31 a b) /\ (add_mod31 a b) mod P31 = (a + b) mod P31.
Proof.
  unfold d31. intros Ha Hb. unfold add_mod31. rewrite mask31, Z.shiftr_div_pow2 by lia.
  unfold add32, M32. rewrite P31_val in *. rewrite (Z.mod_small (a + b)) by lia.
  change (2 ^ 31) with 2147483648.
  pose proof (Z.div_mod (a + b) 2147483648 ltac:(lia)) as E.
  pose proof (Z.mod_pos_bound (a + b) 2147483648 ltac:(lia)).
  split; [lia|].
  symmetry. rewrite <- P31_val. apply (eqm_intro _ _ ((a + b) / 2147483648)). rewrite P31_val. lia.
Qed.

Lemma canon_eq x y : d31 x -> x mod P31 = y mod P31 -> (if x =? 0 then LFSR_MASK else x) = canon31 y.
Proof.
  unfold d31, canon31. intros Hx E. rewrite <- E. change LFSR_MASK with P31.
  rewrite P31_val in *. destruct (x =? 0) eqn:Z0.
  - assert (x = 0) by lia. subst. reflexivity.
  - destruct (Z.eq_dec x 2147483647) as [->|N]; [reflexivity|].
    rewrite Z.mod_small by lia. rewrite Z0. reflexivity.
Qed.
Lemma canon_range y : c31 (canon31 y).
Proof.
  unfold c31, canon31. pose proof (Z.mod_pos_bound y P31 ltac:(reflexivity)).
  rewrite P31_val in *. destruct (Z.eqb_spec (y mod 2147483647) 0); lia.
Qed.

Lemma add_eqm a b x y : d31 a -> d31 b -> a mod P31 = x mod P31 -> b mod P31 = y mod P31 ->
  d31 (add_mod31 a b) /\ (add_mod31 a b) mod P31 = (x + y) mod P31.
Proof.
  intros Ha Hb E1 E2. destruct (add_mod31_ok a b Ha Hb) as [R E]. split; [exact R|].
  rewrite E, Zplus_mod, E1, E2, <- Zplus_mod. reflexivity.
Qed.

Lemma feedback_ok l : (forall i, (i < 16)%nat -> d31 (nth i l 0)) ->
  d31 (feedback l) /\ (feedback l) mod P31 = (FEEDBACK l) mod P31.
Proof.
  intros H. unfold feedback, FEEDBACK, cell.
  pose proof (H 0%nat ltac:(lia)) as H0. pose proof (H 4%nat ltac:(lia)) as H4.
  pose proof (H 10%nat ltac:(lia)) as H10. pose proof (H 13%nat ltac:(lia)) as H13.
  pose proof (H 15%nat ltac:(lia)) as H15. clear H.
  revert H0 H4 H10 H13 H15.
  generalize (nth 0 l 0) (nth 4 l 0) (nth 10 l 0) (nth 13 l 0) (nth 15 l 0).
  intros s0 s4 s10 s13 s15 H0 H4 H10 H13 H15.
  destruct (add_eqm (rhl31 s0 8) s0 (2 ^ 8 * s0) s0) as [R1 E1];
    [apply rhl31_range; [assumption|lia]|assumption|apply rhl31_mod; [assumption|lia]|reflexivity|].
  set (v1 := add_mod31 (rhl31 s0 8) s0) in *.
  destruct (add_eqm (rhl31 s4 20) v1 (2 ^ 20 * s4) (2 ^ 8 * s0 + s0)) as [R2 E2];
    [apply rhl31_range; [assumption|lia]|assumption|apply rhl31_mod; [assumption|lia]|exact E1|].
  set (v2 := add_mod31 (rhl31 s4 20) v1) in *.
  destruct (add_eqm (rhl31 s10 21) v2 (2 ^ 21 * s10) (2 ^ 20 * s4 + (2 ^ 8 * s0 + s0))) as [R3 E3];
    [apply rhl31_range; [assumption|lia]|assumption|apply rhl31_mod; [assumption|lia]|exact E2|].
  set (v3 := add_mod31 (rhl31 s10 21) v2) in *.
  destruct (add_eqm (rhl31 s13 17) v3 (2 ^ 17 * s13) (2 ^ 21 * s10 + (2 ^ 20 * s4 + (2 ^ 8 * s0 + s0)))) as [R4 E4];
    [apply rhl31_range; [assumption|lia]|assumption|apply rhl31_mod; [assumption|lia]|exact E3|].
  set (v4 := add_mod31 (rhl31 s13 17) v3) in *.
  destruct (add_eqm (rhl31 s15 15) v4 (2 ^ 15 * s15)
              (2 ^ 17 * s13 + (2 ^ 21 * s10 + (2 ^ 20 * s4 + (2 ^ 8 * s0 + s0))))) as [R5 E5];
    [apply rhl31_range; [assumption|lia]|assumption|apply rhl31_mod; [assumption|lia]|exact E4|].
  split; [exact R5|]. rewrite E5. f_equal. ring.
Qed.

(** ** Relation between the states *)
Definition zrel (z : zuc) (st : zstate) : Prop :=
  length (z_lfsr z) = 17%nat /\ firstn 16 (z_lfsr z) = S_cells st /\ z_r1 z = S_R1 st /\ z_r2 z = S_R2 st /\
  Forall c31 (S_cells st) /\ ww 32 (S_R1 st) /\ ww 32 (S_R2 st).

Lemma zrel_nth z st i : zrel z st -> (i < 16)%nat -> nth i (z_lfsr z) 0 = cell (S_cells st) i.
Proof. intros (L & E & _) Hi. unfold cell. rewrite <- E. symmetry. apply nth_firstn. exact Hi. Qed.
Lemma zrel_len z st : zrel z st -> length (S_cells st) = 16%nat.
Proof. intros (L & E & _). rewrite <- E, firstn_length, L. reflexivity. Qed.
Lemma zrel_c31 z st i : zrel z st -> (i < 16)%nat -> c31 (cell (S_cells st) i).
Proof.
  intros R Hi. pose proof (zrel_len _ _ R). destruct R as (_ & _ & _ & _ & F & _).
  rewrite Forall_forall in F. apply F. apply nth_In. lia.
Qed.

Lemma shift_cells_17 a0 a1 a2 a3 a4 a5 a6 a7 a8 a9 a10 a11 a12 a13 a14 a15 a16 v :
  shift_cells (upd [a0;a1;a2;a3;a4;a5;a6;a7;a8;a9;a10;a11;a12;a13;a14;a15;a16] 16 v) =
  [a1;a2;a3;a4;a5;a6;a7;a8;a9;a10;a11;a12;a13;a14;a15;v;v].
Proof. reflexivity. Qed.
Lemma list17 (l : list Z) : length l = 17%nat ->
  exists a0 a1 a2 a3 a4 a5 a6 a7 a8 a9 a10 a11 a12 a13 a14 a15 a16,
    l = [a0;a1;a2;a3;a4;a5;a6;a7;a8;a9;a10;a11;a12;a13;a14;a15;a16].
Proof.
  intros H. do 17 (destruct l as [|? l]; [discriminate H|]). destruct l; [|discriminate H].
  repeat eexists.
Qed.
Lemma shift_ok l s v : length l = 17%nat -> firstn 16 l = s ->
  length (shift_cells (upd l 16 v)) = 17%nat /\ firstn 16 (shift_cells (upd l 16 v)) = tl s ++ [v].
Proof.
  intros H <-. destruct (list17 l H) as (a0&a1&a2&a3&a4&a5&a6&a7&a8&a9&a10&a11&a12&a13&a14&a15&a16&->).
  rewrite shift_cells_17. split; reflexivity.
Qed.
(** The shift also overwrites the buffer cell. *)
Lemma shift_pure l l' v : length l = 17%nat -> length l' = 17%nat -> firstn 16 l = firstn 16 l' ->
  shift_cells (upd l 16 v) = shift_cells (upd l' 16 v).
Proof.
  intros H H' E. destruct (list17 l H) as (a0&a1&a2&a3&a4&a5&a6&a7&a8&a9&a10&a11&a12&a13&a14&a15&a16&->).
  destruct (list17 l' H') as (b0&b1&b2&b3&b4&b5&b6&b7&b8&b9&b10&b11&b12&b13&b14&b15&b16&->).
  cbn [firstn] in E. rewrite !shift_cells_17. congruence.
Qed.

Lemma feedback_first l l' : firstn 16 l = firstn 16 l' -> feedback l = feedback l'.
Proof.
  intros E. unfold feedback.
  rewrite <- !(nth_firstn l 16) by lia. rewrite E. rewrite !(nth_firstn l' 16) by lia. reflexivity.
Qed.

Lemma FEEDBACK_cells l s : firstn 16 l = s -> FEEDBACK l = FEEDBACK s.
Proof.
  intros <-. unfold FEEDBACK, cell. rewrite !(nth_firstn l 16) by lia. reflexivity.
Qed.

Lemma tl_c31 s v : Forall c31 s -> c31 v -> Forall c31 (tl s ++ [v]).
Proof.
  intros F V. apply Forall_app. split; [|constructor; [exact V|constructor]].
  destruct s; [constructor|]. cbn. apply Forall_cons_iff in F. tauto.
Qed.

(** The cells part of the two LFSR modes. *)
Lemma lfsr_work_ok z st : zrel z st ->
  let z' := lfsr_with_work_mode z in
  length (z_lfsr z') = 17%nat /\ firstn 16 (z_lfsr z') = LFSR 0 (S_cells st).
Proof.
  intros R. cbn zeta. unfold lfsr_with_work_mode. cbn [z_lfsr].
  destruct (feedback_ok (z_lfsr z)) as [D E].
  { intros i Hi. rewrite (zrel_nth _ _ _ R Hi). apply c_d, (zrel_c31 _ _ _ R Hi). }
  destruct (shift_ok (z_lfsr z) (S_cells st)
    (if feedback (z_lfsr z) =? 0 then LFSR_MASK else feedback (z_lfsr z)) ltac:(apply R) ltac:(apply R)) as [L F].
  split; [exact L|]. rewrite F. unfold LFSR. do 2 f_equal.
  apply canon_eq; [exact D|]. rewrite E. f_equal. rewrite Z.add_0_r. apply FEEDBACK_cells, R.
Qed.
Lemma lfsr_init_ok z st u : zrel z st -> d31 u ->
  let z' := lfsr_with_initial_mode u z in
  length (z_lfsr z') = 17%nat /\ firstn 16 (z_lfsr z') = LFSR u (S_cells st).
Proof.
  intros R U. cbn zeta. unfold lfsr_with_initial_mode. cbn [z_lfsr].
  destruct (feedback_ok (z_lfsr z)) as [D E].
  { intros i Hi. rewrite (zrel_nth _ _ _ R Hi). apply c_d, (zrel_c31 _ _ _ R Hi). }
  destruct (add_eqm u (feedback (z_lfsr z)) u (FEEDBACK (S_cells st)) U D eq_refl) as [D' E'].
  { rewrite E. f_equal. apply FEEDBACK_cells, R. }
  destruct (shift_ok (z_lfsr z) (S_cells st)
    (if add_mod31 u (feedback (z_lfsr z)) =? 0 then LFSR_MASK else add_mod31 u (feedback (z_lfsr z)))
    ltac:(apply R) ltac:(apply R)) as [L F].
  split; [exact L|]. rewrite F. unfold LFSR. do 2 f_equal.
  apply canon_eq; [exact D'|]. rewrite E'. f_equal. ring.
Qed.

(** ** Bit reorganisation *)
Lemma lor_shift16 h l : 0 <= h -> ww 16 l -> Z.lor (h * 2 ^ 16) l = join16 h l.
Proof. intros. rewrite (lor_add_split 16 16) by (try assumption; lia). unfold join16. ring. Qed.

Lemma shl32_16 x : 0 <= x -> shl32 x 16 = (x mod 2 ^ 16) * 2 ^ 16.
Proof. intros. rewrite shl32_mul by lia. apply (ROTL_split 32 16). lia. Qed.

Lemma mod16_ww x : ww 16 (x mod 2 ^ 16).
Proof. unfold ww. apply Z.mod_pos_bound. reflexivity. Qed.

Lemma join_lo x y : c31 x -> c31 y ->
  Z.lor (Z.shiftr x 15) (shl32 y 16) = join16 (y mod 2 ^ 16) (x / 2 ^ 15).
Proof.
  unfold c31. rewrite P31_val. intros Hx Hy. rewrite Z.lor_comm, shl32_16 by lia.
  rewrite Z.shiftr_div_pow2 by lia. apply lor_shift16.
  - apply Z.mod_pos_bound. reflexivity.
  - unfold ww. change (2 ^ 15) with 32768. change (2 ^ 16) with 65536.
    split; [apply Z.div_pos; lia|apply Z.div_lt_upper_bound; lia].
Qed.

Lemma land_high x : c31 x -> Z.land x 0x7fff8000 = (x / 2 ^ 15) * 2 ^ 15.
Proof.
  unfold c31. rewrite P31_val. intros Hx.
  rewrite <- Z.shiftr_div_pow2, <- Z.shiftl_mul_pow2 by lia.
  apply Z.bits_inj'. intros n Hn. rewrite Z.land_spec.
  change 0x7fff8000 with (Z.shiftl (Z.ones 16) 15).
  destruct (Z.ltb_spec n 15).
  - rewrite !(Z.shiftl_spec_low) by lia. apply Bool.andb_false_r.
  - rewrite !Z.shiftl_spec, Z.shiftr_spec by lia. replace (n - 15 + 15) with n by lia.
    destruct (Z.ltb_spec n 31).
    + rewrite Z.ones_spec_low by lia. apply Bool.andb_true_r.
    + rewrite (ww_high 31 x n); [reflexivity|lia|unfold ww; change (2^31) with 2147483648; lia|lia].
Qed.

Lemma join_hi x y : c31 x -> c31 y ->
  Z.lor (shl32 (Z.land x 0x7fff8000) 1) (Z.land y 0xffff) = join16 (x / 2 ^ 15) (y mod 2 ^ 16).
Proof.
  intros Hx Hy. rewrite land_high by assumption.
  change 0xffff with (Z.ones 16). rewrite Z.land_ones by lia.
  rewrite shl32_mul by lia. rewrite <- Z.mul_assoc. change (2 ^ 15 * 2 ^ 1) with (2 ^ 16).
  assert (0 <= x / 2 ^ 15 < 2 ^ 16).
  { unfold c31 in Hx. rewrite P31_val in Hx. change (2 ^ 15) with 32768. change (2 ^ 16) with 65536.
    split; [apply Z.div_pos; lia|apply Z.div_lt_upper_bound; lia]. }
  rewrite Z.mod_small by (change (2^32) with (2 ^ 16 * 2 ^ 16); nia).
  apply lor_shift16; [lia|apply mod16_ww].
Qed.

Lemma bits_ok z st : zrel z st ->
  bit_x0 (z_lfsr z) = X0 (S_cells st) /\ bit_x1 (z_lfsr z) = X1 (S_cells st) /\
  bit_x2 (z_lfsr z) = X2 (S_cells st) /\ bit_x3 (z_lfsr z) = X3 (S_cells st).
Proof.
  intros R. unfold bit_x0, bit_x1, bit_x2, bit_x3, X0, X1, X2, X3, cH, cL.
  rewrite !(zrel_nth _ _ _ R) by lia.
  rewrite join_hi by (apply (zrel_c31 _ _ _ R); lia).
  rewrite !join_lo by (apply (zrel_c31 _ _ _ R); lia).
  auto.
Qed.

Lemma join_ww h l : ww 16 h -> ww 16 l -> ww 32 (join16 h l).
Proof. unfold ww, join16. change (2 ^ 16) with 65536. change (2 ^ 32) with 4294967296. lia. Qed.
Lemma cH_ww s i : c31 (cell s i) -> ww 16 (cH s i).
Proof.
  unfold c31, cH, ww. rewrite P31_val. intros. change (2 ^ 15) with 32768. change (2 ^ 16) with 65536.
  split; [apply Z.div_pos; lia|apply Z.div_lt_upper_bound; lia].
Qed.
Lemma X_ww z st : zrel z st -> ww 32 (X0 (S_cells st)) /\ ww 32 (X1 (S_cells st)) /\ ww 32 (X2 (S_cells st)) /\ ww 32 (X3 (S_cells st)).
Proof.
  intros R. unfold X0, X1, X2, X3.
  repeat split; apply join_ww; try (apply mod16_ww); apply cH_ww, (zrel_c31 _ _ _ R); lia.
Qed.

(** ** The nonlinear function *)
Lemma sboxes : forall b, byte b -> (tbl S_0 b =? ZS0 b) && (tbl S_1 b =? ZS1 b) && byteb (ZS0 b) && byteb (ZS1 b) = true.
Proof. apply (forall_byte (fun b => (tbl S_0 b =? ZS0 b) && (tbl S_1 b =? ZS1 b) && byteb (ZS0 b) && byteb (ZS1 b))). vm_compute. reflexivity. Qed.
Lemma S0_eq b : byte b -> tbl S_0 b = ZS0 b /\ byte (ZS0 b).
Proof. intros H. pose proof (sboxes b H). rewrite <- byteb_spec. lia. Qed.
Lemma S1_eq b : byte b -> tbl S_1 b = ZS1 b /\ byte (ZS1 b).
Proof. intros H. pose proof (sboxes b H). rewrite <- byteb_spec. lia. Qed.

Lemma be_bytes4 x : be_bytes 4 x = [x / 2 ^ 24 mod 256; x / 2 ^ 16 mod 256; x / 2 ^ 8 mod 256; x mod 256].
Proof.
  unfold be_bytes. cbn [le_bytes rev app].
  rewrite !Z.div_div by lia. reflexivity.
Qed.

Lemma mod256_byte x : byte (x mod 256).
Proof. unfold byte. apply Z.mod_pos_bound. lia. Qed.

Lemma zsbox_ok x : ww 32 x -> zsbox x = SBOX x /\ ww 32 (SBOX x).
Proof.
  intros Hx. unfold zsbox, SBOX. rewrite be_bytes4. cbn [nth].
  assert (T : x / 2 ^ 24 mod 256 = x / 2 ^ 24).
  { apply Z.mod_small. unfold ww in Hx. change (2 ^ 24) with 16777216. change (2 ^ 32) with 4294967296 in Hx.
    split; [apply Z.div_pos; lia|apply Z.div_lt_upper_bound; lia]. }
  rewrite T. assert (B : byte (x / 2 ^ 24)) by (rewrite <- T; apply mod256_byte).
  destruct (S0_eq _ B) as [-> B0]. destruct (S1_eq _ (mod256_byte (x / 2 ^ 16))) as [-> B1].
  destruct (S0_eq _ (mod256_byte (x / 2 ^ 8))) as [-> B2]. destruct (S1_eq _ (mod256_byte x)) as [-> B3].
  rewrite be_val4.
  revert B0 B1 B2 B3. generalize (ZS0 (x / 2 ^ 24)) (ZS1 (x / 2 ^ 16 mod 256)) (ZS0 (x / 2 ^ 8 mod 256)) (ZS1 (x mod 256)).
  clear. unfold byte, ww. intros a b c d. change (2 ^ 24) with 16777216. change (2 ^ 16) with 65536. change (2 ^ 8) with 256.
  change (2 ^ 32) with 4294967296. lia.
Qed.

Lemma zl1_ok x : ww 32 x -> zl1 x = ZL1 x /\ ww 32 (ZL1 x).
Proof.
  intros W. unfold zl1, ZL1, XORs. rewrite !rotl32_ROTL by (try assumption; lia).
  cbn [fold_left]. rewrite Z.lxor_0_l. split; [reflexivity|].
  repeat apply ww_lxor; try assumption; try lia; apply ww_ROTL; try assumption; lia.
Qed.
Lemma zl2_ok x : ww 32 x -> zl2 x = ZL2 x /\ ww 32 (ZL2 x).
Proof.
  intros W. unfold zl2, ZL2, XORs. rewrite !rotl32_ROTL by (try assumption; lia).
  cbn [fold_left]. rewrite Z.lxor_0_l. split; [reflexivity|].
  repeat apply ww_lxor; try assumption; try lia; apply ww_ROTL; try assumption; lia.
Qed.

Lemma wH_ww x : ww 32 x -> ww 16 (wH x).
Proof.
  unfold ww, wH. change (2 ^ 32) with (65536 * 65536). change (2 ^ 16) with 65536. intros.
  split; [apply Z.div_pos; lia|apply Z.div_lt_upper_bound; lia].
Qed.
Lemma halves a b : ww 32 a -> ww 32 b -> Z.lor (shl32 a 16) (Z.shiftr b 16) = join16 (wL a) (wH b).
Proof.
  intros Ha Hb. rewrite shl32_16 by apply Ha. rewrite Z.shiftr_div_pow2 by lia.
  apply lor_shift16; [apply Z.mod_pos_bound; reflexivity|apply wH_ww, Hb].
Qed.

Lemma non_linear_ok z st : zrel z st ->
  let l := z_lfsr z in
  let '(z', w) := non_linear_f z (bit_x0 l) (bit_x1 l) (bit_x2 l) in
  w = F_W st /\ ww 32 w /\ zrel z' (mkZ (S_cells st) (F_R1 st) (F_R2 st)).
Proof.
  intros R. cbn zeta. destruct (bits_ok z st R) as (-> & -> & -> & _). destruct (X_ww z st R) as (W0 & W1 & W2 & _).
  unfold non_linear_f. pose proof R as (L & E & E1 & E2 & F & V1 & V2). rewrite E1, E2.
  change add32 with (ADD 32).
  split; [reflexivity|]. split; [apply ww_ADD; lia|].
  assert (A1 : ww 32 (ADD 32 (S_R1 st) (X1 (S_cells st)))) by (apply ww_ADD; lia).
  assert (A2 : ww 32 (Z.lxor (S_R2 st) (X2 (S_cells st)))) by (apply ww_lxor; try assumption; lia).
  rewrite !halves by assumption.
  assert (J1 : ww 32 (join16 (wL (ADD 32 (S_R1 st) (X1 (S_cells st)))) (wH (Z.lxor (S_R2 st) (X2 (S_cells st))))))
    by (apply join_ww; [apply mod16_ww|apply wH_ww; assumption]).
  assert (J2 : ww 32 (join16 (wL (Z.lxor (S_R2 st) (X2 (S_cells st)))) (wH (ADD 32 (S_R1 st) (X1 (S_cells st))))))
    by (apply join_ww; [apply mod16_ww|apply wH_ww; assumption]).
  destruct (zl1_ok _ J1) as [-> K1]. destruct (zl2_ok _ J2) as [-> K2].
  destruct (zsbox_ok _ K1) as [-> Q1]. destruct (zsbox_ok _ K2) as [-> Q2].
  unfold zrel. cbn [z_lfsr z_r1 z_r2 S_cells S_R1 S_R2]. unfold F_R1, F_R2. tauto.
Qed.

Lemma work_rel z st : zrel z st ->
  zrel (lfsr_with_work_mode z) (mkZ (LFSR 0 (S_cells st)) (S_R1 st) (S_R2 st)).
Proof.
  intros R. destruct (lfsr_work_ok z st R) as [L E]. pose proof R as (_ & _ & E1 & E2 & F & V1 & V2).
  unfold zrel. cbn [S_cells S_R1 S_R2].
  refine (conj L (conj E (conj E1 (conj E2 (conj _ (conj V1 V2)))))).
  unfold LFSR. apply tl_c31; [exact F|apply canon_range].
Qed.
Lemma init_rel z st u : zrel z st -> d31 u ->
  zrel (lfsr_with_initial_mode u z) (mkZ (LFSR u (S_cells st)) (S_R1 st) (S_R2 st)).
Proof.
  intros R U. destruct (lfsr_init_ok z st u R U) as [L E]. pose proof R as (_ & _ & E1 & E2 & F & V1 & V2).
  unfold zrel. cbn [S_cells S_R1 S_R2].
  refine (conj L (conj E (conj E1 (conj E2 (conj _ (conj V1 V2)))))).
  unfold LFSR. apply tl_c31; [exact F|apply canon_range].
Qed.

Lemma work_rel' z c r1 r2 : zrel z (mkZ c r1 r2) -> zrel (lfsr_with_work_mode z) (mkZ (LFSR 0 c) r1 r2).
Proof. exact (work_rel z (mkZ c r1 r2)). Qed.
Lemma init_rel' z c r1 r2 u : zrel z (mkZ c r1 r2) -> d31 u -> zrel (lfsr_with_initial_mode u z) (mkZ (LFSR u c) r1 r2).
Proof. exact (init_rel z (mkZ c r1 r2) u). Qed.
Lemma half_d31 w : ww 32 w -> d31 (Z.shiftr w 1) /\ Z.shiftr w 1 = w / 2.
Proof.
  intros W. rewrite Z.shiftr_div_pow2 by lia. change (2 ^ 1) with 2. split; [|reflexivity].
  unfold ww in W. unfold d31. rewrite P31_val. change (2 ^ 32) with 4294967296 in W.
  split; [apply Z.div_pos; lia|]. apply Z.lt_succ_r. apply Z.div_lt_upper_bound; lia.
Qed.
Lemma init_round_eq z : let p := non_linear_f z (bit_x0 (z_lfsr z)) (bit_x1 (z_lfsr z)) (bit_x2 (z_lfsr z)) in
  init_round z = lfsr_with_initial_mode (Z.shiftr (snd p) 1) (fst p).
Proof. unfold init_round. cbn zeta. destruct (non_linear_f z _ _ _). reflexivity. Qed.
Lemma non_linear_ok' z st : zrel z st ->
  let p := non_linear_f z (bit_x0 (z_lfsr z)) (bit_x1 (z_lfsr z)) (bit_x2 (z_lfsr z)) in
  snd p = F_W st /\ ww 32 (snd p) /\ zrel (fst p) (mkZ (S_cells st) (F_R1 st) (F_R2 st)).
Proof. intros R. pose proof (non_linear_ok z st R) as N. cbn zeta in *. destruct (non_linear_f z _ _ _). exact N. Qed.
Lemma init_round_ok z st : zrel z st -> zrel (init_round z) (init_clock st).
Proof.
  intros R. rewrite init_round_eq. pose proof (non_linear_ok' z st R) as N. cbn zeta in *.
  set (p := non_linear_f z _ _ _) in *. clearbody p. destruct N as (E & W & R').
  destruct (half_d31 _ W) as [D H].
  pose proof (init_rel' (fst p) _ _ _ (Z.shiftr (snd p) 1) R' D) as N.
  rewrite H, E in *. unfold init_clock, clock. exact N.
Qed.
Lemma next_ok z st : zrel z st ->
  zrel (fst (zuc_next z)) (clock 0 st) /\ snd (zuc_next z) = Z.lxor (F_W st) (X3 (S_cells st)) /\ ww 32 (snd (zuc_next z)).
Proof.
  intros R. unfold zuc_next. cbn zeta. pose proof (non_linear_ok z st R) as N. cbn zeta in N.
  destruct (bits_ok z st R) as (_ & _ & _ & B3). destruct (X_ww z st R) as (_ & _ & _ & W3).
  destruct (non_linear_f z _ _ _) as [z' w]. destruct N as (-> & W & R'). cbn [fst snd].
  rewrite B3. split; [exact (work_rel' _ _ _ _ R')|]. split; [reflexivity|]. apply ww_lxor; try assumption; lia.
Qed.

Lemma iter_init n : forall z st, zrel z st -> zrel (Nat.iter n init_round z) (Nat.iter n init_clock st).
Proof. induction n as [|n IH]; intros z st R; [exact R|]. cbn [Nat.iter nat_rect]. apply init_round_ok. apply IH, R. Qed.

Lemma first_step_ok z st : zrel z st ->
  zrel (init_and_first_step z) (clock 0 (Nat.iter 32 init_clock st)).
Proof.
  intros R. unfold init_and_first_step. cbn zeta. pose proof (iter_init 32 z st R) as R32.
  set (z32 := Nat.iter 32 init_round z) in *. set (s32 := Nat.iter 32 init_clock st) in *.
  pose proof (non_linear_ok z32 s32 R32) as N. cbn zeta in N.
  destruct (non_linear_f z32 _ _ _) as [z' w]. destruct N as (_ & _ & R'). exact (work_rel' _ _ _ _ R').
Qed.

(** ** Loading *)
Lemma cell_load k d v : byte k -> 0 <= d < 32768 -> byte v ->
  Z.lor (Z.lor (shl32 k 23) (shl32 (Z.land d 0x7fff) 8)) v = 2 ^ 23 * k + 2 ^ 8 * d + v.
Proof.
  unfold byte. intros Hk Hd Hv. change 0x7fff with (Z.ones 15). rewrite Z.land_ones by lia.
  change (2 ^ 15) with 32768. rewrite (Z.mod_small d) by lia.
  rewrite !shl32_mul by lia.
  rewrite (Z.mod_small (k * 2 ^ 23)) by (change (2 ^ 23) with 8388608; change (2 ^ 32) with 4294967296; lia).
  rewrite (Z.mod_small (d * 2 ^ 8)) by (change (2 ^ 8) with 256; change (2 ^ 32) with 4294967296; lia).
  rewrite (lor_add_split 31 23) by (try (unfold ww; change (2 ^ 8) with 256; change (2 ^ 23) with 8388608); lia).
  replace (k * 2 ^ 23 + d * 2 ^ 8) with ((k * 2 ^ 15 + d) * 2 ^ 8) by (change (2 ^ 23) with (2 ^ 15 * 2 ^ 8); ring).
  rewrite (lor_add_split 31 8) by (try (unfold ww; change (2 ^ 8) with 256); lia).
  change (2 ^ 23) with (2 ^ 15 * 2 ^ 8). ring.
Qed.

Lemma lfs4_ok kd : forall key iv, length key = length kd -> length iv = length kd -> bytes key -> bytes iv ->
  Forall (fun d => 0 <= d < 32768) kd ->
  lfs4_cells kd key iv = map (fun i => 2 ^ 23 * nth i key 0 + 2 ^ 8 * nth i kd 0 + nth i iv 0) (seq 0 (length kd)).
Proof.
  induction kd as [|d kd IH]; intros [|k key] [|v iv] L1 L2 B1 B2 F; try discriminate; [reflexivity|].
  apply Forall_cons_iff in B1 as [K B1]. apply Forall_cons_iff in B2 as [V B2]. apply Forall_cons_iff in F as [D F].
  cbn [lfs4_cells length]. rewrite <- cons_seq. rewrite <- seq_shift, map_cons, map_map.
  cbn [nth]. rewrite cell_load by assumption. f_equal.
  apply IH; auto.
Qed.

Lemma KD_bound : Forall (fun d => 0 < d < 32768) KD.
Proof. unfold KD. repeat constructor. Qed.

Lemma load_ok l key iv : length l = 17%nat -> length key = 16%nat -> length iv = 16%nat -> bytes key -> bytes iv ->
  zrel (mkZuc (generate_lfs4 l key iv) 0 0) (key_load key iv).
Proof.
  intros Ll Lk Lv Bk Bv.
  assert (E : lfs4_cells KD key iv = S_cells (key_load key iv)).
  { rewrite lfs4_ok; try assumption; [reflexivity|].
    eapply Forall_impl; [|apply KD_bound]. cbn. lia. }
  unfold zrel. cbn [z_lfsr z_r1 z_r2]. unfold generate_lfs4. cbn zeta. rewrite E.
  assert (LC : length (S_cells (key_load key iv)) = 16%nat) by reflexivity.
  rewrite LC. rewrite app_length, skipn_length, LC, Ll.
  repeat split; try (cbn; lia).
  unfold key_load. cbn [S_cells]. apply Forall_forall. intros x Hx. apply in_map_iff in Hx as (i & <- & Hi).
    apply in_seq in Hi.
    assert (byte (nth i key 0)) by (unfold bytes in Bk; rewrite Forall_forall in Bk; apply Bk, nth_In; lia).
    assert (byte (nth i iv 0)) by (unfold bytes in Bv; rewrite Forall_forall in Bv; apply Bv, nth_In; lia).
    assert (0 < nth i ZD 0 < 32768) by (pose proof KD_bound as F; change KD with ZD in F; rewrite Forall_forall in F; apply F, nth_In; cbn; lia).
    unfold byte, c31 in *. rewrite P31_val. change (2 ^ 23) with 8388608. change (2 ^ 8) with 256. lia.
Qed.

Lemma from_slice_ok key iv : length key = 16%nat -> length iv = 16%nat -> bytes key -> bytes iv ->
  exists z, zuc_from_slice key iv = Ok z /\ zrel z (start key iv).
Proof.
  intros Lk Lv Bk Bv. unfold zuc_from_slice. rewrite Lk, Lv. cbn [Nat.eqb negb orb].
  eexists. split; [reflexivity|]. unfold start. apply first_step_ok. apply load_ok; try assumption. reflexivity.
Qed.
Lemma from_slice_bad key iv : length key <> 16%nat \/ length iv <> 16%nat -> zuc_from_slice key iv = Err InvalidParameter.
Proof.
  intros H. unfold zuc_from_slice.
  destruct (Nat.eqb_spec (length key) 16), (Nat.eqb_spec (length iv) 16); try reflexivity. lia.
Qed.
Lemma set_slice_bad z key iv : length key <> 16%nat \/ length iv <> 16%nat -> zuc_set_slice z key iv = Err InvalidParameter.
Proof.
  intros H. unfold zuc_set_slice.
  destruct (Nat.eqb_spec (length key) 16), (Nat.eqb_spec (length iv) 16); try reflexivity. lia.
Qed.

(** Re-keying equals a fresh object: the old buffer cell is overwritten by the first round. *)
Lemma bit_first l l' : firstn 16 l = firstn 16 l' ->
  bit_x0 l = bit_x0 l' /\ bit_x1 l = bit_x1 l' /\ bit_x2 l = bit_x2 l' /\ bit_x3 l = bit_x3 l'.
Proof.
  intros E. unfold bit_x0, bit_x1, bit_x2, bit_x3.
  rewrite <- !(nth_firstn l 16) by lia. rewrite E. rewrite !(nth_firstn l' 16) by lia. auto.
Qed.
Lemma init_round_pure l l' a b : length l = 17%nat -> length l' = 17%nat -> firstn 16 l = firstn 16 l' ->
  init_round (mkZuc l a b) = init_round (mkZuc l' a b).
Proof.
  intros H H' E. unfold init_round. cbn [z_lfsr]. destruct (bit_first l l' E) as (-> & -> & -> & _).
  unfold non_linear_f, lfsr_with_initial_mode. cbn [z_lfsr z_r1 z_r2].
  rewrite (feedback_first l l' E). f_equal. apply shift_pure; assumption.
Qed.
Lemma iter_succ_r {A} n (f : A -> A) x : Nat.iter (S n) f x = Nat.iter n f (f x).
Proof. induction n as [|n IH]; [reflexivity|]. cbn [Nat.iter nat_rect] in *. f_equal. exact IH. Qed.
Lemma set_slice_fresh z key iv : length (z_lfsr z) = 17%nat -> zuc_set_slice z key iv = zuc_from_slice key iv.
Proof.
  intros H. unfold zuc_set_slice, zuc_from_slice.
  destruct (Nat.eqb_spec (length key) 16) as [Lk|], (Nat.eqb_spec (length iv) 16) as [Lv|]; cbn [negb orb]; [|reflexivity..].
  apply (f_equal Ok). unfold key_schedule.
  assert (LC : length (lfs4_cells KD key iv) = 16%nat).
  { do 16 (destruct key as [|? key]; [discriminate Lk|]). do 16 (destruct iv as [|? iv]; [discriminate Lv|]). reflexivity. }
  unfold init_and_first_step. cbn zeta.
  change 32%nat with (S 31). rewrite !iter_succ_r.
  rewrite (init_round_pure (generate_lfs4 (z_lfsr z) key iv) (generate_lfs4 (repeat 0 17) key iv)); [reflexivity|..].
  - unfold generate_lfs4. rewrite app_length, skipn_length, LC, H. reflexivity.
  - unfold generate_lfs4. rewrite app_length, skipn_length, LC. reflexivity.
  - unfold generate_lfs4. cbn zeta. rewrite !firstn_app, LC, Nat.sub_diag, !firstn_O. reflexivity.
Qed.

(** ** The keystream *)
Lemma zstate_S key iv i : zstate_at key iv (S i) = clock 0 (zstate_at key iv i).
Proof. reflexivity. Qed.
Lemma next_at z key iv i : zrel z (zstate_at key iv i) ->
  exists z', zuc_next z = (z', Zword key iv i) /\ zrel z' (zstate_at key iv (S i)) /\ ww 32 (Zword key iv i).
Proof.
  intros R. destruct (next_ok _ _ R) as (A & B & C). destruct (zuc_next z) as [z' w]. cbn [fst snd] in *.
  exists z'. split; [f_equal; exact B|]. split; [exact A|]. unfold Zword. cbn zeta. rewrite <- B. exact C.
Qed.
Lemma take_at key iv n : forall z i, zrel z (zstate_at key iv i) ->
  exists z', zuc_take n z = (z', map (Zword key iv) (seq i n)) /\ zrel z' (zstate_at key iv (i + n)).
Proof.
  induction n as [|n IH]; intros z i R.
  - exists z. cbn. rewrite Nat.add_0_r. auto.
  - destruct (next_at _ _ _ _ R) as (z1 & E1 & R1 & _). destruct (IH z1 (S i) R1) as (z2 & E2 & R2).
    exists z2. cbn [zuc_take seq map]. rewrite E1, E2. split; [reflexivity|].
    replace (i + S n)%nat with (S i + n)%nat by lia. exact R2.
Qed.
