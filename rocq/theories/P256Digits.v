(** The digits the P-256 scalar multiplications read. *)
From Verif Require Import Base Words HashModel RsaModel RsaEncModel DsaProofs EllModel P224Model P256Model.
Local Open Scope Z_scope.

Lemma nth_le_val l : bytes l -> forall j, nth j l 0 = (le_val l / 256 ^ Z.of_nat j) mod 256.
Proof.
  intros B. induction B as [|x l X B IH]; intros j.
  - destruct j; cbn [nth le_val]; rewrite Z.div_0_l by (apply Z.pow_nonzero; lia); reflexivity.
  - cbn [le_val]. unfold byte in X. destruct j as [|j]; cbn [nth].
    + change (256 ^ Z.of_nat 0) with 1. rewrite Z.div_1_r. rewrite (Z.mul_comm 256), Z.mod_add, Z.mod_small by lia. reflexivity.
    + rewrite IH. rewrite Nat2Z.inj_succ, Z.pow_succ_r, <- Z.div_div by (lia || (apply Z.pow_pos_nonneg; lia)).
      rewrite (Z.mul_comm 256 (le_val l)), Z.div_add, (Z.div_small x 256) by lia. reflexivity.
Qed.
Lemma le_val_zeros l m : le_val (l ++ repeat 0 m) = le_val l.
Proof. rewrite le_val_app. replace (le_val (repeat 0 m)) with 0; [lia|]. induction m as [|m IH]; [reflexivity|]. cbn [repeat le_val]. rewrite <- IH. reflexivity. Qed.
Definition reduced (k : Z) : Z := if cp_n p256 <=? k then k mod cp_n p256 else k.
Lemma reduced_mod k : 0 <= k -> reduced k = k mod cp_n p256.
Proof. intros K. unfold reduced. destruct (Z.leb_spec (cp_n p256) k); [reflexivity|]. symmetry. apply Z.mod_small. lia. Qed.
Lemma reduced_bound k : 0 <= k -> 0 <= reduced k < cp_n p256.
Proof. intros K. rewrite reduced_mod by exact K. apply Z.mod_pos_bound. reflexivity. Qed.
Lemma n_256 : cp_n p256 < 2 ^ 256. Proof. reflexivity. Qed.
Lemma scalar_val k : 0 <= k -> bytes (p256_get_scalar k) /\ le_val (p256_get_scalar k) = reduced k.
Proof.
  intros K. unfold p256_get_scalar.
  assert (E : (if cp_n p256 <=? k then to_be_bytes (k mod cp_n p256) else to_be_bytes k) = to_be_bytes (reduced k)) by (unfold reduced; destruct (cp_n p256 <=? k); reflexivity).
  rewrite E. clear E. assert (B := reduced_bound k K). set (r := reduced k) in *. clearbody r. split.
  - apply Forall_app. split; [apply Forall_rev, be_bytes_bytes|]. apply Forall_forall. intros x X. apply repeat_spec in X. subst. unfold byte. lia.
  - rewrite le_val_zeros, <- be_val_rev. apply be_val_to_be_bytes. lia.
Qed.
Lemma scalar_byte k j : 0 <= k -> (p256_get_scalar k).[j] = (reduced k / 2 ^ (8 * Z.of_nat j)) mod 256.
Proof. intros K. destruct (scalar_val k K) as [B V]. rewrite nth_le_val by exact B. rewrite V. change 256 with (2 ^ 8) at 1. rewrite <- Z.pow_mul_r by lia. reflexivity. Qed.
Lemma scalar_nonneg k j : 0 <= k -> 0 <= (p256_get_scalar k).[j] < 256.
Proof. intros K. rewrite scalar_byte by exact K. apply Z.mod_pos_bound. lia. Qed.
Lemma sub_digit a c d m : 0 < c -> 0 < d -> 0 < m -> ((a / c) mod (d * m)) / d = (a / (c * d)) mod m.
Proof.
  intros C D M. rewrite <- Z.div_div by lia. set (q := a / c). rewrite (Z.rem_mul_r q d m) by lia. rewrite (Z.mul_comm d), Z.div_add, Z.div_small by (lia || apply Z.mod_pos_bound; lia). reflexivity.
Qed.
(** Four bits of the window loop. *)
Lemma scalar_window k i : 0 <= k -> (i < 64)%nat ->
  (let index := (p256_get_scalar k).[31 - i / 2] in if Nat.odd i then Z.land index 15 else shr index 4) = (reduced k / 2 ^ (252 - 4 * Z.of_nat i)) mod 16.
Proof.
  intros K I. cbv zeta. rewrite scalar_byte by exact K. set (r := reduced k). clearbody r.
  assert (D := Nat.div_mod_eq i 2). assert (O := Nat.mod_upper_bound i 2 ltac:(lia)).
  rewrite <- Nat.negb_even. destruct (Nat.even i) eqn:E; cbn [negb].
  - apply Nat.even_spec in E. destruct E as [h ->]. replace (2 * h / 2)%nat with h in * by (rewrite Nat.mul_comm, Nat.div_mul; lia).
    replace (252 - 4 * Z.of_nat (2 * h)) with (8 * Z.of_nat (31 - h) + 4) by lia. rewrite Z.pow_add_r by lia. unfold shr. rewrite Z.shiftr_div_pow2 by lia.
    change 256 with (2 ^ 4 * 16). apply sub_digit; lia.
  - assert (E' : Nat.odd i = true) by (rewrite <- Nat.negb_even, E; reflexivity). apply Nat.odd_spec in E'. destruct E' as [h ->].
    replace ((2 * h + 1) / 2)%nat with h in * by (rewrite (Nat.mul_comm 2 h), Nat.div_add_l; cbn; lia).
    replace (252 - 4 * Z.of_nat (2 * h + 1)) with (8 * Z.of_nat (31 - h)) by lia. change 15 with (Z.ones 4). rewrite Z.land_ones by lia. change (2 ^ 4) with 16.
    symmetry. apply Znumtheory.Zmod_div_mod; try lia. exists 16. reflexivity.
Qed.
(** One bit of the comb loop. *)
Lemma scalar_bit k b : 0 <= k -> 0 <= b -> p256_get_bit (p256_get_scalar k) b = (reduced k / 2 ^ b) mod 2.
Proof.
  intros K B. unfold p256_get_bit. rewrite scalar_byte by exact K. set (r := reduced k). clearbody r. unfold shr. rewrite (Z.shiftr_div_pow2 b) by lia. change (2 ^ 3) with 8.
  rewrite Z2Nat.id by (apply Z.div_pos; lia). change 7 with (Z.ones 3). rewrite (Z.land_ones b) by lia. change (2 ^ 3) with 8.
  assert (D := Z.div_mod b 8 ltac:(lia)). assert (M := Z.mod_pos_bound b 8 ltac:(lia)). set (q := b / 8) in *. set (m := b mod 8) in *. assert (Q : 0 <= q) by (unfold q; apply Z.div_pos; lia). clearbody q m. subst b.
  rewrite Z.shiftr_div_pow2 by lia. change 1 with (Z.ones 1). rewrite Z.land_ones by lia. change (2 ^ 1) with 2. rewrite Z.pow_add_r by lia.
  assert (W := Z.pow_pos_nonneg 2 m ltac:(lia) ltac:(lia)). assert (W' := Z.pow_pos_nonneg 2 (8 * q) ltac:(lia) ltac:(lia)).
  replace 256 with (2 ^ m * 2 ^ (8 - m)) by (rewrite <- Z.pow_add_r by lia; replace (m + (8 - m)) with 8 by lia; reflexivity).
  rewrite sub_digit by (try assumption; apply Z.pow_pos_nonneg; lia). symmetry. apply Znumtheory.Zmod_div_mod; [lia|apply Z.pow_pos_nonneg; lia|].
  exists (2 ^ (7 - m)). replace (8 - m) with (7 - m + 1) by lia. rewrite Z.pow_add_r by lia. reflexivity.
Qed.

(** The comb: eight digits of 32 bits, of which [i] bits are read after [i] rounds. *)
Fixpoint hor (l : list Z) : Z := match l with [] => 0 | x :: l => x + 2 ^ 32 * hor l end.
Lemma hor_inj l : forall m, length l = length m -> Forall (fun x => 0 <= x < 2 ^ 32) l -> Forall (fun x => 0 <= x < 2 ^ 32) m -> hor l = hor m -> l = m.
Proof.
  induction l as [|x l IH]; intros [|y m] L A B E; try discriminate L; [reflexivity|]. cbn [hor] in E. apply Forall_cons_iff in A, B. destruct A as [A1 A2]. destruct B as [B1 B2].
  change (2 ^ 32) with 4294967296 in *. assert (hor l = hor m /\ x = y) as [E1 ->] by (clear - A1 B1 E; lia). f_equal. apply IH; auto.
Qed.
Section COMB.
Variable r : Z.
Hypothesis HR : 0 <= r < 2 ^ 256.
Definition vdig (i c : Z) : Z := (r / 2 ^ (32 * c + 32 - i)) mod 2 ^ i.
Definition edig (i c : Z) : Z := (r / 2 ^ (32 * c + 31 - i)) mod 2.
Lemma vdig_bound i c : 0 <= i -> 0 <= vdig i c < 2 ^ i.
Proof. intros I. apply Z.mod_pos_bound, Z.pow_pos_nonneg; lia. Qed.
Lemma edig_bound i c : 0 <= edig i c < 2.
Proof. apply Z.mod_pos_bound. lia. Qed.
Lemma vdig_step i c : 0 <= i <= 31 -> 0 <= c -> vdig (i + 1) c = 2 * vdig i c + edig i c.
Proof.
  intros I C. unfold vdig, edig. replace (32 * c + 32 - (i + 1)) with (32 * c + 31 - i) by lia. replace (32 * c + 32 - i) with ((32 * c + 31 - i) + 1) by lia.
  rewrite (Z.pow_add_r 2 (32 * c + 31 - i) 1) by lia. assert (W := Z.pow_pos_nonneg 2 (32 * c + 31 - i) ltac:(lia) ltac:(lia)). rewrite <- Z.div_div by lia. change (2 ^ 1) with 2.
  replace (2 ^ (i + 1)) with (2 * 2 ^ i) by (rewrite Z.pow_add_r by lia; change (2 ^ 1) with 2; lia).
  rewrite Z.rem_mul_r; [apply Z.add_comm|lia|apply Z.pow_pos_nonneg; lia].
Qed.
Definition V (i : Z) : Z := hor (map (vdig i) [0; 1; 2; 3; 4; 5; 6; 7]).
Definition D (o i : Z) : Z := hor (map (fun c => if c mod 2 =? o then edig i c else 0) [0; 1; 2; 3; 4; 5; 6; 7]).
Ltac spread := unfold V, D; cbn [map hor]; change (0 mod 2) with 0; change (1 mod 2) with 1; change (2 mod 2) with 0; change (3 mod 2) with 1; change (4 mod 2) with 0; change (5 mod 2) with 1; change (6 mod 2) with 0; change (7 mod 2) with 1; cbn [Z.eqb Pos.eqb].
Lemma V_step i : 0 <= i <= 31 -> V (i + 1) = 2 * V i + D 0 i + D 1 i.
Proof. intros I. spread. rewrite !vdig_step by lia. generalize (2 ^ 32). intros w. ring. Qed.
Lemma hor_nonneg l : Forall (fun x => 0 <= x) l -> 0 <= hor l.
Proof. intros H. induction H as [|x l X H IH]; [reflexivity|]. cbn [hor]. lia. Qed.
Lemma V_nonneg i : 0 <= i -> 0 <= V i.
Proof. intros I. apply hor_nonneg. cbn [map]. repeat (apply Forall_cons; [apply vdig_bound, I|]). constructor. Qed.
Lemma D_nonneg o i : 0 <= D o i.
Proof. apply hor_nonneg. apply Forall_map, Forall_forall. intros c _. destruct (_ =? _); [apply edig_bound|lia]. Qed.
Lemma V_0 : V 0 = 0.
Proof. unfold V, vdig. rewrite Z.pow_0_r. cbn [map]. rewrite !Z.mod_1_r. reflexivity. Qed.
Lemma V_32 : V 32 = r.
Proof.
  unfold V, vdig. cbn [map].
  assert (S : forall c (_ : Z), 0 <= c -> (r / 2 ^ (32 * c + 32 - 32)) mod 2 ^ 32 + 2 ^ 32 * (r / 2 ^ (32 * c + 32)) = r / 2 ^ (32 * c + 32 - 32)).
  { intros c _ C. replace (32 * c + 32) with ((32 * c + 32 - 32) + 32) by lia. rewrite Z.pow_add_r, <- Z.div_div by (lia || apply Z.pow_pos_nonneg; lia).
    replace (32 * c + 32 - 32 + 32 - 32) with (32 * c + 32 - 32) by lia. set (q := r / 2 ^ (32 * c + 32 - 32)). clearbody q. assert (E := Z.div_mod q (2 ^ 32) ltac:(lia)). lia. }
  assert (Z0 : r / 2 ^ (32 * 7 + 32) = 0) by (apply Z.div_small; exact HR).
  pose proof (S 0 0 ltac:(lia)) as S0. pose proof (S 1 0 ltac:(lia)) as S1. pose proof (S 2 0 ltac:(lia)) as S2. pose proof (S 3 0 ltac:(lia)) as S3.
  pose proof (S 4 0 ltac:(lia)) as S4. pose proof (S 5 0 ltac:(lia)) as S5. pose proof (S 6 0 ltac:(lia)) as S6. pose proof (S 7 0 ltac:(lia)) as S7. clear S. rewrite Z0 in S7.
  change (32 * 0 + 32) with (32 * 1 + 32 - 32) in S0 at 2. change (32 * 1 + 32) with (32 * 2 + 32 - 32) in S1 at 2. change (32 * 2 + 32) with (32 * 3 + 32 - 32) in S2 at 2. change (32 * 3 + 32) with (32 * 4 + 32 - 32) in S3 at 2.
  change (32 * 4 + 32) with (32 * 5 + 32 - 32) in S4 at 2. change (32 * 5 + 32) with (32 * 6 + 32 - 32) in S5 at 2. change (32 * 6 + 32) with (32 * 7 + 32 - 32) in S6 at 2.
  cbn [hor]. rewrite S7, S6, S5, S4, S3, S2, S1, S0. change (2 ^ (32 * 0 + 32 - 32)) with 1. apply Z.div_1_r.
Qed.
Lemma V_mono i j : 0 <= i -> (Z.of_nat j + i <= 32) -> V i <= V (i + Z.of_nat j).
Proof.
  intros I. induction j as [|j IH]; intros J; [rewrite Z.add_0_r; lia|]. rewrite Nat2Z.inj_succ in *. replace (i + Z.succ (Z.of_nat j)) with (i + Z.of_nat j + 1) by lia. rewrite V_step by lia.
  assert (A := V_nonneg (i + Z.of_nat j) ltac:(lia)). assert (B := D_nonneg 0 (i + Z.of_nat j)). assert (C := D_nonneg 1 (i + Z.of_nat j)). lia.
Qed.
Lemma V_le i : 0 <= i <= 32 -> V i <= r.
Proof. intros I. pose proof (V_mono i (Z.to_nat (32 - i)) ltac:(lia) ltac:(lia)) as M. rewrite Z2Nat.id in M by lia. replace (i + (32 - i)) with 32 in M by lia. rewrite V_32 in M. exact M. Qed.
(** The additions never meet equal points. *)
Lemma comb_neq0 i : 0 <= i <= 31 -> 0 < V i -> 2 * V i <> D 0 i.
Proof.
  intros I P E. assert (B : forall c, 0 <= 2 * vdig i c < 2 ^ 32).
  { intros c. assert (W := vdig_bound i c ltac:(lia)). assert (2 ^ i <= 2 ^ 31) by (apply Z.pow_le_mono_r; lia). lia. }
  assert (E' : hor (map (fun c => 2 * vdig i c) [0; 1; 2; 3; 4; 5; 6; 7]) = hor (map (fun c => if c mod 2 =? 0 then edig i c else 0) [0; 1; 2; 3; 4; 5; 6; 7])).
  { etransitivity; [|exact E]. unfold V. cbn [map hor]. generalize (2 ^ 32). intros w. ring. }
  apply hor_inj in E'; [|reflexivity|apply Forall_map, Forall_forall; intros c _; apply B|apply Forall_map, Forall_forall; intros c _; assert (X := edig_bound i c); destruct (_ =? _); lia].
  assert (A := edig_bound i). cbn [map] in E'. injection E' as E0 E1 E2 E3 E4 E5 E6 E7.
  assert (Q : forall c, 2 * vdig i c = edig i c \/ 2 * vdig i c = 0 -> vdig i c = 0) by (intros c; assert (X := A c); lia).
  apply Z.lt_irrefl with 0. replace 0 with (V i) at 2; [exact P|]. unfold V. cbn [map]. rewrite !Q; [reflexivity|..]; tauto.
Qed.
Lemma comb_neq1 i : 0 <= i <= 31 -> 0 < 2 * V i + D 0 i -> 2 * V i + D 0 i <> D 1 i.
Proof.
  intros I P E. assert (A := edig_bound i). assert (B : forall c, 0 <= 2 * vdig i c < 2 ^ 32 - 1).
  { intros c. assert (W := vdig_bound i c ltac:(lia)). assert (2 ^ i <= 2 ^ 31) by (apply Z.pow_le_mono_r; lia). lia. }
  assert (E' : hor (map (fun c => 2 * vdig i c + if c mod 2 =? 0 then edig i c else 0) [0; 1; 2; 3; 4; 5; 6; 7]) = hor (map (fun c => if c mod 2 =? 1 then edig i c else 0) [0; 1; 2; 3; 4; 5; 6; 7])).
  { etransitivity; [|exact E]. spread. generalize (2 ^ 32). intros w. ring. }
  apply hor_inj in E'; [|reflexivity|apply Forall_map, Forall_forall; intros c _; assert (X := A c); assert (Y := B c); destruct (_ =? _); lia|apply Forall_map, Forall_forall; intros c _; assert (X := A c); destruct (_ =? _); lia].
  assert (Q : forall c, 2 * vdig i c + edig i c = 0 -> vdig i c = 0 /\ edig i c = 0) by (intros c; assert (X := A c); assert (Y := B c); lia).
  assert (Q' : forall c, 2 * vdig i c + 0 = edig i c -> vdig i c = 0) by (intros c; assert (X := A c); lia).
  cbn [map] in E'. injection E' as E0 E1 E2 E3 E4 E5 E6 E7. apply Q in E0, E2, E4, E6. apply Q' in E1, E3, E5, E7. destruct E0 as [X0 Y0]. destruct E2 as [X2 Y2]. destruct E4 as [X4 Y4]. destruct E6 as [X6 Y6].
  apply Z.lt_irrefl with 0. replace 0 with (2 * V i + D 0 i) at 2; [exact P|]. spread. rewrite X0, X2, X4, X6, Y0, Y2, Y4, Y6, E1, E3, E5, E7. reflexivity.
Qed.
End COMB.
