(** Proofs about P256Model.v: the elimination of p256_reduce_degree. *)
From Coq Require Import Znumtheory.
From Verif Require Import Base Words HashModel EllModel EllSpec P224Model LimbTac P224Large P256Model P256Spec.
Local Open Scope Z_scope.

Lemma shl_mask x s n m k : (0 <=? s) && (s <=? n) && (n <=? 32) && (m =? 2 ^ n - 1) && (k =? 2 ^ (n - s) - 1) = true -> Z.land (shl32 x s) m = 2 ^ s * Z.land x k.
Proof.
  rewrite !andb_true_iff, !Z.leb_le, !Z.eqb_eq. intros ((((S & N) & N2) & ->) & ->).
  replace (2 ^ n - 1) with (Z.ones n) by (rewrite Z.ones_equiv; lia). replace (2 ^ (n - s) - 1) with (Z.ones (n - s)) by (rewrite Z.ones_equiv; lia).
  rewrite !Z.land_ones by lia. unfold shl32. rewrite Z.shiftl_mul_pow2 by lia. change M32 with (2 ^ 32).
  pose proof (Z.pow_pos_nonneg 2 n ltac:(lia) ltac:(lia)) as Pn. pose proof (Z.pow_pos_nonneg 2 (32 - n) ltac:(lia) ltac:(lia)) as Pm.
  replace (2 ^ 32) with (2 ^ n * 2 ^ (32 - n)) by (rewrite <- Z.pow_add_r by lia; f_equal; lia).
  rewrite Z.rem_mul_r by lia. rewrite (Z.mul_comm (2 ^ n)), Z.mod_add, Z.mod_mod by lia.
  replace (2 ^ n) with (2 ^ (n - s) * 2 ^ s) by (rewrite <- Z.pow_add_r by lia; f_equal; lia).
  rewrite Z.mul_mod_distr_r by (apply Z.pow_nonzero; lia). ring.
Qed.
Lemma nz_mask_0 : nz_mask 0 = 0. Proof. reflexivity. Qed.
Lemma nz_mask_1 x : 0 < x <= 2 ^ 31 -> nz_mask x = M32 - 1.
Proof.
  intros X. unfold nz_mask, sub32, shr. rewrite (Z.mod_small (x - 1)) by (unfold M32; lia). rewrite Z.shiftr_div_pow2 by lia.
  rewrite Z.div_small by lia. reflexivity.
Qed.
(** [z] is 0 for [x = 0] and 1 otherwise; what the mask does to a constant and to the two differences. *)
Lemma nz_facts x : 0 <= x <= 2 ^ 30 -> exists z, 0 <= z <= 1 /\ z <= x <= 2 ^ 30 * z /\ (forall c, 0 <= c < M32 -> Z.land c (nz_mask x) = c * z) /\
  Z.land (sub32 x 1) (nz_mask x) = x - z /\ Z.land (sub32 (shr x 1) 1) (nz_mask x) = (shr x 1 - z) mod M32.
Proof.
  intros X. destruct (Z.eq_dec x 0) as [->|N].
  - exists 0. split; [lia|]. split; [lia|]. rewrite nz_mask_0. split; [intros; rewrite Z.land_0_r; ring|]. split; reflexivity.
  - exists 1. split; [lia|]. split; [lia|]. rewrite nz_mask_1 by lia. assert (L : forall c, 0 <= c < M32 -> Z.land c (M32 - 1) = c).
    { intros c C. change (M32 - 1) with (Z.ones 32). rewrite Z.land_ones by lia. apply Z.mod_small, C. }
    split; [intros c C; rewrite L by exact C; ring|]. split.
    + rewrite L; unfold sub32; [|apply Z.mod_pos_bound; reflexivity]. apply Z.mod_small. unfold M32. lia.
    + rewrite L; [reflexivity|]. apply Z.mod_pos_bound. reflexivity.
Qed.

(** ** Words as residues *)
Definition f (w : Z) : Z := w mod M32.
Lemma add_f w y : add32 (f w) y = f (w + y). Proof. apply Zplus_mod_idemp_l. Qed.
Lemma sub_f w y : sub32 (f w) y = f (w - y). Proof. apply Zminus_mod_idemp_l. Qed.
Lemma add_ff w y : add32 (f w) (y mod M32) = f (w + y). Proof. unfold add32, f. rewrite <- Zplus_mod. reflexivity. Qed.
Lemma shr_split x n m lx hx : lx <= x <= hx -> (0 <=? n) && (m =? 2 ^ n - 1) = true ->
  exists q r, shr x n = q /\ Z.land x m = r /\ x = 2 ^ n * q + r /\ lx / 2 ^ n <= q <= hx / 2 ^ n /\ 0 <= r <= m.
Proof. intros X C. destruct (split_b x n m lx hx X C) as (E & B1 & B2). exists (shr x n), (Z.land x m). auto. Qed.
(** The amounts added in the upper half of the loop. *)
Lemma top_amounts w0 : 0 <= w0 <= M32 - 1 -> let X := Z.land (f w0) BOT29 in
  exists q d3 d4 d6 d7 d8 d9 x,
  (forall w, add32 (f w) (shr (f w0) 29) = f (w + q)) /\
  (forall w, add32 (f w) (Z.land (shl32 X 10) BOT28) = f (w + d3)) /\
  (forall w, add32 (f w) (shr X 18) = f (w + d4)) /\
  (forall w, add32 (f w) (Z.land (shl32 X 21) BOT29) = f (w + d6)) /\
  (forall w, sub32 (add32 (add32 (f w) (shr X 8)) (Z.land 0x10000000 (nz_mask X))) (Z.land (shl32 X 24) BOT28) = f (w + d7)) /\
  (forall w, add32 (sub32 (add32 (sub32 (add32 (f w) (Z.land (sub32 X 1) (nz_mask X))) (shr X 4)) (Z.land 0x20000000 (nz_mask X))) X)
     (Z.land (shl32 X 28) BOT29) = f (w + d8)) /\
  (forall w, add32 (f w) (Z.land (sub32 (shr X 1) 1) (nz_mask X)) = f (w + d9)) /\
  0 <= q <= 7 /\ w0 = 2 ^ 29 * q + x /\ 0 <= x <= 2 ^ 29 - 1 /\ 0 <= d3 <= 2 ^ 28 - 1 /\ 0 <= d4 <= 2 ^ 11 /\ 0 <= d6 <= 2 ^ 29 - 1 /\ 0 <= d7 <= 2 ^ 28 + 2 ^ 21 /\
  0 <= d8 <= 2 ^ 29 + 2 ^ 28 - 1 /\ -1 <= d9 <= 2 ^ 28 - 1 /\ (0 <= d9 \/ 2 ^ 29 <= d8) /\
  2 ^ 86 * d3 + 2 ^ 114 * d4 + 2 ^ 171 * d6 + 2 ^ 200 * d7 + 2 ^ 228 * d8 + 2 ^ 257 * d9 = x * (2 ^ 256 - 2 ^ 224 + 2 ^ 192 + 2 ^ 96).
Proof.
  intros W0 X. unfold X; clear X. assert (E0 : f w0 = w0) by (apply Z.mod_small; unfold M32 in *; lia). rewrite E0. unfold BOT29, BOT28.
  destruct (split_b w0 29 0x1fffffff _ _ W0 eq_refl) as (S0 & Bq & Bx). set (q := shr w0 29) in *. set (x := Z.land w0 0x1fffffff) in *. clearbody q x.
  destruct (nz_facts x ltac:(lia)) as (z & Z1 & Zx & ZC & ZD & ZH). rewrite ZD, ZH, !ZC by (unfold M32; lia). clear ZC ZD ZH.
  rewrite (shl_mask x 10 28 0xfffffff 0x3ffff), (shl_mask x 21 29 0x1fffffff 0xff), (shl_mask x 24 28 0xfffffff 15), (shl_mask x 28 29 0x1fffffff 1) by reflexivity.
  destruct (split_b x 18 0x3ffff _ _ Bx eq_refl) as (S18 & Q18 & R18). set (q18 := shr x 18) in *. set (r18 := Z.land x 0x3ffff) in *. clearbody q18 r18.
  destruct (split_b x 8 0xff _ _ Bx eq_refl) as (S8 & Q8 & R8). set (q8 := shr x 8) in *. set (r8 := Z.land x 0xff) in *. clearbody q8 r8.
  destruct (split_b x 4 15 _ _ Bx eq_refl) as (S4 & Q4 & R4). set (q4 := shr x 4) in *. set (r4 := Z.land x 15) in *. clearbody q4 r4.
  destruct (split_b x 1 1 _ _ Bx eq_refl) as (S1 & Q1 & R1). set (q1 := shr x 1) in *. set (r1 := Z.land x 1) in *. clearbody q1 r1.
  norm_bound Bq. norm_bound Q18. norm_bound Q8. norm_bound Q4. norm_bound Q1.
  exists q, (2 ^ 10 * r18), q18, (2 ^ 21 * r8), (q8 + 2 ^ 28 * z - 2 ^ 24 * r4), (x - z - q4 + 2 ^ 29 * z - x + 2 ^ 28 * r1), (q1 - z), x.
  split; [intros w; apply add_f|]. split; [intros w; apply add_f|]. split; [intros w; apply add_f|]. split; [intros w; apply add_f|].
  split; [intros w; rewrite !add_f, sub_f; f_equal; ring|]. split; [intros w; rewrite !add_f, !sub_f, !add_f, !sub_f, !add_f; f_equal; ring|].
  split; [intros w; apply add_ff|]. clear W0 E0. 
  split; [lia|]. split; [exact S0|]. split; [lia|]. split; [lia|]. split; [lia|]. split; [lia|]. split; [lia|]. split; [lia|]. split; [lia|]. split; [lia|].
  lia.
Qed.
(** ... and in the lower half. *)
Lemma bottom_amounts w0 : 0 <= w0 <= M32 - 1 -> let X := Z.land (f w0) BOT28 in
  exists q d3 d4 d6 d7 d8 d9 x,
  (forall w, add32 (f w) (shr (f w0) 28) = f (w + q)) /\
  (forall w, add32 (f w) (Z.land (shl32 X 11) BOT29) = f (w + d3)) /\
  (forall w, add32 (f w) (shr X 18) = f (w + d4)) /\
  (forall w, add32 (f w) (Z.land (shl32 X 21) BOT28) = f (w + d6)) /\
  (forall w, sub32 (add32 (add32 (f w) (shr X 7)) (Z.land 0x20000000 (nz_mask X))) (Z.land (shl32 X 25) BOT29) = f (w + d7)) /\
  (forall w, sub32 (add32 (sub32 (add32 (f w) (Z.land (sub32 X 1) (nz_mask X))) (shr X 4)) (Z.land 0x10000000 (nz_mask X))) X = f (w + d8)) /\
  (forall w, add32 (f w) (Z.land (sub32 X 1) (nz_mask X)) = f (w + d9)) /\
  0 <= q <= 15 /\ w0 = 2 ^ 28 * q + x /\ 0 <= x <= 2 ^ 28 - 1 /\ 0 <= d3 <= 2 ^ 29 - 1 /\ 0 <= d4 <= 2 ^ 10 /\ 0 <= d6 <= 2 ^ 28 - 1 /\ 0 <= d7 <= 2 ^ 29 + 2 ^ 21 /\
  0 <= d8 <= 2 ^ 28 - 1 /\ 0 <= d9 <= 2 ^ 28 - 1 /\
  2 ^ 85 * d3 + 2 ^ 114 * d4 + 2 ^ 171 * d6 + 2 ^ 199 * d7 + 2 ^ 228 * d8 + 2 ^ 256 * d9 = x * (2 ^ 256 - 2 ^ 224 + 2 ^ 192 + 2 ^ 96).
Proof.
  intros W0 X. unfold X; clear X. assert (E0 : f w0 = w0) by (apply Z.mod_small; unfold M32 in *; lia). rewrite E0. unfold BOT29, BOT28.
  destruct (split_b w0 28 0xfffffff _ _ W0 eq_refl) as (S0 & Bq & Bx). set (q := shr w0 28) in *. set (x := Z.land w0 0xfffffff) in *. clearbody q x.
  destruct (nz_facts x ltac:(lia)) as (z & Z1 & Zx & ZC & ZD & ZH). rewrite ZD, !ZC by (unfold M32; lia). clear ZC ZD ZH.
  rewrite (shl_mask x 11 29 0x1fffffff 0x3ffff), (shl_mask x 21 28 0xfffffff 0x7f), (shl_mask x 25 29 0x1fffffff 15) by reflexivity.
  destruct (split_b x 18 0x3ffff _ _ Bx eq_refl) as (S18 & Q18 & R18). set (q18 := shr x 18) in *. set (r18 := Z.land x 0x3ffff) in *. clearbody q18 r18.
  destruct (split_b x 7 0x7f _ _ Bx eq_refl) as (S8 & Q8 & R8). set (q8 := shr x 7) in *. set (r8 := Z.land x 0x7f) in *. clearbody q8 r8.
  destruct (split_b x 4 15 _ _ Bx eq_refl) as (S4 & Q4 & R4). set (q4 := shr x 4) in *. set (r4 := Z.land x 15) in *. clearbody q4 r4.
  norm_bound Bq. norm_bound Q18. norm_bound Q8. norm_bound Q4.
  exists q, (2 ^ 11 * r18), q18, (2 ^ 21 * r8), (q8 + 2 ^ 29 * z - 2 ^ 25 * r4), (x - z - q4 + 2 ^ 28 * z - x), (x - z), x.
  split; [intros w; apply add_f|]. split; [intros w; apply add_f|]. split; [intros w; apply add_f|]. split; [intros w; apply add_f|].
  split; [intros w; rewrite !add_f, sub_f; f_equal; ring|]. split; [intros w; rewrite !add_f, !sub_f, !add_f, !sub_f; f_equal; ring|].
  split; [intros w; apply add_f|]. clear W0 E0. 
  split; [lia|]. split; [exact S0|]. split; [lia|]. split; [lia|]. split; [lia|]. split; [lia|]. split; [lia|]. split; [lia|]. split; [lia|].
  lia.
Qed.

(** ** The elimination loop *)
Lemma elim_loop_eq t : elim_loop false t =
  let? t := elim_top false t 0 in let? t := elim_bottom false t 0 in let? t := elim_top false t 2 in let? t := elim_bottom false t 2 in
  let? t := elim_top false t 4 in let? t := elim_bottom false t 4 in let? t := elim_top false t 6 in let? t := elim_bottom false t 6 in elim_top false t 8.
Proof.
  unfold elim_loop. cbn [fold_left Nat.add Nat.eqb].
  destruct (elim_top false t 0) as [t1|]; [|reflexivity]. destruct (elim_bottom false t1 0) as [t2|]; [|reflexivity].
  destruct (elim_top false t2 2) as [t3|]; [|reflexivity]. destruct (elim_bottom false t3 2) as [t4|]; [|reflexivity].
  destruct (elim_top false t4 4) as [t5|]; [|reflexivity]. destruct (elim_bottom false t5 4) as [t6|]; [|reflexivity].
  destruct (elim_top false t6 6) as [t7|]; [|reflexivity]. destruct (elim_bottom false t7 6) as [t8|]; [|reflexivity].
  destruct (elim_top false t8 8) as [t9|]; reflexivity.
Qed.
Lemma addz_b x y lx hx ly hy : lx <= x <= hx -> ly <= y <= hy -> lx + ly <= x + y <= hx + hy. Proof. lia. Qed.
Ltac new_words H := repeat match type of H with context [f (?a + ?d)] =>
  let ba := bound_of a in let bd := bound_of d in let B := fresh "B" in pose proof (addz_b _ _ _ _ _ _ ba bd) as B; norm_bound B;
  let v := fresh "v" in let Ev := fresh "Ev" in set (v := a + d) in H, B; assert (Ev : v = a + d) by reflexivity; clearbody v end.
Ltac shadows L := match L with
  | f ?a :: ?r => let r' := shadows r in constr:(a :: r')
  | ?c :: ?r => let r' := shadows r in constr:(c :: r')
  | [] => constr:(@nil Z) end.
Notation P := (2 ^ 256 - 2 ^ 224 + 2 ^ 192 + 2 ^ 96 - 1).
(** A word that may be -1 is preceded by a large one. *)
Definition covered (L : list Z) : Prop :=
  0 <= L.[8] + 2 ^ 29 * L.[9] /\ 0 <= L.[10] + 2 ^ 29 * L.[11] /\ 0 <= L.[12] + 2 ^ 29 * L.[13] /\ 0 <= L.[14] + 2 ^ 29 * L.[15] /\ 0 <= L.[16] + 2 ^ 29 * L.[17].
Ltac eval_half H t := let e := eval cbv [elim_top elim_bottom upd nth Nat.add firstn skipn app andb] in t in
  let E := fresh "E" in assert (E : t = e) by reflexivity; rewrite E in H; clear E.
Ltac finish_half H HV HC k x := new_words H;
  match type of H with context [?c :: ?r] => let L2 := shadows (c :: r) in
  match type of HV with ?T + ?m * _ = mixed true ?L =>
    let HV' := fresh "HV'" in assert (HV' : T + (m + 2 ^ k * x) * P = mixed true L2) by (clear HC; cbn [mixed negb] in HV |- *; lia);
    let HC' := fresh "HC'" in assert (HC' : covered L2) by (clear HV HV'; unfold covered in HC |- *; cbn [nth] in HC |- *; lia);
    clear HV HC; rename HV' into HV; rename HC' into HC;
    let m' := fresh "m" in set (m' := m + 2 ^ k * x) in HV; clearbody m' end end;
  cbv beta iota in H.
Ltac clear_sums := repeat match goal with E : ?v = ?a + ?d |- _ => is_var v; is_var a; is_var d; clear E end.
Ltac top H i k HV HC := match type of H with context [elim_top false ?L i] =>
  let w := eval cbv [nth] in (nth i L 0) in match w with f ?w0 =>
  let B := bound_of w0 in
  let q := fresh "q" in let d3 := fresh "d" in let d4 := fresh "d" in let d6 := fresh "d" in let d7 := fresh "d" in let d8 := fresh "d" in let d9 := fresh "d" in let x := fresh "x" in
  let E1 := fresh "E" in let E3 := fresh "E" in let E4 := fresh "E" in let E6 := fresh "E" in let E7 := fresh "E" in let E8 := fresh "E" in let E9 := fresh "E" in
  let Bq := fresh "B" in let S0 := fresh "S" in let Bx := fresh "B" in let B3 := fresh "B" in let B4 := fresh "B" in let B6 := fresh "B" in let B7 := fresh "B" in let B8 := fresh "B" in let B9 := fresh "B" in
  let C := fresh "C" in let S := fresh "S" in
  let W := fresh in assert (W : 0 <= w0 <= M32 - 1) by (clear - B; unfold M32; lia);
  destruct (top_amounts w0 W) as (q & d3 & d4 & d6 & d7 & d8 & d9 & x & E1 & E3 & E4 & E6 & E7 & E8 & E9 & Bq & S0 & Bx & B3 & B4 & B6 & B7 & B8 & B9 & C & S);
  eval_half H (elim_top false L i); rewrite E8, E7, E9, E6, E4, E3, E1 in H; clear W E8 E7 E9 E6 E4 E3 E1;
  norm_bound B3; norm_bound B4; norm_bound B6; norm_bound B7; norm_bound B8; norm_bound B9; finish_half H HV HC k x; clear C S S0; clear Bq B3 B4 B6 B7 B8 B9; clear_sums; clear q d3 d4 d6 d7 d8 d9 Bx x end end.
Ltac bottom H i k HV HC := match type of H with context [elim_bottom false ?L i] =>
  let w := eval cbv [nth] in (nth (S i) L 0) in match w with f ?w0 =>
  let B := bound_of w0 in
  let q := fresh "q" in let d3 := fresh "d" in let d4 := fresh "d" in let d6 := fresh "d" in let d7 := fresh "d" in let d8 := fresh "d" in let d9 := fresh "d" in let x := fresh "x" in
  let E1 := fresh "E" in let E3 := fresh "E" in let E4 := fresh "E" in let E6 := fresh "E" in let E7 := fresh "E" in let E8 := fresh "E" in let E9 := fresh "E" in
  let Bq := fresh "B" in let S0 := fresh "S" in let Bx := fresh "B" in let B3 := fresh "B" in let B4 := fresh "B" in let B6 := fresh "B" in let B7 := fresh "B" in let B8 := fresh "B" in let B9 := fresh "B" in
  let S := fresh "S" in
  let W := fresh in assert (W : 0 <= w0 <= M32 - 1) by (clear - B; unfold M32; lia);
  destruct (bottom_amounts w0 W) as (q & d3 & d4 & d6 & d7 & d8 & d9 & x & E1 & E3 & E4 & E6 & E7 & E8 & E9 & Bq & S0 & Bx & B3 & B4 & B6 & B7 & B8 & B9 & S);
  eval_half H (elim_bottom false L i); rewrite E8, E7, E9, E6, E4, E3, E1 in H; clear W E8 E7 E9 E6 E4 E3 E1;
  norm_bound B3; norm_bound B4; norm_bound B6; norm_bound B7; norm_bound B8; norm_bound B9; finish_half H HV HC k x; clear S S0; clear Bq B3 B4 B6 B7 B8 B9; clear_sums; clear q d3 d4 d6 d7 d8 d9 Bx x end end.
Lemma elim_loop_18 w0 w1 w2 w3 w4 w5 w6 w7 w8 w9 w10 w11 w12 w13 w14 w15 w16 w17 :
  Forall (fun x => 0 <= x <= 2 ^ 29 - 1) [w0; w2; w4; w6; w8; w10; w12; w14; w16] -> Forall (fun x => 0 <= x <= 2 ^ 28 - 1) [w1; w3; w5; w7; w9; w11; w13; w15] -> 0 <= w17 <= 2 ^ 31 + 2 ^ 28 ->
  exists v9 v10 v11 v12 v13 v14 v15 v16 v17 m,
  elim_loop false [f w0; f w1; f w2; f w3; f w4; f w5; f w6; f w7; f w8; f w9; f w10; f w11; f w12; f w13; f w14; f w15; f w16; f w17] =
    Some [0; 0; 0; 0; 0; 0; 0; 0; 0; f v9; f v10; f v11; f v12; f v13; f v14; f v15; f v16; f v17] /\
  mixed true [w0; w1; w2; w3; w4; w5; w6; w7; w8; w9; w10; w11; w12; w13; w14; w15; w16; w17] + m * P = mixed true [0; 0; 0; 0; 0; 0; 0; 0; 0; v9; v10; v11; v12; v13; v14; v15; v16; v17] /\
  0 <= v9 <= 1612710914 /\ 0 <= v10 <= 3223324667 /\ -1 <= v11 <= 1612710907 /\ 0 <= v12 <= 2686453756 /\ -1 <= v13 <= 1344274428 /\ 0 <= v14 <= 2686451708 /\
  -1 <= v15 <= 1075838973 /\ 0 <= v16 <= 1610612733 /\ -1 <= v17 <= 2684354559 /\
  0 <= v10 + 2 ^ 29 * v11 /\ 0 <= v12 + 2 ^ 29 * v13 /\ 0 <= v14 + 2 ^ 29 * v15 /\ 0 <= v16 + 2 ^ 29 * v17.
Proof.
  intros FE FO B17. split_bounds.
  repeat match goal with B : _ <= _ <= _ |- _ => norm_bound B; revert B end. intros.
  set (w := mixed true _). assert (HV : w + 0 * P = mixed true [w0; w1; w2; w3; w4; w5; w6; w7; w8; w9; w10; w11; w12; w13; w14; w15; w16; w17]) by (unfold w; ring). clearbody w.
  assert (HC : covered [w0; w1; w2; w3; w4; w5; w6; w7; w8; w9; w10; w11; w12; w13; w14; w15; w16; w17]) by (clear HV; unfold covered; cbn [nth]; lia).
  match goal with |- context [elim_loop false ?L] => set (R := elim_loop false L); assert (H : R = elim_loop false L) by reflexivity; clearbody R end.
  rewrite elim_loop_eq in H.
  top H 0%nat 0 HV HC.
  bottom H 0%nat 29 HV HC.
  top H 2%nat 57 HV HC. bottom H 2%nat 86 HV HC. top H 4%nat 114 HV HC. bottom H 4%nat 143 HV HC. 
  top H 6%nat 171 HV HC. bottom H 6%nat 200 HV HC. top H 8%nat 228 HV HC. 
  match type of H with _ = Some [_; _; _; _; _; _; _; _; _; f ?a; f ?b; f ?c; f ?d; f ?e; f ?g; f ?h; f ?i; f ?j] => exists a, b, c, d, e, g, h, i, j end.
  match type of HV with _ + ?m * _ = _ => exists m end.
  split; [exact H|]. split; [exact HV|]. clear H HV R.
  unfold covered in HC. cbn [nth] in HC. lia.
Qed.

(** ** Carries *)
