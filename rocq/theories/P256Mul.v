(** Proofs about P256Model.v: products and squares. *)
From Coq Require Import Znumtheory.
From Verif Require Import Base Words WordW HashModel EllModel EllSpec P224Model LimbTac P224Large P256Model P256Spec P256Limbs P256Red.
Local Open Scope Z_scope.

(** ** The seventeen double words as eighteen limbs *)
Lemma parts t lo : 0 <= t <= 2 ^ 64 - 1 -> lo = 28 \/ lo = 29 -> exists l a k h,
  Z.land (u32 t) (2 ^ lo - 1) = l /\ shr (u32 t) lo = a /\ Z.land (shl32 (u32 (shr t 32)) (32 - lo)) (2 ^ (57 - lo) - 1) = 2 ^ (32 - lo) * k /\ shr (u32 (shr t 32)) 25 = h /\
  0 <= l <= 2 ^ lo - 1 /\ 0 <= a <= 2 ^ (32 - lo) - 1 /\ 0 <= k <= 2 ^ 25 - 1 /\ 0 <= h <= 127 /\ shr t 32 = 2 ^ 25 * h + k /\ u32 (shr t 32) = shr t 32 /\ t = l + 2 ^ lo * (a + 2 ^ (32 - lo) * k) + 2 ^ 57 * h.
Proof.
  intros T LO. unfold u32. destruct (split_b t 32 0xffffffff _ _ T eq_refl) as (S1 & Q1 & R1). set (q1 := shr t 32) in *. set (r1 := Z.land t 0xffffffff) in *. clearbody q1 r1. norm_bound Q1.
  replace (Z.land q1 0xffffffff) with q1 by (symmetry; apply (land_small_b q1 0xffffffff 32 _ _ Q1 eq_refl)).
  destruct (split_b q1 25 0x1ffffff _ _ Q1 eq_refl) as (S2 & Q2 & R2). norm_bound Q2.
  destruct LO as [-> | ->].
  - rewrite (shl_mask q1 (32 - 28) (57 - 28) _ 0x1ffffff) by reflexivity. change (2 ^ (57 - 28) - 1) with 0x1fffffff. set (q2 := shr q1 25) in *. set (r2 := Z.land q1 0x1ffffff) in *. clearbody q2 r2.
    destruct (split_b r1 28 0xfffffff _ _ R1 eq_refl) as (S3 & Q3 & R3). change (2 ^ 28 - 1) with 0xfffffff. set (q3 := shr r1 28) in *. set (r3 := Z.land r1 0xfffffff) in *. clearbody q3 r3. norm_bound Q3.
    exists r3, q3, r2, q2. repeat (split; [reflexivity || lia|]). lia.
  - rewrite (shl_mask q1 (32 - 29) (57 - 29) _ 0x1ffffff) by reflexivity. change (2 ^ (57 - 29) - 1) with 0xfffffff. set (q2 := shr q1 25) in *. set (r2 := Z.land q1 0x1ffffff) in *. clearbody q2 r2.
    destruct (split_b r1 29 0x1fffffff _ _ R1 eq_refl) as (S3 & Q3 & R3). change (2 ^ 29 - 1) with 0x1fffffff. set (q3 := shr r1 29) in *. set (r3 := Z.land r1 0x1fffffff) in *. clearbody q3 r3. norm_bound Q3.
    exists r3, q3, r2, q2. repeat (split; [reflexivity || lia|]). lia.
Qed.
(** The four pieces of a word at an even and at an odd position. *)
Definition cut_even (t l a b h : Z) : Prop :=
  Z.land (u32 t) BOT29 = l /\ shr (u32 t) 29 = a /\ Z.land (shl32 (u32 (shr t 32)) 3) BOT28 = b /\ shr (u32 (shr t 32)) 25 = h /\
  0 <= l <= 536870911 /\ 0 <= a <= 7 /\ 0 <= b <= 268435448 /\ 0 <= h <= 127 /\ t = l + 2 ^ 29 * (a + b) + 2 ^ 57 * h.
Definition cut_odd (t l a b h : Z) : Prop :=
  Z.land (u32 t) BOT28 = l /\ shr (u32 t) 28 = a /\ Z.land (shl32 (u32 (shr t 32)) 4) BOT29 = b /\ shr (u32 (shr t 32)) 25 = h /\
  0 <= l <= 268435455 /\ 0 <= a <= 15 /\ 0 <= b <= 536870896 /\ 0 <= h <= 127 /\ t = l + 2 ^ 28 * (a + b) + 2 ^ 57 * h.
Lemma cut_even_ex t : 0 <= t <= 2 ^ 64 - 1 -> exists l a b h, cut_even t l a b h /\ Z.lor a b = a + b /\ (t <= 2 ^ 60 -> shl32 (u32 (shr t 32)) 3 = b + 2 ^ 28 * h /\ h <= 8 /\ b + 2 ^ 28 * h <= 2 ^ 31).
Proof.
  intros T. destruct (parts t 29 T (or_intror eq_refl)) as (l & a & k & h & E1 & E2 & E3 & E4 & B1 & B2 & B3 & B4 & E5 & E6 & E).
  exists l, a, (2 ^ 3 * k), h. split.
  { split; [exact E1|]. split; [exact E2|]. split; [exact E3|]. split; [exact E4|]. split; [lia|]. split; [lia|]. split; [lia|]. split; [lia|]. lia. }
  split.
  - rewrite Z.lor_comm, Z.mul_comm. rewrite (lor_add_split 32 3 k a). 1: lia. 1: lia. split; [lia|]. change (2 ^ 3) with 8. lia.
  - intros T2. rewrite E6, E5. assert (K : 2 ^ 25 * h + k <= 2 ^ 28) by (destruct (split_b t 32 0xffffffff _ _ T eq_refl) as (S1 & _ & R1); rewrite E5 in S1; lia).
    split; [|lia]. unfold shl32. rewrite Z.shiftl_mul_pow2 by lia. rewrite Z.mod_small by (unfold M32; lia). lia.
Qed.
Lemma cut_odd_ex t : 0 <= t <= 2 ^ 64 - 1 -> exists l a b h, cut_odd t l a b h.
Proof.
  intros T. destruct (parts t 28 T (or_introl eq_refl)) as (l & a & k & h & E1 & E2 & E3 & E4 & B1 & B2 & B3 & B4 & E5 & E6 & E).
  exists l, a, (2 ^ 4 * k), h.
  split; [exact E1|]. split; [exact E2|]. split; [exact E3|]. split; [exact E4|]. split; [lia|]. split; [lia|]. split; [lia|]. split; [lia|]. lia.
Qed.
Lemma spread_even_one tmp i c l2 a2 b2 h2 l1 a1 b1 h1 l a b h :
  cut_even tmp.[i - 2] l2 a2 b2 h2 -> cut_odd tmp.[i - 1] l1 a1 b1 h1 -> cut_even tmp.[i] l a b h -> 0 <= c <= 7 ->
  exists w c', spread_even tmp i c = (w, c') /\ 0 <= w <= 2 ^ 29 - 1 /\ 0 <= c' <= 7 /\ w + 2 ^ 29 * c' = h2 + (a1 + b1) + l + c.
Proof.
  intros (_ & _ & _ & X2 & _ & _ & _ & B2 & _) (_ & X1 & X3 & _ & _ & B3 & B4 & _ & _) (X4 & _ & _ & _ & B5 & _) C.
  unfold spread_even. rewrite X1, X2, X3, X4. clear X1 X2 X3 X4.
  set (R := add32 (add32 _ _) _). assert (H : R = add32 (add32 (add32 (add32 h2 a1) b1) l) c) by reflexivity. clearbody R.
  repeat word_step H. subst R. unfold BOT29. match goal with B : 0 <= ?v <= _ |- context [shr ?v 29] => destruct (split_b v 29 0x1fffffff _ _ B eq_refl) as (S1 & Q1 & R1); norm_bound Q1 end.
  eexists _, _. split; [reflexivity|]. set (q := shr _ 29) in *. set (r := Z.land _ 0x1fffffff) in *. clearbody q r. lia.
Qed.
Lemma spread_odd_one tmp i c l2 a2 b2 h2 l1 a1 b1 h1 l a b h :
  cut_odd tmp.[i - 2] l2 a2 b2 h2 -> cut_even tmp.[i - 1] l1 a1 b1 h1 -> cut_odd tmp.[i] l a b h -> 0 <= c <= 7 ->
  exists w c', spread_odd tmp i c = (w, c') /\ 0 <= w <= 2 ^ 28 - 1 /\ 0 <= c' <= 7 /\ w + 2 ^ 28 * c' = h2 + (a1 + b1) + l + c.
Proof.
  intros (_ & _ & _ & X2 & _ & _ & _ & B2 & _) (_ & X1 & X3 & _ & _ & B3 & B4 & _ & _) (X4 & _ & _ & _ & B5 & _) C.
  unfold spread_odd. rewrite X1, X2, X3, X4. clear X1 X2 X3 X4.
  set (R := add32 (add32 _ _) _). assert (H : R = add32 (add32 (add32 (add32 h2 a1) b1) l) c) by reflexivity. clearbody R.
  repeat word_step H. subst R. unfold BOT28. match goal with B : 0 <= ?v <= _ |- context [shr ?v 28] => destruct (split_b v 28 0xfffffff _ _ B eq_refl) as (S1 & Q1 & R1); norm_bound Q1 end.
  eexists _, _. split; [reflexivity|]. set (q := shr _ 28) in *. set (r := Z.land _ 0xfffffff) in *. clearbody q r. lia.
Qed.
Lemma spread_step_even tmp out c i w c' : Nat.even i = true -> spread_even tmp i c = (w, c') -> spread_step tmp (out, c) i = (out ++ [w], c').
Proof. intros E S. unfold spread_step. rewrite E, S. reflexivity. Qed.
Lemma spread_step_odd tmp out c i w c' : Nat.even i = false -> spread_odd tmp i c = (w, c') -> spread_step tmp (out, c) i = (out ++ [w], c').
Proof. intros E S. unfold spread_step. rewrite E, S. reflexivity. Qed.
Lemma spread_first_one tmp l a b h l1 a1 b1 h1 : cut_even tmp.[0] l a b h -> Z.lor a b = a + b -> cut_odd tmp.[1] l1 a1 b1 h1 ->
  exists w1 c', spread_first tmp = ([l; w1], c') /\ 0 <= w1 <= 2 ^ 28 - 1 /\ 0 <= c' <= 7 /\ w1 + 2 ^ 28 * c' = (a + b) + l1.
Proof.
  intros (X1 & X2 & X3 & _ & B1 & B2 & B3 & _ & _) O (X4 & _ & _ & _ & B4 & _).
  unfold spread_first. rewrite X1, X2, X3, X4, O. clear X1 X2 X3 X4.
  set (R := add32 _ _). assert (H : R = add32 (a + b) l1) by reflexivity. clearbody R.
  unfold add32 in H. rewrite mod_same in H by lia. assert (B : 0 <= R <= 2 ^ 30) by lia. unfold BOT28. destruct (split_b R 28 0xfffffff _ _ B eq_refl) as (S1 & Q1 & R1); norm_bound Q1.
  eexists _, _. split; [reflexivity|]. set (q := shr _ 28) in *. set (r := Z.land _ 0xfffffff) in *. clearbody q r. lia.
Qed.
Lemma spread_last_one tmp c l2 a2 b2 h2 l a b h : cut_odd tmp.[15] l2 a2 b2 h2 -> cut_even tmp.[16] l a b h -> shl32 (u32 (shr tmp.[16] 32)) 3 = b + 2 ^ 28 * h -> h <= 8 -> b + 2 ^ 28 * h <= 2 ^ 31 -> 0 <= c <= 7 ->
  spread_last tmp c = h2 + (a + b) + 2 ^ 28 * h + c /\ 0 <= h2 + (a + b) + 2 ^ 28 * h + c <= 2 ^ 31 + 2 ^ 28.
Proof.
  intros (_ & _ & _ & X2 & _ & _ & _ & B2 & _) (_ & X1 & _ & _ & _ & B3 & B4 & B5 & _) X3 H8 H31 C.
  unfold spread_last. rewrite X1, X2, X3. clear X1 X2 X3. split; [|lia]. unfold add32. rewrite (mod_same (h2 + a)) by lia. rewrite (mod_same (h2 + a + _)) by lia. rewrite mod_same by lia. lia.
Qed.
Lemma spread_eq tmp out c x : fold_left (spread_step tmp) (seq 2 15) (spread_first tmp) = (out, c) -> spread_last tmp c = x -> spread tmp = out ++ [x].
Proof. intros E X. unfold spread. rewrite E, X. reflexivity. Qed.
Lemma spread_17 t0 t1 t2 t3 t4 t5 t6 t7 t8 t9 t10 t11 t12 t13 t14 t15 t16 : Forall (fun x => 0 <= x <= 2 ^ 64 - 1) [t0; t1; t2; t3; t4; t5; t6; t7; t8; t9; t10; t11; t12; t13; t14; t15; t16] -> t16 <= 2 ^ 60 ->
  exists w0 w1 w2 w3 w4 w5 w6 w7 w8 w9 w10 w11 w12 w13 w14 w15 w16 w17, spread [t0; t1; t2; t3; t4; t5; t6; t7; t8; t9; t10; t11; t12; t13; t14; t15; t16] = [w0; w1; w2; w3; w4; w5; w6; w7; w8; w9; w10; w11; w12; w13; w14; w15; w16; w17] /\
    Forall (fun x => 0 <= x <= 2 ^ 29 - 1) [w0; w2; w4; w6; w8; w10; w12; w14; w16] /\ Forall (fun x => 0 <= x <= 2 ^ 28 - 1) [w1; w3; w5; w7; w9; w11; w13; w15] /\ 0 <= w17 <= 2 ^ 31 + 2 ^ 28 /\
    mixed true [w0; w1; w2; w3; w4; w5; w6; w7; w8; w9; w10; w11; w12; w13; w14; w15; w16; w17] = mixed true [t0; t1; t2; t3; t4; t5; t6; t7; t8; t9; t10; t11; t12; t13; t14; t15; t16].
Proof.
  intros FT T16. split_bounds. set (tmp := [t0; t1; t2; t3; t4; t5; t6; t7; t8; t9; t10; t11; t12; t13; t14; t15; t16]).
  destruct (cut_even_ex tmp.[0]) as (l0 & a0 & b0 & h0 & X0 & O0 & Y0); [assumption|]. assert (S0 : t0 = l0 + 2 ^ 29 * (a0 + b0) + 2 ^ 57 * h0) by apply X0. assert (L0 : 0 <= l0 <= 536870911) by apply X0.
  destruct (cut_odd_ex tmp.[1]) as (l1 & a1 & b1 & h1 & X1); [assumption|]. assert (S1 : t1 = l1 + 2 ^ 28 * (a1 + b1) + 2 ^ 57 * h1) by apply X1.
  destruct (cut_even_ex tmp.[2]) as (l2 & a2 & b2 & h2 & X2 & O2 & Y2); [assumption|]. assert (S2 : t2 = l2 + 2 ^ 29 * (a2 + b2) + 2 ^ 57 * h2) by apply X2. assert (L2 : 0 <= l2 <= 536870911) by apply X2.
  destruct (cut_odd_ex tmp.[3]) as (l3 & a3 & b3 & h3 & X3); [assumption|]. assert (S3 : t3 = l3 + 2 ^ 28 * (a3 + b3) + 2 ^ 57 * h3) by apply X3.
  destruct (cut_even_ex tmp.[4]) as (l4 & a4 & b4 & h4 & X4 & O4 & Y4); [assumption|]. assert (S4 : t4 = l4 + 2 ^ 29 * (a4 + b4) + 2 ^ 57 * h4) by apply X4. assert (L4 : 0 <= l4 <= 536870911) by apply X4.
  destruct (cut_odd_ex tmp.[5]) as (l5 & a5 & b5 & h5 & X5); [assumption|]. assert (S5 : t5 = l5 + 2 ^ 28 * (a5 + b5) + 2 ^ 57 * h5) by apply X5.
  destruct (cut_even_ex tmp.[6]) as (l6 & a6 & b6 & h6 & X6 & O6 & Y6); [assumption|]. assert (S6 : t6 = l6 + 2 ^ 29 * (a6 + b6) + 2 ^ 57 * h6) by apply X6. assert (L6 : 0 <= l6 <= 536870911) by apply X6.
  destruct (cut_odd_ex tmp.[7]) as (l7 & a7 & b7 & h7 & X7); [assumption|]. assert (S7 : t7 = l7 + 2 ^ 28 * (a7 + b7) + 2 ^ 57 * h7) by apply X7.
  destruct (cut_even_ex tmp.[8]) as (l8 & a8 & b8 & h8 & X8 & O8 & Y8); [assumption|]. assert (S8 : t8 = l8 + 2 ^ 29 * (a8 + b8) + 2 ^ 57 * h8) by apply X8. assert (L8 : 0 <= l8 <= 536870911) by apply X8.
  destruct (cut_odd_ex tmp.[9]) as (l9 & a9 & b9 & h9 & X9); [assumption|]. assert (S9 : t9 = l9 + 2 ^ 28 * (a9 + b9) + 2 ^ 57 * h9) by apply X9.
  destruct (cut_even_ex tmp.[10]) as (l10 & a10 & b10 & h10 & X10 & O10 & Y10); [assumption|]. assert (S10 : t10 = l10 + 2 ^ 29 * (a10 + b10) + 2 ^ 57 * h10) by apply X10. assert (L10 : 0 <= l10 <= 536870911) by apply X10.
  destruct (cut_odd_ex tmp.[11]) as (l11 & a11 & b11 & h11 & X11); [assumption|]. assert (S11 : t11 = l11 + 2 ^ 28 * (a11 + b11) + 2 ^ 57 * h11) by apply X11.
  destruct (cut_even_ex tmp.[12]) as (l12 & a12 & b12 & h12 & X12 & O12 & Y12); [assumption|]. assert (S12 : t12 = l12 + 2 ^ 29 * (a12 + b12) + 2 ^ 57 * h12) by apply X12. assert (L12 : 0 <= l12 <= 536870911) by apply X12.
  destruct (cut_odd_ex tmp.[13]) as (l13 & a13 & b13 & h13 & X13); [assumption|]. assert (S13 : t13 = l13 + 2 ^ 28 * (a13 + b13) + 2 ^ 57 * h13) by apply X13.
  destruct (cut_even_ex tmp.[14]) as (l14 & a14 & b14 & h14 & X14 & O14 & Y14); [assumption|]. assert (S14 : t14 = l14 + 2 ^ 29 * (a14 + b14) + 2 ^ 57 * h14) by apply X14. assert (L14 : 0 <= l14 <= 536870911) by apply X14.
  destruct (cut_odd_ex tmp.[15]) as (l15 & a15 & b15 & h15 & X15); [assumption|]. assert (S15 : t15 = l15 + 2 ^ 28 * (a15 + b15) + 2 ^ 57 * h15) by apply X15.
  destruct (cut_even_ex tmp.[16]) as (l16 & a16 & b16 & h16 & X16 & O16 & Y16); [assumption|]. assert (S16 : t16 = l16 + 2 ^ 29 * (a16 + b16) + 2 ^ 57 * h16) by apply X16. assert (L16 : 0 <= l16 <= 536870911) by apply X16.
  set (R := fold_left (spread_step tmp) (seq 2 15) (spread_first tmp)). assert (H : R = fold_left (spread_step tmp) (seq 2 15) (spread_first tmp)) by reflexivity.
  ev H (seq 2 15) [2; 3; 4; 5; 6; 7; 8; 9; 10; 11; 12; 13; 14; 15; 16]%nat. rewrite !fold_cons, !fold_nil in H.
  destruct (spread_first_one tmp _ _ _ _ _ _ _ _ X0 O0 X1) as (w1 & c1 & E & W1 & C1 & V1). rewrite E in H. clear E.
  destruct (spread_even_one tmp 2%nat c1 _ _ _ _ _ _ _ _ _ _ _ _ X0 X1 X2 C1) as (w2 & c2 & E & W2 & C2 & V2). rewrite (spread_step_even tmp _ _ 2%nat _ _ eq_refl E) in H. clear E.
  destruct (spread_odd_one tmp 3%nat c2 _ _ _ _ _ _ _ _ _ _ _ _ X1 X2 X3 C2) as (w3 & c3 & E & W3 & C3 & V3). rewrite (spread_step_odd tmp _ _ 3%nat _ _ eq_refl E) in H. clear E.
  destruct (spread_even_one tmp 4%nat c3 _ _ _ _ _ _ _ _ _ _ _ _ X2 X3 X4 C3) as (w4 & c4 & E & W4 & C4 & V4). rewrite (spread_step_even tmp _ _ 4%nat _ _ eq_refl E) in H. clear E.
  destruct (spread_odd_one tmp 5%nat c4 _ _ _ _ _ _ _ _ _ _ _ _ X3 X4 X5 C4) as (w5 & c5 & E & W5 & C5 & V5). rewrite (spread_step_odd tmp _ _ 5%nat _ _ eq_refl E) in H. clear E.
  destruct (spread_even_one tmp 6%nat c5 _ _ _ _ _ _ _ _ _ _ _ _ X4 X5 X6 C5) as (w6 & c6 & E & W6 & C6 & V6). rewrite (spread_step_even tmp _ _ 6%nat _ _ eq_refl E) in H. clear E.
  destruct (spread_odd_one tmp 7%nat c6 _ _ _ _ _ _ _ _ _ _ _ _ X5 X6 X7 C6) as (w7 & c7 & E & W7 & C7 & V7). rewrite (spread_step_odd tmp _ _ 7%nat _ _ eq_refl E) in H. clear E.
  destruct (spread_even_one tmp 8%nat c7 _ _ _ _ _ _ _ _ _ _ _ _ X6 X7 X8 C7) as (w8 & c8 & E & W8 & C8 & V8). rewrite (spread_step_even tmp _ _ 8%nat _ _ eq_refl E) in H. clear E.
  destruct (spread_odd_one tmp 9%nat c8 _ _ _ _ _ _ _ _ _ _ _ _ X7 X8 X9 C8) as (w9 & c9 & E & W9 & C9 & V9). rewrite (spread_step_odd tmp _ _ 9%nat _ _ eq_refl E) in H. clear E.
  destruct (spread_even_one tmp 10%nat c9 _ _ _ _ _ _ _ _ _ _ _ _ X8 X9 X10 C9) as (w10 & c10 & E & W10 & C10 & V10). rewrite (spread_step_even tmp _ _ 10%nat _ _ eq_refl E) in H. clear E.
  destruct (spread_odd_one tmp 11%nat c10 _ _ _ _ _ _ _ _ _ _ _ _ X9 X10 X11 C10) as (w11 & c11 & E & W11 & C11 & V11). rewrite (spread_step_odd tmp _ _ 11%nat _ _ eq_refl E) in H. clear E.
  destruct (spread_even_one tmp 12%nat c11 _ _ _ _ _ _ _ _ _ _ _ _ X10 X11 X12 C11) as (w12 & c12 & E & W12 & C12 & V12). rewrite (spread_step_even tmp _ _ 12%nat _ _ eq_refl E) in H. clear E.
  destruct (spread_odd_one tmp 13%nat c12 _ _ _ _ _ _ _ _ _ _ _ _ X11 X12 X13 C12) as (w13 & c13 & E & W13 & C13 & V13). rewrite (spread_step_odd tmp _ _ 13%nat _ _ eq_refl E) in H. clear E.
  destruct (spread_even_one tmp 14%nat c13 _ _ _ _ _ _ _ _ _ _ _ _ X12 X13 X14 C13) as (w14 & c14 & E & W14 & C14 & V14). rewrite (spread_step_even tmp _ _ 14%nat _ _ eq_refl E) in H. clear E.
  destruct (spread_odd_one tmp 15%nat c14 _ _ _ _ _ _ _ _ _ _ _ _ X13 X14 X15 C14) as (w15 & c15 & E & W15 & C15 & V15). rewrite (spread_step_odd tmp _ _ 15%nat _ _ eq_refl E) in H. clear E.
  destruct (spread_even_one tmp 16%nat c15 _ _ _ _ _ _ _ _ _ _ _ _ X14 X15 X16 C15) as (w16 & c16 & E & W16 & C16 & V16). rewrite (spread_step_even tmp _ _ 16%nat _ _ eq_refl E) in H. clear E.
  destruct (Y16 T16) as (Z1 & Z2 & Z3). destruct (spread_last_one tmp c16 _ _ _ _ _ _ _ _ X15 X16 Z1 Z2 Z3 C16) as (E17 & B17). clear Z1.
  set (w17 := h15 + _ + _ + c16) in E17, B17. assert (V17 : w17 = h15 + (a16 + b16) + 2 ^ 28 * h16 + c16) by reflexivity. clearbody w17.
  exists l0, w1, w2, w3, w4, w5, w6, w7, w8, w9, w10, w11, w12, w13, w14, w15, w16, w17.
  split; [exact (spread_eq tmp _ _ _ H E17)|]. clear H E17 R.
  repeat match goal with X : cut_even _ _ _ _ _ |- _ => clear X | X : cut_odd _ _ _ _ _ |- _ => clear X | O : Z.lor _ _ = _ |- _ => clear O | Y : _ -> _ |- _ => clear Y end. unfold tmp. clear tmp.
  split; [repeat (apply Forall_cons; [assumption || (change (2 ^ 29 - 1) with 536870911; assumption)|]); constructor|]. split; [repeat (apply Forall_cons; [assumption|]); constructor|]. split; [assumption|].
  repeat match goal with B : _ <= _ <= _ |- _ => clear B end. cbn [mixed negb]. lia.
Qed.

(** ** Reduction *)
Lemma f_same y : 0 <= y <= 4294967295 -> y = f y. Proof. intros. symmetry. apply mod_same. assumption. Qed.
Lemma reduce_degree_17 t0 t1 t2 t3 t4 t5 t6 t7 t8 t9 t10 t11 t12 t13 t14 t15 t16 : Forall (fun x => 0 <= x <= 2 ^ 64 - 1) [t0; t1; t2; t3; t4; t5; t6; t7; t8; t9; t10; t11; t12; t13; t14; t15; t16] -> t16 <= 2 ^ 60 ->
  exists a0 a1 a2 a3 a4 a5 a6 a7 a8, p256_reduce_degree false [t0; t1; t2; t3; t4; t5; t6; t7; t8; t9; t10; t11; t12; t13; t14; t15; t16] = Some [a0; a1; a2; a3; a4; a5; a6; a7; a8] /\ Forall (fun x => 0 <= x <= 2 ^ 30 - 1) [a0; a2; a4; a6] /\ Forall (fun x => 0 <= x <= 2 ^ 29 - 1) [a1; a3; a5; a7; a8] /\
    cong P (mixed true [a0; a1; a2; a3; a4; a5; a6; a7; a8] * 2 ^ 257) (mixed true [t0; t1; t2; t3; t4; t5; t6; t7; t8; t9; t10; t11; t12; t13; t14; t15; t16]).
Proof.
  intros FT T16. destruct (spread_17 t0 t1 t2 t3 t4 t5 t6 t7 t8 t9 t10 t11 t12 t13 t14 t15 t16 FT T16) as (w0 & w1 & w2 & w3 & w4 & w5 & w6 & w7 & w8 & w9 & w10 & w11 & w12 & w13 & w14 & w15 & w16 & w17 & E & FE & FO & B17 & V). unfold p256_reduce_degree. rewrite E. clear E FT.
  assert (EW : [w0; w1; w2; w3; w4; w5; w6; w7; w8; w9; w10; w11; w12; w13; w14; w15; w16; w17] = [f w0; f w1; f w2; f w3; f w4; f w5; f w6; f w7; f w8; f w9; f w10; f w11; f w12; f w13; f w14; f w15; f w16; f w17]).
  { pose proof FE as FE'. pose proof FO as FO'. split_bounds. repeat (apply f_equal2; [apply f_same; lia|]). reflexivity. }
  destruct (elim_loop_18 w0 w1 w2 w3 w4 w5 w6 w7 w8 w9 w10 w11 w12 w13 w14 w15 w16 w17 FE FO B17) as (v9 & v10 & v11 & v12 & v13 & v14 & v15 & v16 & v17 & m & E & V2 & R9 & R10 & R11 & R12 & R13 & R14 & R15 & R16 & R17 & C1 & C2 & C3 & C4).
  rewrite EW, E. clear EW E. cbv beta iota.
  destruct (shift_down_9 v9 v10 v11 v12 v13 v14 v15 v16 v17 R9 R10 R11 R12 R13 R14 R15 R16 R17 C1 C2 C3 C4) as (a0 & a1 & a2 & a3 & a4 & a5 & a6 & a7 & a8 & c & E & G1 & G2 & V3).
  rewrite E. exists a0, a1, a2, a3, a4, a5, a6, a7, a8. split; [reflexivity|]. split; [exact G1|]. split; [exact G2|]. rewrite V3, <- V. clear - V2.
  apply (cong_by _ _ _ (c * 2 ^ 257 + m)). set (X := mixed true [w0; w1; w2; w3; w4; w5; w6; w7; w8; w9; w10; w11; w12; w13; w14; w15; w16; w17]) in *. clearbody X.
  assert (Y : mixed true [0; 0; 0; 0; 0; 0; 0; 0; 0; v9; v10; v11; v12; v13; v14; v15; v16; v17] = 2 ^ 257 * mixed false [v9; v10; v11; v12; v13; v14; v15; v16; v17]) by (cbn [mixed negb]; ring).
  rewrite Y in V2. clear Y. set (Y := mixed false _) in *. clearbody Y. lia.
Qed.
Lemma mul64_eq a b : mul64 a b = (a * b) mod M64. Proof. reflexivity. Qed.
Ltac tmp_rows H := repeat word_step H;
  match type of H with ?R = [?t0; ?t1; ?t2; ?t3; ?t4; ?t5; ?t6; ?t7; ?t8; ?t9; ?t10; ?t11; ?t12; ?t13; ?t14; ?t15; ?t16] =>
    exists t0, t1, t2, t3, t4, t5, t6, t7, t8, t9, t10, t11, t12, t13, t14, t15, t16 end;
  split; [exact H|]; clear H; split;
  [repeat (apply Forall_cons; [use_bound|]); constructor
  |split; [match goal with |- ?x <= _ => match goal with B : _ <= x <= _ |- _ => clear - B; lia end end
  |repeat match goal with B : _ <= _ <= _ |- _ => clear B end; subst; cbn [mixed negb]; ring]].
Lemma mul_tmp_9 a0 a1 a2 a3 a4 a5 a6 a7 a8 b0 b1 b2 b3 b4 b5 b6 b7 b8 : Forall (fun x => 0 <= x <= 2 ^ 30 - 1) [a0; a2; a4; a6] -> Forall (fun x => 0 <= x <= 2 ^ 29 - 1) [a1; a3; a5; a7; a8] -> Forall (fun x => 0 <= x <= 2 ^ 30 - 1) [b0; b2; b4; b6] -> Forall (fun x => 0 <= x <= 2 ^ 29 - 1) [b1; b3; b5; b7; b8] ->
  exists t0 t1 t2 t3 t4 t5 t6 t7 t8 t9 t10 t11 t12 t13 t14 t15 t16, mul_tmp [a0; a1; a2; a3; a4; a5; a6; a7; a8] [b0; b1; b2; b3; b4; b5; b6; b7; b8] = [t0; t1; t2; t3; t4; t5; t6; t7; t8; t9; t10; t11; t12; t13; t14; t15; t16] /\ Forall (fun x => 0 <= x <= 2 ^ 64 - 1) [t0; t1; t2; t3; t4; t5; t6; t7; t8; t9; t10; t11; t12; t13; t14; t15; t16] /\ t16 <= 2 ^ 60 /\
    mixed true [t0; t1; t2; t3; t4; t5; t6; t7; t8; t9; t10; t11; t12; t13; t14; t15; t16] = mixed true [a0; a1; a2; a3; a4; a5; a6; a7; a8] * mixed true [b0; b1; b2; b3; b4; b5; b6; b7; b8].
Proof.
  intros A1 A2 B1 B2. split_bounds. repeat match goal with B : _ <= _ <= _ |- _ => norm_bound B; revert B end. intros.
  set (R := mul_tmp _ _). assert (H : R = mul_tmp [a0; a1; a2; a3; a4; a5; a6; a7; a8] [b0; b1; b2; b3; b4; b5; b6; b7; b8]) by reflexivity. clearbody R. unfold mul_tmp in H. cbn [nth] in H. rewrite !mul64_eq in H.
  tmp_rows H.
Qed.
Lemma square_tmp_9 a0 a1 a2 a3 a4 a5 a6 a7 a8 : Forall (fun x => 0 <= x <= 2 ^ 30 - 1) [a0; a2; a4; a6] -> Forall (fun x => 0 <= x <= 2 ^ 29 - 1) [a1; a3; a5; a7; a8] ->
  exists t0 t1 t2 t3 t4 t5 t6 t7 t8 t9 t10 t11 t12 t13 t14 t15 t16, square_tmp [a0; a1; a2; a3; a4; a5; a6; a7; a8] = [t0; t1; t2; t3; t4; t5; t6; t7; t8; t9; t10; t11; t12; t13; t14; t15; t16] /\ Forall (fun x => 0 <= x <= 2 ^ 64 - 1) [t0; t1; t2; t3; t4; t5; t6; t7; t8; t9; t10; t11; t12; t13; t14; t15; t16] /\ t16 <= 2 ^ 60 /\
    mixed true [t0; t1; t2; t3; t4; t5; t6; t7; t8; t9; t10; t11; t12; t13; t14; t15; t16] = mixed true [a0; a1; a2; a3; a4; a5; a6; a7; a8] * mixed true [a0; a1; a2; a3; a4; a5; a6; a7; a8].
Proof.
  intros A1 A2. split_bounds. repeat match goal with B : _ <= _ <= _ |- _ => norm_bound B; revert B end. intros.
  set (R := square_tmp _). assert (H : R = square_tmp [a0; a1; a2; a3; a4; a5; a6; a7; a8]) by reflexivity. clearbody R. unfold square_tmp in H. cbn [nth] in H. rewrite !mul64_eq in H.
  tmp_rows H.
Qed.
