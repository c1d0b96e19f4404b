From Coq Require Import Znumtheory.
From Verif Require Import Base Words HashModel EllModel EllSpec P224Model LimbTac P224Large P256Model P256Spec.
Local Open Scope Z_scope.
From Verif Require Import P256Limbs.
Lemma mod_same y : 0 <= y <= 4294967295 -> y mod M32 = y. Proof. intros. apply Z.mod_small. unfold M32. lia. Qed.
Lemma mod_add_same x y : 0 <= x + y <= 4294967295 -> (x mod M32 + y) mod M32 = x + y. Proof. intros. rewrite Zplus_mod_idemp_l. apply mod_same. lia. Qed.
Lemma mod_sub_same x y : 0 <= x - y <= 4294967295 -> (x mod M32 - y) mod M32 = x - y. Proof. intros. rewrite Zminus_mod_idemp_l. apply mod_same. lia. Qed.
Lemma reduce_carry_9 o0 o1 o2 o3 o4 o5 o6 o7 o8 c :
  Forall (fun x => 0 <= x <= 2 ^ 29 - 1) [o0; o2; o4; o6; o8] -> Forall (fun x => 0 <= x <= 2 ^ 28 - 1) [o1; o3; o5; o7] -> 0 <= c <= 8 ->
  exists a0 a3 a4 a5 a6 a7, p256_reduce_carry [o0; o1; o2; o3; o4; o5; o6; o7; o8] c = [a0; o1; o2; a3; a4; a5; a6; a7; o8] /\
    Forall (fun x => 0 <= x <= 2 ^ 30 - 1) [a0; a4; a6] /\ Forall (fun x => 0 <= x <= 2 ^ 29 - 1) [a3; a5; a7] /\
    mixed true [a0; o1; o2; a3; a4; a5; a6; a7; o8] = mixed true [o0; o1; o2; o3; o4; o5; o6; o7; o8] + c * (2 ^ 257 - 2 * P).
Proof.
  intros FE FO C. split_bounds.
  match goal with |- context [p256_reduce_carry ?L c] => set (R := p256_reduce_carry L c); assert (H : R = p256_reduce_carry L c) by reflexivity; clearbody R end.
  match type of H with R = ?t => let e := eval cbv [p256_reduce_carry upd nth firstn skipn app] in t in ev H t e end.
  destruct (nz_facts c ltac:(lia)) as (z & Z1 & Zx & ZC & _ & _). change (0x20000000 - 1) with 0x1fffffff in H. change (0x10000000 - 1) with 0xfffffff in H. rewrite !ZC in H by (unfold M32; lia). clear ZC.
  assert (SH : forall k, 0 <= k <= 28 -> shl32 c k = c * 2 ^ k).
  { intros k K. unfold shl32. rewrite Z.shiftl_mul_pow2 by lia. apply Z.mod_small. assert (2 ^ k <= 2 ^ 28) by (apply Z.pow_le_mono_r; lia). pose proof (Z.pow_pos_nonneg 2 k). unfold M32. nia. }
  rewrite !SH in H by lia. clear SH. unfold add32, sub32 in H.
  assert (CZ : z = 0 /\ c = 0 \/ z = 1 /\ 1 <= c) by (clear - Z1 Zx C; destruct (Z.eq_dec z 0); lia). clear Zx.
  rewrite mod_sub_same, mod_sub_same, mod_add_same, !mod_same in H; cycle 1.
  all: swap 1 8.
  all: try (clear H; destruct CZ as [(-> & ->)|(-> & ?)]; lia).
  match type of H with _ = [?a; _; _; ?b; ?c; ?d; ?e; ?g; _] => exists a, b, c, d, e, g end. split; [exact H|]. clear H.
  destruct CZ as [(-> & ->)|(-> & ?)]; (split; [repeat (apply Forall_cons; [lia|]); constructor|]); (split; [repeat (apply Forall_cons; [lia|]); constructor|]); cbn [mixed negb]; lia.
Qed.

(** ** Shifting down by 257 bits *)
Lemma shift_one a b c : -1 <= a <= 2684354559 -> 0 <= b <= 3223324667 -> 0 <= c <= 15 -> 0 <= a + c ->
  let o := add32 (add32 (f a) c) (Z.land (shl32 (f b) 28) BOT29) in let o1 := add32 (shr (f b) 1) (shr o 29) in
  0 <= Z.land o BOT29 <= 2 ^ 29 - 1 /\ 0 <= Z.land o1 BOT28 <= 2 ^ 28 - 1 /\ 0 <= shr o1 28 <= 15 /\ (2 ^ 29 <= b -> 1 <= shr o1 28) /\
  Z.land o BOT29 + 2 ^ 29 * (Z.land o1 BOT28) + 2 ^ 57 * shr o1 28 = a + c + 2 ^ 28 * b.
Proof.
  intros A B C AC o o1. assert (Eb : f b = b) by (apply mod_same; lia). assert (Eo : o = f (a + c + 2 ^ 28 * Z.land b 1)).
  { unfold o, BOT29. rewrite Eb, add_f, (shl_mask b 28 29 0x1fffffff 1) by reflexivity. apply add_f. }
  assert (Eo1 : o1 = add32 (shr b 1) (shr o 29)) by (unfold o1; rewrite Eb; reflexivity). clearbody o1. clearbody o. clear Eb.
  destruct (split_b b 1 1 _ _ B eq_refl) as (S1 & Q1 & R1). set (q1 := shr b 1) in *. set (r1 := Z.land b 1) in *. clearbody q1 r1. norm_bound Q1.
  unfold f in Eo. rewrite mod_same in Eo by lia. assert (O : 0 <= o <= 4294967295) by lia. unfold BOT29.
  destruct (split_b o 29 0x1fffffff _ _ O eq_refl) as (S2 & Q2 & R2). set (q2 := shr o 29) in *. set (r2 := Z.land o 0x1fffffff) in *. clearbody q2 r2. norm_bound Q2.
  unfold add32 in Eo1. rewrite mod_same in Eo1 by lia. assert (O1 : 0 <= o1 <= 1700000000) by lia.
  unfold BOT28. destruct (split_b o1 28 0xfffffff _ _ O1 eq_refl) as (S3 & Q3 & R3). set (q3 := shr o1 28) in *. set (r3 := Z.land o1 0xfffffff) in *. clearbody q3 r3. norm_bound Q3.
  split; [lia|]. split; [lia|]. split; [lia|]. split; [clear S2; lia|]. lia.
Qed.
Lemma shift_step_one t out i a b c : t.[i + 9] = f a -> t.[i + 10] = f b -> -1 <= a <= 2684354559 -> 0 <= b <= 3223324667 -> 0 <= c <= 15 -> 0 <= a + c ->
  exists o o1 c', shift_step t (out, c) i = (out ++ [o; o1], c') /\ 0 <= o <= 2 ^ 29 - 1 /\ 0 <= o1 <= 2 ^ 28 - 1 /\ 0 <= c' <= 15 /\ (2 ^ 29 <= b -> 1 <= c') /\
  o + 2 ^ 29 * o1 + 2 ^ 57 * c' = a + c + 2 ^ 28 * b.
Proof.
  intros TA TB A B C AC. pose proof (shift_one a b c A B C AC) as S. cbv zeta in S. unfold shift_step. rewrite TA, TB.
  match type of S with 0 <= ?o <= _ /\ 0 <= ?o1 <= _ /\ 0 <= ?k <= _ /\ _ => exists o, o1, k end. split; [reflexivity|exact S].
Qed.
Lemma shift_down_eq t out c x : fold_left (shift_step t) [0; 2; 4; 6]%nat ([], 0) = (out, c) -> add32 t.[17] c = x ->
  shift_down t = p256_reduce_carry (out ++ [Z.land x 0x1fffffff]) (shr x 29).
Proof. intros E X. unfold shift_down. rewrite E, X. reflexivity. Qed.
Lemma shift_down_9 v9 v10 v11 v12 v13 v14 v15 v16 v17 :
  0 <= v9 <= 1612710914 -> 0 <= v10 <= 3223324667 -> -1 <= v11 <= 1612710907 -> 0 <= v12 <= 2686453756 -> -1 <= v13 <= 1344274428 -> 0 <= v14 <= 2686451708 ->
  -1 <= v15 <= 1075838973 -> 0 <= v16 <= 1610612733 -> -1 <= v17 <= 2684354559 ->
  0 <= v10 + 2 ^ 29 * v11 -> 0 <= v12 + 2 ^ 29 * v13 -> 0 <= v14 + 2 ^ 29 * v15 -> 0 <= v16 + 2 ^ 29 * v17 ->
  exists a0 a1 a2 a3 a4 a5 a6 a7 a8 c, shift_down [0; 0; 0; 0; 0; 0; 0; 0; 0; f v9; f v10; f v11; f v12; f v13; f v14; f v15; f v16; f v17] = [a0; a1; a2; a3; a4; a5; a6; a7; a8] /\
    Forall (fun x => 0 <= x <= 2 ^ 30 - 1) [a0; a2; a4; a6] /\ Forall (fun x => 0 <= x <= 2 ^ 29 - 1) [a1; a3; a5; a7; a8] /\
    mixed true [a0; a1; a2; a3; a4; a5; a6; a7; a8] = mixed false [v9; v10; v11; v12; v13; v14; v15; v16; v17] + c * P.
Proof.
  intros B9 B10 B11 B12 B13 B14 B15 B16 B17 C1 C2 C3 C4.
  match goal with |- context [shift_down ?L] => set (t := L) end.
  set (R := fold_left (shift_step t) [0; 2; 4; 6]%nat ([], 0)). assert (H : R = fold_left (shift_step t) [0; 2; 4; 6]%nat ([], 0)) by reflexivity.
  rewrite !fold_cons, !fold_nil in H.
  match type of H with context [shift_step ?L (?out, ?c) 0%nat] => destruct (shift_step_one L out 0%nat v9 v10 c eq_refl eq_refl) as (o0 & o1 & c1 & E & X0 & X1 & K1 & L1 & S1); [lia|lia|lia|lia|] end.
  rewrite E in H. clear E. assert (AC1 : 0 <= v11 + c1) by lia. clear L1 C1.
  match type of H with context [shift_step ?L (?out, ?c) 2%nat] => destruct (shift_step_one L out 2%nat v11 v12 c eq_refl eq_refl) as (o2 & o3 & c2 & E & X2 & X3 & K2 & L2 & S2); [lia|lia|lia|lia|] end.
  rewrite E in H. clear E. assert (AC2 : 0 <= v13 + c2) by lia. clear L2 C2.
  match type of H with context [shift_step ?L (?out, ?c) 4%nat] => destruct (shift_step_one L out 4%nat v13 v14 c eq_refl eq_refl) as (o4 & o5 & c3 & E & X4 & X5 & K3 & L3 & S3); [lia|lia|lia|lia|] end.
  rewrite E in H. clear E. assert (AC3 : 0 <= v15 + c3) by lia. clear L3 C3.
  match type of H with context [shift_step ?L (?out, ?c) 6%nat] => destruct (shift_step_one L out 6%nat v15 v16 c eq_refl eq_refl) as (o6 & o7 & c4 & E & X6 & X7 & K4 & L4 & S4); [lia|lia|lia|lia|] end.
  rewrite E in H. clear E. assert (AC4 : 0 <= v17 + c4) by lia. clear L4 C4.
  assert (F17 : add32 t.[17] c4 = v17 + c4) by (change (t.[17]) with (f v17); rewrite add_f; apply mod_same; lia).
  set (w := v17 + c4) in F17. assert (Ew : w = v17 + c4) by reflexivity. assert (W : 0 <= w <= 2684354600) by lia. clearbody w.
  rewrite (shift_down_eq t _ _ _ H F17). clear H F17 R. clearbody t. cbn [app].
  destruct (split_b w 29 0x1fffffff _ _ W eq_refl) as (S5 & Q5 & R5). set (c := shr w 29) in *. set (o8 := Z.land w 0x1fffffff) in *. clearbody c o8. norm_bound Q5.
  destruct (reduce_carry_9 o0 o1 o2 o3 o4 o5 o6 o7 o8 c) as (a0 & a3 & a4 & a5 & a6 & a7 & E & F1 & F2 & V).
  { repeat (apply Forall_cons; [lia|]). constructor. } { repeat (apply Forall_cons; [lia|]). constructor. } { lia. }
  exists a0, o1, o2, a3, a4, a5, a6, a7, o8, (-2 * c). split; [exact E|]. clear E.
  split_bounds. split; [repeat (apply Forall_cons; [lia|]); constructor|]. split; [repeat (apply Forall_cons; [lia|]); constructor|].
  rewrite V. clear V. cbn [mixed negb]. clear - S1 S2 S3 S4 S5 Ew. subst w. lia.
Qed.
