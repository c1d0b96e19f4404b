(** Proofs about P256Model.v: the field operations. *)
From Coq Require Import Znumtheory.
From Verif Require Import Base Words HashModel EllModel EllSpec P224Model LimbTac P224Large P256Model P256Spec P256Limbs P256Red P256Mul.
Local Open Scope Z_scope.

Lemma cong_trans q x y z : cong q x y -> cong q y z -> cong q x z.
Proof. intros [a A] [b B]. exists (a + b). lia. Qed.
Lemma cong_eq q x y : x = y -> cong q x y. Proof. intros ->. exists 0. ring. Qed.
Lemma element_9 l : element l -> exists a0 a1 a2 a3 a4 a5 a6 a7 a8, l = [a0; a1; a2; a3; a4; a5; a6; a7; a8] /\
  Forall (fun x => 0 <= x <= 2 ^ 30 - 1) [a0; a2; a4; a6] /\ Forall (fun x => 0 <= x <= 2 ^ 29 - 1) [a1; a3; a5; a7; a8].
Proof.
  intros (Le & B). destruct l as [|a0 [|a1 [|a2 [|a3 [|a4 [|a5 [|a6 [|a7 [|a8 [|a9 r]]]]]]]]]]; try discriminate Le.
  exists a0, a1, a2, a3, a4, a5, a6, a7, a8. split; [reflexivity|].
  pose proof (B 0%nat ltac:(lia)). pose proof (B 1%nat ltac:(lia)). pose proof (B 2%nat ltac:(lia)). pose proof (B 3%nat ltac:(lia)). pose proof (B 4%nat ltac:(lia)).
  pose proof (B 5%nat ltac:(lia)). pose proof (B 6%nat ltac:(lia)). pose proof (B 7%nat ltac:(lia)). pose proof (B 8%nat ltac:(lia)).
  cbn [nth Nat.even Nat.ltb Nat.leb andb] in *. split; repeat (apply Forall_cons; [lia|]); constructor.
Qed.
Lemma element_of a0 a1 a2 a3 a4 a5 a6 a7 a8 :
  Forall (fun x => 0 <= x <= 2 ^ 30 - 1) [a0; a2; a4; a6] -> Forall (fun x => 0 <= x <= 2 ^ 29 - 1) [a1; a3; a5; a7; a8] -> element [a0; a1; a2; a3; a4; a5; a6; a7; a8].
Proof.
  intros F1 F2. split_bounds. split; [reflexivity|]. intros i I. do 9 (destruct i as [|i]; [cbn [nth Nat.even Nat.ltb Nat.leb andb]; lia|]). lia.
Qed.
Lemma mul_ok a b : element a -> element b -> exists m, p256_mul false a b = Some m /\ element m /\ cong P256 (val256 m * 2 ^ 257) (val256 a * val256 b).
Proof.
  intros A B. destruct (element_9 a A) as (a0 & a1 & a2 & a3 & a4 & a5 & a6 & a7 & a8 & -> & A1 & A2). destruct (element_9 b B) as (b0 & b1 & b2 & b3 & b4 & b5 & b6 & b7 & b8 & -> & B1 & B2).
  destruct (mul_tmp_9 _ _ _ _ _ _ _ _ _ _ _ _ _ _ _ _ _ _ A1 A2 B1 B2) as (t0 & t1 & t2 & t3 & t4 & t5 & t6 & t7 & t8 & t9 & t10 & t11 & t12 & t13 & t14 & t15 & t16 & E & F & T & V).
  destruct (reduce_degree_17 _ _ _ _ _ _ _ _ _ _ _ _ _ _ _ _ _ F T) as (c0 & c1 & c2 & c3 & c4 & c5 & c6 & c7 & c8 & E2 & F1 & F2 & V2).
  exists [c0; c1; c2; c3; c4; c5; c6; c7; c8]. split; [unfold p256_mul; rewrite E; exact E2|]. split; [apply element_of; assumption|].
  unfold val256. rewrite <- V. exact V2.
Qed.
Lemma square_ok a : element a -> exists m, p256_square false a = Some m /\ element m /\ cong P256 (val256 m * 2 ^ 257) (val256 a * val256 a).
Proof.
  intros A. destruct (element_9 a A) as (a0 & a1 & a2 & a3 & a4 & a5 & a6 & a7 & a8 & -> & A1 & A2).
  destruct (square_tmp_9 _ _ _ _ _ _ _ _ _ A1 A2) as (t0 & t1 & t2 & t3 & t4 & t5 & t6 & t7 & t8 & t9 & t10 & t11 & t12 & t13 & t14 & t15 & t16 & E & F & T & V).
  destruct (reduce_degree_17 _ _ _ _ _ _ _ _ _ _ _ _ _ _ _ _ _ F T) as (c0 & c1 & c2 & c3 & c4 & c5 & c6 & c7 & c8 & E2 & F1 & F2 & V2).
  exists [c0; c1; c2; c3; c4; c5; c6; c7; c8]. split; [unfold p256_square; rewrite E; exact E2|]. split; [apply element_of; assumption|].
  unfold val256. rewrite <- V. exact V2.
Qed.

(** ** Carries *)
Fixpoint small (even : bool) (l : list Z) : Prop :=
  match l with [] => True | x :: l => 0 <= x <= (if even then 536870911 else 268435455) /\ small (negb even) l end.
Lemma chain_ok xs : Forall (fun x => 0 <= x <= 4294967280) xs -> forall even c, 0 <= c <= 15 ->
  exists os k, carry_chain even c xs = (os, k) /\ length os = length xs /\ small even os /\ 0 <= k <= 15 /\ mixed even (os ++ [k]) = mixed even xs + c.
Proof.
  intros F. induction F as [|x xs X F IH]; intros even c C.
  - exists [], c. split; [reflexivity|]. split; [reflexivity|]. split; [exact I|]. split; [exact C|]. cbn [app mixed]. destruct even; cbn [negb mixed]; ring.
  - cbn [carry_chain]. unfold add32. rewrite mod_same by lia. set (o := x + c). assert (O : 0 <= o <= 4294967295) by lia. assert (Eo : o = x + c) by reflexivity. clearbody o. destruct even.
    + unfold BOT29. destruct (split_b o 29 0x1fffffff _ _ O eq_refl) as (S1 & Q1 & R1). set (q := shr o 29) in *. set (r := Z.land o 0x1fffffff) in *. clearbody q r. norm_bound Q1.
      destruct (IH false q ltac:(lia)) as (os & k & E & L & S & K & V). cbn [negb]. rewrite E. exists (r :: os), k. cbn [length small app mixed negb]. split; [reflexivity|]. split; [lia|]. split; [split; [lia|exact S]|]. split; [exact K|]. rewrite V. lia.
    + unfold BOT28. destruct (split_b o 28 0xfffffff _ _ O eq_refl) as (S1 & Q1 & R1). set (q := shr o 28) in *. set (r := Z.land o 0xfffffff) in *. clearbody q r. norm_bound Q1.
      destruct (IH true q ltac:(lia)) as (os & k & E & L & S & K & V). cbn [negb]. rewrite E. exists (r :: os), k. cbn [length small app mixed negb]. split; [reflexivity|]. split; [lia|]. split; [split; [lia|exact S]|]. split; [exact K|]. rewrite V. lia.
Qed.
Fixpoint wide (even : bool) (l : list Z) : Prop :=
  match l with [] => True | x :: l => 0 <= x <= (if even then 1073741823 else 536870911) /\ wide (negb even) l end.
Lemma shift_chain_ok s xs : s = 2 \/ s = 3 -> forall even c, wide even xs -> 0 <= c <= 16 ->
  exists os k, shift_chain s even c xs = (os, k) /\ length os = length xs /\ small even os /\ 0 <= k <= 16 /\ mixed even (os ++ [k]) = mixed even xs * 2 ^ s + c.
Proof.
  intros Hs. induction xs as [|x xs IH]; intros even c W C.
  - exists [], c. split; [reflexivity|]. split; [reflexivity|]. split; [exact I|]. split; [exact C|]. cbn [app mixed]. destruct even; cbn [negb mixed]; ring.
  - destruct W as [X W]. cbn [shift_chain].
    assert (K : exists o q, (let o := shl32 x s in add32 (if even then Z.land o BOT29 else Z.land o BOT28) c) = o /\ (if even then shr x (29 - s) else shr x (28 - s)) = q /\
      0 <= q <= 15 /\ 0 <= o <= (if even then 536870911 else 268435455) + 16 /\ o + (if even then 2 ^ 29 else 2 ^ 28) * q = x * 2 ^ s + c).
    { cbv zeta. unfold BOT29, BOT28. destruct Hs as [-> | ->]; destruct even.
      - rewrite (shl_mask x 2 29 0x1fffffff 0x7ffffff) by reflexivity. destruct (split_b x (29 - 2) 0x7ffffff _ _ X eq_refl) as (S1 & Q1 & R1). set (q := shr x _) in *. set (r := Z.land x _) in *. clearbody q r. norm_bound Q1.
        exists (2 ^ 2 * r + c), q. split; [apply mod_same; lia|]. split; [reflexivity|]. split; [lia|]. split; [lia|]. lia.
      - rewrite (shl_mask x 2 28 0xfffffff 0x3ffffff) by reflexivity. destruct (split_b x (28 - 2) 0x3ffffff _ _ X eq_refl) as (S1 & Q1 & R1). set (q := shr x _) in *. set (r := Z.land x _) in *. clearbody q r. norm_bound Q1.
        exists (2 ^ 2 * r + c), q. split; [apply mod_same; lia|]. split; [reflexivity|]. split; [lia|]. split; [lia|]. lia.
      - rewrite (shl_mask x 3 29 0x1fffffff 0x3ffffff) by reflexivity. destruct (split_b x (29 - 3) 0x3ffffff _ _ X eq_refl) as (S1 & Q1 & R1). set (q := shr x _) in *. set (r := Z.land x _) in *. clearbody q r. norm_bound Q1.
        exists (2 ^ 3 * r + c), q. split; [apply mod_same; lia|]. split; [reflexivity|]. split; [lia|]. split; [lia|]. lia.
      - rewrite (shl_mask x 3 28 0xfffffff 0x1ffffff) by reflexivity. destruct (split_b x (28 - 3) 0x1ffffff _ _ X eq_refl) as (S1 & Q1 & R1). set (q := shr x _) in *. set (r := Z.land x _) in *. clearbody q r. norm_bound Q1.
        exists (2 ^ 3 * r + c), q. split; [apply mod_same; lia|]. split; [reflexivity|]. split; [lia|]. split; [lia|]. lia. }
    destruct K as (o & q & E1 & E2 & Q & O & V1). cbv zeta in E1. rewrite E1, E2. clear E1 E2.
    destruct even.
    + unfold BOT29. destruct (split_b o 29 0x1fffffff _ _ O eq_refl) as (S1 & Q1 & R1). set (q1 := shr o 29) in *. set (r := Z.land o 0x1fffffff) in *. clearbody q1 r. norm_bound Q1. unfold add32. rewrite mod_same by lia.
      destruct (IH false (q + q1) W ltac:(lia)) as (os & k & E & L & S & K & V). cbn [negb]. rewrite E. exists (r :: os), k. cbn [length small app mixed negb]. split; [reflexivity|]. split; [lia|]. split; [split; [lia|exact S]|]. split; [exact K|]. rewrite V. lia.
    + unfold BOT28. destruct (split_b o 28 0xfffffff _ _ O eq_refl) as (S1 & Q1 & R1). set (q1 := shr o 28) in *. set (r := Z.land o 0xfffffff) in *. clearbody q1 r. norm_bound Q1. unfold add32. rewrite mod_same by lia.
      destruct (IH true (q + q1) W ltac:(lia)) as (os & k & E & L & S & K & V). cbn [negb]. rewrite E. exists (r :: os), k. cbn [length small app mixed negb]. split; [reflexivity|]. split; [lia|]. split; [split; [lia|exact S]|]. split; [exact K|]. rewrite V. lia.
Qed.
(** A chain over nine limbs followed by the elimination of its last carry. *)
Lemma carry_out os k v : length os = 9%nat -> small true os -> 0 <= k -> mixed true (os ++ [k]) = v -> 0 <= v < 9 * 2 ^ 257 ->
  element (p256_reduce_carry os k) /\ cong P256 (val256 (p256_reduce_carry os k)) v.
Proof.
  intros L S K V B. destruct os as [|a0 [|a1 [|a2 [|a3 [|a4 [|a5 [|a6 [|a7 [|a8 [|a9 r]]]]]]]]]]; try discriminate L.
  cbn [small negb] in S. cbn [app mixed negb] in V. assert (K8 : k <= 8) by lia.
  destruct (reduce_carry_9 a0 a1 a2 a3 a4 a5 a6 a7 a8 k) as (b0 & b3 & b4 & b5 & b6 & b7 & E & F1 & F2 & V2); [repeat (apply Forall_cons; [lia|]); constructor|repeat (apply Forall_cons; [lia|]); constructor|lia|].
  rewrite E. clear E. split_bounds. split; [apply element_of; repeat (apply Forall_cons; [lia|]); constructor|].
  apply (cong_by _ _ _ (- 2 * k)). unfold val256, P256. rewrite V2. cbn [mixed negb]. lia.
Qed.
Lemma scalar_ok s a : s = 2 \/ s = 3 -> element a -> exists os k, shift_chain s true 0 a = (os, k) /\ element (p256_reduce_carry os k) /\ cong P256 (val256 (p256_reduce_carry os k)) (2 ^ s * val256 a).
Proof.
  intros Hs A. destruct (element_9 a A) as (a0 & a1 & a2 & a3 & a4 & a5 & a6 & a7 & a8 & -> & A1 & A2). split_bounds.
  destruct (shift_chain_ok s [a0; a1; a2; a3; a4; a5; a6; a7; a8] Hs true 0) as (os & k & E & L & S & K & V); [cbn [wide negb]; lia|lia|].
  exists os, k. split; [exact E|]. apply carry_out; [exact L|exact S|lia|rewrite V; unfold val256; ring|]. unfold val256. cbn [mixed negb]. destruct Hs as [-> | ->]; lia.
Qed.
Lemma scalar4_ok a : element a -> element (p256_scalar4 a) /\ cong P256 (val256 (p256_scalar4 a)) (4 * val256 a).
Proof. intros A. destruct (scalar_ok 2 a (or_introl eq_refl) A) as (os & k & E & R). unfold p256_scalar4. rewrite E. exact R. Qed.
Lemma scalar8_ok a : element a -> element (p256_scalar8 a) /\ cong P256 (val256 (p256_scalar8 a)) (8 * val256 a).
Proof. intros A. destruct (scalar_ok 3 a (or_intror eq_refl) A) as (os & k & E & R). unfold p256_scalar8. rewrite E. exact R. Qed.
Lemma chain_out xs : length xs = 9%nat -> Forall (fun x => 0 <= x <= 4294967280) xs -> 0 <= mixed true xs < 9 * 2 ^ 257 ->
  exists os k, carry_chain true 0 xs = (os, k) /\ element (p256_reduce_carry os k) /\ cong P256 (val256 (p256_reduce_carry os k)) (mixed true xs).
Proof.
  intros L F B. destruct (chain_ok xs F true 0 ltac:(lia)) as (os & k & E & L2 & S & K & V). exists os, k. split; [exact E|].
  apply carry_out; [congruence|exact S|lia|rewrite V; ring|exact B].
Qed.
Lemma sum_ok a b : element a -> element b -> element (p256_sum a b) /\ cong P256 (val256 (p256_sum a b)) (val256 a + val256 b).
Proof.
  intros A B. destruct (element_9 a A) as (a0 & a1 & a2 & a3 & a4 & a5 & a6 & a7 & a8 & -> & A1 & A2). destruct (element_9 b B) as (b0 & b1 & b2 & b3 & b4 & b5 & b6 & b7 & b8 & -> & B1 & B2). split_bounds.
  unfold p256_sum, zip_with. cbn [combine map fst snd]. unfold add32. rewrite !mod_same by lia.
  match goal with |- context [carry_chain true 0 ?xs] => destruct (chain_out xs) as (os & k & E & R & C) end; [reflexivity|repeat (apply Forall_cons; [lia|]); constructor|cbn [mixed negb]; lia|].
  rewrite E. split; [exact R|]. apply (cong_trans _ _ _ _ C). apply cong_eq. unfold val256. cbn [mixed negb]. lia.
Qed.
Lemma scalar3_ok a : element a -> element (p256_scalar3 a) /\ cong P256 (val256 (p256_scalar3 a)) (3 * val256 a).
Proof.
  intros A. destruct (element_9 a A) as (a0 & a1 & a2 & a3 & a4 & a5 & a6 & a7 & a8 & -> & A1 & A2). split_bounds.
  unfold p256_scalar3. cbn [map]. rewrite !mod_same by lia.
  match goal with |- context [carry_chain true 0 ?xs] => destruct (chain_out xs) as (os & k & E & R & C) end; [reflexivity|repeat (apply Forall_cons; [lia|]); constructor|cbn [mixed negb]; lia|].
  rewrite E. split; [exact R|]. apply (cong_trans _ _ _ _ C). apply cong_eq. unfold val256. cbn [mixed negb]. lia.
Qed.
Lemma diff_ok a b : element a -> element b -> element (p256_diff a b) /\ cong P256 (val256 (p256_diff a b)) (val256 a - val256 b).
Proof.
  intros A B. destruct (element_9 a A) as (a0 & a1 & a2 & a3 & a4 & a5 & a6 & a7 & a8 & -> & A1 & A2). destruct (element_9 b B) as (b0 & b1 & b2 & b3 & b4 & b5 & b6 & b7 & b8 & -> & B1 & B2). split_bounds.
  unfold p256_diff, zip_with, P256ZERO31. cbn [combine map fst snd]. unfold add32, sub32. rewrite !mod_add_same by lia.
  match goal with |- context [carry_chain true 0 ?xs] => destruct (chain_out xs) as (os & k & E & R & C) end; [reflexivity|repeat (apply Forall_cons; [lia|]); constructor|cbn [mixed negb]; lia|].
  rewrite E. split; [exact R|]. apply (cong_trans _ _ _ _ C). apply (cong_by _ _ _ 8). unfold val256, P256. cbn [mixed negb]. lia.
Qed.
