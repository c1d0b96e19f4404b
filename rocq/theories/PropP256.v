(** Property C54: the field arithmetic of P-256, the code of src/elliptic/p256.rs.
    [P256], [val256], [element], [documented] and [stands256] are in P256Spec.v, [cong] in EllSpec.v.
    The first argument of the routines that multiply says whether overflow checks are compiled in; [None] is a panic. *)
From Coq Require Import Znumtheory.
From Verif Require Import Base Words HashModel NumTheory RsaModel RsaEncModel EllModel EllSpec P224Model P256Model P256Spec P256Ops P256Conv P256Debug P256Api.
Local Open Scope Z_scope.

(** The largest element, used in the examples. *)
Definition full9 : list Z := [2 ^ 30 - 1; 2 ^ 29 - 1; 2 ^ 30 - 1; 2 ^ 29 - 1; 2 ^ 30 - 1; 2 ^ 29 - 1; 2 ^ 30 - 1; 2 ^ 29 - 1; 2 ^ 29 - 1].
Lemma full9_element : element full9.
Proof. apply element_of; repeat (apply Forall_cons; [lia|]); constructor. Qed.

(** ** C54: the field operations *)
Theorem C54_sum : forall a b, element a -> element b -> element (p256_sum a b) /\ cong P256 (val256 (p256_sum a b)) (val256 a + val256 b).
Proof. exact sum_ok. Qed.
Print Assumptions C54_sum.
Theorem C54_diff : forall a b, element a -> element b -> element (p256_diff a b) /\ cong P256 (val256 (p256_diff a b)) (val256 a - val256 b).
Proof. exact diff_ok. Qed.
Print Assumptions C54_diff.
Theorem C54_scalar3 : forall a, element a -> element (p256_scalar3 a) /\ cong P256 (val256 (p256_scalar3 a)) (3 * val256 a).
Proof. exact scalar3_ok. Qed.
Print Assumptions C54_scalar3.
Theorem C54_scalar4 : forall a, element a -> element (p256_scalar4 a) /\ cong P256 (val256 (p256_scalar4 a)) (4 * val256 a).
Proof. exact scalar4_ok. Qed.
Print Assumptions C54_scalar4.
Theorem C54_scalar8 : forall a, element a -> element (p256_scalar8 a) /\ cong P256 (val256 (p256_scalar8 a)) (8 * val256 a).
Proof. exact scalar8_ok. Qed.
Print Assumptions C54_scalar8.
Example C54_linear_met : element full9 /\ p256_sum full9 full9 = [536870914; 1; 2; 268431362; 536870913; 268435457; 528482305; 67108865; 2] /\
  p256_scalar3 full9 <> full9 /\ p256_diff fz full9 <> fz.
Proof. split; [exact full9_element|]. split; [vm_compute; reflexivity|]. split; vm_compute; discriminate. Qed.
(** The comment of scalar8 promises its bounds also when the last limb has 30 bits; they do not hold then. *)
Theorem C54_scalar8_documented_refuted : exists a, documented a /\ ~ documented (p256_scalar8 a).
Proof.
  exists [0; 0; 0; 0; 0; 0; 2 ^ 30 - 1; 2 ^ 29 - 1; 2 ^ 30 - 1]. split.
  - split; [reflexivity|]. intros i I. do 9 (destruct i as [|i]; [cbn [nth Nat.even]; lia|]). lia.
  - intros [_ B]. specialize (B 7%nat ltac:(lia)). apply proj2 in B. vm_compute in B. discriminate B.
Qed.
Print Assumptions C54_scalar8_documented_refuted.

(** A product of field elements, in Montgomery form. *)
Theorem C54_mul : forall a b, element a -> element b -> exists m, p256_mul false a b = Some m /\ element m /\
  forall x y, stands256 a x -> stands256 b y -> stands256 m (x * y).
Proof. exact mul_value. Qed.
Print Assumptions C54_mul.
Theorem C54_square : forall a, element a -> exists m, p256_square false a = Some m /\ element m /\ forall x, stands256 a x -> stands256 m (x * x).
Proof. exact square_value. Qed.
Print Assumptions C54_square.
Example C54_mul_met : element full9 /\ stands256 full9 (val256 full9 * R_INV) /\ p256_mul false full9 full9 <> Some full9.
Proof. split; [exact full9_element|]. split; [|vm_compute; discriminate]. exists ((val256 full9 - val256 full9 * R_INV * 2 ^ 257) / P256). vm_compute. reflexivity. Qed.
(** The reduction of seventeen 64-bit words. *)
Theorem C54_reduce_degree : forall t, length t = 17%nat -> Forall (fun x => 0 <= x < 2 ^ 64) t -> nth 16 t 0 <= 2 ^ 60 ->
  exists m, p256_reduce_degree false t = Some m /\ element m /\ cong P256 (val256 m * 2 ^ 257) (val256 t).
Proof. exact degree_ok. Qed.
Print Assumptions C54_reduce_degree.
Example C54_reduce_degree_met : let t := repeat (2 ^ 64 - 1) 16 ++ [2 ^ 60] in length t = 17%nat /\ Forall (fun x => 0 <= x < 2 ^ 64) t /\ nth 16 t 0 <= 2 ^ 60.
Proof. split; [reflexivity|]. split; [cbn [repeat app]; repeat (apply Forall_cons; [lia|]); constructor|cbn [repeat app nth]; lia]. Qed.
(** Its comment asks for words below 2^64 only; that is not enough for the last one. *)
Theorem C54_reduce_degree_documented_refuted : exists t m, length t = 17%nat /\ Forall (fun x => 0 <= x < 2 ^ 64) t /\
  p256_reduce_degree false t = Some m /\ ~ cong P256 (val256 m * 2 ^ 257) (val256 t).
Proof.
  exists (repeat 0 16 ++ [2 ^ 62]), fz. split; [reflexivity|]. split; [cbn [repeat app]; repeat (apply Forall_cons; [lia|]); constructor|].
  split; [vm_compute; reflexivity|]. intros D. apply (Z.mod_divide _ P256) in D; [|discriminate]. vm_compute in D. discriminate D.
Qed.
Print Assumptions C54_reduce_degree_documented_refuted.

(** [invert] gives the inverse of what is not zero, and zero for zero. *)
Theorem C54_invert : forall a, element a -> exists m, p256_invert false a = Some m /\ element m /\
  forall x, stands256 a x -> (cong P256 x 0 -> stands256 m 0) /\ (~ cong P256 x 0 -> exists y, cong P256 (y * x) 1 /\ stands256 m y).
Proof. exact invert_value. Qed.
Print Assumptions C54_invert.
Example C54_invert_met : element full9 /\ stands256 full9 (val256 full9 * R_INV) /\ ~ cong P256 (val256 full9 * R_INV) 0.
Proof.
  split; [apply full9_element|]. split; [exists ((val256 full9 - val256 full9 * R_INV * 2 ^ 257) / P256); vm_compute; reflexivity|].
  intros D. apply (Z.mod_divide _ P256) in D; [|discriminate]. vm_compute in D. discriminate D.
Qed.

(** Conversions: every number is read modulo p, and written in its canonical form. *)
Theorem C54_from_bigint : forall x, element (p256_from_bigint x) /\ stands256 (p256_from_bigint x) x.
Proof. exact from_bigint_ok. Qed.
Print Assumptions C54_from_bigint.
Theorem C54_to_bigint : forall a x, element a -> stands256 a x -> p256_to_bigint a = x mod P256.
Proof. exact to_bigint_value. Qed.
Print Assumptions C54_to_bigint.
Example C54_conversions_met : p256_from_bigint 1 = P256_ONE /\ p256_to_bigint (p256_from_bigint (P256 + 5)) = 5 /\ element full9 /\ p256_to_bigint full9 < P256.
Proof. split; [vm_compute; reflexivity|]. split; [vm_compute; reflexivity|]. split; [exact full9_element|vm_compute; reflexivity]. Qed.

(** With overflow checks a product stops the program whenever the lowest 29 bits of the product of the lowest limbs are 0 or 1; when it does not stop, it
    returns the same limbs. *)
Theorem C54_checked_mul : forall a b, ((nth 0 a 0 * nth 0 b 0) mod 2 ^ 29 <= 1 -> p256_mul true a b = None) /\ (forall m, p256_mul true a b = Some m -> p256_mul false a b = Some m).
Proof. intros a b. split; [exact (mul_none a b)|exact (mul_same a b)]. Qed.
Print Assumptions C54_checked_mul.
Theorem C54_checked_square : forall a, ((nth 0 a 0 * nth 0 a 0) mod 2 ^ 29 <= 1 -> p256_square true a = None) /\ (forall m, p256_square true a = Some m -> p256_square false a = Some m).
Proof. intros a. split; [exact (square_none a)|exact (square_same a)]. Qed.
Print Assumptions C54_checked_square.
Example C54_checked_met : (nth 0 fz 0 * nth 0 full9 0) mod 2 ^ 29 <= 1 /\ element fz /\ p256_mul true (p256_from_bigint 12345987654321) (p256_from_bigint 67890987654321123456789) <> None.
Proof.
  split; [vm_compute; discriminate|]. split; [apply element_of; repeat (apply Forall_cons; [lia|]); constructor|]. vm_compute. discriminate.
Qed.
