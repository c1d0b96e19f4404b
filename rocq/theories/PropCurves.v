(** Property C50: the constants of the built-in curves.  [sound_curve], [on_curve], [decode] are in EllSpec.v, [ec_multiple] in
    EcdsaSpec.v.  The facts about primes and orders are computed with the machine integers of the standard library (Mont.v). *)
From Coq Require Import Znumtheory String.
From Verif Require Import Base NumTheory RsaModel EllModel EllSpec EllApi EcdsaModel EcdsaSpec EcdsaGroup EcdsaProofs PropEcdsa MontEc CurvePrimes CurveOrders.

Definition builtin_curves : list curve := [p224; p256; p384; p521].

(** The moduli are the ones of FIPS 186-4, D.1.2. *)
Theorem C50_standard_moduli : cp_p p224 = 2 ^ 224 - 2 ^ 96 + 1 /\ cp_p p256 = 2 ^ 256 - 2 ^ 224 + 2 ^ 192 + 2 ^ 96 - 1 /\
  cp_p p384 = 2 ^ 384 - 2 ^ 128 - 2 ^ 96 + 2 ^ 32 - 1 /\ cp_p p521 = 2 ^ 521 - 1.
Proof. repeat split. Qed.
Print Assumptions C50_standard_moduli.

(** Each modulus is prime and each curve is non-singular: the hypothesis of C49 and C51. *)
Lemma ncong p x y : 0 < p -> (x - y) mod p <> 0 -> ~ cong p x y.
Proof. intros P H D. apply H. apply Z.mod_divide; [lia|exact D]. Qed.
Theorem C50_sound_curves : forall c, In c builtin_curves -> sound_curve (cp_p c) (cp_b c).
Proof.
  intros c [<-|[<-|[<-|[<-|[]]]]]; (split; [|split; [reflexivity|split; apply ncong; [reflexivity|vm_compute; discriminate|reflexivity|vm_compute; discriminate]]]).
  - exact prime_p224.
  - exact prime_p256.
  - exact prime_p384.
  - exact prime_p521.
Qed.
Print Assumptions C50_sound_curves.

(** The base point is a point of the curve other than infinity. *)
Theorem C50_base_point : forall c, In c builtin_curves ->
  is_on_curve c (cp_gx c) (cp_gy c) = true /\ on_curve (cp_p c) (cp_b c) (decode (cp_gx c, cp_gy c)) /\ decode (cp_gx c, cp_gy c) <> None /\
  0 <= cp_gx c < cp_p c /\ 0 <= cp_gy c < cp_p c.
Proof.
  intros c H. assert (A : is_on_curve c (cp_gx c) (cp_gy c) = true) by (destruct H as [<-|[<-|[<-|[<-|[]]]]]; vm_compute; reflexivity).
  assert (B : decode (cp_gx c, cp_gy c) = Some (cp_gx c, cp_gy c)) by (destruct H as [<-|[<-|[<-|[<-|[]]]]]; reflexivity).
  split; [exact A|]. rewrite B. split; [|split; [discriminate|]].
  - pose proof (C50_sound_curves c H) as (Hp & P3 & _). exact (proj1 (EllProofs.is_on_curve_iff (cp_p c) (cp_b c) Hp P3 c eq_refl eq_refl _ _) A).
  - destruct H as [<-|[<-|[<-|[<-|[]]]]]; repeat split; (discriminate || reflexivity).
Qed.
Print Assumptions C50_base_point.

(** n times the base point is infinity. *)
Theorem C50_order_annihilates : forall c, In c builtin_curves -> curve_scalar_base c (cp_n c) = Some (0, 0).
Proof.
  intros c H. pose proof (C50_sound_curves c H) as S. destruct (C50_base_point c H) as (_ & O & N & _).
  destruct H as [<-|[<-|[<-|[<-|[]]]]].
  - exact (order_checked mont_p224 p224 (proj1 mont_p224_ok) (proj2 mont_p224_ok) S O N ltac:(discriminate) order_p224).
  - exact (order_checked mont_p256 p256 (proj1 mont_p256_ok) (proj2 mont_p256_ok) S O N ltac:(discriminate) order_p256).
  - exact (order_checked mont_p384 p384 (proj1 mont_p384_ok) (proj2 mont_p384_ok) S O N ltac:(discriminate) order_p384).
  - exact (order_checked mont_p521 p521 (proj1 mont_p521_ok) (proj2 mont_p521_ok) S O N ltac:(discriminate) order_p521).
Qed.
Print Assumptions C50_order_annihilates.

(** For every one of the curves n is prime: the base point generates a group of prime order, as ECDSA (C47) needs, and
    no smaller multiple of it is infinity. *)
Theorem C50_prime_n : forall c, In c builtin_curves -> prime (cp_n c).
Proof. intros c [<-|[<-|[<-|[<-|[]]]]]; [exact prime_n224|exact prime_n256|exact prime_n384|exact prime_n521]. Qed.
Print Assumptions C50_prime_n.
Theorem C50_prime_order : forall c, In c builtin_curves -> group_of c.
Proof.
  intros c B. destruct (C50_base_point c B) as (_ & O & N & _).
  assert (L : 2 < cp_n c) by (destruct B as [<-|[<-|[<-|[<-|[]]]]]; reflexivity).
  apply (proj1 (C47_group_criterion c (C50_sound_curves c B) O N (C50_prime_n c B) L)). exact (C50_order_annihilates c B).
Qed.
Print Assumptions C50_prime_order.
Theorem C50_no_smaller_order : forall c k, In c builtin_curves -> 0 < k < cp_n c ->
  exists x y, curve_scalar_base c k = Some (x, y) /\ 0 <= x < cp_p c /\ 0 <= y < cp_p c /\ on_curve (cp_p c) (cp_b c) (Some (x, y)).
Proof.
  intros c k H K. destruct (base_point c (C50_prime_order c H) k K) as (x & y & E & X & Y & Oxy & D & _). rewrite D in Oxy. exists x, y. auto.
Qed.
Print Assumptions C50_no_smaller_order.

(** The reported field size is the bit length of p for three of the curves, and 512 instead of 521 for the fourth. *)
Theorem C50_field_size : forall c, In c [p224; p256; p384] -> Z.of_nat (cp_bits c) = Z.log2 (cp_p c) + 1.
Proof. intros c [<-|[<-|[<-|[]]]]; reflexivity. Qed.
Print Assumptions C50_field_size.
Theorem C50_field_size_refuted : exists c, In c builtin_curves /\ Z.of_nat (cp_bits c) <> Z.log2 (cp_p c) + 1 /\
  cp_bits c = 512%nat /\ Z.log2 (cp_p c) + 1 = 521 /\ cp_name c = "P-512"%string.
Proof. exists p521. repeat split; [cbn; intuition|discriminate]. Qed.
Print Assumptions C50_field_size_refuted.

(** All the theorems of PropEc.v and PropEcdsa.v apply to these curves.  For example, keys made with the shared generator: *)
Example C50_met : In p384 [p224; p256; p384] /\ 0 < 2 < cp_n p384 /\
  (exists x y, curve_scalar_base p384 2 = Some (x, y) /\ on_curve (cp_p p384) (cp_b p384) (Some (x, y))).
Proof.
  split; [cbn; intuition|]. split; [split; reflexivity|].
  destruct (C50_no_smaller_order p384 2 ltac:(cbn; intuition) ltac:(split; reflexivity)) as (x & y & E & _ & _ & O). exists x, y. auto.
Qed.
