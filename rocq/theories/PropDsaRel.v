(** Property C83: what an accepted DSA signature says.  It is accepted exactly when the holder of the private key could have made it from
    some nonce; only the hash value modulo q counts; any signature has a key that accepts it; numbers can be signed without the private
    key; a public key of 1 accepts signatures made by anyone and a multiple of p none.
    [DSA_signature], [DSA_accepts] are in DsaSpec.v. *)
From Coq Require Import Znumtheory.
From Verif Require Import Base HashModel HashApi NumTheory RsaModel RsaProofs RsaEncModel RsaCases DsaModel DsaSpec DsaProofs PropDsa.
Local Open Scope Z_scope.

(** Powers of g repeat with period q. *)
Lemma g_period p q g a b : 1 < p -> 0 < q -> g ^ q mod p = 1 -> 0 <= a -> 0 <= b -> a mod q = b mod q -> g ^ a mod p = g ^ b mod p.
Proof.
  intros P Q G A B E.
  assert (K : forall a, 0 <= a -> g ^ a mod p = g ^ (a mod q) mod p).
  { intros a0 A0. pose proof (Z.mod_pos_bound a0 q Q). pose proof (Z.div_pos a0 q A0 Q). rewrite (Z.div_mod a0 q) at 1 by lia. rewrite Z.pow_add_r, Z.pow_mul_r by nia.
    rewrite <- Z.mul_mod_idemp_l by lia. rewrite <- pow_mod_idemp, G, Z.pow_1_l by lia. rewrite Z.mul_mod_idemp_l, Z.mul_1_l by lia. reflexivity. }
  rewrite (K a A), (K b B), E. reflexivity.
Qed.
Lemma verify_power p q g x z w r : 1 < p -> 0 < q -> g ^ q mod p = 1 -> 0 <= x -> 
  (g ^ ((z * w) mod q) * (g ^ x mod p) ^ ((r * w) mod q)) mod p = g ^ (((z + x * r) * w) mod q) mod p.
Proof.
  intros P Q G X. pose proof (Z.mod_pos_bound (z * w) q Q) as B1. pose proof (Z.mod_pos_bound (r * w) q Q) as B2. pose proof (Z.mod_pos_bound ((z + x * r) * w) q Q) as B3.
  rewrite <- Z.mul_mod_idemp_r, pow_mod_idemp, Z.mul_mod_idemp_r by lia. rewrite <- Z.pow_mul_r, <- Z.pow_add_r by nia.
  apply (g_period p q); try assumption; try nia. rewrite Z.mod_mod by lia. rewrite <- Z.add_mod_idemp_r, Z.mul_mod_idemp_r, Z.add_mod_idemp_r, Z.add_mod_idemp_l by lia. f_equal. ring.
Qed.
Lemma cancel_inverse q s w k t : 1 < q -> (s * w) mod q = 1 -> k mod q = (t * w) mod q <-> (s * k) mod q = t mod q.
Proof.
  intros Q W. split; intros E.
  - rewrite <- Z.mul_mod_idemp_r, E, Z.mul_mod_idemp_r by lia. replace (s * (t * w)) with (t * (s * w)) by ring. rewrite <- Z.mul_mod_idemp_r, W, Z.mul_1_r by lia. reflexivity.
  - rewrite <- Z.mul_mod_idemp_l, <- E, Z.mul_mod_idemp_l by lia. replace (s * k * w) with (k * (s * w)) by ring. rewrite <- Z.mul_mod_idemp_r, W, Z.mul_1_r by lia. reflexivity.
Qed.
Lemma accepts_iff_signed p q g x z r s : 1 < p -> prime q -> g ^ q mod p = 1 -> 0 <= x ->
  DSA_accepts p q g (g ^ x mod p) z r s <-> exists k, 0 <= k < q /\ DSA_signature p q g x z k r s.
Proof.
  intros P PQ G X. pose proof (prime_ge_2 q PQ) as Q2. split.
  - intros (R & S & w & W & HW & E). rewrite verify_power in E by (assumption || lia). exists (((z + x * r) * w) mod q).
    pose proof (Z.mod_pos_bound ((z + x * r) * w) q ltac:(lia)) as KR. split; [exact KR|]. split; [symmetry; exact E|]. split; [exact R|]. split; [exact S|].
    apply (cancel_inverse q s w); [lia|exact HW|]. apply Z.mod_mod. lia.
  - intros (k & K & ER & R & S & E). split; [exact R|]. split; [exact S|].
    assert (GC : Z.gcd s q = 1) by (apply prime_gcd_1; [exact PQ|intros D; apply Z.divide_pos_le in D; lia]).
    destruct (inv_mod_coprime s q ltac:(lia) GC) as (w & _ & RW & HW). rewrite (Z.mod_small 1) in HW by lia. rewrite Z.mul_comm in HW.
    exists w. split; [lia|]. split; [exact HW|]. rewrite verify_power by (assumption || lia).
    apply (cancel_inverse q s w) in E; [|lia|exact HW]. rewrite <- E, (Z.mod_small k) by exact K. symmetry. exact ER.
Qed.

Section Api.
Context {S : Type} (D : digest S) (I : S -> Prop) (H : list Z -> list Z) (limit : Z) (h : nat).
Definition accepted (kp : dsa_kp) (st : S) (msg : list Z) (r s : Z) : Prop := snd (verify_inner D kp st msg r s) = Ok tt.
End Api.

(** Verification with the public key of x accepts exactly what signing with x and some nonce gives.  (The nonce 0, which signing never
    uses, can occur when r = 1.) *)
Theorem C83_accepted_iff_signed : forall (S : Type) (D : digest S) (I : S -> Prop) H limit h p q g x kp st msg r s,
  DigestOk D I H limit -> d_bits_len D = (8 * h)%nat -> 1 < p -> prime q -> (bits_len q mod 8 = 0)%nat -> g ^ q mod p = 1 -> 0 <= x ->
  dkp_public kp = mkDpub (mkDp p q g) (g ^ x mod p) -> I st -> bytes msg -> Z.of_nat (length msg) < limit ->
  accepted D kp st msg r s <-> exists k, 0 <= k < q /\ DSA_signature p q g x (be_val (H msg)) k r s.
Proof.
  intros S D I H limit h p q g x kp st msg r s HG HB P PQ M G X EK Is B L. unfold accepted.
  rewrite (proj1 (proj2 (C45_verify_iff S D I H limit h p q g (g ^ x mod p) kp st msg r s HG HB EK ltac:(lia) M Is B L))). apply accepts_iff_signed; assumption.
Qed.
Print Assumptions C83_accepted_iff_signed.
Theorem C83_nonce_zero : forall p q g x z r s, 1 < p -> 1 < q -> DSA_signature p q g x z 0 r s -> r = 1.
Proof. intros p q g x z r s P Q (E & _). rewrite Z.pow_0_r, !Z.mod_small in E by (try rewrite Z.mod_small; lia). exact E. Qed.
Print Assumptions C83_nonce_zero.

(** Messages whose hash values are equal modulo q are accepted with the same signatures, whatever the public key. *)
Theorem C83_same_number : forall (S : Type) (D : digest S) (I : S -> Prop) H limit h p q g y kp st msg msg' r s,
  DigestOk D I H limit -> d_bits_len D = (8 * h)%nat -> 0 < p -> 0 < q -> (bits_len q mod 8 = 0)%nat -> dkp_public kp = mkDpub (mkDp p q g) y -> I st ->
  bytes msg -> Z.of_nat (length msg) < limit -> bytes msg' -> Z.of_nat (length msg') < limit -> be_val (H msg) mod q = be_val (H msg') mod q ->
  snd (verify_inner D kp st msg r s) = snd (verify_inner D kp st msg' r s).
Proof.
  intros S D I H limit h p q g y kp st msg msg' r s HG HB P Q M EK Is B L B' L' E.
  destruct (C45_verify_iff S D I H limit h p q g y kp st msg r s HG HB EK P M Is B L) as (O1 & A1 & _). destruct (C45_verify_iff S D I H limit h p q g y kp st msg' r s HG HB EK P M Is B' L') as (O2 & A2 & _).
  cbv zeta in *.
  assert (K : forall z z', z mod q = z' mod q -> DSA_accepts p q g y z r s -> DSA_accepts p q g y z' r s).
  { intros z z' EZ (R & S0 & w & W & HW & V). split; [exact R|]. split; [exact S0|]. exists w. split; [exact W|]. split; [exact HW|].
    rewrite <- (Z.mul_mod_idemp_l z'), <- EZ, Z.mul_mod_idemp_l by lia. exact V. }
  destruct O1 as [O1|O1]; rewrite O1.
  - symmetry. apply A2. apply (K _ _ E). apply A1. exact O1.
  - destruct O2 as [O2|O2]; rewrite O2; [|reflexivity]. exfalso. assert (X : snd (verify_inner D kp st msg r s) = Ok tt) by (apply A1, (K _ _ (eq_sym E)), A2, O2). congruence.
Qed.
Print Assumptions C83_same_number.

(** A key for any signature: if r comes from some power of g, then for every message and every s there is a private key whose public
    key accepts (r, s). *)
Theorem C83_some_key_accepts : forall p q g k z s, 1 < p -> prime q -> (bits_len q mod 8 = 0)%nat -> g ^ q mod p = 1 -> 0 <= k < q ->
  0 < (g ^ k mod p) mod q -> 0 < s < q ->
  exists x, 0 <= x < q /\ forall (S : Type) (D : digest S) (I : S -> Prop) H limit h kp st msg,
    DigestOk D I H limit -> d_bits_len D = (8 * h)%nat -> dkp_public kp = mkDpub (mkDp p q g) (g ^ x mod p) -> I st -> bytes msg -> Z.of_nat (length msg) < limit ->
    be_val (H msg) = z -> accepted D kp st msg ((g ^ k mod p) mod q) s.
Proof.
  intros p q g k z s P PQ M G K R0 S0. pose proof (prime_ge_2 q PQ) as Q2. set (r := (g ^ k mod p) mod q) in *. assert (RR : 0 < r < q) by (pose proof (Z.mod_pos_bound (g ^ k mod p) q); lia).
  assert (GC : Z.gcd r q = 1) by (apply prime_gcd_1; [exact PQ|intros Dv; apply Z.divide_pos_le in Dv; lia]).
  destruct (inv_mod_coprime r q ltac:(lia) GC) as (w & _ & RW & HW). rewrite (Z.mod_small 1) in HW by lia. rewrite Z.mul_comm in HW.
  exists (((s * k - z) * w) mod q). pose proof (Z.mod_pos_bound ((s * k - z) * w) q ltac:(lia)) as XR. split; [exact XR|].
  intros S D I H limit h kp st msg HG HB EK Is B L EZ. apply (C83_accepted_iff_signed S D I H limit h p q g (((s * k - z) * w) mod q) kp st msg r s HG HB P PQ M G (proj1 XR) EK Is B L).
  exists k. split; [exact K|]. split; [reflexivity|]. split; [exact RR|]. split; [exact S0|]. rewrite EZ.
  assert (C : (r * (((s * k - z) * w) mod q)) mod q = (s * k - z) mod q) by (apply (cancel_inverse q r w); [lia|exact HW|apply Z.mod_mod; lia]).
  rewrite (Z.mul_comm _ r), <- Z.add_mod_idemp_r, C, Z.add_mod_idemp_r by lia. f_equal. ring.
Qed.
Print Assumptions C83_some_key_accepts.

(** From u and v anyone computes r = g^u y^v, s = r / v and z = u s: accepted for every message whose hash value is z modulo q. *)
Theorem C83_number_first : forall p q g x u v s z, 1 < p -> prime q -> (bits_len q mod 8 = 0)%nat -> g ^ q mod p = 1 -> 0 <= x -> 0 <= u -> 0 <= v ->
  let y := g ^ x mod p in let r := ((g ^ u * y ^ v) mod p) mod q in 0 < r -> 0 < s < q -> (s * v) mod q = r -> z mod q = (u * s) mod q ->
  forall (S : Type) (D : digest S) (I : S -> Prop) H limit h kp st msg,
    DigestOk D I H limit -> d_bits_len D = (8 * h)%nat -> dkp_public kp = mkDpub (mkDp p q g) y -> I st -> bytes msg -> Z.of_nat (length msg) < limit ->
    be_val (H msg) = z -> accepted D kp st msg r s.
Proof.
  intros p q g x u v s z P PQ M G X U V y r R0 S0 ES EZ S D I H limit h kp st msg HG HB EK Is B L EN. pose proof (prime_ge_2 q PQ) as Q2.
  assert (RR : 0 < r < q) by (pose proof (Z.mod_pos_bound ((g ^ u * y ^ v) mod p) q); unfold r in *; lia).
  apply (C83_accepted_iff_signed S D I H limit h p q g x kp st msg r s HG HB P PQ M G X EK Is B L).
  exists ((u + x * v) mod q). pose proof (Z.mod_pos_bound (u + x * v) q ltac:(lia)) as KR. split; [exact KR|]. split; [|split; [exact RR|split; [exact S0|]]].
  - unfold r, y. f_equal. rewrite <- Z.mul_mod_idemp_r, pow_mod_idemp, Z.mul_mod_idemp_r by lia. rewrite <- Z.pow_mul_r, <- Z.pow_add_r by (try exact U; try exact X; try exact V; apply Z.mul_nonneg_nonneg; assumption).
    apply (g_period p q); [exact P|lia|exact G| |exact (proj1 KR)|symmetry; apply Z.mod_mod; lia]. apply Z.add_nonneg_nonneg; [exact U|apply Z.mul_nonneg_nonneg; assumption].
  - rewrite EN, Z.mul_mod_idemp_r by lia. rewrite <- (Z.add_mod_idemp_l z), EZ, Z.add_mod_idemp_l by lia. rewrite <- ES. rewrite <- Z.add_mod_idemp_r, Z.mul_mod_idemp_r, Z.add_mod_idemp_r by lia. f_equal. ring.
Qed.
Print Assumptions C83_number_first.

(** The public key is not examined.  With y = 1 signatures need no private key ... *)
Theorem C83_key_one : forall (S : Type) (D : digest S) (I : S -> Prop) H limit h p q g kp st msg k s,
  DigestOk D I H limit -> d_bits_len D = (8 * h)%nat -> 1 < p -> prime q -> (bits_len q mod 8 = 0)%nat -> g ^ q mod p = 1 ->
  dkp_public kp = mkDpub (mkDp p q g) 1 -> I st -> bytes msg -> Z.of_nat (length msg) < limit ->
  0 <= k < q -> 0 < (g ^ k mod p) mod q -> 0 < s < q -> (s * k) mod q = be_val (H msg) mod q -> accepted D kp st msg ((g ^ k mod p) mod q) s.
Proof.
  intros S D I H limit h p q g kp st msg k s HG HB P PQ M G EK Is B L K R0 S0 E. pose proof (prime_ge_2 q PQ) as Q2.
  apply (C83_accepted_iff_signed S D I H limit h p q g 0 kp st msg _ s HG HB P PQ M G ltac:(lia)); try assumption.
  - rewrite EK, Z.pow_0_r, Z.mod_small by lia. reflexivity.
  - exists k. split; [exact K|]. split; [reflexivity|]. split; [pose proof (Z.mod_pos_bound (g ^ k mod p) q); lia|]. split; [exact S0|]. rewrite Z.mul_0_l, Z.add_0_r. exact E.
Qed.
Print Assumptions C83_key_one.
(** ... and with a multiple of p nothing is accepted. *)
Theorem C83_key_zero : forall (S : Type) (D : digest S) (I : S -> Prop) H limit h p q g y kp st msg r s,
  DigestOk D I H limit -> d_bits_len D = (8 * h)%nat -> 0 < p -> prime q -> (bits_len q mod 8 = 0)%nat -> y mod p = 0 ->
  dkp_public kp = mkDpub (mkDp p q g) y -> I st -> bytes msg -> Z.of_nat (length msg) < limit -> snd (verify_inner D kp st msg r s) = Err VerificationFailed.
Proof.
  intros S D I H limit h p q g y kp st msg r s HG HB P PQ M Y EK Is B L. pose proof (prime_ge_2 q PQ) as Q2.
  destruct (C45_verify_iff S D I H limit h p q g y kp st msg r s HG HB EK P M Is B L) as ([O|O] & A & _); [|exact O]. cbv zeta in *. exfalso.
  apply A in O. destruct O as (R & S0 & w & W & HW & V).
  assert (U : 0 < (r * w) mod q).
  { pose proof (Z.mod_pos_bound (r * w) q ltac:(lia)). assert (X : (r * w) mod q <> 0); [|lia]. intros X. apply Z.mod_divide in X; [|lia]. apply prime_mult in X; [|exact PQ].
    destruct X as [X|X]; [apply Z.divide_pos_le in X; lia|]. destruct X as [t ->]. replace (s * (t * q)) with (s * t * q) in HW by ring. rewrite Z.mod_mul in HW by lia. discriminate. }
  rewrite <- Z.mul_mod_idemp_r in V by lia. rewrite <- (pow_mod_idemp y) in V by lia. rewrite Y, Z.pow_0_l in V by exact U. rewrite Zmod_0_l, Z.mul_0_r, !Zmod_0_l in V. lia.
Qed.
Print Assumptions C83_key_zero.

(** ** Cases *)
(** The premises with the group of 251 elements modulo 503 of C45, k = 3, s = 30, u = v = 1. *)
Example C83_case : 1 < 503 /\ prime 251 /\ (bits_len 251 mod 8 = 0)%nat /\ 4 ^ 251 mod 503 = 1 /\ DigestOk SumDigest (fun _ => True) sum_hash (2 ^ 64) /\
  (4 ^ 3 mod 503) mod 251 = 64 /\ accepted SumDigest (inl (ds_pk toy_key)) [] [1; 2; 3] 64 30 /\
  be_val (sum_hash [1; 2; 3]) mod 251 = be_val (sum_hash [3; 2; 1]) mod 251 /\ 0 < ((4 ^ 1 * (4 ^ 9 mod 503) ^ 1) mod 503) mod 251.
Proof.
  destruct C45_case_hypotheses as (A & B & C & E & _ & G). split; [exact A|]. split; [exact B|]. split; [exact E|]. split; [exact C|]. split; [exact G|].
  repeat split; vm_compute; reflexivity.
Qed.
