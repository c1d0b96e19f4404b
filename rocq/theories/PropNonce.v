(** Property C88: DSA and ECDSA signatures whose nonces are related by a known equation k2 = a k1 + b determine the private key; a
    relation between the nonces of two signers lets each of them compute the key of the other. *)
From Coq Require Import Znumtheory String.
From Verif Require Import Base HashModel HashSpec HashApi PropHash MacApi NumTheory Fp EcGroup RsaModel RsaEncModel RsaCases DsaModel DsaSpec DsaProofs
  EllModel EllSpec EllProofs EllApi AesSpec EcdsaModel EcdsaSpec EcdsaGroup EcdsaProofs PropDsa PropEc PropEcdsa PropSigRel.

(** The equation for the key x of the first signature, when the second was made with the key y; solved for x with y known, and with x = y. *)
Definition key_coeff (r1 s1 r2 s2 a : Z) : Z := s2 * a * r1 - s1 * r2.
Definition key_const (z1 s1 z2 s2 a b : Z) : Z := s1 * z2 - s2 * a * z1 - s1 * s2 * b.
Lemma relation n r1 s1 z1 k1 x r2 s2 z2 k2 y a b : prime n -> (n | s1 * k1 - (z1 + x * r1)) -> (n | s2 * k2 - (z2 + y * r2)) -> (n | k2 - (a * k1 + b)) ->
  (x * (s2 * a * r1)) mod n = (key_const z1 s1 z2 s2 a b + y * (s1 * r2)) mod n.
Proof.
  intros P [q1 E1] [q2 E2] [q3 E3]. pose proof (prime_ge_2 n P). apply divide_mod_eq; [lia|].
  exists (s1 * q2 - s2 * a * q1 - s1 * s2 * q3). unfold key_const.
  transitivity (s1 * (q2 * n) - s2 * a * (q1 * n) - s1 * s2 * (q3 * n)); [|ring]. rewrite <- E1, <- E2, <- E3. ring.
Qed.
Lemma one_key n r1 s1 z1 k1 x r2 s2 z2 k2 a b : prime n -> (n | s1 * k1 - (z1 + x * r1)) -> (n | s2 * k2 - (z2 + x * r2)) -> (n | k2 - (a * k1 + b)) ->
  (~ (n | key_coeff r1 s1 r2 s2 a) -> forall x', (x' * key_coeff r1 s1 r2 s2 a) mod n = key_const z1 s1 z2 s2 a b mod n <-> x' mod n = x mod n) /\
  ((n | key_coeff r1 s1 r2 s2 a) -> (n | key_const z1 s1 z2 s2 a b)).
Proof.
  intros P E1 E2 E3. pose proof (prime_ge_2 n P) as N2. pose proof (relation n r1 s1 z1 k1 x r2 s2 z2 k2 x a b P E1 E2 E3) as Q.
  assert (Q' : (x * key_coeff r1 s1 r2 s2 a) mod n = key_const z1 s1 z2 s2 a b mod n).
  { apply mod_eq_divide in Q; [|lia]. apply divide_mod_eq; [lia|]. unfold key_coeff. replace (x * (s2 * a * r1 - s1 * r2) - key_const z1 s1 z2 s2 a b) with (x * (s2 * a * r1) - (key_const z1 s1 z2 s2 a b + x * (s1 * r2))) by ring. exact Q. }
  split; [intros N; apply solve_key; assumption|]. intros DV. apply Z.mod_divide; [lia|]. rewrite <- Q'. apply Z.mod_divide; [lia|]. apply Z.divide_mul_r, DV.
Qed.
Lemma two_keys n r1 s1 z1 k1 x r2 s2 z2 k2 y a b : prime n -> (n | s1 * k1 - (z1 + x * r1)) -> (n | s2 * k2 - (z2 + y * r2)) -> (n | k2 - (a * k1 + b)) ->
  0 < r1 < n -> 0 < s2 < n -> ~ (n | a) -> forall x', (x' * (s2 * a * r1)) mod n = (key_const z1 s1 z2 s2 a b + y * (s1 * r2)) mod n <-> x' mod n = x mod n.
Proof.
  intros P E1 E2 E3 R1 S2 A. apply solve_key; [exact P| |exact (relation n r1 s1 z1 k1 x r2 s2 z2 k2 y a b P E1 E2 E3)].
  intros D. apply prime_mult in D; [|exact P]. destruct D as [D|D]; [|exact (not_div _ _ R1 D)]. apply prime_mult in D; [|exact P]. destruct D as [D|D]; [exact (not_div _ _ S2 D)|exact (A D)].
Qed.

(** DSA: two signatures, by the same private key or by two under the same parameters.  z1 and z2 are the numbers that FIPS 186-4 takes
    from the digests.  The nonces are among the numbers drawn. *)
Theorem C88_dsa : forall (S : Type) (D : digest S) (I : S -> Prop) H limit h p q g y1 x1 y2 x2 s1 s2 draws1 draws2 msg1 msg2 s1' s2' r1 v1 r2 v2,
  DigestOk D I H limit -> d_bits_len D = (8 * h)%nat -> 0 < p -> prime q -> 0 < g -> 0 < x1 -> 0 < x2 -> (bits_len q mod 8 = 0)%nat -> I s1 -> I s2 ->
  bytes msg1 -> bytes msg2 -> Z.of_nat (length msg1) < limit -> Z.of_nat (length msg2) < limit ->
  sign_inner D (inr (mkDpriv (mkDpub (mkDp p q g) y1) x1)) s1 draws1 msg1 = (s1', Ok (r1, v1)) ->
  sign_inner D (inr (mkDpriv (mkDpub (mkDp p q g) y2) x2)) s2 draws2 msg2 = (s2', Ok (r2, v2)) ->
  let z1 := DSA_z (Z.of_nat (bits_len q)) (H msg1) in let z2 := DSA_z (Z.of_nat (bits_len q)) (H msg2) in
  exists k1 k2, In k1 draws1 /\ In k2 draws2 /\ forall a b, k2 mod q = (a * k1 + b) mod q ->
    (x1 = x2 -> ~ (q | key_coeff r1 v1 r2 v2 a) -> forall x, (x * key_coeff r1 v1 r2 v2 a) mod q = key_const z1 v1 z2 v2 a b mod q <-> x mod q = x1 mod q) /\
    (x1 = x2 -> (q | key_coeff r1 v1 r2 v2 a) -> (q | key_const z1 v1 z2 v2 a b)) /\
    (~ (q | a) -> forall x, (x * (v2 * a * r1)) mod q = (key_const z1 v1 z2 v2 a b + x2 * (v1 * r2)) mod q <-> x mod q = x1 mod q).
Proof.
  intros S D I H limit h p q g y1 x1 y2 x2 s1 s2 draws1 draws2 msg1 msg2 s1' s2' r1 v1 r2 v2 HG HB P Q G X1 X2 M I1 I2 B1 B2 L1 L2 E1 E2 z1 z2. pose proof (prime_ge_2 q Q) as Q2.
  destruct (C45_sign_standard S D I H limit h p q g y1 x1 s1 s1' draws1 msg1 r1 v1 HG HB P Q G X1 M I1 B1 L1 E1) as (k1 & IK1 & K1 & ER1 & R1 & V1 & EQ1).
  destruct (C45_sign_standard S D I H limit h p q g y2 x2 s2 s2' draws2 msg2 r2 v2 HG HB P Q G X2 M I2 B2 L2 E2) as (k2 & IK2 & K2 & ER2 & R2 & V2 & EQ2).
  fold z1 in EQ1. fold z2 in EQ2. exists k1, k2. split; [exact IK1|]. split; [exact IK2|]. intros a b KK.
  apply mod_eq_divide in EQ1; [|lia]. apply mod_eq_divide in EQ2; [|lia]. apply mod_eq_divide in KK; [|lia]. split; [|split].
  - intros <-. apply (one_key q r1 v1 z1 k1 x1 r2 v2 z2 k2 a b Q EQ1 EQ2 KK).
  - intros <-. apply (one_key q r1 v1 z1 k1 x1 r2 v2 z2 k2 a b Q EQ1 EQ2 KK).
  - intros A. apply (two_keys q r1 v1 z1 k1 x1 r2 v2 z2 k2 x2 a b Q EQ1 EQ2 KK R1 V2 A).
Qed.
Print Assumptions C88_dsa.
(** ECDSA, for any two signing objects over one curve. *)
Theorem C88_ecdsa : forall (S : Type) (D : digest S) (I : S -> Prop) H limit c d1 d2 o1 o2 fuel1 fuel2 ws1 ws2 sc1 sc2 msg1 msg2 o1' o2' ws1' ws2' sc1' sc2', DigestOk D I H limit ->
  group_of c -> signer I c d1 o1 -> signer I c d2 o2 -> bytes msg1 -> bytes msg2 -> Z.of_nat (length msg1) < limit -> Z.of_nat (length msg2) < limit ->
  Z.of_nat (length (to_be_bytes d1)) + Z.of_nat (length (H msg1)) + 32 < 2 ^ 64 -> Z.of_nat (length (to_be_bytes d2)) + Z.of_nat (length (H msg2)) + 32 < 2 ^ 64 ->
  ecdsa_sign D fuel1 o1 ws1 sc1 msg1 = (o1', ws1', sc1', Ok tt) -> ecdsa_sign D fuel2 o2 ws2 sc2 msg2 = (o2', ws2', sc2', Ok tt) ->
  let n := cp_n c in let z1 := DSA_z (Z.of_nat (bits_len n)) (H msg1) in let z2 := DSA_z (Z.of_nat (bits_len n)) (H msg2) in
  exists k1 r1 s1 k2 r2 s2, 0 < k1 < n /\ 0 < k2 < n /\ sigc_to_bigint sc1' = Ok (r1, s1) /\ sigc_to_bigint sc2' = Ok (r2, s2) /\
    ECDSA_signature (cp_p c) n (decode (cp_gx c, cp_gy c)) d1 z1 k1 r1 s1 /\ ECDSA_signature (cp_p c) n (decode (cp_gx c, cp_gy c)) d2 z2 k2 r2 s2 /\
    forall a b, k2 mod n = (a * k1 + b) mod n ->
    (d1 = d2 -> ~ (n | key_coeff r1 s1 r2 s2 a) -> forall d, (d * key_coeff r1 s1 r2 s2 a) mod n = key_const z1 s1 z2 s2 a b mod n <-> d mod n = d1 mod n) /\
    (d1 = d2 -> (n | key_coeff r1 s1 r2 s2 a) -> (n | key_const z1 s1 z2 s2 a b)) /\
    (~ (n | a) -> forall d, (d * (s2 * a * r1)) mod n = (key_const z1 s1 z2 s2 a b + d2 * (s1 * r2)) mod n <-> d mod n = d1 mod n).
Proof.
  intros S D I H limit c d1 d2 o1 o2 fuel1 fuel2 ws1 ws2 sc1 sc2 msg1 msg2 o1' o2' ws1' ws2' sc1' sc2' HG GR SI1 SI2 B1 B2 L1 L2 LL1 LL2 E1 E2 n z1 z2.
  destruct (C73_ecdsa_known_nonce S D I H limit c d1 o1 fuel1 ws1 sc1 msg1 o1' ws1' sc1' HG GR SI1 B1 L1 LL1 E1) as (k1 & r1 & s1 & K1 & ES1 & SG1 & _).
  destruct (C73_ecdsa_known_nonce S D I H limit c d2 o2 fuel2 ws2 sc2 msg2 o2' ws2' sc2' HG GR SI2 B2 L2 LL2 E2) as (k2 & r2 & s2 & K2 & ES2 & SG2 & _).
  exists k1, r1, s1, k2, r2, s2. split; [exact K1|]. split; [exact K2|]. split; [exact ES1|]. split; [exact ES2|]. split; [exact SG1|]. split; [exact SG2|]. pose proof GR as (_ & _ & _ & PN & N2 & _).
  destruct SG1 as (u1 & w1 & _ & _ & _ & R1 & S1 & EQ1). destruct SG2 as (u2 & w2 & _ & _ & _ & R2 & S2 & EQ2). fold n in EQ1, EQ2, PN, N2, R1, S2 |- *. fold z1 in EQ1. fold z2 in EQ2.
  intros a b KK. apply mod_eq_divide in EQ1; [|lia]. apply mod_eq_divide in EQ2; [|lia]. apply mod_eq_divide in KK; [|lia]. split; [|split].
  - intros <-. apply (one_key n r1 s1 z1 k1 d1 r2 s2 z2 k2 a b PN EQ1 EQ2 KK).
  - intros <-. apply (one_key n r1 s1 z1 k1 d1 r2 s2 z2 k2 a b PN EQ1 EQ2 KK).
  - intros A. apply (two_keys n r1 s1 z1 k1 d1 r2 s2 z2 k2 d2 a b PN EQ1 EQ2 KK R1 S2 A).
Qed.
Print Assumptions C88_ecdsa.
(** The key 17 of [toy_key] from two signatures whose nonces satisfy k2 = 3 k1 + 1; the ECDSA signature of
    C47_sign_case, taken for both signatures. *)
Example C88_case : (exists r1 v1 r2 v2, snd (sign_inner SumDigest (inr toy_key) [] [3] [1; 2; 3]) = Ok (r1, v1) /\ snd (sign_inner SumDigest (inr toy_key) [] [10] [1; 2; 4]) = Ok (r2, v2) /\
    ~ (251 | key_coeff r1 v1 r2 v2 3) /\ forall x, (x * key_coeff r1 v1 r2 v2 3) mod 251 = key_const 6 v1 7 v2 3 1 mod 251 <-> x mod 251 = 17) /\
  (exists k1 r1 s1 k2 r2 s2, 0 < k1 < 271 /\ 0 < k2 < 271 /\ forall b, k2 mod 271 = (1 * k1 + b) mod 271 ->
     forall d, (d * (s2 * 1 * r1)) mod 271 = (key_const 22 s1 22 s2 1 b + 100 * (s1 * r2)) mod 271 <-> d mod 271 = 100).
Proof.
  split.
  - assert (W : match snd (sign_inner SumDigest (inr toy_key) [] [3] [1; 2; 3]), snd (sign_inner SumDigest (inr toy_key) [] [10] [1; 2; 4]) with
      | Ok (r1, v1), Ok (r2, v2) => negb (key_coeff r1 v1 r2 v2 3 mod 251 =? 0) | _, _ => false end = true) by (vm_compute; reflexivity).
    destruct (snd (sign_inner SumDigest (inr toy_key) [] [3] [1; 2; 3])) as [[r1 v1]|x|] eqn:E1; [|discriminate|discriminate].
    destruct (snd (sign_inner SumDigest (inr toy_key) [] [10] [1; 2; 4])) as [[r2 v2]|x|] eqn:E2; [|discriminate|discriminate].
    exists r1, v1, r2, v2. split; [reflexivity|]. split; [reflexivity|].
    assert (NC : ~ (251 | key_coeff r1 v1 r2 v2 3)).
    { intros DV. apply Z.mod_divide in DV; [|discriminate]. apply negb_true_iff, Z.eqb_neq in W. exact (W DV). }
    split; [exact NC|].
    destruct (sign_inner SumDigest (inr toy_key) [] [3] [1; 2; 3]) as [s1' o1] eqn:F1. destruct (sign_inner SumDigest (inr toy_key) [] [10] [1; 2; 4]) as [s2' o2] eqn:F2. cbn [snd] in E1, E2. subst o1 o2.
    destruct (C88_dsa _ SumDigest (fun _ => True) sum_hash (2 ^ 64) 1 503 251 4 (4 ^ 17 mod 503) 17 (4 ^ 17 mod 503) 17 [] [] [3] [10] [1; 2; 3] [1; 2; 4] s1' s2' r1 v1 r2 v2 (sum_digest_ok _) eq_refl) as (k1 & k2 & I1 & I2 & K); auto; try reflexivity;
      [exact (primeb_ok 20 251 eq_refl)|apply bytes_forallb; reflexivity|apply bytes_forallb; reflexivity|].
    destruct I1 as [<-|[]]. destruct I2 as [<-|[]]. destruct (K 3 1 eq_refl) as [K1 _]. exact (K1 eq_refl NC).
  - destruct C47_met as (GR & HG & SI & _).
    pose proof C47_sign_case as SC. destruct (ecdsa_sign Sum2 2 toy_signer [1; 2; 3] sigc_new [5; 6]) as [[[o1 w1] c1] x1] eqn:F1.
    assert (X1 : x1 = Ok tt) by (injection SC as _ _ SC; exact SC). subst x1. clear SC.
    destruct (C88_ecdsa _ Sum2 (fun _ => True) sum2_hash (2 ^ 64) toy9 100 100 toy_signer toy_signer 2 2 [1; 2; 3] [1; 2; 3] sigc_new sigc_new [5; 6] [5; 6] o1 o1 w1 w1 c1 c1 HG GR SI SI) as (k1 & r1 & s1 & k2 & r2 & s2 & K1 & K2 & _ & _ & _ & _ & K);
      auto; try reflexivity; try (apply bytes_forallb; reflexivity).
    clear F1. exists k1, r1, s1, k2, r2, s2. split; [exact K1|]. split; [exact K2|]. intros b KB d. destruct (K 1 b KB) as (_ & _ & K3). clear K.
    assert (NA : ~ (271 | 1)) by (clear; intros DV; apply Z.divide_pos_le in DV; lia). specialize (K3 NA d).
    assert (Z1 : DSA_z (Z.of_nat (bits_len (cp_n toy9))) (sum2_hash [5; 6]) = 22) by (vm_compute; reflexivity).
    rewrite !Z1 in K3. exact K3.
Qed.
