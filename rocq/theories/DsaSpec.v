(** FIPS 186-4, chapter 4: the digital signature algorithm. *)
From Coq Require Import Znumtheory.
From Verif Require Import Base.

(** Domain parameters of lengths [L] and [N] (section 4.1). *)
Definition DSA_params (L N : Z) (p q g : Z) : Prop :=
  prime p /\ prime q /\ 2 ^ (L - 1) <= p < 2 ^ L /\ 2 ^ (N - 1) <= q < 2 ^ N /\ (q | p - 1) /\ 1 < g < p /\ g ^ q mod p = 1.
(** A key pair. *)
Definition DSA_key (p q g x y : Z) : Prop := 0 < x < q /\ y = g ^ x mod p.
(** The leftmost min(N, outlen) bits of the hash value [hm], as an integer (section 4.6). *)
Definition DSA_z (N : Z) (hm : list Z) : Z :=
  let outlen := 8 * Z.of_nat (length hm) in be_val hm / 2 ^ (outlen - Z.min N outlen).
(** (r, s) is the signature of [z] made with the nonce [k]. *)
Definition DSA_signature (p q g x z k r s : Z) : Prop :=
  r = (g ^ k mod p) mod q /\ 0 < r < q /\ 0 < s < q /\ (s * k) mod q = (z + x * r) mod q.
(** (r, s) passes the verification of section 4.7 for [z]. *)
Definition DSA_accepts (p q g y z r s : Z) : Prop :=
  0 < r < q /\ 0 < s < q /\
  exists w, 0 <= w < q /\ (s * w) mod q = 1 /\ (g ^ ((z * w) mod q) * y ^ ((r * w) mod q)) mod p mod q = r.
