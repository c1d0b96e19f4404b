(** FIPS 186-4, chapter 6 (ANS X9.62): the elliptic-curve digital signature algorithm, over the group of EllSpec.v.
    [DSA_z] of DsaSpec.v is the leftmost bits of a hash value. *)
From Coq Require Import Znumtheory.
From Verif Require Import Base EllSpec HashSpec AesSpec.

(** R is the sum of k points P. *)
Fixpoint ec_multiple (p : Z) (k : nat) (P R : pt) : Prop :=
  match k with O => R = None | S k => exists R', ec_multiple p k P R' /\ ec_sum p P R' R end.
(** G generates a group of odd prime order n on the curve. *)
Definition ECDSA_group (p b n : Z) (G : pt) : Prop :=
  sound_curve p b /\ on_curve p b G /\ G <> None /\ prime n /\ 2 < n /\ ec_multiple p (Z.to_nat n) G None.
(** (r, s) is the signature of [z] made with the private key [d] and the nonce [k]. *)
Definition ECDSA_signature (p n : Z) (G : pt) (d z k r s : Z) : Prop :=
  exists x y, ec_multiple p (Z.to_nat k) G (Some (x, y)) /\ 0 <= x < p /\ r = x mod n /\ 0 < r < n /\ 0 < s < n /\ (s * k) mod n = (z + d * r) mod n.
(** (r, s) passes the verification for [z] with the public key [Q]. *)
Definition ECDSA_accepts (p n : Z) (G Q : pt) (z r s : Z) : Prop :=
  0 < r < n /\ 0 < s < n /\
  exists w U V x y, (s * w) mod n = 1 /\ ec_multiple p (Z.to_nat ((z * w) mod n)) G U /\ ec_multiple p (Z.to_nat ((r * w) mod n)) Q V /\
    ec_sum p U V (Some (x, y)) /\ 0 <= x < p /\ r = x mod n.

(** How this library picks nonces: with AES-256 in counter mode, keyed with the first half of
    SHA-512 (private key | entropy | hash), it makes [len] bytes per nonce. *)
Definition ECDSA_key (dbytes entropy hash : list Z) : list Z := firstn 32 (SHA512_hash (dbytes ++ entropy ++ hash)).
Definition ECDSA_nonce (n : Z) (len : nat) (key iv : list Z) (j : nat) : Z :=
  let blocks := ((len + 15) / 16)%nat in
  let block i := AES_Cipher key (be_bytes 16 (be_val iv + Z.of_nat (j * blocks + i))) in
  be_val (firstn len (concat (map block (seq 0 blocks)))) mod (n - 1) + 1.
