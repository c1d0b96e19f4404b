(** RFC 8017 (PKCS #1 v2.2), written from the standard; nothing here refers to the model. *)
From Verif Require Import Base.

(** 4.1 I2OSP, 4.2 OS2IP. *)
Definition I2OSP (x : Z) (n : nat) : list Z := be_bytes n x.
Definition OS2IP (l : list Z) : Z := be_val l.

(** B.2.1 MGF1 for a hash function [H] with [h]-byte values. *)
Definition MGF1 (H : list Z -> list Z) (h : nat) (seed : list Z) (L : nat) : list Z :=
  firstn L (flat_map (fun i => H (seed ++ I2OSP (Z.of_nat i) 4)) (seq 0 ((L + h - 1) / h))).

(** 7.2.1 EME-PKCS1-v1_5: EM = 00 || 02 || PS || 00 || M, PS at least eight non-zero bytes. *)
Definition EME_PKCS1 (PS M : list Z) : list Z := [0; 2] ++ PS ++ [0] ++ M.

(** 9.2 EMSA-PKCS1-v1_5: EM = 00 || 01 || FF ... FF || 00 || T. *)
Definition EMSA_PKCS1 (k : nat) (T : list Z) : list Z := [0; 1] ++ repeat 255 (k - length T - 3) ++ [0] ++ T.

(** DER: tag, length in the short form, contents. *)
Definition DER (tag : Z) (c : list Z) : list Z := tag :: Z.of_nat (length c) :: c.
(** Base-128 digits of an object identifier component, most significant first, all but the last with bit 8 set. *)
Fixpoint base128 (f : nat) (x : Z) (tail : list Z) : list Z :=
  match f with
  | O => tail
  | S f => if x =? 0 then tail else base128 f (x / 128) ((128 + x mod 128) :: tail)
  end.
Definition oid_component (x : Z) : list Z := base128 10 (x / 128) [x mod 128].
Definition DER_OID (l : list Z) : list Z :=
  match l with a :: b :: r => DER 6 ((40 * a + b) :: flat_map oid_component r) | _ => [] end.
(** DigestInfo ::= SEQUENCE { SEQUENCE { OID, NULL }, OCTET STRING }. *)
Definition DigestInfo (oid digest : list Z) : list Z := DER 0x30 (DER 0x30 (DER_OID oid ++ DER 5 []) ++ DER 4 digest).

(** The object identifiers of appendix B.1. *)
Definition oid_md5 : list Z := [1; 2; 840; 113549; 2; 5].
Definition oid_sha1 : list Z := [1; 3; 14; 3; 2; 26].
Definition oid_sha224 : list Z := [2; 16; 840; 1; 101; 3; 4; 2; 4].
Definition oid_sha256 : list Z := [2; 16; 840; 1; 101; 3; 4; 2; 1].
Definition oid_sha384 : list Z := [2; 16; 840; 1; 101; 3; 4; 2; 2].
Definition oid_sha512 : list Z := [2; 16; 840; 1; 101; 3; 4; 2; 3].

Section WithHash.
Variables (H : list Z -> list Z) (h : nat).
(** 7.1.1 step 2: EME-OAEP encoding of [M] with label [L] and seed, for a [k]-byte modulus. *)
Definition OAEP_mask (k : nat) (DB seed : list Z) : list Z :=
  let maskedDB := xorl DB (MGF1 H h seed (k - h - 1)) in
  let maskedSeed := xorl seed (MGF1 H h maskedDB h) in
  [0] ++ maskedSeed ++ maskedDB.
Definition OAEP_DB (k : nat) (L M : list Z) : list Z :=
  H L ++ repeat 0 (k - length M - 2 * h - 2) ++ [1] ++ M.
Definition EME_OAEP (k : nat) (L M seed : list Z) : list Z := OAEP_mask k (OAEP_DB k L M) seed.

(** 9.1.1 EMSA-PSS-ENCODE: [clear_top z] zeroes the leftmost [z] bits of the leftmost octet. *)
Definition clear_top (z : nat) (l : list Z) : list Z :=
  match l with [] => [] | d :: ds => d mod 2 ^ (8 - Z.of_nat z) :: ds end.
Definition EMSA_PSS (emBits : nat) (M salt : list Z) : list Z :=
  let emLen := ((emBits + 7) / 8)%nat in
  let Hh := H (repeat 0 8 ++ H M ++ salt) in
  let DB := repeat 0 (emLen - length salt - h - 2) ++ [1] ++ salt in
  clear_top (8 * emLen - emBits) (xorl DB (MGF1 H h Hh (emLen - h - 1))) ++ Hh ++ [0xbc].

(** 9.1.2 EMSA-PSS-VERIFY, with the number [top] of leading bits required to be zero (step 6) and the number [clr] of
    leading bits cleared (step 9) as parameters; the standard takes both to be [8 emLen - emBits]. *)
Definition PSS_accepts (top clr emBits sLen : nat) (M EM : list Z) : Prop :=
  let emLen := ((emBits + 7) / 8)%nat in
  exists maskedDB Hh salt,
    EM = maskedDB ++ Hh ++ [0xbc] /\ length maskedDB = (emLen - h - 1)%nat /\ length Hh = h /\
    nth 0 maskedDB 0 < 2 ^ (8 - Z.of_nat top) /\
    length salt = sLen /\
    clear_top clr (xorl maskedDB (MGF1 H h Hh (emLen - h - 1))) = repeat 0 (emLen - h - sLen - 2) ++ [1] ++ salt /\
    Hh = H (repeat 0 8 ++ H M ++ salt).
Definition EMSA_PSS_VERIFY (emBits sLen : nat) (M EM : list Z) : Prop :=
  let emLen := ((emBits + 7) / 8)%nat in PSS_accepts (8 * emLen - emBits) (8 * emLen - emBits) emBits sLen M EM.
End WithHash.
