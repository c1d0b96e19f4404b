(** Properties C04, C05, C07, C55: DES, Triple-DES, and the length discipline of all block ciphers.
    Specification: DesSpec.v (FIPS 46-3 on bit strings, SP 800-67). *)
From Verif Require Import Base ModesModel ModesSpec AesModel AesNiModel Sm4Model DesModel DesSpec DesLink CipherDst BlockApi.

(** ** C04 *)
Theorem C04_des_roundtrip : forall key b, bytes key -> length key = 8%nat -> bytes b -> length b = 8%nat ->
  exists x y, enc (des_new key) b = Ok x /\ dec (des_new key) x = Ok b /\
              dec (des_new key) b = Ok y /\ enc (des_new key) y = Ok b.
Proof. exact des_roundtrip. Qed.
Print Assumptions C04_des_roundtrip.
Theorem C04_tdes_roundtrip : forall k1 k2 k3 b, bytes k1 -> bytes k2 -> bytes k3 ->
  length k1 = 8%nat -> length k2 = 8%nat -> length k3 = 8%nat -> bytes b -> length b = 8%nat ->
  exists x y, enc (tdes_new k1 k2 k3) b = Ok x /\ dec (tdes_new k1 k2 k3) x = Ok b /\
              dec (tdes_new k1 k2 k3) b = Ok y /\ enc (tdes_new k1 k2 k3) y = Ok b.
Proof. exact tdes_roundtrip. Qed.
Print Assumptions C04_tdes_roundtrip.
Example C04_case : let d := tdes_new (be_bytes 8 0x0123456789ABCDEF) (be_bytes 8 0x23456789ABCDEF01) (be_bytes 8 0x456789ABCDEF0123) in
  enc d (be_bytes 8 0x6BC1BEE22E409F96) = Ok (be_bytes 8 0x714772F339841D34) /\
  dec d (be_bytes 8 0x714772F339841D34) = Ok (be_bytes 8 0x6BC1BEE22E409F96).
Proof. vm_compute. auto. Qed.

(** ** C05 *)
Theorem C05_des_is_fips46 : forall key m, bytes key -> length key = 8%nat -> bytes m -> length m = 8%nat ->
  enc (des_new key) m = Ok (DES_enc key m) /\ dec (des_new key) m = Ok (DES_dec key m).
Proof. exact des_is_fips. Qed.
Print Assumptions C05_des_is_fips46.
Theorem C05_tdes_is_sp800_67 : forall k1 k2 k3 m, bytes k1 -> bytes k2 -> bytes k3 ->
  length k1 = 8%nat -> length k2 = 8%nat -> length k3 = 8%nat -> bytes m -> length m = 8%nat ->
  enc (tdes_new k1 k2 k3) m = Ok (TDES_enc k1 k2 k3 m) /\ dec (tdes_new k1 k2 k3) m = Ok (TDES_dec k1 k2 k3 m).
Proof. exact tdes_is_std. Qed.
Print Assumptions C05_tdes_is_sp800_67.
(** Keys equal except in the lowest bit of each byte encrypt alike. *)
Theorem C05_parity_ignored : forall k1 k2, length k1 = 8%nat -> length k2 = 8%nat -> bytes k1 -> bytes k2 ->
  map (fun b => b / 2) k1 = map (fun b => b / 2) k2 -> forall b, bytes b ->
  enc (des_new k1) b = enc (des_new k2) b /\ dec (des_new k1) b = dec (des_new k2) b.
Proof. exact des_parity. Qed.
Print Assumptions C05_parity_ignored.
Example C05_case :
  DES_enc [0x13; 0x34; 0x57; 0x79; 0x9b; 0xbc; 0xdf; 0xf1] (be_bytes 8 0x0123456789ABCDEF) = be_bytes 8 0x85E813540F0AB405 /\
  enc (des_new [0x12; 0x35; 0x56; 0x78; 0x9a; 0xbd; 0xde; 0xf0]) (be_bytes 8 0x0123456789ABCDEF) = Ok (be_bytes 8 0x85E813540F0AB405).
Proof. vm_compute. auto. Qed.

(** ** C07 *)
Theorem C07_key_lengths : forall key,
  ((exists a, aes_new key = Ok a) <-> In (length key) [16; 24; 32]%nat) /\
  (~ In (length key) [16; 24; 32]%nat -> aes_new key = Err InvalidParameter) /\
  (length key = 16%nat -> exists k, sm4_from_slice key = Ok k) /\
  (length key <> 16%nat -> sm4_from_slice key = Err InvalidParameter).
Proof. intros key. exact (conj (aes_new_exact key) (conj (aes_new_err key) (sm4_key_exact key))). Qed.
Print Assumptions C07_key_lengths.
Theorem C07_block_lengths :
  let ok n (f : list Z -> list Z -> list Z * res nat) := forall dst b,
    (length b = n -> exists out, f dst b = (out, Ok n) /\ length out = n) /\
    (length b <> n -> f dst b = (dst, Err InvalidParameter)) in
  (forall a, ok 16%nat (aes_encrypt_dst a) /\ ok 16%nat (aes_decrypt_dst a)) /\
  (forall ks e, ok 8%nat (des_crypt_dst ks e)) /\
  (forall k1 k2 k3 buf,
     ok 8%nat (fun dst b => let '(_, d, r) := tdes_encrypt_dst k1 k2 k3 buf dst b in (d, r)) /\
     ok 8%nat (fun dst b => let '(_, d, r) := tdes_decrypt_dst k1 k2 k3 buf dst b in (d, r))) /\
  (forall rk, ok 16%nat (sm4_ed_dst rk)).
Proof. exact (conj aes_call (conj des_call (conj tdes_call sm4_call))). Qed.
Print Assumptions C07_block_lengths.
Theorem C07_block_lengths_aesni : forall junk key a, bytes junk -> length junk = 8%nat -> bytes key -> aesni_new junk key = Ok a ->
  forall dst b, bytes b ->
    (length b = 16%nat -> exists out, aesni_encrypt_dst a dst b = (out, Ok 16%nat) /\ length out = 16%nat) /\
    (length b = 16%nat -> exists out, aesni_decrypt_dst a dst b = (out, Ok 16%nat) /\ length out = 16%nat) /\
    (length b <> 16%nat -> aesni_encrypt_dst a dst b = (dst, Err InvalidParameter) /\
                           aesni_decrypt_dst a dst b = (dst, Err InvalidParameter)).
Proof. exact aesni_call. Qed.
Print Assumptions C07_block_lengths_aesni.
(** Every block cipher of the library meets the hypothesis of the mode theorems. *)
Theorem C07_all_are_block_permutations :
  (forall key, bytes key -> In (length key) [16; 24; 32]%nat -> exists a E D, aes_new key = Ok a /\ GoodCipher (aes_cipher a) 16 E D) /\
  (forall key, bytes key -> length key = 16%nat -> exists k E D, sm4_from_slice key = Ok k /\ GoodCipher (sm4_cipher k) 16 E D) /\
  (forall key, bytes key -> length key = 8%nat -> exists E D, GoodCipher (des_new key) 8 E D) /\
  (forall k1 k2 k3, bytes k1 -> bytes k2 -> bytes k3 -> length k1 = 8%nat -> length k2 = 8%nat -> length k3 = 8%nat ->
     exists E D, GoodCipher (tdes_new k1 k2 k3) 8 E D).
Proof. exact all_instances. Qed.
Print Assumptions C07_all_are_block_permutations.
Example C07_case : des_crypt_dst (key_schedule (repeat 0 8)) true [1; 2; 3] (repeat 0 8) =
   ([0x8c; 0xa6; 0x4d; 0xe9; 0xc1; 0xb1; 0x23; 0xa7], Ok 8%nat) /\
  des_crypt_dst (key_schedule (repeat 0 8)) true [1; 2; 3] (repeat 0 9) = ([1; 2; 3], Err InvalidParameter).
Proof. vm_compute. auto. Qed.

(** ** C55: complementing key and block complements the result *)
Theorem C55_des_complementation : forall key b, bytes key -> length key = 8%nat -> bytes b -> length b = 8%nat ->
  exists x, enc (des_new key) b = Ok x /\
    enc (des_new (map (fun v => 255 - v) key)) (map (fun v => 255 - v) b) = Ok (map (fun v => 255 - v) x).
Proof. exact des_complement. Qed.
Print Assumptions C55_des_complementation.
Example C55_case : enc (des_new (repeat 0 8)) (repeat 0 8) = Ok [0x8c; 0xa6; 0x4d; 0xe9; 0xc1; 0xb1; 0x23; 0xa7] /\
  enc (des_new (repeat 255 8)) (repeat 255 8) = Ok [0x73; 0x59; 0xb2; 0x16; 0x3e; 0x4e; 0xdc; 0x58].
Proof. vm_compute. auto. Qed.
