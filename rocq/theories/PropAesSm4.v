(** Properties C01, C02, C03 and C06: AES (both back-ends) and SM4.
    Specification: AesSpec.v (FIPS 197) and Sm4Spec.v (GB/T 32907-2016). *)
From Verif Require Import Base Words ModesModel ModesSpec AesModel AesSpec AesNiModel AesApi Sm4Model Sm4Spec Sm4Api.

(** C01. For each legal key, [AES::new] succeeds, and on 16-byte blocks decrypt and
    encrypt succeed and are inverse to each other. *)
Theorem C01_aes_roundtrip : forall key b,
  bytes key -> In (length key) [16; 24; 32]%nat -> bytes b -> length b = 16%nat ->
  exists a c d, aes_new key = Ok a /\
    aes_encrypt a b = Ok c /\ aes_decrypt a c = Ok b /\
    aes_decrypt a b = Ok d /\ aes_encrypt a d = Ok b.
Proof. exact aes_roundtrip. Qed.
Print Assumptions C01_aes_roundtrip.

(** C02. Encrypt is the FIPS 197 cipher, decrypt the FIPS 197 inverse cipher. *)
Theorem C02_aes_is_fips197 : forall key b a,
  bytes key -> bytes b -> length b = 16%nat -> aes_new key = Ok a ->
  aes_encrypt a b = Ok (AES_Cipher key b) /\ aes_decrypt a b = Ok (AES_InvCipher key b).
Proof. exact aes_is_fips. Qed.
Print Assumptions C02_aes_is_fips197.

(** C03. The AES-NI back-end and the portable one accept the same keys and agree on every
    input, whatever eight bytes [junk] follow a 192-bit key in memory. *)
Theorem C03_aesni_agrees : forall junk key,
  bytes junk -> length junk = 8%nat -> bytes key ->
  match aes_new key, aesni_new junk key with
  | Ok a, Ok n => forall b, bytes b ->
      aesni_encrypt n b = aes_encrypt a b /\ aesni_decrypt n b = aes_decrypt a b
  | Err e, Err e' => e = e'
  | _, _ => False
  end.
Proof. exact aesni_agrees. Qed.
Print Assumptions C03_aesni_agrees.

(** The hypotheses are met: the FIPS 197 appendix C.1-C.3 vectors. *)
Example C01_C02_C03_case :
  let b := map (fun i => Z.of_nat (17 * i)) (seq 0 16) in
  let key n := map Z.of_nat (seq 0 n) in
  bytes b /\ bytes (key 24%nat) /\ In (length (key 24%nat)) [16; 24; 32]%nat /\
  (forall a, aes_new (key 16%nat) = Ok a ->
     aes_encrypt a b = Ok [105;196;224;216;106;123;4;48;216;205;183;128;112;180;197;90]) /\
  (forall a, aes_new (key 24%nat) = Ok a ->
     aes_encrypt a b = Ok [221;169;124;164;134;76;223;224;110;175;112;160;236;13;113;145]) /\
  (forall a, aesni_new (repeat 255 8) (key 24%nat) = Ok a ->
     aesni_encrypt a b = Ok [221;169;124;164;134;76;223;224;110;175;112;160;236;13;113;145]) /\
  (forall a, aes_new (key 32%nat) = Ok a ->
     aes_encrypt a b = Ok [142;162;183;202;81;103;69;191;234;252;73;144;75;73;96;137]).
Proof.
  cbv zeta. split; [apply bytes_check; vm_compute; reflexivity|]. split; [apply bytes_check; vm_compute; reflexivity|]. split; [cbn; auto|].
  repeat split; intros a H; injection H as <-; vm_compute; reflexivity.
Qed.

(** C06. SM4 accepts exactly 16-byte keys; encrypt and decrypt are the standard's, and
    inverse to each other. *)
Theorem C06_sm4_is_gbt32907 : forall key b,
  bytes key -> length key = 16%nat -> bytes b -> length b = 16%nat ->
  exists k, sm4_from_slice key = Ok k /\
    sm4_encrypt k b = Ok (SM4_enc key b) /\ sm4_decrypt k b = Ok (SM4_dec key b).
Proof. exact sm4_is_std. Qed.
Print Assumptions C06_sm4_is_gbt32907.

Theorem C06_sm4_roundtrip : forall key b k,
  bytes key -> sm4_from_slice key = Ok k -> bytes b -> length b = 16%nat ->
  exists c d, sm4_encrypt k b = Ok c /\ sm4_decrypt k c = Ok b /\
              sm4_decrypt k b = Ok d /\ sm4_encrypt k d = Ok b.
Proof. exact sm4_roundtrip. Qed.
Print Assumptions C06_sm4_roundtrip.

(** GB/T 32907-2016, appendix A.1. *)
Example C06_case :
  let key := be_bytes 16 0x0123456789abcdeffedcba9876543210 in
  bytes key /\ length key = 16%nat /\
  forall k, sm4_from_slice key = Ok k ->
    sm4_encrypt k key = Ok (be_bytes 16 0x681edf34d206965e86b3e94f536e4246).
Proof.
  cbv zeta. split; [apply bytes_check; vm_compute; reflexivity|]. split; [reflexivity|].
  intros k H. apply ok_inj in H. subst k. vm_compute. reflexivity.
Qed.
