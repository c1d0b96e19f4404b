(** Properties C28 and C29: HMAC and CMAC objects.
    Specification: MacSpec.v (FIPS 198-1, SP 800-38B).  [mac_run MAC key m fin os] is what an ideal MAC object under [key]
    outputs along the calls [os]: writes append to the message, a write after [checksum] starts a new message, [reset] and
    [set_key] start afresh. *)
From Verif Require Import Base ModesModel ModesSpec AesModel AesSpec Sm4Model Sm4Spec DesModel DesSpec
  HashModel HashSpec MdProofs HashApi PropHash MacModel MacSpec MacProofs CmacProofs MacApi.

(** ** C28 *)
(** Any digest [D] computing [H] on messages shorter than [limit] bytes from states satisfying [I] (DigestOk, HashApi.v). *)
Theorem C28_hmac : forall (S : Type) (D : digest S) (I : S -> Prop) (H : list Z -> list Z) (limit : Z) (B : nat) key df os,
  DigestOk D I H limit -> I df -> d_block_size D = Some B -> (d_bits_len D / 8 <= B)%nat ->
  bytes key -> Forall mop_bytes os ->
  Z.of_nat (B + length key + total_size os) < limit -> Z.of_nat (B + d_bits_len D / 8) < limit ->
  exists s, hmac_new D key df = Ok s /\ snd (fold_left (hm_exec D) os (s, [])) = mac_run (HMAC_value H B) key [] false os.
Proof. intros S D I H limit B key df os HG Hi HB HBl Hk Fo H1 H2. exact (hmac_correct D I H limit B HG HB HBl key df os Hi Hk Fo H1 H2). Qed.
Print Assumptions C28_hmac.
(** The nine hashes of the library, with their standards. *)
Theorem C28_repo_hashes : forall D s0 h zl key df os, In (D, s0, h, zl) repo_hashes ->
  bytes key -> Forall mop_bytes os -> Z.of_nat (length key + total_size os) + 256 < 2 ^ 64 ->
  exists s, hmac_new D key df = Ok s /\
    snd (fold_left (hm_exec D) os (s, [])) = mac_run (HMAC_value (mk_hash h) (mk_B h)) key [] false os.
Proof. exact hmac_repo. Qed.
Print Assumptions C28_repo_hashes.
(** The constructor refuses exactly the digests without a block size or with output longer than a block. *)
Theorem C28_new : forall (S : Type) (D : digest S) key df,
  (exists s, hmac_new D key df = Ok s) <-> (exists b, d_block_size D = Some b /\ d_bits_len D / 8 <= b)%nat.
Proof. exact @hmac_new_err. Qed.
Print Assumptions C28_new.
(** "Sample #1" and "Sample #2" of the repository's tests, in two writes, twice, and after [set_key]. *)
Example C28_case : let k1 := map Z.of_nat (seq 0 64) in let k2 := map Z.of_nat (seq 48 20) in
  let text n := [83; 97; 109; 112; 108; 101; 32; 35; n] in
  let os := [MWrite (firstn 4 (text 49)); MWrite (skipn 4 (text 49)); MChecksum; MChecksum; MSetKey k2; MWrite (text 50); MChecksum] in
  Forall mop_bytes os /\ Z.of_nat (length k1 + total_size os) + 256 < 2 ^ 64 /\
  match hmac_new SHA1 k1 sha1_init with
  | Ok s => snd (fold_left (hm_exec SHA1) os (s, [])) =
      [be_bytes 20 0x4f4ca3d5d68ba7cc0a1208c9c61e9c5da0403c0a; be_bytes 20 0x4f4ca3d5d68ba7cc0a1208c9c61e9c5da0403c0a;
       be_bytes 20 0x0922d3405faa3d194f82a45830737d5cc6c75d24]
  | _ => False
  end.
Proof.
  cbv zeta. split; [repeat (constructor; [first [exact I|apply bytes_forallb; reflexivity]|]); constructor|].
  split; [reflexivity|]. vm_compute. reflexivity.
Qed.

(** ** C29 *)
(** Any well-behaved cipher whose block size has an entry in the table of reduction constants. *)
Theorem C29_cmac : forall c b E D R os, GoodCipher c b E D -> block_size_to_rb b = Some R -> Forall op_bytes os ->
  exists s s', cmac_new c = Ok s /\
    fold_left (cm_exec c b) os (Ok (s, [])) = Ok (s', mac_run (fun _ => CMAC_value E b R) [] [] false (map mop_of os)).
Proof. intros c b E D R os HG HR Fo. exact (cmac_correct c b E D R HG HR os Fo). Qed.
Print Assumptions C29_cmac.
(** The library's ciphers, with the constants of SP 800-38B section 5.3. *)
Theorem C29_repo_ciphers :
  CMAC_R 16 = Some 0x87 /\ CMAC_R 8 = Some 0x1b /\
  (forall key a, bytes key -> aes_new key = Ok a -> cmac_computes (aes_cipher a) 16 0x87 (AES_Cipher key)) /\
  (forall key k, bytes key -> sm4_from_slice key = Ok k -> cmac_computes (sm4_cipher k) 16 0x87 (SM4_enc key)) /\
  (forall key, bytes key -> length key = 8%nat -> cmac_computes (des_new key) 8 0x1b (DES_enc key)) /\
  (forall k1 k2 k3, bytes k1 -> bytes k2 -> bytes k3 -> length k1 = 8%nat -> length k2 = 8%nat -> length k3 = 8%nat ->
     cmac_computes (tdes_new k1 k2 k3) 8 0x1b (TDES_enc k1 k2 k3)).
Proof. exact (conj eq_refl (conj eq_refl (conj cmac_aes (conj cmac_sm4 (conj cmac_des cmac_tdes))))). Qed.
Print Assumptions C29_repo_ciphers.
Theorem C29_block_sizes : forall c b E D, GoodCipher c b E D ->
  ((exists s, cmac_new c = Ok s) <-> In b [4; 6; 8; 12; 16; 20; 24; 28; 32; 40; 48; 56; 64; 96; 128; 256]%nat) /\
  (~ (exists s, cmac_new c = Ok s) -> cmac_new c = Err InvalidParameter).
Proof. exact cmac_new_exact. Qed.
Print Assumptions C29_block_sizes.
(** The three-key Triple-DES vectors of the repository's tests (SP 800-38B appendix D.4). *)
Example C29_case : let c := tdes_new (be_bytes 8 0x0123456789ABCDEF) (be_bytes 8 0x23456789ABCDEF01) (be_bytes 8 0x456789ABCDEF0123) in
  let m := be_bytes 20 0x6BC1BEE22E409F96E93D7E117393172AAE2D8A57 in
  let os := [HChecksum; HWrite (firstn 3 m); HWrite []; HWrite (skipn 3 m); HChecksum; HChecksum; HReset; HWrite (firstn 16 m); HChecksum] in
  Forall op_bytes os /\
  match cmac_new c with
  | Ok s => match fold_left (cm_exec c 8) os (Ok (s, [])) with
    | Ok (_, outs) => outs = [be_bytes 8 0x7DB0D37DF936C550; be_bytes 8 0x6C9F3EE4923F6BE2; be_bytes 8 0x6C9F3EE4923F6BE2; be_bytes 8 0x30239CF1F52E6609]
    | _ => False end
  | _ => False
  end.
Proof.
  cbv zeta. split; [repeat (constructor; [first [exact I|apply bytes_forallb; reflexivity]|]); constructor|]. vm_compute. reflexivity.
Qed.
