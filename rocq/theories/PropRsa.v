(** Properties C38-C44 and C57: RSA keys, primitives, PKCS1 v1.5, OAEP, PSS and key generation.
    Specification: RsaSpec.v (RFC 8017).  Numbers are integers; [priv_decrypt k c rd] is decryption with blinding draws
    [rd] ([None]: no blinding).  [usable n rd] says that some draw is coprime to [n] (a zero draw counts as one): without
    one the blinding loop would not end.  [key_ok k]: the primes of [k] are distinct primes with product [n > 1],
    [d, e >= 0], [e * d = 1] modulo every [p - 1], and the CRT values are absent or those PrecomputedValues::new computes. *)
From Coq Require Import Znumtheory.
From Verif Require Import Base Words HashModel HashSpec HashApi PropHash MacApi NumTheory RsaModel RsaProofs RsaEncModel RsaSpec RsaEncProofs RsaSigProofs RsaApi RsaCases.

(** ** C38 *)
Theorem C38_encrypt : forall n e m, n <> 0 -> pub_encrypt (mkPub n e) m = m ^ e mod n.
Proof. intros n e m H. exact (powmod_ok m e n H). Qed.
Print Assumptions C38_encrypt.
Theorem C38_roundtrip : forall primes e d pre m rd, let n := fold_right Z.mul 1 primes in let key := mkPriv (mkPub n e) d primes pre in
  Forall prime primes -> NoDup primes -> 1 < n -> 0 <= e -> 0 <= d -> (forall p, In p primes -> (e * d) mod (p - 1) = 1) ->
  (pre = None \/ exists p q ps, primes = p :: q :: ps /\ pre = Some (precompute p q d ps)) ->
  0 <= m < n -> usable n rd ->
  priv_decrypt key (pub_encrypt (mkPub n e) m) rd = Ok m /\
  exists s, priv_decrypt key m rd = Ok s /\ priv_decrypt_check key m rd = Ok s /\ 0 <= s < n /\ pub_encrypt (mkPub n e) s = m.
Proof.
  intros primes e d pre m rd n key HP ND N E D0 ED PO M U.
  assert (K : key_ok key) by (split; [exact (conj HP (conj ND (conj eq_refl (conj N (conj D0 PO)))))|exact (conj E ED)]).
  split; [exact (roundtrip key m rd K M U)|]. exists (m ^ d mod n).
  split; [exact (priv_decrypt_ok key m rd K ltac:(cbn; lia) U)|]. split; [exact (decrypt_check_ok key m rd K M U)|].
  split; [exact (pow_range m d n N)|]. exact (sign_primitive key m K M).
Qed.
Print Assumptions C38_roundtrip.
Example C38_case : priv_decrypt key12 (pub_encrypt (sk_pk key12) 123456789) (Some [65521; 0]) = Ok 123456789.
Proof. apply (roundtrip key12 123456789); [exact key12_ok|vm_compute; split; congruence|]. right. left. reflexivity. Qed.

(** ** C39 *)
(** The CRT path, the plain path and every blinding give the same number, for every [c] that [decrypt] accepts. *)
Theorem C39_crt_plain_blinded : forall primes n e d p q ps c rd, primes = p :: q :: ps -> 
  key_ok (mkPriv (mkPub n e) d primes None) -> c <= n -> usable n rd ->
  priv_decrypt (mkPriv (mkPub n e) d primes (Some (precompute p q d ps))) c None = Ok (c ^ d mod n) /\
  priv_decrypt (mkPriv (mkPub n e) d primes None) c None = Ok (c ^ d mod n) /\
  priv_decrypt (mkPriv (mkPub n e) d primes (Some (precompute p q d ps))) c rd = Ok (c ^ d mod n) /\
  priv_decrypt (mkPriv (mkPub n e) d primes None) c rd = Ok (c ^ d mod n).
Proof.
  intros primes n e d p q ps c rd EP K C U.
  assert (K' : key_ok (mkPriv (mkPub n e) d primes (Some (precompute p q d ps)))).
  { destruct K as ((H1 & H2 & H3 & H4 & H5 & _) & H6). split; [|exact H6]. refine (conj H1 (conj H2 (conj H3 (conj H4 (conj H5 _))))).
    right. exists p, q, ps. split; [exact EP|reflexivity]. }
  exact (conj (priv_decrypt_ok _ c None K' C I) (conj (priv_decrypt_ok _ c None K C I) (conj (priv_decrypt_ok _ c rd K' C U) (priv_decrypt_ok _ c rd K C U)))).
Qed.
Print Assumptions C39_crt_plain_blinded.
(** Ciphertexts above the modulus are refused; no usable draw: the loop never ends. *)
Theorem C39_range : forall k c rd, pk_n (sk_pk k) < c -> priv_decrypt k c rd = Err InvalidParameter.
Proof. intros k c rd H. unfold priv_decrypt. rewrite (proj2 (Z.ltb_lt _ _) H). reflexivity. Qed.
Print Assumptions C39_range.
Theorem C39_no_draw : forall n draws, 0 < n -> ~ usable n (Some draws) -> blind_loop n draws = None.
Proof. exact blind_loop_none. Qed.
Print Assumptions C39_no_draw.
(** The standard refuses [c = n]; this code does not. *)
Theorem C39_modulus_accepted_refuted : exists k, key_ok k /\ priv_decrypt k (pk_n (sk_pk k)) None = Ok 0.
Proof. exists key12. split; [exact key12_ok|]. vm_compute. reflexivity. Qed.
Print Assumptions C39_modulus_accepted_refuted.
Example C39_case : let k := sk_pk key12 in exists p q ps, sk_primes key12 = p :: q :: ps /\
  key_ok (mkPriv (mkPub (pk_n k) (pk_e k)) (sk_d key12) (sk_primes key12) None) /\ 987654321 <= pk_n k /\ usable (pk_n k) (Some [3]).
Proof.
  cbv zeta. exists 65521, 65519, [65497; 65479; 65449; 65447]. split; [reflexivity|]. split.
  - destruct key12_ok as ((H1 & H2 & H3 & H4 & H5 & _) & H6). split; [|exact H6]. refine (conj H1 (conj H2 (conj H3 (conj H4 (conj H5 _))))). left. reflexivity.
  - split; [vm_compute; congruence|]. left. reflexivity.
Qed.

(** ** C40 *)
Theorem C40_is_valid_iff : forall k, priv_is_valid k = Ok tt <->
  2 <= pk_e (sk_pk k) <= 2 ^ 31 - 1 /\ (forall p, In p (sk_primes k) -> 1 < p) /\ fold_right Z.mul 1 (sk_primes k) = pk_n (sk_pk k) /\
  (forall p, In p (sk_primes k) -> (sk_d k * pk_e (sk_pk k)) mod (p - 1) = 1).
Proof. exact priv_is_valid_iff. Qed.
Print Assumptions C40_is_valid_iff.
Theorem C40_public_iff : forall k, pub_is_valid k = Ok tt <-> 2 <= pk_e k <= 2 ^ 31 - 1.
Proof. exact pub_is_valid_iff. Qed.
Print Assumptions C40_public_iff.
(** An accepted key over distinct primes decrypts everything encrypted under its public key. *)
Theorem C40_accepted_decrypts : forall primes n e d pre m rd, let key := mkPriv (mkPub n e) d primes pre in
  priv_is_valid key = Ok tt -> Forall prime primes -> NoDup primes -> primes <> [] -> 0 <= d ->
  (pre = None \/ exists p q ps, primes = p :: q :: ps /\ pre = Some (precompute p q d ps)) ->
  0 <= m < n -> usable n rd -> priv_decrypt key (pub_encrypt (mkPub n e) m) rd = Ok m.
Proof.
  intros primes n e d pre m rd key V HP ND NE D0 PO M U. apply priv_is_valid_iff in V. destruct V as (V1 & V2 & V3 & V4). cbn [key sk_pk pk_n pk_e sk_primes sk_d] in *.
  apply (roundtrip key m rd); [|exact M|exact U].
  assert (N1 : 1 < n).
  { rewrite <- V3. destruct primes as [|p ps]; [contradiction|]. cbn [zprod fold_right]. inversion HP as [|? ? Pp Pps]; subst.
    pose proof (prime_ge_2 p Pp). pose proof (zprod_pos ps (primes_pos ps Pps)) as Z0. unfold zprod in Z0. nia. }
  split; [exact (conj HP (conj ND (conj (eq_sym V3) (conj N1 (conj D0 PO)))))|]. split; [cbn; lia|].
  intros p Ip. cbn [key sk_pk pk_e sk_d]. rewrite Z.mul_comm. exact (V4 p Ip).
Qed.
Print Assumptions C40_accepted_decrypts.
(** Neither primality nor distinctness is checked: keys that are accepted and do not decrypt. *)
Theorem C40_composite_refuted : exists k m, priv_is_valid k = Ok tt /\ NoDup (sk_primes k) /\ 0 <= m < pk_n (sk_pk k) /\
  exists m', priv_decrypt k (pub_encrypt (sk_pk k) m) None = Ok m' /\ m' <> m.
Proof.
  exists (mkPriv (mkPub 45 3) 3 [9; 5] None), 3. split; [reflexivity|]. split; [apply nodupb_ok; reflexivity|]. split; [cbn; lia|].
  exists 18. split; [vm_compute; reflexivity|discriminate].
Qed.
Print Assumptions C40_composite_refuted.
Theorem C40_repeated_refuted : exists k m, priv_is_valid k = Ok tt /\ Forall prime (sk_primes k) /\ 0 <= m < pk_n (sk_pk k) /\
  exists m', priv_decrypt k (pub_encrypt (sk_pk k) m) None = Ok m' /\ m' <> m.
Proof.
  exists (mkPriv (mkPub 9 3) 3 [3; 3] None), 3. split; [reflexivity|]. split; [constructor; [exact prime_3|constructor; [exact prime_3|constructor]]|]. split; [cbn; lia|].
  exists 0. split; [vm_compute; reflexivity|discriminate].
Qed.
Print Assumptions C40_repeated_refuted.
Theorem C40_from_nat : forall n e, pub_from_nat n e = Ok (mkPub n e) <-> 3 <= e < n.
Proof.
  intros n e. unfold pub_from_nat. destruct (Z.leb_spec n e); cbn [orb]; [split; [discriminate|lia]|].
  destruct (Z.ltb_spec e 3); split; (discriminate || lia || reflexivity).
Qed.
Print Assumptions C40_from_nat.
Example C40_case : priv_is_valid key12 = Ok tt /\ Forall prime (sk_primes key12) /\ NoDup (sk_primes key12).
Proof. destruct key12_ok as ((H1 & H2 & _) & _). split; [vm_compute; reflexivity|exact (conj H1 H2)]. Qed.

(** ** C41 *)
(** Encryption is RSA of EME-PKCS1-v1_5 with the non-zero random bytes drawn. *)
Theorem C41_encrypt : forall kp ws msg, pub_is_valid (kp_public kp) = Ok tt -> 1 < pk_n (kp_public kp) -> bytes msg ->
  (1 <= length msg)%nat -> (length msg + 11 <= modulus_len (kp_public kp))%nat ->
  (modulus_len (kp_public kp) - length msg - 3 <= length (nonzero_bytes ws))%nat ->
  let k := modulus_len (kp_public kp) in
  exists PS, pkcs1_encrypt kp ws msg = Ok (I2OSP (OS2IP (EME_PKCS1 PS msg) ^ pk_e (kp_public kp) mod pk_n (kp_public kp)) k) /\
    length (EME_PKCS1 PS msg) = k /\ Forall (fun x => x <> 0) PS /\ PS = firstn (k - length msg - 3) (nonzero_bytes ws) /\ (8 <= length PS)%nat.
Proof.
  intros kp ws msg V N B L1 L2 LW k. destruct (pkcs1_encrypt_ok kp ws msg V N B L1 L2 LW) as (E & L & _ & NZ & LP).
  exists (pad_string k ws msg). refine (conj E (conj L (conj NZ (conj eq_refl _)))). fold k in LP, L2. rewrite LP. lia.
Qed.
Print Assumptions C41_encrypt.
Theorem C41_roundtrip : forall sk ws rd msg, key_ok sk -> pub_is_valid (sk_pk sk) = Ok tt -> bytes msg ->
  (1 <= length msg)%nat -> (length msg + 11 <= modulus_len (sk_pk sk))%nat ->
  (modulus_len (sk_pk sk) - length msg - 3 <= length (nonzero_bytes ws))%nat -> usable (pk_n (sk_pk sk)) rd ->
  exists c, pkcs1_encrypt (inr sk) ws msg = Ok c /\ pkcs1_encrypt (inl (sk_pk sk)) ws msg = Ok c /\
    length c = modulus_len (sk_pk sk) /\ bytes c /\ pkcs1_decrypt (inr sk) rd c = Ok msg.
Proof. exact pkcs1_roundtrip. Qed.
Print Assumptions C41_roundtrip.
(** Decryption returns [m] exactly when the decrypted block is an encoding of [m] with at least eight padding bytes. *)
Theorem C41_decrypt_iff : forall sk rd c m, key_ok sk -> pub_is_valid (sk_pk sk) = Ok tt -> (11 < modulus_len (sk_pk sk))%nat ->
  bytes c -> length c = modulus_len (sk_pk sk) -> OS2IP c <= pk_n (sk_pk sk) -> usable (pk_n (sk_pk sk)) rd ->
  pkcs1_decrypt (inr sk) rd c = Ok m <->
  exists PS, I2OSP (OS2IP c ^ sk_d sk mod pk_n (sk_pk sk)) (modulus_len (sk_pk sk)) = EME_PKCS1 PS m /\ Forall (fun x => x <> 0) PS /\ (8 <= length PS)%nat.
Proof.
  intros sk rd c m K V L11 B LC C U. rewrite (pkcs1_decrypt_eq sk rd c K V L11 B LC C U). apply pkcs1_decode_iff. unfold I2OSP. rewrite be_bytes_length. exact L11.
Qed.
Print Assumptions C41_decrypt_iff.
Theorem C41_rejections : forall kp ws rd msg c, let k := modulus_len (kp_public kp) in
  (pub_is_valid (kp_public kp) = Ok tt -> (11 < k)%nat -> (k < length msg + 11)%nat -> pkcs1_encrypt kp ws msg = Err InvalidParameter) /\
  ((11 < k)%nat -> length c <> k -> pkcs1_decrypt kp rd c = Err InvalidParameter) /\
  ((11 < k)%nat -> length c = k -> kp_private kp = None -> pkcs1_decrypt kp rd c = Err InvalidPrivateKey).
Proof.
  intros kp ws rd msg c k. split; [|split].
  - intros V L11 L. unfold pkcs1_encrypt. rewrite (proj2 (Nat.eqb_neq _ _)) by lia. rewrite V. cbn [rbind]. fold k.
    rewrite (proj2 (Nat.ltb_lt _ _)) by lia. reflexivity.
  - intros L11 L. unfold pkcs1_decrypt. fold k. rewrite (proj2 (Nat.leb_gt _ _)) by lia. rewrite (proj2 (Nat.eqb_neq _ _)) by congruence. reflexivity.
  - intros L11 L P. unfold pkcs1_decrypt. fold k. rewrite (proj2 (Nat.leb_gt _ _)) by lia. rewrite (proj2 (Nat.eqb_eq _ _)) by congruence. rewrite P. reflexivity.
Qed.
Print Assumptions C41_rejections.
(** The empty message "encrypts" to an empty ciphertext that decryption refuses. *)
Theorem C41_empty_refuted : forall kp ws rd, (11 < modulus_len (kp_public kp))%nat ->
  pkcs1_encrypt kp ws [] = Ok [] /\ pkcs1_decrypt kp rd [] = Err InvalidParameter.
Proof.
  intros kp ws rd L. split; [reflexivity|]. unfold pkcs1_decrypt. rewrite (proj2 (Nat.leb_gt _ _)) by lia. rewrite (proj2 (Nat.eqb_neq _ _)) by (cbn [length]; lia). reflexivity.
Qed.
Print Assumptions C41_empty_refuted.
Example C41_case : exists c, pkcs1_encrypt (inr key12) [0x01020304; 0x05000607; 0x08090a0b] [0x2a] = Ok c /\ length c = 12%nat /\ pkcs1_decrypt (inr key12) (Some [2]) c = Ok [0x2a].
Proof.
  destruct (C41_roundtrip key12 [0x01020304; 0x05000607; 0x08090a0b] (Some [2]) [0x2a] key12_ok) as (c & E1 & _ & E2 & _ & E3).
  - vm_compute. reflexivity. - apply bytes_forallb. reflexivity. - cbn. lia. - vm_compute. lia. - vm_compute. lia. - left. vm_compute. reflexivity.
  - exists c. split; [exact E1|]. split; [rewrite E2; vm_compute; reflexivity|exact E3].
Qed.

(** ** C42 *)
(** [D] computes [H], with [h]-byte values, on messages shorter than [limit], from states satisfying [I]. *)
Theorem C42_sign : forall (S : Type) (D : digest S) (I : S -> Prop) H limit h t oid sk s rd msg,
  DigestOk D I H limit -> d_bits_len D = (8 * h)%nat -> pkcs1_hash t = Some (oid, h) ->
  key_ok sk -> I s -> bytes msg -> Z.of_nat (length msg) < limit ->
  (length (DigestInfo oid (H msg)) + 11 <= modulus_len (sk_pk sk))%nat -> usable (pk_n (sk_pk sk)) rd ->
  let k := modulus_len (sk_pk sk) in
  exists s', I s' /\ pkcs1_sign D t (inr sk) s rd msg =
    (s', Ok (I2OSP (OS2IP (EMSA_PKCS1 k (DigestInfo oid (H msg))) ^ sk_d sk mod pk_n (sk_pk sk)) k)).
Proof.
  intros S D I H limit h t oid sk s rd msg HG HB T. apply (api_pkcs1_sign D I H limit h HG HB); [|exact T].
  destruct t; cbn in T; try discriminate; injection T as _ <-; lia.
Qed.
Print Assumptions C42_sign.
(** Verification accepts exactly the strings whose value opens to the encoded message ... *)
Theorem C42_verify_iff : forall (S : Type) (D : digest S) (I : S -> Prop) H limit h t oid kp s sg msg,
  DigestOk D I H limit -> d_bits_len D = (8 * h)%nat -> pkcs1_hash t = Some (oid, h) ->
  1 < pk_n (kp_public kp) -> I s -> bytes msg -> Z.of_nat (length msg) < limit ->
  (length (DigestInfo oid (H msg)) + 11 <= modulus_len (kp_public kp))%nat ->
  let k := modulus_len (kp_public kp) in
  exists s' r, I s' /\ pkcs1_verify D t kp s sg msg = (s', r) /\ (r = Ok tt \/ r = Err VerificationFailed) /\
    (r = Ok tt <-> OS2IP sg ^ pk_e (kp_public kp) mod pk_n (kp_public kp) = OS2IP (EMSA_PKCS1 k (DigestInfo oid (H msg)))).
Proof.
  intros S D I H limit h t oid kp s sg msg HG HB T. apply (api_pkcs1_verify D I H limit h HG HB); [|exact T].
  destruct t; cbn in T; try discriminate; injection T as _ <-; lia.
Qed.
Print Assumptions C42_verify_iff.
(** ... in particular the signer's own, with any key pair holding the public key. *)
Theorem C42_sign_verify : forall (S : Type) (D : digest S) (I : S -> Prop) H limit h t oid sk kp s s' rd msg,
  DigestOk D I H limit -> d_bits_len D = (8 * h)%nat -> pkcs1_hash t = Some (oid, h) ->
  key_ok sk -> kp_public kp = sk_pk sk -> I s -> I s' -> bytes msg -> Z.of_nat (length msg) < limit ->
  (length (DigestInfo oid (H msg)) + 11 <= modulus_len (sk_pk sk))%nat -> usable (pk_n (sk_pk sk)) rd ->
  exists sg, snd (pkcs1_sign D t (inr sk) s rd msg) = Ok sg /\ length sg = modulus_len (sk_pk sk) /\ snd (pkcs1_verify D t kp s' sg msg) = Ok tt.
Proof.
  intros S D I H limit h t oid sk kp s s' rd msg HG HB T K EK Hs Hs' B L LK U. pose proof (key_N sk K) as N.
  assert (Hh : (0 < h)%nat) by (destruct t; cbn in T; try discriminate; injection T as _ <-; lia).
  destruct (api_pkcs1_sign D I H limit h HG HB Hh t oid sk s rd msg T K Hs B L LK U) as (s1 & _ & E). rewrite E. cbn [snd]. eexists. split; [reflexivity|].
  split; [apply be_bytes_length|].
  destruct (prefix_digestinfo t oid h (H msg) T (H_len D I H limit h HG HB Hh msg B L)) as (pre & Hp & EP).
  set (sg := I2OSP _ _). destruct (api_pkcs1_verify D I H limit h HG HB Hh t oid kp s' sg msg T) as (s2 & r & _ & EV & _ & A); rewrite ?EK; try assumption.
  rewrite EV. cbn [snd]. apply A. rewrite EK. destruct (modulus_len_bounds _ N) as [_ [_ HU]]. unfold sg, OS2IP, I2OSP.
  assert (R : 0 <= be_val (EMSA_PKCS1 (modulus_len (sk_pk sk)) (DigestInfo oid (H msg))) < pk_n (sk_pk sk)).
  { rewrite <- EP in *. rewrite app_length, (H_len D I H limit h HG HB Hh msg B L) in LK.
    apply (emsa_range D I H limit HG (h8 D h HB Hh) (hpos D h HB Hh) t pre Hp (sk_pk sk) msg N B L). rewrite (hdiv D h HB Hh). exact LK. }
  pose proof (pow_range (be_val (EMSA_PKCS1 (modulus_len (sk_pk sk)) (DigestInfo oid (H msg)))) (sk_d sk) _ N) as R2.
  rewrite be_val_bytes, (Z.mod_small _ (256 ^ _)) by lia.
  pose proof (sign_primitive sk _ K R) as SP. unfold pub_encrypt in SP. rewrite powmod_ok in SP by lia. exact SP.
Qed.
Print Assumptions C42_sign_verify.
(** Strings longer than the modulus, and values at or above it, are accepted too: signatures are not unique. *)
Theorem C42_not_unique_refuted : forall (S : Type) (D : digest S) (I : S -> Prop) H limit h t oid kp s s' sg msg j,
  DigestOk D I H limit -> d_bits_len D = (8 * h)%nat -> pkcs1_hash t = Some (oid, h) ->
  1 < pk_n (kp_public kp) -> I s -> I s' -> bytes sg -> bytes msg -> Z.of_nat (length msg) < limit ->
  (length (DigestInfo oid (H msg)) + 11 <= modulus_len (kp_public kp))%nat -> 0 <= pk_e (kp_public kp) ->
  snd (pkcs1_verify D t kp s sg msg) = Ok tt -> OS2IP sg + pk_n (kp_public kp) < 256 ^ Z.of_nat j ->
  snd (pkcs1_verify D t kp s' (0 :: sg) msg) = Ok tt /\ snd (pkcs1_verify D t kp s' (I2OSP (OS2IP sg + pk_n (kp_public kp)) j) msg) = Ok tt.
Proof.
  intros S D I H limit h t oid kp s s' sg msg j HG HB T N Hs Hs' Bsg B L LK E0 V LJ.
  assert (Hh : (0 < h)%nat) by (destruct t; cbn in T; try discriminate; injection T as _ <-; lia).
  pose proof (fun st x Hst => api_pkcs1_verify D I H limit h HG HB Hh t oid kp st x msg T N Hst B L LK) as A.
  destruct (A s sg Hs) as (s1 & r1 & _ & E1 & _ & A1). rewrite E1 in V. cbn [snd] in V. apply A1 in V.
  split.
  - destruct (A s' (0 :: sg) Hs') as (s2 & r2 & _ & E2 & _ & A2). rewrite E2. cbn [snd]. apply A2. rewrite <- V. unfold OS2IP.
    change (0 :: sg) with (repeat 0 1 ++ sg). rewrite be_val_repeat0. reflexivity.
  - destruct (A s' (I2OSP (OS2IP sg + pk_n (kp_public kp)) j) Hs') as (s2 & r2 & _ & E2 & _ & A2). rewrite E2. cbn [snd]. apply A2. rewrite <- V. unfold OS2IP, I2OSP in *.
    pose proof (be_val_bound sg Bsg). rewrite be_val_bytes, (Z.mod_small _ (256 ^ _)) by lia. apply pow_mod_ext; [exact E0|].
    rewrite Z.add_mod, Z_mod_same_full, Z.add_0_r, Z.mod_mod by lia. reflexivity.
Qed.
Print Assumptions C42_not_unique_refuted.
(** The constructor accepts every digest, also those [sign] and [verify] panic on. *)
Theorem C42_unsupported_refuted : forall (S : Type) (D : digest S) kp s rd sg msg, (11 < modulus_len (kp_public kp))%nat ->
  pkcs1_new_uncheck TOther kp = Ok tt /\ snd (pkcs1_sign D TOther kp s rd msg) = Panic /\ snd (pkcs1_verify D TOther kp s sg msg) = Panic.
Proof.
  intros S D kp s rd sg msg L. split; [|split; reflexivity]. unfold pkcs1_new_uncheck. cbn [check_hash_is_support rbind hash_ty_eqb negb].
  rewrite (proj2 (Nat.leb_gt _ _)) by lia. reflexivity.
Qed.
Print Assumptions C42_unsupported_refuted.
(** The library's six hashes, with their standards. *)
Definition pkcs1_digests : list (hash_ty * digest mdst * mdst * merkle * bool) :=
  [(TMD5, MD5, md5_init, MD5_std, true); (TSHA1, SHA1, sha1_init, SHA1_std, true);
   (TSHA224, SHA224, sha224_init, SHA224_std, true); (TSHA256, SHA256, sha256_init, SHA256_std, true);
   (TSHA384, SHA384, sha384_init, SHA384_std, false); (TSHA512, SHA512, sha512_init, SHA512_std, false)].
Lemma pkcs1_digests_ok t D s0 m zl : In (t, D, s0, m, zl) pkcs1_digests ->
  DigestOk D (fun _ => True) (mk_hash m) (2 ^ 64) /\ exists oid h, pkcs1_hash t = Some (oid, h) /\ d_bits_len D = (8 * h)%nat.
Proof.
  intros H. split.
  - assert (In (D, s0, m, zl) repo_hashes).
    { cbv [pkcs1_digests] in H. cbn [In] in H. cbv [repo_hashes]. cbn [In].
      repeat (destruct H as [H|H]; [apply pair_equal_spec in H; destruct H as [H E4]; apply pair_equal_spec in H; destruct H as [H E3];
        apply pair_equal_spec in H; destruct H as [H E2]; apply pair_equal_spec in H; destruct H as [_ E1]; rewrite <- E1, <- E2, <- E3, <- E4; tauto|]).
      destruct H. }
    exact (good_ok _ _ _ (facts_good _ _ _ _ (repo_facts _ _ _ _ H0))).
  - cbv [pkcs1_digests] in H. cbn [In] in H.
    repeat (destruct H as [H|H]; [apply pair_equal_spec in H; destruct H as [H _]; apply pair_equal_spec in H; destruct H as [H _];
        apply pair_equal_spec in H; destruct H as [H _]; apply pair_equal_spec in H; destruct H as [E0 E1]; rewrite <- E0, <- E1; eexists; eexists; split; reflexivity|]).
    destruct H.
Qed.
Theorem C42_repo_hashes : forall t D s0 m zl sk kp s s' rd msg, In (t, D, s0, m, zl) pkcs1_digests ->
  key_ok sk -> kp_public kp = sk_pk sk -> bytes msg -> Z.of_nat (length msg) < 2 ^ 64 ->
  (94 <= modulus_len (sk_pk sk))%nat -> usable (pk_n (sk_pk sk)) rd ->
  exists sg, snd (pkcs1_sign D t (inr sk) s rd msg) = Ok sg /\ snd (pkcs1_verify D t kp s' sg msg) = Ok tt.
Proof.
  intros t D s0 m zl sk kp s s' rd msg H K EK B L LK U. destruct (pkcs1_digests_ok _ _ _ _ _ H) as (G & oid & h & T & HB).
  assert (Hh : (0 < h)%nat) by (destruct t; cbn in T; try discriminate; injection T as _ <-; lia).
  destruct (C42_sign_verify mdst D (fun _ => True) (mk_hash m) (2 ^ 64) h t oid sk kp s s' rd msg G HB T K EK I I B L) as (sg & E1 & _ & E2); [|exact U|exists sg; auto].
  destruct (prefix_digestinfo t oid h (mk_hash m msg) T) as (pre & Hp & EP); [apply (H_len D (fun _ => True) (mk_hash m) (2 ^ 64) h G HB Hh msg B L)|].
  rewrite <- EP, app_length, (H_len D (fun _ => True) (mk_hash m) (2 ^ 64) h G HB Hh msg B L).
  assert (LE : (length pre + h <= 83)%nat); [|lia].
  destruct t; cbn in T, Hp; try discriminate; injection T as _ <-; injection Hp as <-; cbn [length]; lia.
Qed.
Print Assumptions C42_repo_hashes.
(** MD5 of "abc" under the 512-bit key. *)
Definition abc_msg : list Z := [97; 98; 99].
Example C42_case : exists sg, snd (pkcs1_sign MD5 TMD5 (inr key64) md5_init (Some [2]) abc_msg) = Ok sg /\
  snd (pkcs1_verify MD5 TMD5 (inl (sk_pk key64)) md5_init sg abc_msg) = Ok tt /\
  snd (pkcs1_verify MD5 TMD5 (inl (sk_pk key64)) md5_init (0 :: sg) abc_msg) = Ok tt.
Proof.
  assert (IN : In (TMD5, MD5, md5_init, MD5_std, true) pkcs1_digests) by (left; reflexivity).
  destruct (pkcs1_digests_ok _ _ _ _ _ IN) as (G & _).
  assert (B : bytes abc_msg) by (apply bytes_forallb; reflexivity).
  assert (ML : modulus_len (sk_pk key64) = 64%nat) by (unfold modulus_len; rewrite key64_bits; reflexivity).
  assert (LD : (length (DigestInfo oid_md5 (mk_hash MD5_std abc_msg)) + 11 <= 64)%nat).
  { destruct (prefix_digestinfo TMD5 oid_md5 16 (mk_hash MD5_std abc_msg) eq_refl) as (pre & Hp & EP); [apply (H_len MD5 (fun _ => True) _ (2 ^ 64) 16 G eq_refl (Nat.lt_0_succ _)); [exact B|reflexivity]|].
    rewrite <- EP, app_length, (H_len MD5 (fun _ => True) _ (2 ^ 64) 16 G eq_refl (Nat.lt_0_succ _) _ B eq_refl). injection Hp as <-. cbn [length]. lia. }
  assert (U : usable (pk_n (sk_pk key64)) (Some [2])) by (left; vm_compute; reflexivity).
  destruct (C42_sign_verify mdst MD5 (fun _ => True) (mk_hash MD5_std) (2 ^ 64) 16 TMD5 oid_md5 key64 (inl (sk_pk key64)) md5_init md5_init (Some [2]) abc_msg
    G eq_refl eq_refl key64_ok eq_refl I I B eq_refl) as (sg & E1 & E3 & E2); [rewrite ML; exact LD|exact U|].
  exists sg. split; [exact E1|]. split; [exact E2|].
  assert (BS : bytes sg).
  { destruct (C42_sign mdst MD5 (fun _ => True) (mk_hash MD5_std) (2 ^ 64) 16 TMD5 oid_md5 key64 md5_init (Some [2]) abc_msg G eq_refl eq_refl key64_ok I B eq_refl) as (s' & _ & E); [rewrite ML; exact LD|exact U|].
    rewrite E in E1. cbn [snd] in E1. assert (sg = I2OSP _ _) by (symmetry; apply (f_equal (fun r => match r with Ok x => x | _ => [] end)) in E1; exact E1).
    rewrite H. apply be_bytes_bytes. }
  refine (proj1 (C42_not_unique_refuted mdst MD5 (fun _ => True) (mk_hash MD5_std) (2 ^ 64) 16 TMD5 oid_md5 (inl (sk_pk key64)) md5_init md5_init sg abc_msg 65
    G eq_refl eq_refl _ I I BS B eq_refl _ _ E2 _)).
  - exact (key_N _ key64_ok). - cbn [kp_public]. rewrite ML. exact LD. - vm_compute. congruence.
  - cbn [kp_public]. pose proof (be_val_bound sg BS) as BV. rewrite E3, ML in BV. destruct (modulus_len_bounds _ (key_N _ key64_ok)) as [_ [_ HU]]. rewrite ML in HU.
    unfold OS2IP. assert (256 ^ Z.of_nat 64 + 256 ^ Z.of_nat 64 <= 256 ^ Z.of_nat 65) by (vm_compute; congruence). lia.
Qed.

(** ** C43 *)
Theorem C43_new_iff : forall (S : Type) (D : digest S) h kp, d_bits_len D = (8 * h)%nat -> (0 < h)%nat ->
  oaep_new_uncheck D kp = Ok tt <-> (2 * h + 2 < modulus_len (kp_public kp))%nat.
Proof. intros S D h kp HB Hh. exact (oaep_new_len D h HB Hh kp). Qed.
Print Assumptions C43_new_iff.
(** Encryption is RSA of EME-OAEP with the random bytes as seed. *)
Theorem C43_encrypt : forall (S : Type) (D : digest S) (I : S -> Prop) H limit h kp label s ws msg,
  DigestOk D I H limit -> d_bits_len D = (8 * h)%nat -> (0 < h)%nat ->
  pub_is_valid (kp_public kp) = Ok tt -> 1 < pk_n (kp_public kp) -> I s -> bytes label -> Z.of_nat (length label) < limit ->
  bytes msg -> (length msg + 2 * h + 2 <= modulus_len (kp_public kp))%nat -> Z.of_nat (modulus_len (kp_public kp)) + 4 < limit ->
  (h <= 4 * length ws)%nat ->
  let k := modulus_len (kp_public kp) in
  exists s', I s' /\ oaep_encrypt D kp label s ws msg =
    (s', Ok (I2OSP (OS2IP (EME_OAEP H h k label msg (firstn h (flat_map (be_bytes 4) ws))) ^ pk_e (kp_public kp) mod pk_n (kp_public kp)) k)).
Proof. intros S D I H limit h kp label s ws msg HG HB Hh. exact (api_oaep_encrypt D I H limit h HG HB Hh kp label s ws msg). Qed.
Print Assumptions C43_encrypt.
Theorem C43_too_long : forall (S : Type) (D : digest S) h kp label s ws msg, d_bits_len D = (8 * h)%nat -> (0 < h)%nat ->
  pub_is_valid (kp_public kp) = Ok tt -> (2 * h + 2 <= modulus_len (kp_public kp))%nat ->
  (modulus_len (kp_public kp) < length msg + 2 * h + 2)%nat -> oaep_encrypt D kp label s ws msg = (s, Err InvalidParameter).
Proof. intros S D h kp label s ws msg HB Hh. exact (oaep_long D h HB Hh kp label s ws msg). Qed.
Print Assumptions C43_too_long.
(** Round trip with the same label, rejection of a label with another hash. *)
Theorem C43_roundtrip : forall (S : Type) (D : digest S) (I : S -> Prop) H limit h sk kp label label' s s' ws rd msg,
  DigestOk D I H limit -> d_bits_len D = (8 * h)%nat -> (0 < h)%nat ->
  key_ok sk -> kp_public kp = sk_pk sk -> pub_is_valid (sk_pk sk) = Ok tt -> I s -> I s' ->
  bytes label -> Z.of_nat (length label) < limit -> bytes label' -> Z.of_nat (length label') < limit ->
  bytes msg -> (length msg + 2 * h + 2 <= modulus_len (sk_pk sk))%nat ->
  Z.of_nat (modulus_len (sk_pk sk)) + 4 < limit -> (h <= 4 * length ws)%nat -> usable (pk_n (sk_pk sk)) rd ->
  exists c, snd (oaep_encrypt D kp label s ws msg) = Ok c /\ length c = modulus_len (sk_pk sk) /\
    snd (oaep_decrypt D (inr sk) label s' rd c) = Ok msg /\
    (H label' <> H label -> snd (oaep_decrypt D (inr sk) label' s' rd c) = Err VerificationFailed).
Proof. intros S D I H limit h sk kp label label' s s' ws rd msg HG HB Hh. exact (api_oaep_roundtrip D I H limit h HG HB Hh sk kp label label' s s' ws rd msg). Qed.
Print Assumptions C43_roundtrip.
(** Exactly which data blocks are opened; the second alternative is outside the standard. *)
Theorem C43_decrypt_iff : forall (S : Type) (D : digest S) (I : S -> Prop) H limit h sk label s rd DB seed m,
  DigestOk D I H limit -> d_bits_len D = (8 * h)%nat -> (0 < h)%nat ->
  key_ok sk -> pub_is_valid (sk_pk sk) = Ok tt -> I s -> bytes label -> Z.of_nat (length label) < limit ->
  (2 * h + 2 <= modulus_len (sk_pk sk))%nat -> Z.of_nat (modulus_len (sk_pk sk)) + 4 < limit -> usable (pk_n (sk_pk sk)) rd ->
  length seed = h -> length DB = (modulus_len (sk_pk sk) - h - 1)%nat -> bytes seed -> bytes DB ->
  let k := modulus_len (sk_pk sk) in
  let r := oaep_decrypt D (inr sk) label s rd (I2OSP (OS2IP (OAEP_mask H h k DB seed) ^ pk_e (sk_pk sk) mod pk_n (sk_pk sk)) k) in
  I (fst r) /\ (snd r = Ok m <-> (exists z, DB = H label ++ repeat 0 z ++ [1] ++ m) \/ (exists z, DB = H label ++ repeat 0 z /\ m = [])) /\
  (firstn h DB <> H label -> snd r = Err VerificationFailed).
Proof. intros S D I H limit h sk label s rd DB seed m HG HB Hh. exact (api_oaep_open D I H limit h HG HB Hh sk label s rd DB seed m). Qed.
Print Assumptions C43_decrypt_iff.
(** For every key, label and seed: a data block with no separator at all is opened as the empty message. *)
Theorem C43_no_separator_refuted : forall (S : Type) (D : digest S) (I : S -> Prop) H limit h sk label s rd seed,
  DigestOk D I H limit -> d_bits_len D = (8 * h)%nat -> (0 < h)%nat ->
  key_ok sk -> pub_is_valid (sk_pk sk) = Ok tt -> I s -> bytes label -> Z.of_nat (length label) < limit ->
  (2 * h + 2 <= modulus_len (sk_pk sk))%nat -> Z.of_nat (modulus_len (sk_pk sk)) + 4 < limit -> usable (pk_n (sk_pk sk)) rd ->
  length seed = h -> bytes seed ->
  let k := modulus_len (sk_pk sk) in let DB := H label ++ repeat 0 (k - 2 * h - 1) in
  snd (oaep_decrypt D (inr sk) label s rd (I2OSP (OS2IP (OAEP_mask H h k DB seed) ^ pk_e (sk_pk sk) mod pk_n (sk_pk sk)) k)) = Ok [].
Proof.
  intros S D I H limit h sk label s rd seed HG HB Hh K V Hs BL LL L2 LK U Ls Bs k DB.
  destruct (H_ok D I H limit HG label BL LL) as [LH BH]. rewrite (hdiv D h HB Hh) in LH.
  refine (proj2 (proj1 (proj2 (api_oaep_open D I H limit h HG HB Hh sk label s rd DB seed [] K V Hs BL LL L2 LK U Ls _ Bs _))) _).
  - unfold DB. rewrite app_length, repeat_length, LH. fold k. fold k in L2. lia.
  - apply bytes_app. split; [exact BH|apply rep_bytes0].
  - right. eexists. split; reflexivity.
Qed.
Print Assumptions C43_no_separator_refuted.
Example C43_case : exists c, snd (oaep_encrypt SumDigest (inl (sk_pk key12)) [1; 2] [] [0x63000000] [7; 8; 9; 10; 11; 12; 13; 14]) = Ok c /\ length c = 12%nat /\
  snd (oaep_decrypt SumDigest (inr key12) [1; 2] [] (Some [2]) c) = Ok [7; 8; 9; 10; 11; 12; 13; 14] /\
  snd (oaep_decrypt SumDigest (inr key12) [4] [] (Some [2]) c) = Err VerificationFailed.
Proof.
  destruct (C43_roundtrip _ SumDigest (fun _ => True) sum_hash (2 ^ 64) 1 key12 (inl (sk_pk key12)) [1; 2] [4] [] [] [0x63000000] (Some [2]) [7; 8; 9; 10; 11; 12; 13; 14]
    (sum_digest_ok _) eq_refl (le_n _) key12_ok eq_refl) as (c & E1 & E2 & E3 & E4).
  - vm_compute; reflexivity. - exact I. - exact I. - apply bytes_forallb; reflexivity. - reflexivity. - apply bytes_forallb; reflexivity. - reflexivity.
  - apply bytes_forallb; reflexivity. - vm_compute; lia. - vm_compute; reflexivity. - cbn [length]; lia. - left. vm_compute. reflexivity.
  - exists c. split; [exact E1|]. split; [rewrite E2; vm_compute; reflexivity|]. split; [exact E3|]. apply E4. discriminate.
Qed.

(** ** C44 *)
(** The constructor: the salt length and exactly when it is refused. *)
Theorem C44_new_iff : forall (S : Type) (D : digest S) h kp salt sl, d_bits_len D = (8 * h)%nat -> (0 < h)%nat ->
  pss_new_uncheck D kp salt = Ok sl <->
  (0 < bits_len (pk_n (kp_public kp)))%nat /\ sl = match salt with Some 0%nat => (modulus_len (kp_public kp) - (2 + h))%nat | Some x => x | None => h end /\
  (h + sl + 2 <= em_len (bits_len (pk_n (kp_public kp)) - 1))%nat.
Proof. intros S D h kp salt sl HB Hh. exact (pss_new_len D h HB Hh kp salt sl). Qed.
Print Assumptions C44_new_iff.
(** Encoding is EMSA-PSS-ENCODE, signing is RSA of it, for every salt. *)
Theorem C44_encode : forall (S : Type) (D : digest S) (I : S -> Prop) H limit h s msg emBits salt,
  DigestOk D I H limit -> d_bits_len D = (8 * h)%nat -> (0 < h)%nat ->
  I s -> bytes msg -> Z.of_nat (length msg) < limit -> bytes salt ->
  (h + length salt + 2 <= em_len emBits)%nat -> Z.of_nat (em_len emBits) + 8 < limit ->
  exists s', I s' /\ emsa_pss_encode D s msg emBits salt = (s', Ok (EMSA_PSS H h emBits msg salt)).
Proof. intros S D I H limit h s msg emBits salt HG HB Hh. exact (api_pss_encode D I H limit h HG HB Hh s msg emBits salt). Qed.
Print Assumptions C44_encode.
Theorem C44_sign : forall (S : Type) (D : digest S) (I : S -> Prop) H limit h sk sl s ws rd msg,
  DigestOk D I H limit -> d_bits_len D = (8 * h)%nat -> (0 < h)%nat ->
  key_ok sk -> I s -> bytes msg -> Z.of_nat (length msg) < limit ->
  let emBits := (bits_len (pk_n (sk_pk sk)) - 1)%nat in
  (h + sl + 2 <= em_len emBits)%nat -> Z.of_nat (em_len emBits) + 8 < limit -> (sl <= 4 * length ws)%nat -> usable (pk_n (sk_pk sk)) rd ->
  exists s', I s' /\ pss_sign D (inr sk) sl s ws rd msg =
    (s', Ok (I2OSP (OS2IP (EMSA_PSS H h emBits msg (firstn sl (flat_map (be_bytes 4) ws))) ^ sk_d sk mod pk_n (sk_pk sk)) (modulus_len (sk_pk sk)))).
Proof. intros S D I H limit h sk sl s ws rd msg HG HB Hh. exact (api_pss_sign D I H limit h HG HB Hh sk sl s ws rd msg). Qed.
Print Assumptions C44_sign.
(** Without overflow checks, moduli of a multiple of 512 bits: verification is EMSA-PSS-VERIFY, and own signatures pass. *)
Theorem C44_verify_512 : forall (S : Type) (D : digest S) (I : S -> Prop) H limit h kp sl s sg msg,
  DigestOk D I H limit -> d_bits_len D = (8 * h)%nat -> (0 < h)%nat ->
  (bits_len (pk_n (kp_public kp)) mod 512 = 0)%nat -> 1 < pk_n (kp_public kp) -> I s -> bytes msg -> Z.of_nat (length msg) < limit ->
  let emBits := (bits_len (pk_n (kp_public kp)) - 1)%nat in let m := OS2IP sg ^ pk_e (kp_public kp) mod pk_n (kp_public kp) in
  (h + sl + 2 <= em_len emBits)%nat -> Z.of_nat (em_len emBits) + 8 < limit ->
  snd (pss_verify D false kp sl s sg msg) = Ok tt <-> length sg = modulus_len (kp_public kp) /\ EMSA_PSS_VERIFY H h emBits sl msg (I2OSP m (em_len emBits)).
Proof. intros S D I H limit h kp sl s sg msg HG HB Hh M N Hs B L emBits m Hl LK. exact (api_pss_verify_512 D I H limit h HG HB Hh kp sl s sg msg M N Hs B L Hl LK). Qed.
Print Assumptions C44_verify_512.
Theorem C44_sign_verify_512 : forall (S : Type) (D : digest S) (I : S -> Prop) H limit h sk kp sl s s' ws rd msg,
  DigestOk D I H limit -> d_bits_len D = (8 * h)%nat -> (0 < h)%nat ->
  (bits_len (pk_n (sk_pk sk)) mod 512 = 0)%nat -> key_ok sk -> kp_public kp = sk_pk sk -> I s -> I s' -> bytes msg -> Z.of_nat (length msg) < limit ->
  let emBits := (bits_len (pk_n (sk_pk sk)) - 1)%nat in
  (h + sl + 2 <= em_len emBits)%nat -> Z.of_nat (em_len emBits) + 8 < limit -> (sl <= 4 * length ws)%nat -> usable (pk_n (sk_pk sk)) rd ->
  exists sg, snd (pss_sign D (inr sk) sl s ws rd msg) = Ok sg /\ snd (pss_verify D false kp sl s' sg msg) = Ok tt.
Proof. intros S D I H limit h sk kp sl s s' ws rd msg HG HB Hh. exact (api_pss_512 D I H limit h HG HB Hh sk kp sl s s' ws rd msg). Qed.
Print Assumptions C44_sign_verify_512.
(** Any modulus, without overflow checks: what is accepted exactly.  [PSS_accepts H h top clr] is EMSA-PSS-VERIFY requiring
    [top] leading zero bits and clearing [clr] bits; the standard's value for both is [spare emBits]. *)
Theorem C44_verify_iff : forall (S : Type) (D : digest S) (I : S -> Prop) H limit h kp sl s sg msg,
  DigestOk D I H limit -> d_bits_len D = (8 * h)%nat -> (0 < h)%nat ->
  1 < pk_n (kp_public kp) -> I s -> bytes msg -> Z.of_nat (length msg) < limit ->
  let emBits := (bits_len (pk_n (kp_public kp)) - 1)%nat in let m := OS2IP sg ^ pk_e (kp_public kp) mod pk_n (kp_public kp) in
  let spare := (8 * em_len emBits - emBits)%nat in
  let top := if (spare =? 0)%nat then 8%nat else spare in let clr := ((em_len emBits / 8 + spare) mod 8)%nat in
  (h + sl + 2 <= em_len emBits)%nat -> Z.of_nat (em_len emBits) + 8 < limit ->
  exists s' r, I s' /\ pss_verify D false kp sl s sg msg = (s', r) /\ (r = Ok tt \/ r = Err VerificationFailed) /\
    (r = Ok tt <-> length sg = modulus_len (kp_public kp) /\ m < 256 ^ Z.of_nat (em_len emBits) /\
                   PSS_accepts H h top clr emBits sl msg (I2OSP m (em_len emBits))).
Proof. intros S D I H limit h kp sl s sg msg HG HB Hh N Hs B L emBits m sp top clr Hl LK. exact (api_pss_verify D I H limit h HG HB Hh kp sl s sg msg N Hs B L Hl LK). Qed.
Print Assumptions C44_verify_iff.
(** The signer's own signature: accepted exactly under a condition on one octet of EM and one of the mask; with overflow
    checks its verification always panics. *)
Theorem C44_own_signature : forall (S : Type) (D : digest S) (I : S -> Prop) H limit h sk kp sl s s' ws rd msg,
  DigestOk D I H limit -> d_bits_len D = (8 * h)%nat -> (0 < h)%nat ->
  key_ok sk -> kp_public kp = sk_pk sk -> I s -> I s' -> bytes msg -> Z.of_nat (length msg) < limit ->
  let emBits := (bits_len (pk_n (sk_pk sk)) - 1)%nat in let salt := firstn sl (flat_map (be_bytes 4) ws) in
  let spare := (8 * em_len emBits - emBits)%nat in
  let top := if (spare =? 0)%nat then 8%nat else spare in let clr := ((em_len emBits / 8 + spare) mod 8)%nat in
  (h + sl + 2 <= em_len emBits)%nat -> Z.of_nat (em_len emBits) + 8 < limit -> (sl <= 4 * length ws)%nat -> usable (pk_n (sk_pk sk)) rd ->
  exists sg, snd (pss_sign D (inr sk) sl s ws rd msg) = Ok sg /\ length sg = modulus_len (sk_pk sk) /\
    (snd (pss_verify D false kp sl s' sg msg) = Ok tt <->
       nth 0 (EMSA_PSS H h emBits msg salt) 0 < 2 ^ (8 - Z.of_nat top) /\
       nth 0 (MGF1 H h (H (repeat 0 8 ++ H msg ++ salt)) (em_len emBits - h - 1)) 0 mod 2 ^ (8 - Z.of_nat clr) < 2 ^ (8 - Z.of_nat spare)) /\
    (snd (pss_verify D false kp sl s' sg msg) = Ok tt \/ snd (pss_verify D false kp sl s' sg msg) = Err VerificationFailed) /\
    snd (pss_verify D true kp sl s' sg msg) = Panic.
Proof.
  intros S D I H limit h sk kp sl s s' ws rd msg HG HB Hh K EK Hs Hs' B L emBits salt sp top clr Hl LK LW U.
  exact (api_pss_own D I H limit h HG HB Hh sk kp sl s s' ws rd msg K EK Hs Hs' B L Hl LK LW U).
Qed.
Print Assumptions C44_own_signature.
(** With overflow checks no signature of any message is ever accepted. *)
Theorem C44_checked_refuted : forall (S : Type) (D : digest S) (I : S -> Prop) H limit h kp sl s sg msg,
  DigestOk D I H limit -> d_bits_len D = (8 * h)%nat -> (0 < h)%nat ->
  I s -> bytes msg -> Z.of_nat (length msg) < limit ->
  (h + sl + 2 <= em_len (bits_len (pk_n (kp_public kp)) - 1))%nat -> snd (pss_verify D true kp sl s sg msg) <> Ok tt.
Proof. intros S D I H limit h kp sl s sg msg HG HB Hh. exact (api_pss_checked D I H limit h HG HB Hh kp sl s sg msg). Qed.
Print Assumptions C44_checked_refuted.
(** Without them a genuine signature can be refused (a 90-bit modulus, one-byte digest). *)
Theorem C44_own_refused_refuted : exists sk (D : digest (list Z)) msg ws sg, key_ok sk /\ DigestOk D (fun _ => True) sum_hash (2 ^ 64) /\
  snd (pss_sign D (inr sk) 4 [] ws None msg) = Ok sg /\ snd (pss_verify D false (inl (sk_pk sk)) 4 [] sg msg) = Err VerificationFailed.
Proof.
  exists key90, SumDigest, [1; 2; 3], [0x01020304].
  destruct (C44_own_signature _ SumDigest (fun _ => True) sum_hash (2 ^ 64) 1 key90 (inl (sk_pk key90)) 4 [] [] [0x01020304] None [1; 2; 3]
    (sum_digest_ok _) eq_refl (le_n _) key90_ok eq_refl I I) as (sg & E1 & _ & E2 & E3 & _); [apply bytes_forallb; reflexivity|reflexivity|vm_compute; lia|vm_compute; reflexivity|cbn [length]; lia|exact I|].
  exists sg. split; [exact key90_ok|]. split; [apply sum_digest_ok|]. split; [exact E1|]. destruct E3 as [E3|E3]; [|exact E3].
  exfalso. apply E2 in E3. vm_compute in E3. destruct E3 as [_ E3]. discriminate.
Qed.
Print Assumptions C44_own_refused_refuted.
Example C44_case : exists sg, snd (pss_sign SumDigest (inr key64) 4 [] [0x01020304] (Some [2]) [1; 2; 3]) = Ok sg /\
  snd (pss_verify SumDigest false (inl (sk_pk key64)) 4 [] sg [1; 2; 3]) = Ok tt.
Proof.
  assert (EL : em_len (bits_len (pk_n (sk_pk key64)) - 1) = 64%nat) by (rewrite key64_bits; reflexivity).
  apply (C44_sign_verify_512 _ SumDigest (fun _ => True) sum_hash (2 ^ 64) 1 key64 (inl (sk_pk key64)) 4 [] [] [0x01020304] (Some [2]) [1; 2; 3]
    (sum_digest_ok _) eq_refl (le_n _)).
  - rewrite key64_bits. reflexivity. - exact key64_ok. - reflexivity. - exact I. - exact I. - apply bytes_forallb. reflexivity. - reflexivity.
  - rewrite EL. lia. - rewrite EL. reflexivity. - cbn [length]. lia. - left. vm_compute. reflexivity.
Qed.

(** ** C57 *)
(** [gens] are the attempts of the retry loop: what the prime generator returns; [gen_ok]: primes of the requested size. *)
Theorem C57_generated_keys : forall np bits few gens k, Forall gen_ok gens -> (3 * np <= bits)%nat ->
  generate_multi_prime_key np bits few gens = Ok k -> NoDup (sk_primes k) ->
  key_ok k /\ priv_is_valid k = Ok tt /\ length (sk_primes k) = np /\ bits_len (pk_n (sk_pk k)) = bits /\ pk_e (sk_pk k) = 65537.
Proof. intros np bits few gens k G B E ND. exact (gen_key_ok np bits few gens k G E ND (gen_no_two np bits few gens k G E B)). Qed.
Print Assumptions C57_generated_keys.
(** Two-prime keys need no further assumption: whatever primes are drawn, they decrypt. *)
Theorem C57_generate_key : forall bits few gens k m rd, Forall gen_ok gens -> (6 <= bits)%nat -> generate_key bits few gens = Ok k ->
  0 <= m < pk_n (sk_pk k) -> usable (pk_n (sk_pk k)) rd ->
  priv_is_valid k = Ok tt /\ bits_len (pk_n (sk_pk k)) = bits /\ priv_decrypt k (pub_encrypt (sk_pk k) m) rd = Ok m.
Proof.
  intros bits few gens k m rd G B E M U.
  destruct (C57_generated_keys 2 bits few gens k G ltac:(lia) E (gen_two_distinct bits few gens k G E)) as (K & V & _ & HB & _).
  exact (conj V (conj HB (roundtrip k m rd K M U))).
Qed.
Print Assumptions C57_generate_key.
(** Only neighbouring primes are compared: a three-prime key with a repeated prime is returned, and no ciphertext can be
    decrypted with it. *)
Definition bad_gen (i bits : nat) : option Z := if (bits =? 22)%nat then nth_error [4194301; 4194287; 4194301] i else None.
Theorem C57_three_primes_refuted : exists gens k, Forall gen_ok gens /\ generate_multi_prime_key 3 66 false gens = Ok k /\
  forall c, c <= pk_n (sk_pk k) -> priv_decrypt k c None = Panic.
Proof.
  exists [bad_gen].
  assert (E : exists k, generate_multi_prime_key 3 66 false [bad_gen] = Ok k /\ pk_n (sk_pk k) <> 0 /\ sk_primes k = [4194301; 4194287; 4194301] /\
    exists dp dq qi e r, sk_pre k = Some (mkPre dp dq (Some qi) [mkCrt e None r])).
  { eexists. split; [vm_compute; reflexivity|]. split; [discriminate|]. split; [reflexivity|]. do 5 eexists. reflexivity. }
  destruct E as (k & E & N & EP & dp & dq & qi & e & r & EC). exists k. split; [|split; [exact E|]].
  - constructor; [|constructor]. intros i bits p Q. unfold bad_gen in Q. destruct (Nat.eqb_spec bits 22) as [->|]; [|discriminate].
    assert (P1 : prime 4194301) by (apply (primeb_ok (Z.to_nat 2047)); vm_compute; reflexivity).
    assert (P2 : prime 4194287) by (apply (primeb_ok (Z.to_nat 2047)); vm_compute; reflexivity).
    destruct i as [|[|[|i]]]; cbn [nth_error] in Q; try (injection Q as <-; split; [assumption|reflexivity]). destruct i; discriminate.
  - intros c C. unfold priv_decrypt. rewrite (proj2 (Z.ltb_ge _ _)) by lia. rewrite (proj2 (Z.eqb_neq _ _) N).
    unfold raw_decrypt. rewrite EC, EP. reflexivity.
Qed.
Print Assumptions C57_three_primes_refuted.
Definition good_gen (i bits : nat) : option Z := if (bits =? 16)%nat then nth_error [65521; 65519] i else None.
Example C57_case : gen_ok good_gen /\ exists k, generate_key 32 false [good_gen] = Ok k /\ pk_n (sk_pk k) = 65521 * 65519.
Proof.
  split; [|eexists; split; [vm_compute; reflexivity|reflexivity]]. intros i bits p Q. unfold good_gen in Q. destruct (Nat.eqb_spec bits 16) as [->|]; [|discriminate].
  destruct i as [|[|i]]; cbn [nth_error] in Q; [| |destruct i; discriminate]; injection Q as <-; (split; [apply (primeb_ok 255); vm_compute; reflexivity|reflexivity]).
Qed.
