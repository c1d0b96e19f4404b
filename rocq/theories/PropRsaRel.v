(** Property C82: relations between RSA ciphertexts and signatures that anyone can use.  The bare operations permute the numbers below n
    and carry products to products; a product can be used to have an unknown ciphertext opened or a message signed; two exponents with
    one modulus give the message away; and a PKCS1 v1.5 signature is, as a number modulo n, the only one its message has.
    [key_ok], [usable] are described in PropRsa.v. *)
From Coq Require Import Znumtheory.
From Verif Require Import Base Words HashModel HashSpec HashApi PropHash MacApi NumTheory RsaModel RsaProofs RsaEncModel RsaSpec RsaEncProofs RsaSigProofs RsaApi RsaCases PropRsa.
Local Open Scope Z_scope.

(** ** Products *)
Theorem C82_encrypt_product : forall n e a b, 0 < n ->
  pub_encrypt (mkPub n e) ((a * b) mod n) = (pub_encrypt (mkPub n e) a * pub_encrypt (mkPub n e) b) mod n.
Proof.
  intros n e a b N. rewrite !C38_encrypt by lia. destruct (Z.le_gt_cases 0 e) as [E|E].
  - rewrite pow_mod_idemp by exact E. rewrite Z.pow_mul_l, <- Z.mul_mod by lia. reflexivity.
  - rewrite !Z.pow_neg_r by exact E. rewrite Zmod_0_l. reflexivity.
Qed.
Print Assumptions C82_encrypt_product.
Theorem C82_decrypt_product : forall k c1 c2 m1 m2 rd1 rd2 rd, let n := pk_n (sk_pk k) in key_ok k -> c1 <= n -> c2 <= n ->
  usable n rd1 -> usable n rd2 -> usable n rd -> priv_decrypt k c1 rd1 = Ok m1 -> priv_decrypt k c2 rd2 = Ok m2 ->
  priv_decrypt k ((c1 * c2) mod n) rd = Ok ((m1 * m2) mod n).
Proof.
  intros k c1 c2 m1 m2 rd1 rd2 rd n K C1 C2 U1 U2 U E1 E2. assert (N : 1 < n) by apply K. assert (D0 : 0 <= sk_d k) by apply K.
  rewrite (priv_decrypt_ok k c1 rd1 K C1 U1) in E1. rewrite (priv_decrypt_ok k c2 rd2 K C2 U2) in E2. injection E1 as <-. injection E2 as <-.
  pose proof (Z.mod_pos_bound (c1 * c2) n ltac:(lia)). rewrite (priv_decrypt_ok k _ rd K) by (fold n; assumption || lia). f_equal. fold n.
  rewrite pow_mod_idemp by exact D0. rewrite Z.pow_mul_l, <- Z.mul_mod by lia. reflexivity.
Qed.
Print Assumptions C82_decrypt_product.
(** So one who may have any other ciphertext decrypted (or number signed) gets this one: multiply it by r^e, and the answer by the inverse of r. *)
Theorem C82_opened_by_another : forall k c r ir rd, let n := pk_n (sk_pk k) in key_ok k -> 0 <= c < n -> usable n rd -> (r * ir) mod n = 1 ->
  exists m', priv_decrypt k ((c * pub_encrypt (sk_pk k) r) mod n) rd = Ok m' /\ priv_decrypt k c rd = Ok ((m' * ir) mod n).
Proof.
  intros k c r ir rd n K C U I. assert (N : 1 < n) by apply K. assert (D0 : 0 <= sk_d k) by apply K.
  exists ((c ^ sk_d k * r) mod n).
  pose proof (Z.mod_pos_bound (c * pub_encrypt (sk_pk k) r) n ltac:(lia)). rewrite !(priv_decrypt_ok k _ rd K) by (fold n; assumption || lia). fold n. split; f_equal.
  - rewrite pow_mod_idemp, Z.pow_mul_l by exact D0. unfold pub_encrypt. rewrite powmod_ok by (unfold n in N; lia). fold n.
    rewrite <- Z.mul_mod_idemp_r by lia. rewrite pow_mod_idemp by exact D0. pose proof (key_ok_ident k r K) as KI. fold n in KI. rewrite KI. rewrite Z.mul_mod_idemp_r by lia. reflexivity.
  - rewrite Z.mul_mod_idemp_l by lia. rewrite <- Z.mul_assoc, <- Z.mul_mod_idemp_r, I, Z.mul_1_r by lia. reflexivity.
Qed.
Print Assumptions C82_opened_by_another.

(** ** Encryption permutes the numbers below n *)
Theorem C82_permutation : forall k c, let n := pk_n (sk_pk k) in key_ok k -> 0 <= c < n ->
  exists m, 0 <= m < n /\ pub_encrypt (sk_pk k) m = c /\ forall m', 0 <= m' < n -> pub_encrypt (sk_pk k) m' = c -> m' = m.
Proof.
  intros k c n K C. assert (N : 1 < n) by apply K. exists (c ^ sk_d k mod n). split; [apply Z.mod_pos_bound; lia|]. split; [exact (sign_primitive k c K C)|].
  intros m' M E. pose proof (roundtrip k m' None K M I) as R. rewrite E in R. rewrite (priv_decrypt_ok k c None K) in R by (try exact I; fold n; lia). injection R as R. symmetry. exact R.
Qed.
Print Assumptions C82_permutation.
(** Always among the fixed points: 0, 1 and n - 1. *)
Theorem C82_fixed_points : forall k, let n := pk_n (sk_pk k) in key_ok k ->
  pub_encrypt (sk_pk k) 0 = 0 /\ pub_encrypt (sk_pk k) 1 = 1 /\ pub_encrypt (sk_pk k) (n - 1) = n - 1.
Proof.
  intros k n K. assert (N : 1 < n) by apply K. pose proof (key_ok_ed k K) as ED. assert (E0 : 0 <= pk_e (sk_pk k)) by apply K.
  set (e := pk_e (sk_pk k)) in *. assert (E1 : 0 < e) by (destruct (Z.eq_dec e 0) as [X|X]; [rewrite X in ED; lia|lia]).
  assert (OD : Z.odd e = true).
  { destruct K as ((HP & _ & HN & _ & D0 & _) & _ & H). destruct (sk_primes k) as [|p ps] eqn:EP.
    - cbn [zprod fold_right] in HN. fold n in HN. lia.
    - specialize (H p (or_introl eq_refl)). fold e in H. apply Forall_inv in HP. pose proof (prime_ge_2 p HP) as P2.
      destruct (Z.eq_dec p 2) as [->|N2]; [change (2 - 1) with 1 in H; rewrite Z.mod_1_r in H; discriminate|].
      assert (PE : exists q, p - 1 = 2 * q).
      { destruct (Z.Even_or_Odd p) as [[q Q]|[q Q]]; [|exists q; lia]. exfalso. apply N2. symmetry. apply (prime_div_prime 2 p prime_2 HP). exists q. lia. }
      destruct PE as [q Q]. rewrite Z.odd_spec. destruct (Z.Even_or_Odd e) as [[x X]|O]; [|exact O]. exfalso.
      pose proof (Z.div_mod (e * sk_d k) (p - 1) ltac:(lia)) as DM. rewrite H, Q, X in DM. clear - DM. nia. }
  unfold pub_encrypt. fold n e. rewrite !powmod_ok by lia. split; [rewrite Z.pow_0_l by exact E1; apply Z.mod_0_l; lia|].
  split; [rewrite Z.pow_1_l by exact E0; apply Z.mod_small; lia|].
  rewrite <- pow_mod_idemp by exact E0. replace ((n - 1) mod n) with ((- 1) mod n) by (rewrite <- (Z.mod_add (-1) 1 n) by lia; f_equal; ring).
  rewrite pow_mod_idemp by exact E0. replace ((-1) ^ e) with (-1); [rewrite <- (Z.mod_add (-1) 1 n) by lia; rewrite Z.mod_small by lia; ring|].
  apply Z.odd_spec in OD. destruct OD as [x X]. rewrite X, Z.pow_add_r, Z.pow_mul_r by lia. change ((-1) ^ 2) with 1. rewrite Z.pow_1_l by lia. reflexivity.
Qed.
Print Assumptions C82_fixed_points.
(** A number so small that its power does not reach n is not hidden: the ciphertext is its power in the integers. *)
Theorem C82_small_message : forall n e m, 0 <= m -> m ^ e < n -> 0 < n -> pub_encrypt (mkPub n e) m = m ^ e.
Proof. intros n e m M L N. rewrite C38_encrypt by lia. apply Z.mod_small. split; [apply Z.pow_nonneg; exact M|exact L]. Qed.
Print Assumptions C82_small_message.

(** ** One modulus, two exponents *)
(** With u e1 = 1 + v e2 the message is computed from its two ciphertexts alone; [i2] is the inverse of the second. *)
Theorem C82_common_modulus : forall n e1 e2 u v m i2, 1 < n -> 0 <= e1 -> 0 <= e2 -> 0 <= u -> 0 <= v -> u * e1 = 1 + v * e2 -> 0 <= m < n ->
  let c1 := pub_encrypt (mkPub n e1) m in let c2 := pub_encrypt (mkPub n e2) m in
  (c2 * i2) mod n = 1 -> (c1 ^ u * i2 ^ v) mod n = m.
Proof.
  intros n e1 e2 u v m i2 N E1 E2 U V B M c1 c2 I. subst c1 c2. rewrite C38_encrypt in * by lia.
  rewrite <- Z.mul_mod_idemp_l, pow_mod_idemp, Z.mul_mod_idemp_l by lia. rewrite <- Z.pow_mul_r by lia. rewrite (Z.mul_comm e1 u), B.
  rewrite Z.pow_add_r, Z.pow_1_r by nia. rewrite (Z.mul_comm v e2), Z.pow_mul_r by lia. rewrite <- Z.mul_assoc, <- Z.pow_mul_l.
  rewrite Z.mul_mod_idemp_l in I by lia. rewrite <- Z.mul_mod_idemp_r by lia. rewrite <- pow_mod_idemp by exact V. rewrite I, Z.pow_1_l by exact V.
  rewrite Z.mul_mod_idemp_r, Z.mul_1_r by lia. apply Z.mod_small. exact M.
Qed.
Print Assumptions C82_common_modulus.

(** ** PKCS1 v1.5 signatures as numbers *)
(** Whatever is accepted for a message is, modulo n, the signer's own signature, and conversely. *)
Theorem C82_pkcs1_signature_number : forall (S : Type) (D : digest S) (I : S -> Prop) H limit h t oid sk kp s s2 rd sg sg2 msg,
  DigestOk D I H limit -> d_bits_len D = (8 * h)%nat -> pkcs1_hash t = Some (oid, h) ->
  key_ok sk -> kp_public kp = sk_pk sk -> I s -> I s2 -> bytes msg -> Z.of_nat (length msg) < limit ->
  (length (DigestInfo oid (H msg)) + 11 <= modulus_len (sk_pk sk))%nat -> usable (pk_n (sk_pk sk)) rd ->
  snd (pkcs1_sign D t (inr sk) s rd msg) = Ok sg ->
  snd (pkcs1_verify D t kp s2 sg2 msg) = Ok tt <-> OS2IP sg2 mod pk_n (sk_pk sk) = OS2IP sg.
Proof.
  intros S D I H limit h t oid sk kp s s2 rd sg sg2 msg HG HB T K EK Is Is2 B L LE U ES.
  destruct (C42_sign S D I H limit h t oid sk s rd msg HG HB T K Is B L LE U) as (s' & _ & E1). pose proof ES as ES0. rewrite E1 in ES. cbn [snd] in ES. injection ES as ES.
  assert (N : 1 < pk_n (sk_pk sk)) by apply K. assert (N' : 1 < pk_n (kp_public kp)) by (rewrite EK; exact N).
  assert (LE' : (length (DigestInfo oid (H msg)) + 11 <= modulus_len (kp_public kp))%nat) by (rewrite EK; exact LE).
  destruct (C42_verify_iff S D I H limit h t oid kp s2 sg2 msg HG HB T N' Is2 B L LE') as (s'' & r & _ & E2 & _ & V). rewrite E2. cbn [snd]. rewrite V, EK. clear V E2.
  destruct (modulus_len_bounds (sk_pk sk) N) as [_ BN]. set (n := pk_n (sk_pk sk)) in *. set (k := modulus_len (sk_pk sk)) in *. set (EM := OS2IP (EMSA_PKCS1 k (DigestInfo oid (H msg)))) in *.
  assert (D0 : 0 <= sk_d sk) by apply K. assert (E0 : 0 <= pk_e (sk_pk sk)) by apply K.
  assert (RG := Z.mod_pos_bound (EM ^ sk_d sk) n ltac:(lia)).
  assert (V1 : OS2IP sg ^ pk_e (sk_pk sk) mod n = EM).
  { destruct (C42_sign_verify S D I H limit h t oid sk kp s s2 rd msg HG HB T K EK Is Is2 B L LE U) as (sg1 & F1 & _ & F2). rewrite ES0 in F1. injection F1 as <-.
    destruct (C42_verify_iff S D I H limit h t oid kp s2 sg msg HG HB T N' Is2 B L LE') as (s3 & r3 & _ & F3 & _ & F4). rewrite F3 in F2. cbn [snd] in F2. apply F4 in F2. rewrite EK in F2. exact F2. }
  assert (SM : OS2IP sg mod n = OS2IP sg) by (rewrite <- ES; unfold OS2IP, I2OSP; rewrite be_val_bytes, (Z.mod_small _ (256 ^ _)) by lia; apply Z.mod_mod; lia).
  split.
  - intros V2. rewrite <- SM. pose proof (key_ok_ident sk (OS2IP sg2) K) as K2. pose proof (key_ok_ident sk (OS2IP sg) K) as K1. fold n in K1, K2. rewrite <- K1, <- K2.
    rewrite <- (pow_mod_idemp (OS2IP sg2 ^ _)), <- (pow_mod_idemp (OS2IP sg ^ _)) by exact D0. rewrite V1, V2. reflexivity.
  - intros V2. rewrite <- pow_mod_idemp, V2 by exact E0. exact V1.
Qed.
Print Assumptions C82_pkcs1_signature_number.

(** ** Cases *)
Example C82_case : let k := key12 in let n := pk_n (sk_pk k) in key_ok k /\ 0 <= 987654321 < n /\ usable n (Some [3]) /\ (2 * ((n + 1) / 2)) mod n = 1 /\
  5 * 3 = 1 + 2 * 7 /\ (pub_encrypt (mkPub 33 7) 2 * 8) mod 33 = 1 /\ (pub_encrypt (mkPub 33 3) 2 ^ 5 * 8 ^ 2) mod 33 = 2.
Proof. split; [exact key12_ok|]. split; [split; [discriminate|reflexivity]|]. split; [left; vm_compute; reflexivity|]. repeat split; vm_compute; reflexivity. Qed.
