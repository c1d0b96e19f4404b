(** Property C77: which public-key calls can panic when ciphertexts, signatures and public keys come from an adversary.
    Notation as in PropRsa.v, PropDsa.v and PropEcdsa.v.  A list read as a number is read as 0 when empty, where rmath's number is
    NaN; the RSA theorems therefore speak of non-empty input where the code does not refuse empty input itself. *)
From Coq Require Import Znumtheory.
From Verif Require Import Base Words HashModel HashSpec HashApi PropHash MacApi NumTheory RsaModel RsaProofs RsaEncModel RsaSpec RsaEncProofs RsaSigProofs RsaApi RsaCases PropRsa.
From Verif Require Import DsaModel EllModel EcdsaModel.

(** Decryption with a sound key and a blinding source that ends. *)
Lemma pkcs1_decode_np em : pkcs1_decode em <> Panic.
Proof. unfold pkcs1_decode. destruct (_ || _); [discriminate|]. cbv zeta. destruct (_ || _); discriminate. Qed.
Lemma oaep_scan_np l : oaep_scan l <> Panic.
Proof. induction l as [|x l IH]; [discriminate|]. cbn [oaep_scan]. destruct (x =? 0); [|destruct (x =? 1); discriminate]. destruct (oaep_scan l); cbn; congruence. Qed.
Lemma priv_decrypt_np sk c rd : key_ok sk -> usable (pk_n (sk_pk sk)) rd -> priv_decrypt sk c rd <> Panic.
Proof.
  intros K U. destruct (Z.leb_spec c (pk_n (sk_pk sk))) as [L|L]; [rewrite (priv_decrypt_ok sk c rd K L U); discriminate|].
  unfold priv_decrypt. rewrite (proj2 (Z.ltb_lt _ _)) by exact L. discriminate.
Qed.
Lemma pub_is_valid_np pk : pub_is_valid pk <> Panic.
Proof. unfold pub_is_valid. repeat match goal with |- context [if ?b then _ else _] => destruct b end; discriminate. Qed.
Theorem C77_decrypt : forall sk rd c, key_ok sk -> usable (pk_n (sk_pk sk)) rd ->
  pkcs1_decrypt (inr sk) rd c <> Panic /\
  (forall (S : Type) (D : digest S) label s, snd (oaep_decrypt D (inr sk) label s rd c) <> Panic) /\
  forall pk, pkcs1_decrypt (inl pk) rd c <> Panic /\ (forall (S : Type) (D : digest S) label s, snd (oaep_decrypt D (inl pk) label s rd c) <> Panic).
Proof.
  intros sk rd c K U. pose proof (priv_decrypt_np sk (be_val c) rd K U) as P. pose proof (pub_is_valid_np (sk_pk sk)) as V. split; [|split].
  - unfold pkcs1_decrypt. cbn [kp_public kp_private]. destruct (_ <=? _)%nat; [discriminate|]. destruct (negb _); [discriminate|].
    destruct (pub_is_valid (sk_pk sk)); cbn [rbind]; try congruence. destruct (priv_decrypt sk (be_val c) rd); cbn [rbind]; try congruence. apply pkcs1_decode_np.
  - intros S D label s. unfold oaep_decrypt. cbn [kp_private]. destruct (_ =? _)%nat; [discriminate|].
    destruct (pub_is_valid (sk_pk sk)); cbn [snd]; try congruence. cbv zeta. destruct (_ || _); [discriminate|]. destruct (priv_decrypt sk (be_val c) rd); cbn [snd]; try congruence.
    destruct (hash_run D s [label]) as [s1 lh]. unfold oaep_decode. destruct (negb _); [discriminate|]. destruct (mgf1_xor D s1 _ _) as [s2 sd]. destruct (mgf1_xor D s2 _ _) as [s3 db].
    destruct (negb _); [discriminate|]. cbn [snd]. pose proof (oaep_scan_np (skipn (hlen D) db)). destruct (oaep_scan _); cbn [rbind]; congruence.
  - intros pk. split.
    + unfold pkcs1_decrypt. cbn [kp_public kp_private]. destruct (_ <=? _)%nat; [discriminate|]. destruct (negb _); discriminate.
    + intros S D label s. unfold oaep_decrypt. cbn [kp_private]. destruct (_ =? _)%nat; discriminate.
Qed.
Print Assumptions C77_decrypt.
(** PKCS1 v1.5 verification under any public key, sound or not; with a digest the library does not know it always panics. *)
Theorem C77_pkcs1_verify : forall (S : Type) (D : digest S) t kp s sg msg, sg <> [] ->
  (t <> TOther -> snd (pkcs1_verify D t kp s sg msg) = Ok tt \/ snd (pkcs1_verify D t kp s sg msg) = Err VerificationFailed) /\
  (t = TOther -> snd (pkcs1_verify D t kp s sg msg) = Panic).
Proof.
  intros S D t kp s sg msg _. split; [intros T|intros ->; reflexivity]. unfold pkcs1_verify.
  destruct (hash_prefix t) as [pf|] eqn:E; [|destruct t; try discriminate E; congruence].
  destruct (_ <? _)%nat; [right; reflexivity|]. cbv zeta. destruct (_ || _); [right; reflexivity|]. destruct (hash_run D s [msg]) as [s1 dg].
  destruct (negb _); [right; reflexivity|]. destruct (forallb _ _); [left|right]; reflexivity.
Qed.
Print Assumptions C77_pkcs1_verify.
(** PSS verification.  Without overflow checks it never panics.  With them it panics exactly when the encoded message recovered from
    the signature ends in [bc] and its spare leading bits are zero (there always are none if the size is a multiple of 8): about one
    random signature in 256 to one in 32768 makes the verifier panic, and so does every genuine one (C44). *)
Ltac step := match goal with |- snd (if ?b then _ else _) = _ \/ _ => destruct b; [right; reflexivity|] end.
Theorem C77_pss_unchecked : forall (S : Type) (D : digest S) kp sl s sg msg,
  snd (pss_verify D false kp sl s sg msg) = Ok tt \/ snd (pss_verify D false kp sl s sg msg) = Err VerificationFailed.
Proof.
  intros S D kp sl s sg msg. unfold pss_verify. cbv zeta. do 2 step. unfold emsa_pss_verify. cbv zeta. destruct (hash_run D s [msg]) as [s1 mh]. do 3 step.
  unfold shl8. cbn [andb]. step. destruct (mgf1_xor D s1 _ _) as [s2 db].
  match goal with |- context [rbind ?u (shr8 false 255)] => assert (X : exists m, rbind u (shr8 false 255) = Ok m) by (unfold usub, shr8; destruct (_ <? _); cbn [rbind andb]; eexists; reflexivity) end.
  destruct X as [mk ->]. do 2 step. destruct (hash_run D s2 _) as [s3 h2]. step. left. reflexivity.
Qed.
Print Assumptions C77_pss_unchecked.
Theorem C77_pss_checked : forall (S : Type) (D : digest S) (I : S -> Prop) H limit h kp sl s sg msg,
  DigestOk D I H limit -> d_bits_len D = (8 * h)%nat -> (0 < h)%nat ->
  1 < pk_n (kp_public kp) -> I s -> bytes msg -> Z.of_nat (length msg) < limit ->
  let emBits := (bits_len (pk_n (kp_public kp)) - 1)%nat in let m := OS2IP sg ^ pk_e (kp_public kp) mod pk_n (kp_public kp) in
  let spare := (8 * em_len emBits - emBits)%nat in let EM := I2OSP m (em_len emBits) in
  (h + sl + 2 <= em_len emBits)%nat ->
  (snd (pss_verify D true kp sl s sg msg) = Panic \/ snd (pss_verify D true kp sl s sg msg) = Err VerificationFailed) /\
  (snd (pss_verify D true kp sl s sg msg) = Panic <-> length sg = modulus_len (kp_public kp) /\ m < 256 ^ Z.of_nat (em_len emBits) /\
     nth (em_len emBits - 1) EM 0 = 0xbc /\ (spare = 0%nat \/ nth 0 EM 0 < 2 ^ (8 - Z.of_nat spare))).
Proof.
  intros S D I H limit h kp sl s sg msg HG HB Hh N Hs B L emBits m sp EM Hl.
  assert (Hpos : (0 < d_bits_len D)%nat) by lia. assert (H8 : (d_bits_len D mod 8 = 0)%nat) by (rewrite HB, Nat.mul_comm; apply Nat.mod_mul; lia).
  assert (Q : (em_len emBits / 8 < emBits)%nat) by (destruct (spare_lt D H8 Hpos emBits) as [S1 S2]; unfold spare in S1; pose proof (Nat.div_mod (em_len emBits) 8 ltac:(lia)); lia).
  assert (M : 0 <= m < pk_n (kp_public kp)) by (apply Z.mod_pos_bound; lia).
  assert (PE : pub_encrypt (kp_public kp) (be_val sg) = m) by (unfold m; destruct (kp_public kp) as [n e]; cbn [pk_n pk_e] in *; unfold pub_encrypt; cbn [pk_n pk_e]; apply powmod_ok; lia).
  unfold pss_verify. fold emBits. fold (em_len emBits). fold (modulus_len (kp_public kp)). rewrite PE.
  destruct (Nat.eqb_spec (length sg) (modulus_len (kp_public kp))) as [E|E]; cbn [negb]; [|split; [right; reflexivity|split; [discriminate|intros [X _]; contradiction]]].
  assert (FIT : (em_len emBits <? (bits_len m + 7) / 8)%nat = negb (m <? 256 ^ Z.of_nat (em_len emBits))).
  { destruct (Z.ltb_spec m (256 ^ Z.of_nat (em_len emBits))) as [G|G]; cbn [negb]; [apply Nat.ltb_ge, (to_be_bytes_fit m _ (conj (proj1 M) G))|].
    apply Nat.ltb_lt. destruct (Nat.lt_ge_cases (em_len emBits) ((bits_len m + 7) / 8)) as [X|X]; [exact X|]. exfalso. pose proof (bits_len_upper m ltac:(lia)) as U. rewrite pow256 in G.
    assert (2 ^ Z.of_nat (bits_len m) <= 2 ^ (8 * Z.of_nat (em_len emBits))); [|replace (Z.of_nat (8 * em_len emBits)) with (8 * Z.of_nat (em_len emBits)) in G by lia; lia].
    apply Z.pow_le_mono_r; [lia|]. pose proof (Nat.div_mod (bits_len m + 7) 8 ltac:(lia)). pose proof (Nat.mod_upper_bound (bits_len m + 7) 8 ltac:(lia)). lia. }
  rewrite FIT. destruct (Z.ltb_spec m (256 ^ Z.of_nat (em_len emBits))) as [G|G]; cbn [negb]; [|split; [right; reflexivity|split; [discriminate|intros (_ & X & _); lia]]].
  rewrite left_pad_ok by lia. change (be_bytes (em_len emBits) m) with EM.
  assert (LE : length EM = em_len emBits) by (unfold EM, I2OSP; apply be_bytes_length).
  assert (BE : bytes EM) by (unfold EM, I2OSP; apply be_bytes_bytes).
  destruct (spare_lt D H8 Hpos emBits) as [S1 S2]. unfold emsa_pss_verify. fold (em_len emBits).
  assert (HL : hlen D = h) by (unfold hlen; rewrite HB; symmetry; apply (Nat.div_unique _ 8 _ 7); lia).
  destruct HG as [G1 G2 G3 G4 G5 G6]. pose proof (hash_run_ok D I H limit (mkDigestOk D I H limit G1 G2 G3 G4 G5 G6) s [msg] Hs) as R.
  cbn [concat] in R. rewrite app_nil_r in R. destruct (R ltac:(apply Forall_cons; [exact B|constructor]) L) as (s1 & E1 & I1). clear R.
  rewrite E1, HL. destruct (G6 msg B L) as [LH BH]. rewrite HB in LH. replace (8 * h / 8)%nat with h in LH by (apply (Nat.div_unique _ 8 _ 0); lia).
  rewrite LH, LE, !Nat.eqb_refl. cbn [negb orb]. rewrite (proj2 (Nat.ltb_ge _ _)) by lia.
  destruct (Z.eqb_spec (nth (em_len emBits - 1) EM 0) 188) as [BC|BC]; cbn [negb]; [|split; [right; reflexivity|split; [discriminate|intros (_ & _ & X & _); contradiction]]].
  change (8 * em_len emBits - emBits)%nat with sp. unfold spare in S1. fold sp in S1.
  destruct (Nat.eq_dec sp 0) as [Z0|NZ].
  - unfold shl8 at 1. cbn [andb]. rewrite (proj2 (Z.leb_le _ _)) by lia. cbn [snd]. unfold shl8. cbn [andb]. rewrite (proj2 (Z.leb_le _ _)) by lia. cbn [snd]. split; [left; reflexivity|]. split; [auto|reflexivity].
  - destruct (top_mask D H8 Hpos sp (nth 0 EM 0) S1 (bytes_nth0 _ BE)) as (mask & EMk & ET).
    assert (EM' : shl8 true 255 (8 - Z.of_nat sp) = Ok mask) by (rewrite <- EMk; unfold shl8; cbn [andb]; rewrite (proj2 (Z.leb_gt 8 _)) by lia; reflexivity).
    rewrite EM', ET, (proj2 (Nat.eqb_neq _ _) NZ). destruct (Z.ltb_spec (nth 0 EM 0) (2 ^ (8 - Z.of_nat sp))) as [T|T]; cbn [negb];
      [|split; [right; reflexivity|split; [discriminate|intros (_ & _ & _ & [X|X]); [contradiction|lia]]]].
    destruct (mgf1_xor D s1 _ _) as [s2 db]. unfold usub. rewrite (proj2 (Z.ltb_lt _ _)) by lia. cbn [rbind snd]. split; [left; reflexivity|]. split; [auto|reflexivity].
Qed.
Print Assumptions C77_pss_checked.
(** DSA and ECDSA verification, whatever the public key: a panic exactly when the bytes of the signature object were cut
    (through [as_mut]) below the recorded length of [r]. *)
Theorem C77_dsa_ecdsa_verify : forall (S : Type) (D : digest S) sc msg,
  (forall kp s, (snd (dsa_verify D kp s sc msg) = Panic <-> (length (sc_content sc) < sc_rlen sc)%nat)) /\
  (forall o, (snd (ecdsa_verify D o sc msg) = Panic <-> (length (sc_content sc) < sc_rlen sc)%nat)).
Proof.
  intros S D sc msg. assert (P : forall (A : Type) (x : A) e, snd (x, @Err unit e) = Panic -> False) by (intros; discriminate).
  split; [intros kp s; unfold dsa_verify|intros o; unfold ecdsa_verify]; unfold sigc_to_bigint;
    (destruct (Nat.ltb_spec (length (sc_content sc)) (sc_rlen sc)) as [L|L]; [cbn [snd]; tauto|split; [|lia]]); intros X; exfalso; revert X.
  - unfold verify_inner. cbv zeta. repeat (match goal with |- snd (if ?b then _ else _) = _ -> _ => destruct b; [discriminate|] end).
    destruct (mod_inverse _ _) as [w|]; [|discriminate]. destruct (w =? 0); [discriminate|]. destruct (hash_run D s [msg]) as [st' hm]. cbn [snd]. destruct (_ =? _); discriminate.
  - cbn [snd]. unfold ec_verify_inner. cbv zeta. match goal with |- (if ?b then _ else _) = _ -> _ => destruct b; [discriminate|] end.
    destruct (mod_inverse _ _) as [w|]; [|discriminate]. destruct (curve_scalar_base _ _) as [[x1 y1]|]; [|discriminate]. destruct (curve_scalar _ _ _ _) as [[x2 y2]|]; [|discriminate].
    destruct (curve_add _ _ _ _ _) as [[x y]|]; [|discriminate]. destruct (_ || _); [discriminate|]. destruct (_ =? _); discriminate.
Qed.
Print Assumptions C77_dsa_ecdsa_verify.
(** A genuine signature makes a verifier built with overflow checks panic; an all-zero one is refused. *)
Example C77_case : key_ok key64 /\ usable (pk_n (sk_pk key64)) (Some [2]) /\
  (exists sg, length sg = 64%nat /\ snd (pss_verify SumDigest true (inl (sk_pk key64)) 4 [] sg [1; 2; 3]) = Panic) /\
  snd (pss_verify SumDigest true (inl (sk_pk key64)) 4 [] (repeat 0 64) [1; 2; 3]) = Err VerificationFailed.
Proof.
  split; [exact key64_ok|]. split; [left; vm_compute; reflexivity|]. split; [|vm_compute; reflexivity].
  destruct (C44_own_signature _ SumDigest (fun _ => True) sum_hash (2 ^ 64) 1 key64 (inl (sk_pk key64)) 4 [] [] [0x01020304] None [1; 2; 3]
    (sum_digest_ok _) eq_refl (le_n _) key64_ok eq_refl I I) as (sg & _ & L & _ & _ & P); [apply bytes_forallb; reflexivity|reflexivity|vm_compute; lia|vm_compute; reflexivity|cbn [length]; lia|exact I|].
  exists sg. split; [rewrite L; vm_compute; reflexivity|exact P].
Qed.
