(** AES facts at the level of the public interface. *)
From Verif Require Import Base Words ModesModel ModesSpec AesModel AesSpec AesProofs AesLink AesKeys AesNiModel AesNiProofs.

Lemma aes_new_ok key a : aes_new key = Ok a -> keylen_ok key /\ a = aes_make key.
Proof.
  unfold aes_new, keylen_ok. destruct ((length key =? 16)%nat || (length key =? 24)%nat || (length key =? 32)%nat) eqn:E;
    cbn; intros H; [|discriminate]. injection H as <-. split; [|reflexivity].
  rewrite !Bool.orb_true_iff, !Nat.eqb_eq in E. lia.
Qed.
Lemma aes_new_legal key : keylen_ok key -> aes_new key = Ok (aes_make key).
Proof. unfold aes_new, keylen_ok. intros H. destruct H as [->|[->| ->]]; reflexivity. Qed.
Lemma in_keylen key : In (length key) [16; 24; 32]%nat -> keylen_ok key.
Proof. unfold keylen_ok. cbn. lia. Qed.

Lemma aes_is_fips key b a : bytes key -> bytes b -> length b = 16%nat -> aes_new key = Ok a ->
  aes_encrypt a b = Ok (AES_Cipher key b) /\ aes_decrypt a b = Ok (AES_InvCipher key b).
Proof.
  intros Hk Hb Hl Ha. destruct (aes_new_ok _ _ Ha) as [Hn ->]. unfold aes_encrypt, aes_decrypt. rewrite Hl. cbn.
  rewrite crypt_block_fips, decrypt_block_fips by (auto; split; auto). auto.
Qed.
Lemma aes_roundtrip key b : bytes key -> In (length key) [16; 24; 32]%nat -> bytes b -> length b = 16%nat ->
  exists a c d, aes_new key = Ok a /\
    aes_encrypt a b = Ok c /\ aes_decrypt a c = Ok b /\
    aes_decrypt a b = Ok d /\ aes_encrypt a d = Ok b.
Proof.
  intros Hk Hn Hb Hl. apply in_keylen in Hn. pose proof (aes_good key Hk Hn) as G.
  destruct (gc_E _ _ _ _ G b Hl Hb) as [L1 B1]. destruct (gc_D _ _ _ _ G b Hl Hb) as [L2 B2].
  exists (aes_make key), (crypt_block (aes_make key) b), (decrypt_block (aes_make key) b).
  split; [apply aes_new_legal; auto|]. 
  split; [apply (gc_enc _ _ _ _ G); auto|].
  split; [rewrite <- (gc_DE _ _ _ _ G b Hl Hb) at 2; apply (gc_dec _ _ _ _ G); auto|].
  split; [apply (gc_dec _ _ _ _ G); auto|].
  rewrite <- (gc_ED _ _ _ _ G b Hl Hb) at 2; apply (gc_enc _ _ _ _ G); auto.
Qed.
Lemma aesni_agrees junk key : bytes junk -> length junk = 8%nat -> bytes key ->
  match aes_new key, aesni_new junk key with
  | Ok a, Ok n => forall b, bytes b ->
      aesni_encrypt n b = aes_encrypt a b /\ aesni_decrypt n b = aes_decrypt a b
  | Err e, Err e' => e = e'
  | _, _ => False
  end.
Proof.
  intros Hj Hjl Hk. unfold aesni_new. destruct (aes_new key) as [a|e|] eqn:E.
  - destruct (aes_new_ok _ _ E) as [Hn ->].
    assert (X : ((length key =? 16)%nat || (length key =? 24)%nat || (length key =? 32)%nat) = true)
      by (destruct Hn as [->|[->| ->]]; reflexivity).
    rewrite X. intros b Hb. unfold aesni_encrypt, aes_encrypt, aesni_decrypt, aes_decrypt.
    destruct (length b =? 16)%nat eqn:El; [|auto]. apply Nat.eqb_eq in El.
    rewrite ni_crypt_fips, ni_decrypt_fips, crypt_block_fips, decrypt_block_fips by (auto; split; auto). auto.
  - unfold aes_new in E. destruct (_ || _); [discriminate|injection E as <-; reflexivity].
  - unfold aes_new in E. destruct (_ || _); discriminate.
Qed.
