(** Facts for PropDes.v: DES/TDES round trips and the length discipline of all block ciphers. *)
From Verif Require Import Base Words ModesModel ModesSpec AesModel AesKeys AesLink AesNiModel AesNiProofs AesApi
  Sm4Model Sm4Proofs Sm4Api DesModel DesSpec DesProofs DesLink CipherDst.

Lemma good_roundtrip c n E D b : GoodCipher c n E D -> length b = n -> bytes b ->
  exists x y, enc c b = Ok x /\ dec c x = Ok b /\ dec c b = Ok y /\ enc c y = Ok b.
Proof.
  intros G Hl Hb. destruct (gc_E _ _ _ _ G b Hl Hb) as [L1 B1]. destruct (gc_D _ _ _ _ G b Hl Hb) as [L2 B2].
  exists (E b), (D b). rewrite (gc_enc _ _ _ _ G b), (gc_dec _ _ _ _ G b) by auto.
  rewrite (gc_dec _ _ _ _ G (E b)), (gc_enc _ _ _ _ G (D b)) by auto.
  rewrite (gc_DE _ _ _ _ G), (gc_ED _ _ _ _ G) by auto. auto.
Qed.
Lemma des_roundtrip key b : bytes key -> length key = 8%nat -> bytes b -> length b = 8%nat ->
  exists x y, enc (des_new key) b = Ok x /\ dec (des_new key) x = Ok b /\
              dec (des_new key) b = Ok y /\ enc (des_new key) y = Ok b.
Proof. intros. eapply good_roundtrip; eauto. apply des_good; auto. Qed.
Lemma tdes_roundtrip k1 k2 k3 b : bytes k1 -> bytes k2 -> bytes k3 ->
  length k1 = 8%nat -> length k2 = 8%nat -> length k3 = 8%nat -> bytes b -> length b = 8%nat ->
  exists x y, enc (tdes_new k1 k2 k3) b = Ok x /\ dec (tdes_new k1 k2 k3) x = Ok b /\
              dec (tdes_new k1 k2 k3) b = Ok y /\ enc (tdes_new k1 k2 k3) y = Ok b.
Proof. intros. eapply good_roundtrip; eauto. apply tdes_good; auto. Qed.

Lemma des_parity k1 k2 : length k1 = 8%nat -> length k2 = 8%nat -> bytes k1 -> bytes k2 ->
  map (fun b => b / 2) k1 = map (fun b => b / 2) k2 -> forall b, bytes b ->
  enc (des_new k1) b = enc (des_new k2) b /\ dec (des_new k1) b = dec (des_new k2) b.
Proof.
  intros L1 L2 B1 B2 H b Hb. destruct (Nat.eq_dec (length b) 8) as [Hl|Hl].
  - destruct (des_is_fips k1 b B1 L1 Hb Hl) as [-> ->]. destruct (des_is_fips k2 b B2 L2 Hb Hl) as [-> ->].
    destruct (DES_parity k1 k2 b L1 L2 H) as [-> ->]. auto.
  - pose proof (des_good k1 B1 L1) as G1. pose proof (des_good k2 B2 L2) as G2.
    rewrite (gc_enc_bad _ _ _ _ G1), (gc_enc_bad _ _ _ _ G2), (gc_dec_bad _ _ _ _ G1), (gc_dec_bad _ _ _ _ G2) by auto. auto.
Qed.
Lemma des_complement key b : bytes key -> length key = 8%nat -> bytes b -> length b = 8%nat ->
  exists x, enc (des_new key) b = Ok x /\
    enc (des_new (map (fun v => 255 - v) key)) (map (fun v => 255 - v) b) = Ok (map (fun v => 255 - v) x).
Proof.
  intros Bk Lk Bb Lb. pose proof (proj1 (des_is_fips key b Bk Lk Bb Lb)) as E. exists (DES_enc key b). split; [exact E|].
  assert (L1 : length (nots key) = 8%nat) by (unfold nots; rewrite map_length; exact Lk).
  assert (L2 : length (nots b) = 8%nat) by (unfold nots; rewrite map_length; exact Lb).
  pose proof (proj1 (des_is_fips (nots key) (nots b) (nots_bytes _ Bk) L1 (nots_bytes _ Bb) L2)) as F.
  rewrite (DES_complement key b Bk Bb Lk Lb) in F. exact F.
Qed.

(** *** lengths *)
Definition call_spec (n : nat) (f : list Z -> list Z -> list Z * res nat) : Prop :=
  forall dst b,
    (length b = n -> exists out, f dst b = (out, Ok n) /\ length out = n) /\
    (length b <> n -> f dst b = (dst, Err InvalidParameter)).
Lemma call_if n (g : list Z -> list Z) : (forall b, length (g b) = n) ->
  call_spec n (fun dst b => if (length b =? n)%nat then (g b, Ok (length (g b))) else (dst, Err InvalidParameter)).
Proof.
  intros Hg dst b. split; intros H; [apply Nat.eqb_eq in H|apply Nat.eqb_neq in H]; rewrite H; [|reflexivity].
  exists (g b). rewrite Hg. auto.
Qed.
Lemma store_length s : length (store s) = 16%nat.
Proof. destruct s as [[[a b] c] d]. unfold store. rewrite !app_length, !be_bytes_length. reflexivity. Qed.
Lemma aes_call a : call_spec 16 (aes_encrypt_dst a) /\ call_spec 16 (aes_decrypt_dst a).
Proof.
  split; [apply (call_if 16 (crypt_block a))|apply (call_if 16 (decrypt_block a))]; intros; apply store_length.
Qed.
Lemma des_call ks e : call_spec 8 (des_crypt_dst ks e).
Proof. apply (call_if 8 (des_crypt_block ks e)). intros. apply des_crypt_length. Qed.
Lemma tdes_call k1 k2 k3 buf :
  call_spec 8 (fun dst b => let '(_, d, r) := tdes_encrypt_dst k1 k2 k3 buf dst b in (d, r)) /\
  call_spec 8 (fun dst b => let '(_, d, r) := tdes_decrypt_dst k1 k2 k3 buf dst b in (d, r)).
Proof.
  split; intros dst b; unfold tdes_encrypt_dst, tdes_decrypt_dst.
  - destruct (des_call k1 true dst b) as [A B]. split; intros H.
    + destruct (A H) as (o1 & -> & L1). destruct (des_call k2 false buf o1) as [C _]. destruct (C L1) as (o2 & -> & L2).
      destruct (des_call k3 true o1 o2) as [F _]. destruct (F L2) as (o3 & -> & L3). eauto.
    + rewrite (B H). reflexivity.
  - destruct (des_call k3 false dst b) as [A B]. split; intros H.
    + destruct (A H) as (o1 & -> & L1). destruct (des_call k2 true buf o1) as [C _]. destruct (C L1) as (o2 & -> & L2).
      destruct (des_call k1 false o1 o2) as [F _]. destruct (F L2) as (o3 & -> & L3). eauto.
    + rewrite (B H). reflexivity.
Qed.
Lemma sm4_call rk : call_spec 16 (sm4_ed_dst rk).
Proof.
  intros dst b. unfold sm4_ed_dst. split; intros H; [apply Nat.eqb_eq in H|apply Nat.eqb_neq in H]; rewrite H; cbn [negb]; [|reflexivity].
  exists (sm4_block rk b). assert (L : length (sm4_block rk b) = 16%nat).
  { unfold sm4_block. generalize (sm4_loop rk 32 0 (sm4_words b)). intros x. cbn [flat_map].
    rewrite !app_length, !be_bytes_length. reflexivity. }
  cbn [app]. rewrite L. auto.
Qed.
(** The destination-passing calls deliver what the value-level functions say. *)
Lemma dst_calls_agree :
  (forall a dst b, match aes_encrypt a b with Ok x => aes_encrypt_dst a dst b = (x, Ok (length x)) | _ => True end) /\
  (forall a dst b, match aes_decrypt a b with Ok x => aes_decrypt_dst a dst b = (x, Ok (length x)) | _ => True end) /\
  (forall ks dst b, match des_encrypt ks b with Ok x => des_crypt_dst ks true dst b = (x, Ok (length x)) | _ => True end) /\
  (forall ks dst b, match des_decrypt ks b with Ok x => des_crypt_dst ks false dst b = (x, Ok (length x)) | _ => True end) /\
  (forall ks dst b, match sm4_encrypt ks b with Ok x => sm4_ed_dst (fun i => nth i ks 0) dst b = (x, Ok (length x)) | _ => True end) /\
  (forall ks dst b, match sm4_decrypt ks b with Ok x => sm4_ed_dst (fun i => nth (31 - i) ks 0) dst b = (x, Ok (length x)) | _ => True end).
Proof.
  repeat split; intros.
  - unfold aes_encrypt, aes_encrypt_dst. destruct (length b =? 16)%nat; [reflexivity|exact I].
  - unfold aes_decrypt, aes_decrypt_dst. destruct (length b =? 16)%nat; [reflexivity|exact I].
  - unfold des_encrypt, des_crypt_dst. destruct (length b =? 8)%nat; [reflexivity|exact I].
  - unfold des_decrypt, des_crypt_dst. destruct (length b =? 8)%nat; [reflexivity|exact I].
  - unfold sm4_encrypt, sm4_ed_dst. destruct (length b =? 16)%nat; [reflexivity|exact I].
  - unfold sm4_decrypt, sm4_ed_dst. destruct (length b =? 16)%nat; [reflexivity|exact I].
Qed.
Lemma aesni_call junk key a : bytes junk -> length junk = 8%nat -> bytes key -> aesni_new junk key = Ok a ->
  forall dst b, bytes b ->
    (length b = 16%nat -> exists out, aesni_encrypt_dst a dst b = (out, Ok 16%nat) /\ length out = 16%nat) /\
    (length b = 16%nat -> exists out, aesni_decrypt_dst a dst b = (out, Ok 16%nat) /\ length out = 16%nat) /\
    (length b <> 16%nat -> aesni_encrypt_dst a dst b = (dst, Err InvalidParameter) /\
                           aesni_decrypt_dst a dst b = (dst, Err InvalidParameter)).
Proof.
  intros Hj Hjl Hk Ha dst b Hb. pose proof (aesni_agrees junk key Hj Hjl Hk) as A. rewrite Ha in A.
  destruct (aes_new key) as [a'|e|]; try contradiction. destruct (A b Hb) as [A1 A2].
  unfold aesni_encrypt, aes_encrypt, aesni_decrypt, aes_decrypt in A1, A2. unfold aesni_encrypt_dst, aesni_decrypt_dst.
  split; [|split]; intros H; [apply Nat.eqb_eq in H|apply Nat.eqb_eq in H|apply Nat.eqb_neq in H]; rewrite H in *; cbn [app].
  - apply ok_inj in A1. rewrite A1. exists (crypt_block a' b). assert (L : length (crypt_block a' b) = 16%nat) by apply store_length. rewrite L. auto.
  - apply ok_inj in A2. rewrite A2. exists (decrypt_block a' b). assert (L : length (decrypt_block a' b) = 16%nat) by apply store_length. rewrite L. auto.
  - auto.
Qed.
Lemma all_instances :
  (forall key, bytes key -> In (length key) [16; 24; 32]%nat -> exists a E D, aes_new key = Ok a /\ GoodCipher (aes_cipher a) 16 E D) /\
  (forall key, bytes key -> length key = 16%nat -> exists k E D, sm4_from_slice key = Ok k /\ GoodCipher (sm4_cipher k) 16 E D) /\
  (forall key, bytes key -> length key = 8%nat -> exists E D, GoodCipher (des_new key) 8 E D) /\
  (forall k1 k2 k3, bytes k1 -> bytes k2 -> bytes k3 -> length k1 = 8%nat -> length k2 = 8%nat -> length k3 = 8%nat ->
     exists E D, GoodCipher (tdes_new k1 k2 k3) 8 E D).
Proof.
  split; [|split; [|split]].
  - intros key Hk Hl. apply in_keylen in Hl. exists (aes_make key). do 2 eexists. split; [apply aes_new_legal; auto|apply aes_good; auto].
  - intros key Hk Hl. unfold sm4_from_slice. pose proof (sm4_good key Hl) as G. rewrite (proj2 (Nat.eqb_eq _ _) Hl). cbn [negb].
    exists (sm4_rk key), (sm4_block (fun i => nth i (sm4_rk key) 0)), (sm4_block (fun i => nth (31 - i) (sm4_rk key) 0)). split; [unfold sm4_rk; exact eq_refl|exact G].
  - intros. do 2 eexists. apply des_good; auto.
  - intros. do 2 eexists. apply tdes_good; auto.
Qed.
Lemma aes_new_exact key : (exists a, aes_new key = Ok a) <-> In (length key) [16; 24; 32]%nat.
Proof.
  split.
  - intros [a H]. apply aes_new_ok in H. destruct H as [H _]. unfold keylen_ok in H. cbn. lia.
  - intros H. eexists. apply aes_new_legal. apply in_keylen; auto.
Qed.
Lemma aes_new_err key : ~ In (length key) [16; 24; 32]%nat -> aes_new key = Err InvalidParameter.
Proof.
  intros H. unfold aes_new. destruct ((length key =? 16)%nat || _ || _) eqn:E; [|reflexivity].
  exfalso. apply H. rewrite !Bool.orb_true_iff, !Nat.eqb_eq in E. cbn. lia.
Qed.
Lemma sm4_key_exact key : (length key = 16%nat -> exists k, sm4_from_slice key = Ok k) /\
  (length key <> 16%nat -> sm4_from_slice key = Err InvalidParameter).
Proof.
  unfold sm4_from_slice. split; intros H; [apply Nat.eqb_eq in H|apply Nat.eqb_neq in H]; rewrite H; cbn [negb]; eauto.
Qed.
