(** Calls on RSA scheme objects do not depend on the hash state left by earlier calls. *)
From Verif Require Import Base Words HashModel HashApi RsaModel RsaProofs RsaEncModel RsaSpec RsaEncProofs RsaSigProofs RsaApi RsaObjModel.

Lemma bytes_firstn_skipn k l : bytes l -> bytes (firstn k l) /\ bytes (skipn k l).
Proof. intros B. rewrite <- (firstn_skipn k l) in B. apply bytes_app in B. exact B. Qed.
Lemma fix_len_bytes k x : bytes (fix_len k x) /\ length (fix_len k x) = k.
Proof.
  unfold fix_len, to_be_bytes. pose proof (be_bytes_bytes ((bits_len x + 7) / 8) x) as B. set (l := be_bytes _ x) in *.
  destruct (Nat.ltb_spec (length l) k) as [L|L].
  - split; [apply bytes_app; split; [apply bytes_repeat, byte0|exact B]|]. rewrite app_length, repeat_length. lia.
  - split; [apply bytes_firstn_skipn, B|]. rewrite firstn_length. lia.
Qed.
Lemma left_pad_bytes k x : bytes (left_pad k x).
Proof. unfold left_pad, to_be_bytes. apply bytes_app. split; [apply bytes_repeat, byte0|apply be_bytes_bytes]. Qed.
Lemma words_bytes ws : bytes (flat_map (be_bytes 4) ws).
Proof. induction ws as [|w ws IH]; [constructor|]. cbn [flat_map]. apply bytes_app. split; [apply be_bytes_bytes|exact IH]. Qed.

Lemma land_byte0 b m : byte b -> byte (Z.land b m).
Proof.
  intros B. assert (E : Z.land b m = Z.land b m mod 2 ^ 8).
  { rewrite <- Z.land_ones by lia. rewrite <- Z.land_assoc, (Z.land_comm m), Z.land_assoc, (Z.land_ones b) by lia.
    rewrite (Z.mod_small b) by exact B. reflexivity. }
  rewrite E. apply (Z.mod_pos_bound _ (2 ^ 8)). lia.
Qed.

Section Stable.
Context {S : Type}.
Variables (D : digest S) (I : S -> Prop) (H : list Z -> list Z) (limit : Z).
Hypothesis HG : DigestOk D I H limit.
Hypothesis H8 : (d_bits_len D mod 8 = 0)%nat.
Hypothesis Hpos : (0 < d_bits_len D)%nat.

(** The result of [f] is [a] from every good state, and good states stay good. *)
Definition stable {A} (f : S -> S * A) (a : A) : Prop := forall s, I s -> exists s', f s = (s', a) /\ I s'.
Lemma st_ret {A} (a : A) : stable (fun s => (s, a)) a.
Proof. intros s Hs. exists s. split; [reflexivity|exact Hs]. Qed.
Lemma st_bind {A B} (f : S -> S * A) (g : S -> A -> S * B) a b : stable f a -> stable (fun s => g s a) b -> stable (fun s => let '(s, x) := f s in g s x) b.
Proof. intros F G s Hs. destruct (F s Hs) as (s1 & E & I1). rewrite E. exact (G s1 I1). Qed.
Lemma st_some {A B} (f : S -> S * A) (g : S -> A -> S * B) a : stable f a -> (exists b, stable (fun s => g s a) b) -> exists b, stable (fun s => let '(s, x) := f s in g s x) b.
Proof. intros F [b G]. exists b. exact (st_bind f g a b F G). Qed.
Lemma st_hash ws : Forall bytes ws -> Z.of_nat (length (concat ws)) < limit -> stable (fun s => hash_run D s ws) (H (concat ws)).
Proof. intros B L s Hs. exact (hash_run_ok D I H limit HG s ws Hs B L). Qed.
Lemma st_hash1 m : bytes m -> Z.of_nat (length m) < limit -> stable (fun s => hash_run D s [m]) (H m).
Proof.
  intros B L. pose proof (st_hash [m]) as K. cbn [concat] in K. rewrite app_nil_r in K. apply K; [constructor; [exact B|constructor]|exact L].
Qed.
Lemma st_mgf seed out : bytes seed -> Z.of_nat (length seed) + 4 < limit ->
  stable (fun s => mgf1_xor D s seed out) (xorl out (MGF1 H (d_bits_len D / 8) seed (length out))).
Proof. intros B L s Hs. exact (mgf1_xor_ok D I H limit HG H8 Hpos s seed out Hs B L). Qed.
Lemma hl : hlen D = (d_bits_len D / 8)%nat.
Proof. apply hlen_eq; assumption. Qed.
Lemma st_mgf_bytes seed out : bytes seed -> bytes out -> Z.of_nat (length seed) + 4 < limit ->
  exists r, bytes r /\ length r = length out /\ stable (fun s => mgf1_xor D s seed out) r.
Proof.
  intros B BO L. exists (xorl out (MGF1 H (d_bits_len D / 8) seed (length out))).
  destruct (MGF1_ok D I H limit HG H8 Hpos seed (length out) B L) as [LM BM].
  split; [apply xorl_bytes; assumption|]. split; [rewrite xorl_length; lia|]. apply st_mgf; assumption.
Qed.

Lemma st_pkcs1_sign t kp rd msg : bytes msg -> Z.of_nat (length msg) < limit -> exists r, stable (fun s => pkcs1_sign D t kp s rd msg) r.
Proof.
  intros B L. unfold pkcs1_sign. destruct (hash_prefix t) as [pre|]; [|eexists; apply st_ret].
  destruct (kp_private kp) as [sk|]; [|eexists; apply st_ret]. destruct (_ <? _)%nat; [eexists; apply st_ret|].
  apply (st_some _ _ _ (st_hash1 msg B L)). eexists. apply st_ret.
Qed.
Lemma st_pkcs1_verify t kp sg msg : bytes msg -> Z.of_nat (length msg) < limit -> exists r, stable (fun s => pkcs1_verify D t kp s sg msg) r.
Proof.
  intros B L. unfold pkcs1_verify. destruct (hash_prefix t) as [pre|]; [|eexists; apply st_ret].
  destruct (_ <? _)%nat; [eexists; apply st_ret|]. cbn zeta. destruct (_ || _ || _ || _)%bool; [eexists; apply st_ret|].
  apply (st_some _ _ _ (st_hash1 msg B L)). destruct (negb _); [eexists; apply st_ret|]. destruct (forallb _ _); eexists; apply st_ret.
Qed.
Lemma st_oaep_encrypt kp label ws msg : bytes label -> Z.of_nat (length label) < limit -> bytes msg -> Z.of_nat (modulus_len (kp_public kp)) + 4 < limit ->
  exists r, stable (fun s => oaep_encrypt D kp label s ws msg) r.
Proof.
  intros BL LL B LK. unfold oaep_encrypt. destruct (pub_is_valid (kp_public kp)); [|eexists; apply st_ret|eexists; apply st_ret].
  cbn zeta. set (k := modulus_len (kp_public kp)) in *. destruct (Nat.ltb_spec k (2 * hlen D + 2)) as [|K]; [eexists; apply st_ret|].
  destruct (_ <? _)%nat; [eexists; apply st_ret|]. apply (st_some _ _ _ (st_hash1 label BL LL)).
  destruct (H_ok D I H limit HG label BL LL) as [LH BH].
  set (em := [0] ++ _).
  assert (BE : bytes em).
  { unfold em. apply bytes_app. split; [constructor; [apply byte0|constructor]|]. apply bytes_app. split; [apply bytes_firstn_skipn, words_bytes|].
    apply bytes_app. split; [exact BH|]. apply bytes_app. split; [apply bytes_repeat, byte0|]. apply bytes_app. split; [constructor; [split; [discriminate|reflexivity]|constructor]|exact B]. }
  destruct (Nat.eqb_spec (length em) k) as [LE|LE]; [|eexists; apply st_ret]. cbn [negb].
  destruct (st_mgf_bytes (firstn (hlen D) (skipn 1 em)) (skipn (hlen D + 1) em)) as (db & Bdb & Ldb & Sdb).
  { apply bytes_firstn_skipn, bytes_firstn_skipn, BE. } { apply bytes_firstn_skipn, BE. } { rewrite firstn_length, skipn_length. lia. }
  apply (st_some _ _ _ Sdb). rewrite skipn_length in Ldb.
  destruct (st_mgf_bytes db (firstn (hlen D) (skipn 1 em))) as (sd & Bsd & Lsd & Ssd); [exact Bdb|apply bytes_firstn_skipn, bytes_firstn_skipn, BE|lia|].
  apply (st_some _ _ _ Ssd). eexists. apply st_ret.
Qed.
Lemma st_oaep_decrypt kp label rd c : bytes label -> Z.of_nat (length label) < limit -> Z.of_nat (modulus_len (kp_public kp)) + 4 < limit ->
  exists r, stable (fun s => oaep_decrypt D kp label s rd c) r.
Proof.
  intros BL LL LK. unfold oaep_decrypt. destruct (length c =? 0)%nat; [eexists; apply st_ret|].
  destruct kp as [pk|sk]; cbn [kp_private kp_public] in *; [eexists; apply st_ret|].
  destruct (pub_is_valid (sk_pk sk)); [|eexists; apply st_ret|eexists; apply st_ret].
  cbn zeta. set (k := modulus_len (sk_pk sk)) in *. destruct (Nat.ltb_spec k (length c)); cbn [orb]; [eexists; apply st_ret|].
  destruct (Nat.ltb_spec k (2 * hlen D + 2)) as [|K]; [eexists; apply st_ret|].
  destruct (priv_decrypt sk (be_val c) rd) as [m| |]; [|eexists; apply st_ret|eexists; apply st_ret].
  apply (st_some _ _ _ (st_hash1 label BL LL)). unfold oaep_decode.
  destruct (fix_len_bytes k m) as [BE LE]. set (em := fix_len k m) in *.
  destruct (negb _); [eexists; apply st_ret|].
  destruct (st_mgf_bytes (skipn (hlen D + 1) em) (firstn (hlen D) (skipn 1 em))) as (sd & Bsd & Lsd & Ssd).
  { apply bytes_firstn_skipn, BE. } { apply bytes_firstn_skipn, bytes_firstn_skipn, BE. } { rewrite skipn_length. lia. }
  apply (st_some _ _ _ Ssd). rewrite firstn_length, skipn_length in Lsd.
  destruct (st_mgf_bytes sd (skipn (hlen D + 1) em)) as (db & Bdb & Ldb & Sdb); [exact Bsd|apply bytes_firstn_skipn, BE|lia|].
  apply (st_some _ _ _ Sdb). destruct (negb _); eexists; apply st_ret.
Qed.
Lemma st_pss_sign kp sl ws rd msg : bytes msg -> Z.of_nat (length msg) < limit -> Z.of_nat (modulus_len (kp_public kp)) + 8 < limit ->
  exists r, stable (fun s => pss_sign D kp sl s ws rd msg) r.
Proof.
  intros B L LK. unfold pss_sign, pss_sign_with_salt. cbn zeta. set (nb := bits_len (pk_n (kp_public kp))) in *.
  set (salt := firstn sl _). assert (BS : bytes salt) by (apply bytes_firstn_skipn, words_bytes).
  assert (E : exists r, stable (fun s => emsa_pss_encode D s msg (nb - 1) salt) r).
  { unfold emsa_pss_encode. cbn zeta. set (el := ((nb - 1 + 7) / 8)%nat).
    assert (EL : (el <= modulus_len (kp_public kp))%nat) by (unfold el, modulus_len; fold nb; apply Nat.div_le_mono; lia).
    destruct (Nat.ltb_spec el (hlen D + length salt + 2)) as [|K]; [eexists; apply st_ret|].
    apply (st_some _ _ _ (st_hash1 msg B L)). destruct (H_ok D I H limit HG msg B L) as [LH BH].
    destruct (negb _); [eexists; apply st_ret|].
    assert (BC : bytes (concat [repeat 0 8; H msg; salt])).
    { cbn [concat]. rewrite app_nil_r. apply bytes_app. split; [apply bytes_repeat, byte0|]. apply bytes_app. split; assumption. }
    assert (LC : Z.of_nat (length (concat [repeat 0 8; H msg; salt])) < limit).
    { cbn [concat]. rewrite app_nil_r, !app_length, repeat_length, LH, <- hl. lia. }
    eapply st_some; [apply (st_hash [repeat 0 8; H msg; salt]); [|exact LC]|].
    { constructor; [apply bytes_repeat, byte0|]. constructor; [exact BH|]. constructor; [exact BS|constructor]. }
    destruct (H_ok D I H limit HG _ BC LC) as [LH2 BH2]. rewrite <- hl in LH2. set (hh := H (concat _)) in *.
    destruct (st_mgf_bytes hh (repeat 0 (el - length salt - hlen D - 2) ++ [1] ++ salt)) as (db & Bdb & Ldb & Sdb); [exact BH2| |lia|].
    { apply bytes_app. split; [apply bytes_repeat, byte0|]. apply bytes_app. split; [constructor; [split; [discriminate|reflexivity]|constructor]|exact BS]. }
    apply (st_some _ _ _ Sdb). destruct db; eexists; apply st_ret. }
  destruct E as [r E]. destruct r as [em|e|].
  - assert (Q : exists r, stable (fun s => match kp_private kp with
      | None => (s, Err InvalidPrivateKey)
      | Some sk => (s, rbind (priv_decrypt_check sk (be_val em) rd) (fun c => Ok (left_pad ((nb + 7) / 8) c))) end) r).
    { destruct (kp_private kp); eexists; apply st_ret. }
    destruct Q as [r Q]. exists r. intros s Hs. destruct (E s Hs) as (s1 & -> & I1). exact (Q s1 I1).
  - exists (Err e). intros s Hs. destruct (E s Hs) as (s1 & -> & I1). exists s1. split; [reflexivity|exact I1].
  - exists Panic. intros s Hs. destruct (E s Hs) as (s1 & -> & I1). exists s1. split; [reflexivity|exact I1].
Qed.
Lemma st_pss_verify chk kp sl sg msg : bytes msg -> Z.of_nat (length msg) < limit -> Z.of_nat (modulus_len (kp_public kp)) + 8 < limit ->
  exists r, stable (fun s => pss_verify D chk kp sl s sg msg) r.
Proof.
  intros B L LK. unfold pss_verify. cbn zeta. set (nb := bits_len (pk_n (kp_public kp))) in *.
  destruct (negb _); [eexists; apply st_ret|]. destruct (_ <? _)%nat; [eexists; apply st_ret|].
  set (m := pub_encrypt _ _). pose proof (left_pad_bytes ((nb - 1 + 7) / 8) m) as BE. set (em := left_pad _ m) in *.
  unfold emsa_pss_verify. cbn zeta. apply (st_some _ _ _ (st_hash1 msg B L)). destruct (H_ok D I H limit HG msg B L) as [LH BH].
  destruct (negb _); [eexists; apply st_ret|]. set (el := ((nb - 1 + 7) / 8)%nat) in *.
  assert (EL : (el <= modulus_len (kp_public kp))%nat) by (unfold el, modulus_len; fold nb; apply Nat.div_le_mono; lia).
  destruct (Nat.eqb_spec el (length em)) as [LE|]; cbn [negb orb]; [|eexists; apply st_ret].
  destruct (Nat.ltb_spec el (hlen D + sl + 2)) as [|K]; [eexists; apply st_ret|].
  destruct (negb _); [eexists; apply st_ret|].
  destruct (shl8 chk 255 _) as [mask| |]; [|eexists; apply st_ret|eexists; apply st_ret].
  destruct (negb _); [eexists; apply st_ret|].
  destruct (st_mgf_bytes (firstn (hlen D) (skipn (el - hlen D - 1) em)) (firstn (el - hlen D - 1) em)) as (db & Bdb & Ldb & Sdb).
  { apply bytes_firstn_skipn, bytes_firstn_skipn, BE. } { apply bytes_firstn_skipn, BE. } { rewrite firstn_length. lia. }
  apply (st_some _ _ _ Sdb). rewrite firstn_length in Ldb.
  destruct (rbind _ _) as [mask2| |]; [|eexists; apply st_ret|eexists; apply st_ret].
  set (db2 := match db with [] => [] | d0 :: ds => Z.land d0 mask2 :: ds end).
  assert (B2 : bytes db2 /\ length db2 = length db).
  { unfold db2. destruct db as [|d0 ds]; [split; [constructor|reflexivity]|]. split; [|reflexivity]. inversion Bdb as [|? ? B0 B1]; subst. constructor; [|exact B1].
    apply land_byte0, B0. }
  destruct B2 as [B2 L2]. destruct (negb _); [eexists; apply st_ret|]. destruct (negb _); [eexists; apply st_ret|].
  eapply st_some; [apply (st_hash [repeat 0 8; H msg; skipn (length db2 - sl) db2])|].
  { constructor; [apply bytes_repeat, byte0|]. constructor; [exact BH|]. constructor; [apply bytes_firstn_skipn, B2|constructor]. }
  { cbn [concat]. rewrite app_nil_r, !app_length, repeat_length, LH, <- hl, skipn_length. lia. }
  destruct (negb _); eexists; apply st_ret.
Qed.
End Stable.
