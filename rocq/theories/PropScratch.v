(** C67: the scratch vectors inside mode and cipher objects never show, and what a clone of a mode object does. *)
From Verif Require Import Base Words ModesModel ModesSpec ModesApi AesModel AesNiModel Sm4Model DesModel DesProofs DesLink CipherDst BlockApi ScratchModel ScratchSpec ScratchProofs PropModes.

(** A successful call of a library cipher leaves exactly its result in the destination vector, whatever that vector and the object's own
    scratch vector held before; a refused call leaves the destination vector alone. *)
Lemma stateless_computes f g : (forall dst b, f dst b = match g b with Ok t => (t, Ok (length t)) | Err e => (dst, Err e) | Panic => (dst, Panic) end) ->
  computes (stateless f) g.
Proof. intros A h dst b. exists h. unfold stateless. rewrite A. destruct (g b); reflexivity. Qed.
Theorem C67_ciphers :
  (forall a, implements (aes_d a) (aes_cipher a)) /\
  (forall a, implements (aesni_d a) (aesni_cipher a)) /\
  (forall ks, implements (sm4_d ks) (sm4_cipher ks)) /\
  (forall key, implements (des_d (key_schedule key)) (des_new key)) /\
  (forall k1 k2 k3, implements (tdes_d (key_schedule k1) (key_schedule k2) (key_schedule k3)) (tdes_new k1 k2 k3)).
Proof.
  split; [|split; [|split; [|split]]].
  - intros a. split; [reflexivity|]. split; apply stateless_computes; intros dst b;
      unfold aes_encrypt_dst, aes_decrypt_dst, aes_cipher; cbn [enc dec]; unfold aes_encrypt, aes_decrypt;
      destruct (length b =? 16)%nat; reflexivity.
  - intros a. split; [reflexivity|]. split; apply stateless_computes; intros dst b;
      unfold aesni_encrypt_dst, aesni_decrypt_dst, aesni_cipher; cbn [enc dec]; unfold aesni_encrypt, aesni_decrypt;
      destruct (length b =? 16)%nat; reflexivity.
  - intros ks. split; [reflexivity|]. split; apply stateless_computes; intros dst b;
      unfold sm4_ed_dst, sm4_cipher; cbn [enc dec]; unfold sm4_encrypt, sm4_decrypt; destruct (length b =? 16)%nat; reflexivity.
  - intros key. split; [reflexivity|]. split; apply stateless_computes; intros dst b;
      unfold des_crypt_dst, des_new, des_cipher; cbn [enc dec]; unfold des_encrypt, des_decrypt; destruct (length b =? 8)%nat; reflexivity.
  - intros k1 k2 k3. split; [reflexivity|].
    assert (L : forall ks e b, (length (des_crypt_block ks e b) =? 8)%nat = true) by (intros; apply Nat.eqb_eq; apply des_crypt_length).
    split; intros buf dst b; unfold tdes_d, tdes_new; cbn [enc dec denc ddec];
      unfold tdes_encrypt, tdes_decrypt, des_new, des_cipher; cbn [enc dec]; unfold des_encrypt, des_decrypt, tdes_encrypt_dst, tdes_decrypt_dst, des_crypt_dst;
      destruct (length b =? 8)%nat; cbn [rbind app]; rewrite ?L; cbn [rbind]; rewrite ?L; eexists; reflexivity.
Qed.
Print Assumptions C67_ciphers.

(** Any history of calls on a stream object (one-shot encryptions and decryptions through it included) shows exactly what the
    model without scratch vectors shows, for any initial content of the scratch vectors. *)
Theorem C67_streams : forall H (dc : dcipher H) c, implements dc c -> forall p iv sc s h,
  trace (ecb_enc_obj_b dc p) (sc, s) h = trace (ecb_enc_obj (mkEcb c p)) s h /\
  trace (ecb_dec_obj_b dc p) (sc, s) h = trace (ecb_dec_obj (mkEcb c p)) s h /\
  trace (cbc_enc_obj_b dc p iv) (sc, s) h = trace (cbc_enc_obj (mkCbc c p iv)) s h /\
  trace (cbc_dec_obj_b dc p iv) (sc, s) h = trace (cbc_dec_obj (mkCbc c p iv)) s h /\
  (forall z, (forall b t, enc c b = Ok t -> (z <= length t)%nat) ->
     trace (cfb_enc_obj_b dc z p iv) (sc, s) h = trace (cfb_enc_obj (mkCfb z c p iv)) s h /\
     trace (cfb_dec_obj_b dc z p iv) (sc, s) h = trace (cfb_dec_obj (mkCfb z c p iv)) s h) /\
  trace (ofb_obj_b dc iv) (sc, s) h = trace (ofb_obj (mkOfb c iv)) s h /\
  (forall k d pond, trace (ctr_obj_b dc) (sc, (k, d, pond)) h = trace ctr_obj (mkCtrs (mkCtr c k) d pond) h).
Proof.
  intros H dc c I p iv sc s h.
  split; [exact (sim_trace snd _ _ (ecb_enc_sim dc c I p) h (sc, s))|].
  split; [exact (sim_trace snd _ _ (ecb_dec_sim dc c I p) h (sc, s))|].
  split; [exact (sim_trace snd _ _ (cbc_enc_sim dc c I p iv) h (sc, s))|].
  split; [exact (sim_trace snd _ _ (cbc_dec_sim dc c I p iv) h (sc, s))|].
  split; [intros z Z1; split; [exact (sim_trace snd _ _ (cfb_enc_sim dc c I z p iv Z1) h (sc, s))|exact (sim_trace snd _ _ (cfb_dec_sim dc c I z p iv Z1) h (sc, s))]|].
  split; [exact (sim_trace snd _ _ (ofb_sim dc c I iv) h (sc, s))|].
  intros k d pond. exact (sim_trace (ctr_er c) _ _ (ctr_sim dc c I) h (sc, (k, d, pond))).
Qed.
Print Assumptions C67_streams.

(** Two objects that differ only in the content of their scratch vectors cannot be told apart. *)
Theorem C67_scratch_never_shows : forall H (dc : dcipher H) c, implements dc c -> forall p iv sc sc' s h,
  trace (ecb_enc_obj_b dc p) (sc, s) h = trace (ecb_enc_obj_b dc p) (sc', s) h /\
  trace (ecb_dec_obj_b dc p) (sc, s) h = trace (ecb_dec_obj_b dc p) (sc', s) h /\
  trace (cbc_enc_obj_b dc p iv) (sc, s) h = trace (cbc_enc_obj_b dc p iv) (sc', s) h /\
  trace (cbc_dec_obj_b dc p iv) (sc, s) h = trace (cbc_dec_obj_b dc p iv) (sc', s) h /\
  (forall z, (forall b t, enc c b = Ok t -> (z <= length t)%nat) ->
     trace (cfb_enc_obj_b dc z p iv) (sc, s) h = trace (cfb_enc_obj_b dc z p iv) (sc', s) h /\
     trace (cfb_dec_obj_b dc z p iv) (sc, s) h = trace (cfb_dec_obj_b dc z p iv) (sc', s) h) /\
  trace (ofb_obj_b dc iv) (sc, s) h = trace (ofb_obj_b dc iv) (sc', s) h /\
  (forall k d pond, trace (ctr_obj_b dc) (sc, (k, d, pond)) h = trace (ctr_obj_b dc) (sc', (k, d, pond)) h).
Proof.
  intros H dc c I p iv sc sc' s h.
  destruct (C67_streams H dc c I p iv sc s h) as (A1 & A2 & A3 & A4 & A5 & A6 & A7).
  destruct (C67_streams H dc c I p iv sc' s h) as (B1 & B2 & B3 & B4 & B5 & B6 & B7).
  split; [congruence|]. split; [congruence|]. split; [congruence|]. split; [congruence|].
  split; [intros z Z1; destruct (A5 z Z1), (B5 z Z1); split; congruence|].
  split; [congruence|]. intros k d pond. rewrite A7, B7. reflexivity.
Qed.
Print Assumptions C67_scratch_never_shows.

(** Going on with a clone of an ECB, CBC, CFB or OFB object, at any points of any history of calls, changes nothing that is seen;
    [ch] is what the cipher's own clone does to its hidden state. *)
Theorem C67_clones : forall H (dc : dcipher H) c, implements dc c -> forall (ch : H -> H) p sc iv h,
  btrace (ecb_base dc ch p) (sc, iv) h = btrace (ecb_base dc ch p) (sc, iv) (filter not_clone h) /\
  btrace (cbc_base dc ch p) (sc, iv) h = btrace (cbc_base dc ch p) (sc, iv) (filter not_clone h) /\
  (forall z, (forall b t, enc c b = Ok t -> (z <= length t)%nat) ->
     btrace (cfb_base dc ch z p) (sc, iv) h = btrace (cfb_base dc ch z p) (sc, iv) (filter not_clone h)) /\
  btrace (ofb_base dc ch) (sc, iv) h = btrace (ofb_base dc ch) (sc, iv) (filter not_clone h).
Proof.
  intros H dc c I ch p sc iv h. split; [|split; [|split]].
  - apply (bsim_trace same_iv); [apply (ecb_base_sim dc c I)|reflexivity].
  - apply (bsim_trace same_iv); [apply (cbc_base_sim dc c I)|reflexivity].
  - intros z Z1. apply (bsim_trace same_iv); [apply (cfb_base_sim dc c I); exact Z1|reflexivity].
  - apply (bsim_trace same_iv); [apply (ofb_base_sim dc c I)|reflexivity].
Qed.
Print Assumptions C67_clones.

(** A clone of a CTR object goes back to the initial counter: after any messages [ms], the original continues the key stream at block
    [j], the clone starts it over. *)
Lemma ctr_calls_cipher c ms : forall k, exists k', ctr_calls (mkCtr c k) ms = mkCtr c k'.
Proof.
  induction ms as [|m ms IH]; intros k; [exists k; reflexivity|]. unfold ctr_calls. cbn [fold_left].
  unfold ctr_encrypt at 2. cbn [ctr_cipher ctr_ctr]. destruct (ctr_inner _ _ _ _ _) as [[k1 d1] [u|e|]]; apply IH.
Qed.
Lemma ctr_trace_calls H (dc : dcipher H) c n E D ch init bits k : implements dc c -> GoodCipher c n E D -> bytes init -> counter_new init bits = Ok k -> ctr_new c k = Ok (mkCtr c k) ->
  forall rest ms sc ms0, exists sc' xs, length xs = length ms /\
    btrace (ctr_base dc ch) (sc, ctr_ctr (ctr_calls (mkCtr c k) ms0)) (map (BEncrypt []) ms ++ rest) =
    xs ++ btrace (ctr_base dc ch) (sc', ctr_ctr (ctr_calls (mkCtr c k) (ms0 ++ ms))) rest.
Proof.
  intros I G Bi Hk Ho rest. induction ms as [|m ms IH]; intros sc ms0.
  - exists sc, []. rewrite app_nil_r. split; reflexivity.
  - cbn [map app btrace]. unfold ctr_base at 1. cbn [b_enc fst snd].
    destruct (ctr_calls_cipher c ms0 k) as [k1 E1].
    pose proof (ctr_encrypt_b_s dc c I sc k1 [] m) as Q. pose proof (proj1 (C19_ctr c n E D G init bits k _ ms0 Bi Hk Ho [] m)) as R.
    rewrite E1 in *. cbn [ctr_ctr].
    destruct (ctr_encrypt_b dc sc k1 [] m) as [sc1 [k2 [d r]]]. cbn [snd] in Q. injection Q as Q1 Q2. rewrite R in Q2. injection Q2 as -> ->.
    cbn [bstop]. destruct (IH sc1 (ms0 ++ [m])) as (sc' & xs & L & X). rewrite <- app_assoc in X. cbn [app] in X.
    exists sc', (BDst (CTR E n (counter_block n ((bits + 7) / 8) (be_val init)) (list_sum (map (fun m => nblocks n (length m)) ms0)) m) (Ok (length m)) :: xs).
    split; [cbn [length]; rewrite L; reflexivity|]. cbn [app]. f_equal. rewrite <- X. f_equal. f_equal. rewrite Q1.
    unfold ctr_calls. rewrite fold_left_app. cbn [fold_left]. unfold ctr_calls in E1. rewrite E1. reflexivity.
Qed.
Theorem C67_ctr_clone : forall H (dc : dcipher H) c n E D, implements dc c -> GoodCipher c n E D ->
  forall (ch : H -> H) init bits k, bytes init -> counter_new init bits = Ok k -> ctr_new c k = Ok (mkCtr c k) ->
  let T := counter_block n ((bits + 7) / 8) (be_val init) in
  forall sc ms m d,
  let j := list_sum (map (fun m => nblocks n (length m)) ms) in
  last (btrace (ctr_base dc ch) (sc, k) (map (BEncrypt []) ms ++ [BEncrypt d m])) (BSet Panic) = BDst (CTR E n T j m) (Ok (length m)) /\
  last (btrace (ctr_base dc ch) (sc, k) (map (BEncrypt []) ms ++ [BClone; BEncrypt d m])) (BSet Panic) = BDst (CTR E n T 0 m) (Ok (length m)).
Proof.
  intros H dc c n E D I G ch init bits k Bi Hk Ho T sc ms m d j.
  assert (X : forall sc k' x, snd (ctr_encrypt (mkCtr c k') d m) = (x, Ok (length m)) ->
    btrace (ctr_base dc ch) (sc, k') [BEncrypt d m] = [BDst x (Ok (length m))]).
  { intros sc0 k' x R. cbn [btrace]. unfold ctr_base at 1. cbn [b_enc fst snd].
    pose proof (ctr_encrypt_b_s dc c I sc0 k' d m) as Q. destruct (ctr_encrypt_b dc sc0 k' d m) as [sc1 [k2 [d1 r]]]. cbn [snd] in Q.
    injection Q as Q1 Q2. rewrite R in Q2. injection Q2 as -> ->. reflexivity. }
  destruct (ctr_calls_cipher c ms k) as [k1 E1].
  split.
  - destruct (ctr_trace_calls H dc c n E D ch init bits k I G Bi Hk Ho [BEncrypt d m] ms sc []) as (sc' & xs & L & R).
    change (ctr_ctr (ctr_calls (mkCtr c k) [])) with k in R. rewrite R. cbn [app].
    pose proof (proj1 (C19_ctr c n E D G init bits k _ ms Bi Hk Ho d m)) as Y. rewrite E1 in Y. rewrite E1. cbn [ctr_ctr].
    rewrite (X sc' k1 _ Y). apply last_last.
  - destruct (ctr_trace_calls H dc c n E D ch init bits k I G Bi Hk Ho [BClone; BEncrypt d m] ms sc []) as (sc' & xs & L & R).
    change (ctr_ctr (ctr_calls (mkCtr c k) [])) with k in R. rewrite R. cbn [app].
    pose proof (proj1 (C19_ctr c n E D G init bits k _ [] Bi Hk Ho d m)) as Y. change (ctr_calls (mkCtr c k) []) with (mkCtr c k) in Y.
    assert (Ck : counter_reset (ctr_ctr (ctr_calls (mkCtr c k) ms)) = k).
    { pose proof (proj2 (C20_counter_reset c n E D G init bits k _ ms Bi Hk Ho)) as Z. injection Z as Z. exact Z. }
    change (btrace (ctr_base dc ch) (sc', ctr_ctr (ctr_calls (mkCtr c k) ms)) [BClone; BEncrypt d m])
      with (btrace (ctr_base dc ch) ((ch (fst sc'), snd sc'), counter_reset (ctr_ctr (ctr_calls (mkCtr c k) ms))) [BEncrypt d m]).
    rewrite Ck, (X _ k _ Y). apply last_last.
Qed.
Print Assumptions C67_ctr_clone.
(** So the clone's ciphertext and the original's ciphertext of a first message of the same length give away the xor of the two messages. *)
Lemma xorl_pad : forall a b K, length a = length b -> (length a <= length K)%nat -> xorl (xorl a K) (xorl b K) = xorl a b.
Proof.
  induction a as [|x a IH]; intros [|y b] [|z K] L1 L2; cbn [length] in *; try lia; try reflexivity.
  change (Z.lxor (Z.lxor x z) (Z.lxor y z) :: xorl (xorl a K) (xorl b K) = Z.lxor x y :: xorl a b).
  rewrite IH by lia. f_equal. rewrite (Z.lxor_comm y z), Z.lxor_assoc, <- (Z.lxor_assoc z z y), Z.lxor_nilpotent, Z.lxor_0_l. reflexivity.
Qed.
Theorem C67_ctr_clone_two_time_pad : forall H (dc : dcipher H) c n E D, implements dc c -> GoodCipher c n E D ->
  forall (ch : H -> H) init bits k, bytes init -> counter_new init bits = Ok k -> ctr_new c k = Ok (mkCtr c k) ->
  forall sc m ms m' d, length m = length m' -> exists x x',
  hd_error (btrace (ctr_base dc ch) (sc, k) (BEncrypt [] m :: map (BEncrypt []) ms ++ [BClone; BEncrypt d m'])) = Some (BDst x (Ok (length m))) /\
  last (btrace (ctr_base dc ch) (sc, k) (BEncrypt [] m :: map (BEncrypt []) ms ++ [BClone; BEncrypt d m'])) (BSet Panic) = BDst x' (Ok (length m')) /\
  xorl x x' = xorl m m'.
Proof.
  intros H dc c n E D I G ch init bits k Bi Hk Ho sc m ms m' d L.
  set (T := counter_block n ((bits + 7) / 8) (be_val init)).
  exists (CTR E n T 0 m), (CTR E n T 0 m').
  pose proof (proj1 (C19_ctr c n E D G init bits k _ [] Bi Hk Ho [] m)) as Y. cbv zeta in Y. fold T in Y.
  change (ctr_calls (mkCtr c k) []) with (mkCtr c k) in Y. cbn [map list_sum fold_right] in Y.
  split; [|split].
  - cbn [btrace]. unfold ctr_base at 1. cbn [b_enc fst snd].
    pose proof (ctr_encrypt_b_s dc c I sc k [] m) as Q. destruct (ctr_encrypt_b dc sc k [] m) as [sc1 [k2 [d1 r]]]. cbn [snd] in Q.
    injection Q as Q1 Q2. rewrite Y in Q2. injection Q2 as -> ->. reflexivity.
  - pose proof (proj2 (C67_ctr_clone H dc c n E D I G ch init bits k Bi Hk Ho sc (m :: ms) m' d)) as Z. exact Z.
  - assert (LC : length (CTR E n T 0 m) = length m).
    { unfold ctr_encrypt in Y. destruct (ctr_inner _ _ _ _ _) as [[k1 d1] [u|e|]]; cbn [snd] in Y; congruence. }
    unfold CTR in *. rewrite <- L. apply xorl_pad; [exact L|]. rewrite xorl_length in LC. lia.
Qed.
Print Assumptions C67_ctr_clone_two_time_pad.
Definition exd : dcipher unit := aes_d (aes_make exkey).
(** A clone of a CTR object does not go on where the original is. *)
Theorem C67_ctr_clone_refuted : exists k h, counter_new exiv 128 = Ok k /\ ctr_new exc k = Ok (mkCtr exc k) /\
  btrace (ctr_base exd (fun u => u)) (tt, [], k) h <> btrace (ctr_base exd (fun u => u)) (tt, [], k) (filter not_clone h).
Proof.
  eexists. exists [BEncrypt [] (exmsg 5); BClone; BEncrypt [] (exmsg 5)]. split; [reflexivity|]. split; [reflexivity|].
  vm_compute. discriminate.
Qed.
Print Assumptions C67_ctr_clone_refuted.
Lemma aes_out a b t : enc (aes_cipher a) b = Ok t -> (8 <= length t)%nat.
Proof.
  unfold aes_cipher. cbn [enc]. unfold aes_encrypt, crypt_block. destruct (length b =? 16)%nat; [|discriminate].
  generalize (store_length). intros L E. injection E as <-. rewrite L. lia.
Qed.
(** Concrete objects that meet the hypotheses. *)
Example C67_hypotheses : implements exd exc /\ (exists E D, GoodCipher exc 16 E D) /\ (forall b t, enc exc b = Ok t -> (8 <= length t)%nat) /\
  exists k, counter_new exiv 128 = Ok k /\ ctr_new exc k = Ok (mkCtr exc k).
Proof.
  split; [exact (proj1 C67_ciphers (aes_make exkey))|]. split; [exact instance_good|]. split.
  - exact (fun b t => aes_out (aes_make exkey) b t).
  - eexists. split; reflexivity.
Qed.
(** A history over a CBC stream whose scratch vector is full of old bytes: a one-shot call in the middle, a refused decryption, a finish. *)
Example C67_case :
  trace (cbc_enc_obj_b exd (DefaultPadding exc) exiv) ((tt, exmsg 40), mkS [] [] exiv)
    [Write (exmsg 10) true; Encrypt [9] (exmsg 3); Write (exmsg 9) true; Decrypt [7] (exmsg 5); Finish true] =
  trace (cbc_enc_obj_b exd (DefaultPadding exc) exiv) ((tt, []), mkS [] [] exiv)
    [Write (exmsg 10) true; Encrypt [9] (exmsg 3); Write (exmsg 9) true; Decrypt [7] (exmsg 5); Finish true] /\
  nth 3 (trace (cbc_enc_obj_b exd (DefaultPadding exc) exiv) ((tt, exmsg 40), mkS [] [] exiv)
    [Write (exmsg 10) true; Encrypt [9] (exmsg 3); Write (exmsg 9) true; Decrypt [7] (exmsg 5); Finish true]) Done = Dst [7] (Err InvalidParameter).
Proof. split; [exact (proj1 (proj2 (proj2 (C67_scratch_never_shows unit exd exc (proj1 C67_ciphers (aes_make exkey)) (DefaultPadding exc) exiv (tt, exmsg 40) (tt, []) (mkS [] [] exiv) _))))|vm_compute; reflexivity]. Qed.
