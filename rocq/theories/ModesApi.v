(** The facts of PropModes.v, assembled from the mode lemmas. *)
From Verif Require Import Base ModesModel ModesSpec PaddingProofs ModesLoops EcbCbcProofs CfbOfbCtrProofs ModesExtra.

Lemma padding_spec n m : (0 < n)%nat -> bytes m ->
  let p := default_pad n m in
  (exists z, (1 <= z <= n)%nat /\ p = m ++ 128 :: repeat 0 z) /\
  (length m < length p)%nat /\ (length p mod n = 0)%nat /\ bytes p /\
  default_unpad p = (m, Ok (length m)).
Proof.
  intros Hn Hm p. unfold p. rewrite default_pad_eq by auto.
  pose proof (Nat.mod_upper_bound (length m + 1) n ltac:(lia)).
  split; [exists (n - (length m + 1) mod n)%nat; split; [lia|reflexivity]|].
  split; [rewrite pad10_length by auto; lia|]. split; [apply pad10_mod; auto|].
  split; [apply pad10_bytes; auto|]. apply unpad_pad10.
Qed.
Lemma unpadding_exact buf :
  (In 128 buf -> exists a t, buf = a ++ 128 :: t /\ ~ In 128 t /\
     let keep := (length a + (length t - length (filter (Z.eqb 0) t)))%nat in
     default_unpad buf = (firstn keep buf, Ok keep)) /\
  (~ In 128 buf -> default_unpad buf = (buf, Err UnpaddingNotMatch)).
Proof.
  split; [|apply default_unpad_missing]. intros H. destruct (last_occ buf H) as (a & t & -> & Ht).
  exists a, t. split; [reflexivity|]. split; [exact Ht|]. apply (default_unpad_found a t Ht).
Qed.

Lemma set_iv_spec c n p iv0 iv s : blk c = Some n ->
  (length iv = n ->
     cbc_set_iv (mkCbc c p iv0) iv = (mkCbc c p iv, Ok tt) /\
     cfb_set_iv (mkCfb s c p iv0) iv = (mkCfb s c p iv, Ok tt) /\
     ofb_set_iv (mkOfb c iv0) iv = (mkOfb c iv, Ok tt)) /\
  (length iv <> n ->
     cbc_set_iv (mkCbc c p iv0) iv = (mkCbc c p iv0, Err InvalidParameter) /\
     cfb_set_iv (mkCfb s c p iv0) iv = (mkCfb s c p iv0, Err InvalidParameter) /\
     ofb_set_iv (mkOfb c iv0) iv = (mkOfb c iv0, Err InnerErr)).
Proof.
  intros Hb. unfold cbc_set_iv, cfb_set_iv, ofb_set_iv. cbn [cbc_cipher cfb_cipher ofb_cipher cbc_pad cfb_pad cfb_s]. rewrite Hb.
  split; intros H; [apply Nat.eqb_eq in H|apply Nat.eqb_neq in H]; rewrite H; auto.
Qed.
Lemma iv_length_spec c n p iv : blk c = Some n ->
  (length iv = n -> cbc_new c p (iv, Ok tt) = Ok (mkCbc c p iv) /\ ofb_new c (iv, Ok tt) = Ok (mkOfb c iv)) /\
  (length iv <> n -> cbc_new c p (iv, Ok tt) = Err InnerErr /\ ofb_new c (iv, Ok tt) = Err InnerErr) /\
  (forall e, cbc_new c p (iv, Err e) = Err e /\ ofb_new c (iv, Err e) = Err e).
Proof.
  intros Hb. unfold cbc_new, ofb_new. rewrite (iv_check_spec _ _ _ Hb).
  split; [|split]; intros H; [apply Nat.eqb_eq in H; rewrite H; auto|apply Nat.eqb_neq in H; rewrite H; auto|auto].
Qed.
Lemma counter_width_spec c n init bits : blk c = Some n ->
  ((exists k, counter_new init bits = Ok k) <-> (8 * length init < bits + 8)%nat) /\
  (forall k, counter_new init bits = Ok k ->
     ((exists o, ctr_new c k = Ok o) <-> (8 * n <= bits)%nat)).
Proof.
  intros Hb. unfold counter_new. destruct (Nat.ltb_spec ((bits + 7) / 8) (length init)) as [H|H].
  - split; [|intros; discriminate]. split; [intros [k ?]; discriminate|]. intros Hl. exfalso.
    assert (bits + 7 < 8 * length init)%nat; [|lia].
    pose proof (Nat.div_mod (bits + 7) 8 ltac:(lia)). pose proof (Nat.mod_upper_bound (bits + 7) 8 ltac:(lia)). lia.
  - split.
    + split; [|intros; eexists; reflexivity]. intros _.
      pose proof (Nat.div_mod (bits + 7) 8 ltac:(lia)). lia.
    + intros k Hk. injection Hk as <-. unfold ctr_new, bsz. cbn [ctr_bits]. rewrite Hb.
      destruct (Nat.ltb_spec bits (n * 8)) as [H2|H2].
      * split; [intros [o ?]; discriminate|lia].
      * split; [lia|intros; eexists; reflexivity].
Qed.
Lemma counter_object_spec c n k : blk c = Some n ->
  ((8 * n <= ctr_bits k)%nat -> ctr_new c k = Ok (mkCtr c k)) /\ ((ctr_bits k < 8 * n)%nat -> ctr_new c k = Err InnerErr).
Proof.
  intros B. unfold ctr_new, bsz. rewrite B. destruct (Nat.ltb_spec (ctr_bits k) (n * 8)); split; intros; first [reflexivity|lia].
Qed.
Lemma set_counter_spec c n k0 k : blk c = Some n ->
  ((8 * n <= ctr_bits k)%nat -> ctr_set_counter (mkCtr c k0) k = (mkCtr c k, Ok tt)) /\
  ((ctr_bits k < 8 * n)%nat -> ctr_set_counter (mkCtr c k0) k = (mkCtr c k0, Err InnerErr)).
Proof.
  intros B. unfold ctr_set_counter, bsz. cbn [ctr_cipher]. rewrite B. destruct (Nat.ltb_spec (ctr_bits k) (n * 8)); split; intros; first [reflexivity|lia].
Qed.
Lemma default_iv_spec bs rnd :
  let need := ((bs + 3) / 4)%nat in
  (forall ws, firstn need rnd = map Some ws -> length ws = need ->
     default_initial_vec bs rnd = (firstn bs (flat_map (be_bytes 4) ws), Ok tt, skipn need rnd) /\
     length (firstn bs (flat_map (be_bytes 4) ws)) = bs) /\
  ((forall ws, firstn need rnd = map Some ws -> length ws <> need) ->
     snd (fst (default_initial_vec bs rnd)) = Err RandError).
Proof. split; [intros; apply default_iv_ok; auto|apply default_iv_fail]. Qed.

Lemma reset_is_fresh h :
  (forall o, ecb_reset o (exec (ecb_enc_ops o) (ecb_reset o) ecb_stream_init h) = ecb_stream_init) /\
  (forall o, ecb_reset o (exec (ecb_dec_ops o) (ecb_reset o) ecb_stream_init h) = ecb_stream_init) /\
  (forall o, iv_reset (cbc_iv o) (exec (cbc_enc_ops o) (iv_reset (cbc_iv o)) (cbc_stream_init o) h) = cbc_stream_init o) /\
  (forall o, iv_reset (cbc_iv o) (exec (cbc_dec_ops o) (iv_reset (cbc_iv o)) (cbc_stream_init o) h) = cbc_stream_init o) /\
  (forall o, iv_reset (cfb_iv o) (exec (cfb_enc_ops o) (iv_reset (cfb_iv o)) (cfb_stream_init o) h) = cfb_stream_init o) /\
  (forall o, iv_reset (cfb_iv o) (exec (cfb_dec_ops o) (iv_reset (cfb_iv o)) (cfb_stream_init o) h) = cfb_stream_init o) /\
  (forall o, iv_reset (ofb_iv o) (exec (ofb_ops o) (iv_reset (ofb_iv o)) (ofb_stream_init o) h) = ofb_stream_init o) /\
  (forall o, ctr_reset (exec ctr_ops ctr_reset (ctr_stream o) h) = ctr_stream o).
Proof.
  repeat split; intros; try reflexivity; [apply ecb_enc_reset_fresh|apply ecb_dec_reset_fresh|apply ctr_reset_fresh].
Qed.
Lemma finish_is_fresh h s :
  (forall o, ecb_enc_finish o (exec (ecb_enc_ops o) (ecb_reset o) ecb_stream_init h) = (s, Ok tt) -> drain s = ecb_stream_init) /\
  (forall o, ecb_dec_finish o (exec (ecb_dec_ops o) (ecb_reset o) ecb_stream_init h) = (s, Ok tt) -> drain s = ecb_stream_init) /\
  (forall o, cbc_dec_finish o (exec (cbc_dec_ops o) (iv_reset (cbc_iv o)) (cbc_stream_init o) h) = (s, Ok tt) -> drain s = cbc_stream_init o) /\
  (forall o, cfb_enc_finish o (exec (cfb_enc_ops o) (iv_reset (cfb_iv o)) (cfb_stream_init o) h) = (s, Ok tt) -> drain s = cfb_stream_init o) /\
  (forall o, cfb_dec_finish o (exec (cfb_dec_ops o) (iv_reset (cfb_iv o)) (cfb_stream_init o) h) = (s, Ok tt) -> drain s = cfb_stream_init o) /\
  (forall o, ofb_finish o (exec (ofb_ops o) (iv_reset (ofb_iv o)) (ofb_stream_init o) h) = (s, Ok tt) -> drain s = ofb_stream_init o) /\
  (forall c iv, let o := mkCbc c (DefaultPadding c) iv in
     cbc_enc_finish o (exec (cbc_enc_ops o) (iv_reset iv) (cbc_stream_init o) h) = (s, Ok tt) -> drain s = cbc_stream_init o).
Proof.
  split; [intros o; apply ecb_enc_finish_fresh|]. split; [intros o; apply ecb_dec_finish_fresh|].
  split; [intros o; apply cbc_dec_finish_fresh|]. split; [intros o; apply cfb_enc_finish_fresh|].
  split; [intros o; apply cfb_dec_finish_fresh|]. split; [intros o; apply ofb_finish_fresh|].
  intros c iv o. apply cbc_enc_finish_fresh. apply default_pad_nonempty.
Qed.

Section WithCipher.
Variable c : cipher.
Variable n : nat.
Variables E D : list Z -> list Z.
Hypothesis GC : GoodCipher c n E D.
Let Hn : (0 < n)%nat := gc_pos _ _ _ _ GC.
Notation V := (EcbCbcProofs.V n).

Lemma mkV iv : length iv = n -> bytes iv -> V iv.
Proof. split; auto. Qed.

Lemma ecb_default_spec dst dst' m : bytes m ->
  let o := mkEcb c (DefaultPadding c) in
  let ct := ECB E n (pad10 n m) in
  ecb_encrypt o dst m = (ct, Ok (length ct)) /\ (length ct mod n = 0)%nat /\
  ecb_decrypt o dst' ct = (m, Ok (length m)).
Proof.
  intros Hm o ct. pose proof (ecb_encrypt_default c n E D GC dst m) as H1.
  split; [exact H1|]. split.
  - unfold ct. destruct (ECB_inv c n E D GC (pad10 n m)) as (_ & _ & L & _);
      [apply pad10_bytes; auto|apply pad10_mod; auto|]. rewrite L. apply pad10_mod; auto.
  - pose proof (ecb_roundtrip_default c n E D GC dst' dst m Hm) as H2. rewrite H1 in H2. exact H2.
Qed.
Lemma ecb_empty_spec dst dst' m : bytes m ->
  let o := mkEcb c EmptyPadding in
  ((length m mod n = 0)%nat ->
     let ct := ECB E n m in
     ecb_encrypt o dst m = (ct, Ok (length ct)) /\ ecb_decrypt o dst' ct = (m, Ok (length m))) /\
  ((length m mod n <> 0)%nat ->
     snd (ecb_encrypt o dst m) = Err InvalidParameter /\
     ecb_decrypt o dst' m = (dst', Err InvalidParameter)).
Proof.
  intros Hm o. split; intros Hl.
  - pose proof (ecb_encrypt_empty c n E D GC dst m Hl) as H1. split; [exact H1|].
    pose proof (ecb_roundtrip_empty c n E D GC dst' dst m Hm Hl) as H2. rewrite H1 in H2. exact H2.
  - split; [apply (ecb_encrypt_empty_bad c n E D GC); auto|].
    apply (ecb_decrypt_badlen c n E D GC EmptyPadding); auto.
Qed.
Lemma ecb_dec_stream_spec evs m : bytes m ->
  let o := mkEcb c (DefaultPadding c) in
  concat (map fst evs) = fst (ecb_encrypt o [] m) ->
  Forall (fun e => bytes (fst e)) evs ->
  ((length m mod n <> n - 1)%nat ->
     run_stream (ecb_dec_ops o) ecb_stream_init evs = (ecb_stream_init, m, Ok tt)) /\
  ((length m mod n = n - 1)%nat ->
     snd (run_stream (ecb_dec_ops o) ecb_stream_init evs) = Err UnpaddingNotMatch /\
     ecb_decrypt o [] (concat (map fst evs)) = (m, Ok (length m))).
Proof.
  intros Hm o Hc He. split; intros Hl.
  - apply (ecb_dec_stream_ok c n E D GC); auto.
  - split; [apply (ecb_dec_stream_fail c n E D GC evs m); auto|].
    rewrite Hc. apply (ecb_roundtrip_default c n E D GC); auto.
Qed.

Lemma cbc_decrypt_standard' iv dst m : length iv = n -> bytes iv -> bytes m ->
  let o := mkCbc c (DefaultPadding c) iv in
  cbc_decrypt o dst (CBC E n iv (pad10 n m)) = (m, Ok (length m)).
Proof. intros. apply (cbc_decrypt_standard c n E D GC); auto. apply mkV; auto. Qed.
Lemma cbc_empty_spec iv dst dst' m : length iv = n -> bytes iv -> bytes m ->
  let o := mkCbc c EmptyPadding iv in
  ((length m mod n = 0)%nat ->
     cbc_encrypt o dst m = (CBC E n iv m, Ok (length m)) /\
     cbc_decrypt o dst' (CBC E n iv m) = (m, Ok (length m))) /\
  ((length m mod n <> 0)%nat ->
     snd (cbc_encrypt o dst m) = Err InvalidParameter /\
     cbc_decrypt o dst' m = (dst', Err InvalidParameter)).
Proof.
  intros H1 H2 Hm o. pose proof (mkV iv H1 H2) as Hiv. split; intros Hl.
  - destruct (CBC_roundtrip c n E D GC m iv Hiv Hm Hl) as (_ & L & _).
    pose proof (cbc_encrypt_empty c n E D GC iv dst m Hiv Hm Hl) as He. rewrite L in He. split; [exact He|].
    pose proof (cbc_roundtrip_empty c n E D GC iv dst' dst m Hiv Hm Hl) as Hr. rewrite He in Hr. exact Hr.
  - split; [apply (cbc_encrypt_empty_bad c n E D GC); auto|apply (cbc_decrypt_badlen c n E D GC); auto].
Qed.
Lemma cbc_default_exact iv dst m : length iv = n -> bytes iv -> bytes m ->
  let ct := CBC E n iv (whole n m) ++ ECB E n (pad10 n (rest n m)) in
  cbc_encrypt (mkCbc c (DefaultPadding c) iv) dst m = (ct, Ok (length ct)).
Proof. intros. apply (cbc_encrypt_default c n E D GC); auto. apply mkV; auto. Qed.
Lemma cbc_default_needs iv dst dst' m : length iv = n -> bytes iv -> bytes m ->
  let o := mkCbc c (DefaultPadding c) iv in
  fst (cbc_decrypt o dst (fst (cbc_encrypt o dst' m))) = m ->
  firstn (length m mod n) (lastn n (iv ++ CBC E n iv (whole n m))) = repeat 0 (length m mod n).
Proof.
  intros H1 H2 Hm o H. rewrite <- rest_length by lia.
  eapply (cbc_default_roundtrip_needs c n E D GC); eauto. apply mkV; auto.
Qed.
Lemma xorl_zero k l : length l = k -> xorl (repeat 0 k) l = l.
Proof. revert l. induction k; intros [|x l] H; try discriminate; [reflexivity|]. cbn. rewrite IHk by (cbn in H; lia). reflexivity. Qed.
Lemma cbc_default_roundtrip iv dst dst' m : length iv = n -> bytes iv -> bytes m ->
  let o := mkCbc c (DefaultPadding c) iv in
  let prev := lastn n (iv ++ CBC E n iv (whole n m)) in
  let r := rest n m in
  ((length m mod n <> n - 1)%nat ->
    cbc_decrypt o dst (fst (cbc_encrypt o dst' m)) = default_unpad (whole n m ++ xorl (pad10 n r) prev)) /\
  ((length m mod n = n - 1)%nat ->
    cbc_decrypt o dst (fst (cbc_encrypt o dst' m)) =
      default_unpad (whole n m ++ xorl (r ++ [128]) prev ++ E (r ++ [128]))).
Proof.
  intros H1 H2 Hm o prev r.
  destruct (cbc_default_roundtrip_exact c n E D GC iv dst dst' m (mkV _ H1 H2) Hm) as (b & t & HP & Hb & _ & Heq).
  destruct (pad10_rest_split c n E D GC m Hm) as (b' & t' & HP' & Hb' & Hbb' & T0 & T1).
  assert (X : b = b' /\ t = t').
  { rewrite HP in HP'. split.
    - apply (f_equal (firstn n)) in HP'. rewrite !firstn_app, Hb, Hb', Nat.sub_diag in HP'. cbn [firstn] in HP'.
      rewrite !app_nil_r, !firstn_all2 in HP' by lia. exact HP'.
    - apply (f_equal (skipn n)) in HP'. rewrite !skipn_app, Hb, Hb', Nat.sub_diag in HP'. cbn [skipn] in HP'.
      rewrite !skipn_all2 in HP' by lia. exact HP'. }
  destruct X as [<- <-].
  unfold o. change (mkCbc c (DefaultPadding c) iv) with (cbcD c iv). rewrite Heq. split; intros Hl.
  - specialize (T0 Hl). subst t. cbn [length Nat.eqb]. rewrite app_nil_r in HP |- *. fold r in HP. rewrite HP. reflexivity.
  - destruct (T1 Hl) as [-> ->]. rewrite repeat_length. replace (n =? 0)%nat with false by (symmetry; apply Nat.eqb_neq; lia).
    fold r. rewrite xorl_zero; [reflexivity|]. apply (gc_E _ _ _ _ GC); auto.
Qed.
Lemma cbc_enc_stream_spec iv evs : length iv = n -> bytes iv -> Forall (fun e => bytes (fst e)) evs ->
  let o := mkCbc c (DefaultPadding c) iv in
  let m := concat (map fst evs) in
  ((length m mod n <> n - 1)%nat ->
     run_stream (cbc_enc_ops o) (cbc_stream_init o) evs =
       (cbc_stream_init o, CBC E n iv (pad10 n m), Ok tt)) /\
  ((length m mod n = n - 1)%nat ->
     run_stream (cbc_enc_ops o) (cbc_stream_init o) evs =
       (cbc_stream_init o, CBC E n iv (m ++ [128]) ++ E (xorl (repeat 0 n) iv), Ok tt)).
Proof.
  intros H1 H2 He o m. split; intros Hl.
  - apply (cbc_enc_stream_ok c n E D GC); auto. apply mkV; auto.
  - apply (cbc_enc_stream_two c n E D GC); auto. apply mkV; auto.
Qed.
Lemma cbc_dec_stream_std' iv evs m : length iv = n -> bytes iv -> bytes m ->
  concat (map fst evs) = CBC E n iv (pad10 n m) ->
  Forall (fun e => bytes (fst e)) evs ->
  let o := mkCbc c (DefaultPadding c) iv in
  ((length m mod n <> n - 1)%nat ->
     run_stream (cbc_dec_ops o) (cbc_stream_init o) evs = (cbc_stream_init o, m, Ok tt)) /\
  ((length m mod n = n - 1)%nat ->
     snd (run_stream (cbc_dec_ops o) (cbc_stream_init o) evs) = Err UnpaddingNotMatch).
Proof. intros H1 H2 Hm Hc He o. apply (cbc_dec_stream_std c n E D GC); auto. apply mkV; auto. Qed.
Lemma cbc_stream_roundtrip iv evs evs' : length iv = n -> bytes iv ->
  Forall (fun e => bytes (fst e)) evs -> Forall (fun e => bytes (fst e)) evs' ->
  let o := mkCbc c (DefaultPadding c) iv in
  let m := concat (map fst evs) in
  concat (map fst evs') = snd (fst (run_stream (cbc_enc_ops o) (cbc_stream_init o) evs)) ->
  ((length m mod n <> n - 1)%nat ->
     run_stream (cbc_dec_ops o) (cbc_stream_init o) evs' = (cbc_stream_init o, m, Ok tt)) /\
  ((length m mod n = n - 1)%nat -> forall st out,
     run_stream (cbc_dec_ops o) (cbc_stream_init o) evs' = (st, out, Ok tt) -> out <> m).
Proof.
  intros H1 H2 He He' o m Hc. split; intros Hl.
  - destruct (cbc_enc_stream_spec iv evs H1 H2 He) as [S _]. fold o m in S. rewrite (S Hl) in Hc. cbn [fst snd] in Hc.
    assert (Hm : bytes m).
    { unfold m. clear -He. induction He; cbn; [constructor|]. apply bytes_app. auto. }
    apply (cbc_dec_stream_std' iv evs' m); auto.
  - intros st out Hr. eapply (cbc_stream_residue_fails c n E D GC iv evs evs'); eauto. apply mkV; auto.
Qed.

Lemma mod8 sbits : (sbits mod 8 = 0)%nat -> sbits = (8 * (sbits / 8))%nat.
Proof. intros H. pose proof (Nat.div_mod sbits 8 ltac:(lia)). lia. Qed.
Lemma cfb_new_ok iv sbits o : (4 <= n)%nat -> length iv = n ->
  cfb_new c (DefaultPadding c) (iv, Ok tt) sbits = Ok o ->
  let s := (sbits / 8)%nat in
  sbits = (8 * s)%nat /\ (0 < s <= n)%nat /\ (n mod s = 0)%nat /\ o = mkCfb s c (DefaultPadding c) iv.
Proof.
  intros H4 Hiv H s. rewrite (cfb_new_default c n E D GC) in H by auto.
  destruct (_ && _) eqn:Eb in H; [|discriminate]. rewrite !Bool.andb_true_iff, !Nat.eqb_eq, !Nat.leb_le in Eb.
  rewrite (iv_check_spec c n) in H by apply GC. rewrite Hiv, Nat.eqb_refl in H. cbn in H. injection H as <-.
  destruct Eb as [[[A B] C] F]. split; [apply mod8; auto|]. unfold s. split; [lia|]. auto.
Qed.
Lemma cfb_segment_spec : (4 <= n)%nat -> forall iv sbits, length iv = n ->
  ((exists o, cfb_new c (DefaultPadding c) (iv, Ok tt) sbits = Ok o) <->
     exists s, sbits = (8 * s)%nat /\ (1 <= s <= n)%nat /\ (n mod s = 0)%nat) /\
  ((exists o, cfb_new c EmptyPadding (iv, Ok tt) sbits = Ok o) <->
     exists s, sbits = (8 * s)%nat /\ (1 <= s <= n)%nat).
Proof.
  intros H4 iv sbits Hiv.
  assert (Hd : forall s, ((8 * s) mod 8 = 0)%nat /\ ((8 * s) / 8 = s)%nat).
  { intros s. rewrite (Nat.mul_comm 8 s). split; [apply Nat.mod_mul; lia|apply Nat.div_mul; lia]. }
  split; split.
  - intros [o H]. apply cfb_new_ok in H; auto. destruct H as (A & B & C & _). exists (sbits / 8)%nat. repeat split; auto; lia.
  - intros (s & -> & Hs & Hm). destruct (Hd s) as [D1 D2].
    rewrite (cfb_new_default c n E D GC), D1, D2 by auto.
    replace (1 <=? s)%nat with true by (symmetry; apply Nat.leb_le; lia).
    replace (s <=? n)%nat with true by (symmetry; apply Nat.leb_le; lia). rewrite Hm. cbn [Nat.eqb andb].
    rewrite (iv_check_spec c n) by apply GC. rewrite Hiv, Nat.eqb_refl. eexists. reflexivity.
  - intros [o H]. rewrite (cfb_new_empty c n) in H by apply GC.
    destruct (_ && _) eqn:Eb in H; [|discriminate]. rewrite !Bool.andb_true_iff, !Nat.eqb_eq, !Nat.leb_le in Eb.
    exists (sbits / 8)%nat. split; [apply mod8; apply Eb|]. lia.
  - intros (s & -> & Hs). destruct (Hd s) as [D1 D2].
    rewrite (cfb_new_empty c n), D1, D2 by apply GC.
    replace (1 <=? s)%nat with true by (symmetry; apply Nat.leb_le; lia).
    replace (s <=? n)%nat with true by (symmetry; apply Nat.leb_le; lia). cbn [Nat.eqb andb].
    rewrite (iv_check_spec c n) by apply GC. rewrite Hiv, Nat.eqb_refl. eexists. reflexivity.
Qed.
Lemma cfb_default_spec : (4 <= n)%nat ->
  forall iv sbits o dst dst' m, length iv = n -> bytes iv -> bytes m ->
  cfb_new c (DefaultPadding c) (iv, Ok tt) sbits = Ok o ->
  let s := (sbits / 8)%nat in
  let ct := CFB E s iv (whole s m ++ pad10 n (rest s m)) in
  cfb_encrypt o dst m = (ct, Ok (length ct)) /\
  cfb_decrypt o dst' ct = (m, Ok (length m)) /\
  forall bad, (length bad mod s <> 0)%nat -> cfb_decrypt o dst' bad = (dst', Err InvalidParameter).
Proof.
  intros H4 iv sbits o dst dst' m H1 H2 Hm Ho s ct. apply cfb_new_ok in Ho; auto. cbv zeta in Ho. fold s in Ho.
  destruct Ho as (_ & Hs & Hd & ->). pose proof (mkV iv H1 H2) as Hiv.
  pose proof (cfb_encrypt_default c n E D GC s Hs Hd iv dst m Hiv Hm) as He. split; [exact He|].
  pose proof (cfb_roundtrip_default c n E D GC s Hs Hd iv dst' dst m Hiv Hm) as Hr. rewrite He in Hr.
  split; [exact Hr|]. intros bad Hb. apply cfb_decrypt_badlen; auto.
Qed.
Lemma cfb_empty_spec iv s dst dst' m : length iv = n -> bytes iv -> bytes m ->
  (0 < s <= n)%nat ->
  let o := mkCfb s c EmptyPadding iv in
  let ct := CFB E s iv (whole s m) in
  cfb_encrypt o dst m = (ct, Ok (length ct)) /\
  cfb_decrypt o dst' ct = (whole s m, Ok (length (whole s m))) /\
  length ct = (length m - length m mod s)%nat.
Proof.
  intros H1 H2 Hm Hs o ct. pose proof (mkV iv H1 H2) as Hiv.
  pose proof (cfb_encrypt_empty c n E D GC s Hs iv dst m Hiv Hm) as He. split; [exact He|].
  pose proof (cfb_roundtrip_empty c n E D GC s Hs iv dst' dst m Hiv Hm) as Hr. rewrite He in Hr.
  split; [exact Hr|]. unfold ct.
  destruct (CFB_roundtrip c n E D GC s Hs (whole s m) iv Hiv) as (_ & L & _).
  - unfold whole. apply bytes_firstn; auto.
  - apply whole_mod. lia.
  - rewrite L, whole_length by lia. reflexivity.
Qed.
Lemma cfb_enc_stream_spec s iv evs : (0 < s <= n)%nat ->
  length iv = n -> bytes iv -> Forall (fun e => bytes (fst e)) evs ->
  let m := concat (map fst evs) in
  ((n mod s = 0)%nat -> let o := mkCfb s c (DefaultPadding c) iv in
   run_stream (cfb_enc_ops o) (cfb_stream_init o) evs = (cfb_stream_init o, fst (cfb_encrypt o [] m), Ok tt)) /\
  (let o := mkCfb s c EmptyPadding iv in
   run_stream (cfb_enc_ops o) (cfb_stream_init o) evs = (cfb_stream_init o, fst (cfb_encrypt o [] m), Ok tt)).
Proof.
  intros Hs H1 H2 He m. pose proof (mkV iv H1 H2) as Hiv. split.
  - intros Hd. apply (cfb_enc_stream_default c n E D GC s Hs Hd iv evs Hiv He).
  - apply (cfb_enc_stream_empty c n E D GC s Hs iv evs Hiv He).
Qed.
Lemma no_draw {S} (ops : stream_ops S) evs : (forall d b, In (d, b) evs -> b = false) ->
  forall s out0 st out, run_writes ops s out0 evs = (st, out, Ok tt) -> out = out0.
Proof.
  induction evs as [|[d b] evs IH]; intros Hf s out0 st out H; cbn in H; [injection H as _ <-; reflexivity|].
  destruct (op_write ops s d) as [s' [u|e|]]; try discriminate.
  rewrite (Hf d b) in H by (left; reflexivity). eapply IH; [|exact H]. intros d' b' Hin. apply (Hf d'). right; auto.
Qed.
Lemma cfb_dec_stream_spec s iv evs m : (0 < s <= n)%nat -> (n mod s = 0)%nat ->
  length iv = n -> bytes iv -> bytes m ->
  let o := mkCfb s c (DefaultPadding c) iv in
  concat (map fst evs) = fst (cfb_encrypt o [] m) ->
  Forall (fun e => bytes (fst e)) evs ->
  exists st out,
   run_writes (cfb_dec_ops o) (cfb_stream_init o) [] evs = (st, out, Ok tt) /\
   ((forall d b, In (d, b) evs -> b = false) -> out = []) /\
   ((length out <= length m)%nat ->
      run_stream (cfb_dec_ops o) (cfb_stream_init o) evs = (cfb_stream_init o, m, Ok tt)) /\
   ((length m < length out)%nat ->
      snd (run_stream (cfb_dec_ops o) (cfb_stream_init o) evs) = Err UnpaddingNotMatch).
Proof.
  intros Hs Hd H1 H2 Hm o Hc He.
  destruct (cfb_dec_stream_default c n E D GC s Hs Hd iv evs m (mkV iv H1 H2) Hm Hc He) as (st & out & A & B & C).
  exists st, out. split; [exact A|]. split; [|split; [exact B|exact C]].
  intros Hf. eapply no_draw; eauto.
Qed.
Lemma cfb_dec_stream_trunc' s p iv evs : (0 < s <= n)%nat ->
  length iv = n -> bytes iv -> Forall (fun e => bytes (fst e)) evs ->
  (length (concat (map fst evs)) mod s <> 0)%nat ->
  let o := mkCfb s c p iv in
  snd (run_stream (cfb_dec_ops o) (cfb_stream_init o) evs) = Panic.
Proof. intros Hs H1 H2 He Hl o. apply (cfb_dec_stream_trunc c n E D GC s Hs p iv evs (mkV iv H1 H2) He Hl). Qed.

Lemma ofb_spec iv dst m : length iv = n -> bytes iv ->
  let o := mkOfb c iv in
  let ct := OFB E n iv m in
  length ct = length m /\
  ofb_encrypt o dst m = (ct, Ok (length m)) /\ ofb_decrypt o dst ct = (m, Ok (length m)) /\
  forall evs, Forall (fun e => bytes (fst e)) evs -> concat (map fst evs) = m ->
    run_stream (ofb_ops o) (ofb_stream_init o) evs = (ofb_stream_init o, ct, Ok tt).
Proof.
  intros H1 H2 o ct. pose proof (mkV iv H1 H2) as Hiv.
  split; [apply (OFB_length c n E D GC); auto|].
  pose proof (ofb_encrypt_spec c n E D GC iv dst m Hiv) as He. split; [exact He|].
  pose proof (ofb_roundtrip c n E D GC iv dst dst m Hiv) as Hr. rewrite He in Hr. split; [exact Hr|].
  intros evs Hev <-. apply (ofb_stream_ok c n E D GC iv evs Hiv Hev).
Qed.
Lemma ctr_reset_calls init bits k o ms : bytes init -> counter_new init bits = Ok k -> ctr_new c k = Ok o ->
  ctr_clone (ctr_calls o ms) = o /\
  mkCtr c (counter_reset (ctr_ctr (ctr_calls o ms))) = o.
Proof.
  intros Hb H1 H2. destruct (ctr_new_at c n E D GC _ _ _ _ H1 H2) as (A & B & ->).
  rewrite (ctr_calls_at c n E D GC) by auto. split; reflexivity.
Qed.
End WithCipher.
