(** SHA-3 and SHAKE objects against FIPS 202, in every history. *)
From Verif Require Import Base HashModel MdProofs HashApi KeccakModel KeccakSpec KeccakProofs SpongeProofs.

(** ** Objects *)
Definition sp_good (rate : nat) (sp : sponge) (M : list bool) : Prop :=
  sp_rate sp = rate /\ sp_buf sp = map Z.b2z M /\ kwf (sp_k sp) /\ kparams k1600 (sp_k sp).
Lemma k1600_new : keccak_new 1600 24 = Ok k1600.
Proof. reflexivity. Qed.
Lemma k1600_wf : kwf k1600.
Proof. repeat split; cbn [k1600 k_l k_w k_buf0 k_buf1]; try lia; apply wf_tab3; intros; exact cell_0. Qed.
Lemma sp_good_new rate : sp_good rate (mkSponge rate k1600 []) [].
Proof. repeat split; try apply k1600_wf. Qed.
Lemma sp_good_clear rate sp M : sp_good rate sp M -> sp_good rate (clear_buf sp) [].
Proof. intros (H1 & H2 & H3 & H4). repeat split; auto; apply H3 || apply H4. Qed.
Lemma sp_good_write rate sp M data n : sp_good rate sp M -> sp_good rate (write_to_buf sp data n) (M ++ firstn n (h2b data)).
Proof.
  intros (H1 & H2 & H3 & H4). unfold write_to_buf. split; [exact H1|]. cbn [sp_buf sp_k]. split; [|auto].
  rewrite H2, flat_byte_bits, firstn_map, map_app. reflexivity.
Qed.
Lemma kparams_1600 k : kparams k1600 k -> k_b k = 1600%nat /\ k_w k = 64%nat /\ k_l k = 6%nat /\ k_nr k = 24%nat.
Proof. intros H. exact H. Qed.
Lemma sponge_good rate sp M want : (0 < rate <= 1600)%nat -> sp_good rate sp M ->
  exists sp', sponge_buf sp want = Ok (sp', b2h (SPONGE (KECCAK_p 6 24) 1600 rate M want)) /\ sp_good rate (clear_buf sp') [].
Proof.
  intros Hr (H1 & H2 & H3 & H4). destruct sp as [r k buf]. cbn [sp_rate sp_k sp_buf] in *. subst r buf.
  destruct (kparams_1600 k H4) as (Pb & Pw & Pl & Pn).
  assert (Eb : k_b k = (25 * k_w k)%nat) by (rewrite Pb, Pw; reflexivity).
  assert (En : (k_nr k <= 12 + 2 * k_l k)%nat) by (rewrite Pn, Pl; lia).
  assert (Er : (0 < rate <= k_b k)%nat) by (rewrite Pb; exact Hr).
  destruct (sponge_ok k rate H3 Eb En Er M want) as (sp' & E & R1 & R2 & R3).
  rewrite Pl, Pn, Pb in E. exists sp'. split; [exact E|]. unfold sp_good, clear_buf. cbn [sp_rate sp_buf sp_k].
  split; [exact R1|]. split; [reflexivity|]. split; [exact R2|]. eapply kparams_trans; eauto.
Qed.
Lemma suffix_good rate sp M suffix slen want : (0 < rate <= 1600)%nat -> sp_good rate sp M ->
  let '(sp', d) := absorb_suffix sp suffix slen want in
  d = b2h (SPONGE (KECCAK_p 6 24) 1600 rate (M ++ firstn slen (h2b [suffix])) want) /\ sp_good rate sp' [].
Proof.
  intros Hr H. unfold absorb_suffix. pose proof (sp_good_write rate sp M [suffix] slen H) as W.
  destruct (sponge_good rate _ _ want Hr W) as (sp' & E & G). rewrite E. auto.
Qed.

(** ** SHA-3 *)
Inductive sop := SWrite (d : list Z) | SBit (v : Z) | SChecksum | SReset.
Definition s3_exec (bits : nat) (st : sha3st * list (list Z)) (o : sop) : sha3st * list (list Z) :=
  let '(s, outs) := st in
  match o with
  | SWrite d => (sha3_write s d, outs)
  | SBit v => (sha3_write_bit s v, outs)
  | SChecksum => let '(s, d) := sha3_checksum bits s in (s, outs ++ [d])
  | SReset => (sha3_reset s, outs)
  end.
(** The ideal object: a message in bits; a write after [checksum] starts a new message. *)
Fixpoint s3_run (F : list bool -> list Z) (m : list bool) (fin : bool) (os : list sop) : list (list Z) :=
  match os with
  | [] => []
  | SWrite d :: os => s3_run F (if fin then h2b d else m ++ h2b d) false os
  | SBit v :: os => s3_run F (if fin then [Z.odd v] else m ++ [Z.odd v]) false os
  | SChecksum :: os => F m :: s3_run F m true os
  | SReset :: os => s3_run F [] false os
  end.
Section S3.
Variable bits : nat.
Hypothesis Hbits : (0 < bits <= 512)%nat.
Notation rate := (1600 - 2 * bits)%nat.
Notation F := (fun m => b2h (SHA3_bits bits m)).
Definition s3_good (s : sha3st) (m : list bool) (fin : bool) : Prop :=
  s3_checked s = fin /\ sp_good rate (s3_sponge s) (if fin then [] else m) /\ (fin = true -> s3_digest s = F m).
Lemma s3_good_new : s3_good (sha3_init bits) [] false.
Proof. split; [reflexivity|]. split; [apply sp_good_new|discriminate]. Qed.
Lemma s3_good_bits s m fin data n : s3_good s m fin ->
  s3_good (mkSha3 (s3_digest s) (write_to_buf (s3_sponge s) data n) false) (if fin then firstn n (h2b data) else m ++ firstn n (h2b data)) false.
Proof.
  intros (H1 & H2 & _). split; [reflexivity|]. split; [|discriminate]. cbn [s3_sponge]. pose proof (sp_good_write rate _ _ data n H2) as W.
  destruct fin; exact W.
Qed.
Lemma s3_good_write s m fin d : s3_good s m fin -> s3_good (sha3_write s d) (if fin then h2b d else m ++ h2b d) false.
Proof.
  intros H. pose proof (s3_good_bits s m fin d (8 * length d) H) as W. rewrite firstn_all2 in W by (rewrite h2b_length; lia). exact W.
Qed.
Lemma h2b_bit v : firstn 1 (h2b [v]) = [Z.odd v].
Proof. cbn [h2b flat_map seq map app firstn]. change (Z.of_nat 0) with 0. rewrite Z.bit0_odd. reflexivity. Qed.
Lemma s3_good_bit s m fin v : s3_good s m fin -> s3_good (sha3_write_bit s v) (if fin then [Z.odd v] else m ++ [Z.odd v]) false.
Proof. intros H. pose proof (s3_good_bits s m fin [v] 1 H) as W. rewrite h2b_bit in W. exact W. Qed.
Lemma s3_good_reset s m fin : s3_good s m fin -> s3_good (sha3_reset s) [] false.
Proof. intros (_ & H2 & _). split; [reflexivity|]. split; [|discriminate]. cbn [sha3_reset s3_sponge]. eapply sp_good_clear; eauto. Qed.
Lemma s3_good_checksum s m fin : s3_good s m fin ->
  snd (sha3_checksum bits s) = F m /\ s3_good (fst (sha3_checksum bits s)) m true /\
  sha3_checksum bits (fst (sha3_checksum bits s)) = sha3_checksum bits s.
Proof.
  intros (H1 & H2 & H3). unfold sha3_checksum. rewrite H1. destruct fin.
  - cbn [fst snd]. rewrite H1. split; [apply H3; reflexivity|]. split; [|reflexivity]. split; [exact H1|]. split; [exact H2|exact H3].
  - pose proof (suffix_good rate _ _ 2 2 bits ltac:(lia) H2) as W. destruct (absorb_suffix (s3_sponge s) 2 2 bits) as [sp d].
    destruct W as [-> G]. cbn [fst snd s3_checked s3_digest]. split; [reflexivity|]. split; [|reflexivity].
    split; [reflexivity|]. split; [exact G|reflexivity].
Qed.
Lemma s3_history os : forall s m fin outs, s3_good s m fin ->
  snd (fold_left (s3_exec bits) os (s, outs)) = outs ++ s3_run F m fin os.
Proof.
  induction os as [|o os IH]; intros s m fin outs H; cbn [fold_left s3_run]; [cbn; rewrite app_nil_r; reflexivity|].
  destruct o as [d|v| |]; cbn [s3_exec].
  - apply IH, s3_good_write, H.
  - apply IH, s3_good_bit, H.
  - destruct (s3_good_checksum s m fin H) as (E & G & _). destruct (sha3_checksum bits s) as [s' d]. cbn [fst snd] in *. subst d.
    rewrite (IH s' m true) by exact G. rewrite <- app_assoc. reflexivity.
  - apply IH. eapply s3_good_reset; eauto.
Qed.
End S3.

(** ** SHAKE *)
Inductive xop := XWrite (d : list Z) | XChecksum | XReset | XSetLen (n : nat) | XRaw.
Definition x_exec (st : shakest * list (list Z)) (o : xop) : shakest * list (list Z) :=
  let '(s, outs) := st in
  match o with
  | XWrite d => (shake_write s d, outs)
  | XChecksum => let '(s, d) := shake_checksum s in (s, outs ++ [d])
  | XReset => (shake_reset s, outs)
  | XSetLen n => (set_digest_len s n, outs)
  | XRaw => (to_raw_shake s, outs)
  end.
Definition XOF (strength : nat) (raw : bool) (d : nat) (m : list bool) : list Z :=
  b2h (if raw then RawSHAKE_bits strength m d else SHAKE_bits strength m d).
(** What the object returns: [cache] is the digest kept from the last [checksum]. *)
Fixpoint x_run (strength : nat) (raw : bool) (d : nat) (m : list bool) (cache : option (list Z)) (os : list xop) : list (list Z) :=
  match os with
  | [] => []
  | XWrite x :: os => x_run strength raw d (match cache with None => m ++ h2b x | Some _ => h2b x end) None os
  | XChecksum :: os =>
      let v := match cache with Some v => v | None => XOF strength raw d m end in v :: x_run strength raw d m (Some v) os
  | XReset :: os => x_run strength raw d [] None os
  | XSetLen n :: os => x_run strength raw n [] None os
  | XRaw :: os => x_run strength true d m cache os
  end.
Section X.
Variable strength : nat.
Hypothesis Hs : (0 < strength <= 512)%nat.
Notation rate := (1600 - 2 * strength)%nat.
Definition x_good (s : shakest) (raw : bool) (d : nat) (m : list bool) (cache : option (list Z)) : Prop :=
  sk_want s = d /\ (sk_suffix s, sk_slen s) = (if raw then (3, 2%nat) else (15, 4%nat)) /\
  match cache with
  | None => sk_checked s = false /\ sp_good rate (sk_sponge s) m
  | Some v => sk_checked s = true /\ sp_good rate (sk_sponge s) [] /\ sk_digest s = v
  end.
Lemma x_good_new d : x_good (shake_new strength d) false d [] None.
Proof. split; [reflexivity|]. split; [reflexivity|]. split; [reflexivity|apply sp_good_new]. Qed.
Lemma x_good_sponge s raw d m cache : x_good s raw d m cache -> exists M, sp_good rate (sk_sponge s) M.
Proof. intros (_ & _ & H). destruct cache; [exists []|exists m]; apply H. Qed.
Lemma x_history os : forall s raw d m cache outs, x_good s raw d m cache ->
  snd (fold_left x_exec os (s, outs)) = outs ++ x_run strength raw d m cache os.
Proof.
  induction os as [|o os IH]; intros s raw d m cache outs H; cbn [fold_left x_run]; [cbn; rewrite app_nil_r; reflexivity|].
  destruct o as [x| | |n|]; cbn [x_exec].
  - apply IH. destruct H as (H1 & H2 & H3). split; [exact H1|]. split; [exact H2|]. split; [reflexivity|]. cbn [shake_write sk_sponge].
    assert (W : forall M, sp_good rate (sk_sponge s) M -> sp_good rate (write_to_buf (sk_sponge s) x (8 * length x)) (M ++ h2b x)).
    { intros M G. pose proof (sp_good_write rate _ M x (8 * length x) G) as W. rewrite firstn_all2 in W by (rewrite h2b_length; lia). exact W. }
    destruct cache; [apply (W [])|apply W]; apply H3.
  - destruct H as (H1 & H2 & H3). unfold shake_checksum. destruct cache as [v|].
    + destruct H3 as (H3 & H4 & H5). rewrite H3, H5. rewrite (IH s raw d m (Some v)) by (split; [exact H1|split; [exact H2|auto]]).
      rewrite <- app_assoc. reflexivity.
    + destruct H3 as (H3 & H4). rewrite H3.
      pose proof (suffix_good rate _ _ (sk_suffix s) (sk_slen s) (sk_want s) ltac:(lia) H4) as W.
      destruct (absorb_suffix (sk_sponge s) (sk_suffix s) (sk_slen s) (sk_want s)) as [sp dg]. destruct W as [E G].
      assert (E2 : dg = XOF strength raw d m).
      { rewrite E, H1. unfold XOF. destruct raw; injection H2 as E1 E2; rewrite E1, E2; reflexivity. }
      subst dg. rewrite E2. rewrite (IH _ raw d m (Some (XOF strength raw d m))).
      * rewrite <- app_assoc. reflexivity.
      * split; [exact H1|]. split; [exact H2|]. split; [reflexivity|]. split; [exact G|reflexivity].
  - apply IH. destruct (x_good_sponge _ _ _ _ _ H) as [M G]. destruct H as (H1 & H2 & _). split; [exact H1|]. split; [exact H2|].
    split; [reflexivity|]. eapply sp_good_clear; exact G.
  - apply IH. destruct (x_good_sponge _ _ _ _ _ H) as [M G]. destruct H as (H1 & H2 & _). split; [reflexivity|]. split; [exact H2|].
    split; [reflexivity|]. eapply sp_good_clear; exact G.
  - apply IH. destruct H as (H1 & H2 & H3). split; [exact H1|]. split; [reflexivity|]. exact H3.
Qed.
End X.

(** ** Prefixes *)
Lemma Nat_iter_length (f : list bool -> list bool) b S i : length S = b -> (forall S, length (f S) = b) -> length (Nat.iter i f S) = b.
Proof. intros H Hf. destruct i; [exact H|]. cbn [Nat.iter nat_rect]. apply Hf. Qed.
Lemma flat_prefix (g : nat -> list bool) r d i j : (forall n, length (g n) = r) -> (i <= j)%nat -> (d <= i * r)%nat ->
  firstn d (flat_map g (seq 0 i)) = firstn d (flat_map g (seq 0 j)).
Proof.
  intros Hg Hij Hd. assert (L : forall n, length (flat_map g (seq 0 n)) = (n * r)%nat).
  { induction n as [|n IH]; [reflexivity|]. rewrite seq_S, flat_map_app, app_length, IH. cbn [flat_map plus]. rewrite app_nil_r, Hg. lia. }
  induction j as [|j IH]; [assert (i = 0)%nat by lia; subst; reflexivity|].
  destruct (Nat.eq_dec i (S j)) as [->|N]; [reflexivity|]. rewrite IH by lia. rewrite seq_S, flat_map_app, firstn_app, L.
  replace (d - j * r)%nat with 0%nat by nia. rewrite firstn_O, app_nil_r. reflexivity.
Qed.
Lemma SPONGE_prefix f b r N d1 d2 : (0 < r <= b)%nat -> (forall S, length (f S) = b) -> (d1 <= d2)%nat ->
  firstn d1 (SPONGE f b r N d2) = SPONGE f b r N d1.
Proof.
  intros Hr Hf Hd. unfold SPONGE.
  set (S0 := fold_left _ (blocks r (N ++ pad10s1 r (length N))) (repeat false b)).
  assert (LS : length S0 = b).
  { unfold S0. destruct (blocks r (N ++ pad10s1 r (length N))) as [|p ps] using rev_ind; [apply repeat_length|].
    rewrite fold_left_app. apply Hf. }
  rewrite firstn_firstn, Nat.min_l by auto. symmetry.
  apply (flat_prefix _ r).
  - intros n. rewrite firstn_length_le; [reflexivity|]. rewrite (Nat_iter_length f b); auto. lia.
  - pose proof (Nat.div_le_mono d1 d2 r ltac:(lia) Hd). lia.
  - pose proof (Nat.div_mod d1 r ltac:(lia)). pose proof (Nat.mod_upper_bound d1 r ltac:(lia)). nia.
Qed.
Lemma SPONGE_length f b r N d : (0 < r <= b)%nat -> (forall S, length (f S) = b) -> length (SPONGE f b r N d) = d.
Proof.
  intros Hr Hf. unfold SPONGE. set (S0 := fold_left _ (blocks r (N ++ pad10s1 r (length N))) (repeat false b)).
  assert (LS : length S0 = b).
  { unfold S0. destruct (blocks r (N ++ pad10s1 r (length N))) as [|p ps] using rev_ind; [apply repeat_length|]. rewrite fold_left_app. apply Hf. }
  apply firstn_length_le.
  assert (L : forall n, length (flat_map (fun i => firstn r (Nat.iter i f S0)) (seq 0 n)) = (n * r)%nat).
  { induction n as [|n IH]; [reflexivity|]. rewrite seq_S, flat_map_app, app_length, IH. cbn [flat_map plus]. rewrite app_nil_r, firstn_length_le; [lia|].
    rewrite (Nat_iter_length f b); auto. lia. }
  rewrite L. pose proof (Nat.div_mod d r ltac:(lia)). pose proof (Nat.mod_upper_bound d r ltac:(lia)). nia.
Qed.
Lemma bits_val_bound l : 0 <= bits_val l < 2 ^ Z.of_nat (length l).
Proof.
  induction l as [|c l IH]; cbn [length]; [cbn; lia|]. change (bits_val (c :: l)) with (Z.b2z c + 2 * bits_val l).
  rewrite Nat2Z.inj_succ, Z.pow_succ_r by lia. destruct c; cbn [Z.b2z]; lia.
Qed.
Lemma bits_val_testbit l i : Z.testbit (bits_val l) (Z.of_nat i) = nth i l false.
Proof.
  revert i; induction l as [|c l IH]; intros i; [destruct i; apply Z.testbit_0_l|].
  change (bits_val (c :: l)) with (Z.b2z c + 2 * bits_val l). rewrite Z.add_comm. destruct i as [|i].
  - change (Z.of_nat 0) with 0. destruct c; cbn [Z.b2z]; [apply Z.testbit_odd_0|rewrite Z.add_0_r; apply Z.testbit_even_0].
  - rewrite Nat2Z.inj_succ. cbn [nth]. rewrite <- IH. destruct c; cbn [Z.b2z]; [apply Z.testbit_odd_succ; lia|rewrite Z.add_0_r; apply Z.testbit_even_succ; lia].
Qed.
Lemma b2h_length l : length (b2h l) = ((length l + 7) / 8)%nat.
Proof. unfold b2h. rewrite map_length, seq_length. reflexivity. Qed.
Lemma b2h_bytes l : bytes (b2h l).
Proof.
  unfold b2h. apply Forall_map, Forall_forall. intros i _. pose proof (bits_val_bound (firstn 8 (skipn (8 * i) l))) as B.
  pose proof (firstn_le_length 8 (skipn (8 * i) l)) as L. unfold byte. split; [lia|]. eapply Z.lt_le_trans; [apply B|].
  change 256 with (2 ^ 8). apply Z.pow_le_mono_r; lia.
Qed.
Lemma h2b_nth m i : nth i (h2b m) false = Z.testbit (nth (i / 8) m 0) (Z.of_nat (i mod 8)).
Proof.
  revert i; induction m as [|e m IH]; intros i.
  - cbn [h2b flat_map]. rewrite !nth_overflow by (cbn; lia). rewrite Z.testbit_0_l. reflexivity.
  - change (h2b (e :: m)) with (map (fun i => Z.testbit e (Z.of_nat i)) (seq 0 8) ++ h2b m).
    destruct (Nat.lt_ge_cases i 8) as [H|H].
    + rewrite app_nth1 by (rewrite map_length, seq_length; lia). rewrite nth_map_seq by auto.
      rewrite Nat.div_small, Nat.mod_small by auto. reflexivity.
    + rewrite app_nth2 by (rewrite map_length, seq_length; lia). rewrite map_length, seq_length, IH.
      assert (D : (i / 8 = S ((i - 8) / 8))%nat) by (replace i with (i - 8 + 1 * 8)%nat at 1 by lia; rewrite Nat.div_add by lia; lia).
      assert (M : (i mod 8 = (i - 8) mod 8)%nat) by (replace i with (i - 8 + 1 * 8)%nat at 1 by lia; apply Nat.mod_add; lia).
      rewrite D, M. reflexivity.
Qed.
Lemma h2b_b2h l : firstn (length l) (h2b (b2h l)) = l.
Proof.
  assert (L : (length l <= length (h2b (b2h l)))%nat).
  { rewrite h2b_length, b2h_length. pose proof (Nat.div_mod (length l + 7) 8 ltac:(lia)). pose proof (Nat.mod_upper_bound (length l + 7) 8 ltac:(lia)). lia. }
  apply nth_ext with (d := false) (d' := false); [apply firstn_length_le; exact L|]. intros i Hi. rewrite firstn_length_le in Hi by exact L.
  assert (E : nth i (firstn (length l) (h2b (b2h l))) false = nth i (h2b (b2h l)) false).
  { rewrite <- (firstn_skipn (length l) (h2b (b2h l))) at 2. rewrite app_nth1; [reflexivity|]. rewrite firstn_length_le; auto. }
  pose proof (Nat.div_mod i 8 ltac:(lia)) as D. pose proof (Nat.mod_upper_bound i 8 ltac:(lia)) as M.
  rewrite E, h2b_nth. unfold b2h. rewrite nth_map_seq by (apply Nat.div_lt_upper_bound; [lia|]; pose proof (Nat.div_mod (length l + 7) 8 ltac:(lia)); pose proof (Nat.mod_upper_bound (length l + 7) 8 ltac:(lia)); lia).
  rewrite bits_val_testbit.
  assert (N : forall (l : list bool) n i, (i < n)%nat -> nth i (firstn n l) false = nth i l false).
  { induction l0 as [|c l0 IH]; intros [|n] [|j] H; cbn [firstn nth]; try lia; auto. apply IH. lia. }
  rewrite N by exact M. assert (K : forall (l : list bool) n i, nth i (skipn n l) false = nth (n + i) l false).
  { induction l0 as [|c l0 IH]; intros [|n] j; cbn [skipn nth plus]; auto. destruct j; reflexivity. }
  rewrite K, <- D. reflexivity.
Qed.
