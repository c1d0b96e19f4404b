(** The library's hashes under HMAC and its ciphers under CMAC. *)
From Verif Require Import Base Words ModesModel ModesSpec AesModel AesSpec AesKeys AesApi Sm4Model Sm4Spec Sm4Proofs Sm4Api DesModel DesSpec DesProofs DesLink CipherDst BlockApi
  HashModel HashSpec MdProofs WordW CompressProofs HashApi PropHash MacModel MacSpec MacProofs CmacProofs.

Lemma repo_sizes D s0 h zl : In (D, s0, h, zl) repo_hashes ->
  d_block_size D = Some (mk_B h) /\ (d_bits_len D / 8 <= mk_B h)%nat /\ (mk_B h <= 128)%nat.
Proof.
  intros H. cbv [repo_hashes] in H. cbn [In] in H.
  repeat (destruct H as [H|H]; [apply pair_equal_spec in H; destruct H as [H E4]; apply pair_equal_spec in H; destruct H as [H E3];
    apply pair_equal_spec in H; destruct H as [E1 E2]; rewrite <- E1, <- E3;
    split; [reflexivity|split; apply Nat.leb_le; reflexivity]|]).
  destruct H.
Qed.
Lemma facts_good D s0 h zl : HashFacts D s0 h zl -> GoodDigest D (mk_hash h) M64.
Proof. intros [G _ _ _ _]. exact G. Qed.
Lemma hmac_repo D s0 h zl key df os : In (D, s0, h, zl) repo_hashes -> bytes key -> Forall mop_bytes os ->
  Z.of_nat (length key + total_size os) + 256 < 2 ^ 64 ->
  exists s, hmac_new D key df = Ok s /\
    snd (fold_left (hm_exec D) os (s, [])) = mac_run (HMAC_value (mk_hash h) (mk_B h)) key [] false os.
Proof.
  intros I Hk Fo HL. destruct (repo_sizes _ _ _ _ I) as (S1 & S2 & S3).
  assert (M : M64 = 2 ^ 64) by reflexivity.
  apply (hmac_correct D (fun _ => True) (mk_hash h) M64 (mk_B h)); auto; [exact (good_ok _ _ _ (facts_good _ _ _ _ (repo_facts _ _ _ _ I)))| |]; lia.
Qed.
(** CMAC depends on the cipher only through its values on byte blocks. *)
Lemma cmac_ext E E' b R : (0 < b)%nat ->
  (forall x, length x = b -> bytes x -> E x = E' x /\ length (E x) = b /\ bytes (E x)) ->
  forall m, bytes m -> CMAC_value E b R m = CMAC_value E' b R m.
Proof.
  intros Hb X m Hm.
  assert (Z0 : bytes (repeat 0 b)) by (apply bytes_repeat; unfold byte; lia).
  assert (K1 : CMAC_K1 E b R = CMAC_K1 E' b R) by (unfold CMAC_K1; rewrite (proj1 (X _ (repeat_length 0 b) Z0)); reflexivity).
  assert (K2 : CMAC_K2 E b R = CMAC_K2 E' b R) by (unfold CMAC_K2; rewrite K1; reflexivity).
  assert (FL : forall cs i, length i = b -> bytes i -> Forall (fun c => length c = b) cs -> Forall bytes cs ->
    fold_left (fun C M => E (xorl C M)) cs i = fold_left (fun C M => E' (xorl C M)) cs i /\
    length (fold_left (fun C M => E (xorl C M)) cs i) = b /\ bytes (fold_left (fun C M => E (xorl C M)) cs i)).
  { induction cs as [|c cs IH]; intros i Li Bi F1 F2; cbn [fold_left]; [auto|].
    apply Forall_cons_iff in F1 as [F11 F12]. apply Forall_cons_iff in F2 as [F21 F22].
    destruct (X (xorl i c)) as (X1 & X2 & X3); [rewrite xorl_length; lia|apply xorl_bytes; auto|]. rewrite <- X1. apply IH; auto. }
  unfold CMAC_value. rewrite <- K1, <- K2.
  set (complete := (0 <? length m)%nat && (length m mod b =? 0)%nat).
  set (k := if complete then (length m - b)%nat else (length m / b * b)%nat).
  pose proof (Nat.div_mod (length m) b ltac:(lia)) as DM. pose proof (Nat.mod_upper_bound (length m) b ltac:(lia)) as MB.
  assert (Kle : (k <= length m)%nat) by (unfold k; destruct complete; nia).
  assert (Kmod : (k mod b = 0)%nat).
  { unfold k. destruct complete eqn:C; [|apply Nat.mod_mul; lia]. unfold complete in C. apply andb_true_iff in C as [C1 C2].
    apply Nat.ltb_lt in C1. apply Nat.eqb_eq in C2. rewrite C2 in DM.
    assert (1 <= length m / b)%nat by nia. replace (length m - b)%nat with ((length m / b - 1) * b)%nat by nia. apply Nat.mod_mul. lia. }
  assert (Rlen : (length (skipn k m) <= b)%nat /\ (complete = true -> length (skipn k m) = b) /\ (complete = false -> (length (skipn k m) < b)%nat)).
  { rewrite skipn_length. unfold k. destruct complete eqn:C.
    - unfold complete in C. apply andb_true_iff in C as [C1 C2]. apply Nat.ltb_lt in C1. apply Nat.eqb_eq in C2. rewrite C2 in DM.
      assert (1 <= length m / b)%nat by nia. repeat split; intros; try discriminate; nia.
    - repeat split; intros; try discriminate; nia. }
  destruct (FL (chunks b (firstn k m)) (repeat 0 b)) as (Q1 & Q2 & Q3).
  - apply repeat_length.
  - exact Z0.
  - apply chunks_lengths; [lia|]. rewrite firstn_length_le by lia. exact Kmod.
  - apply chunks_bytes; [lia|]. apply bytes_firstn; auto.
  - rewrite <- Q1. apply X.
    + rewrite xorl_length, Q2. destruct complete.
      * rewrite xorl_length. unfold CMAC_K1. rewrite gf_double_length. destruct Rlen as (_ & Rl & _). rewrite (Rl eq_refl). lia.
      * rewrite xorl_length. unfold CMAC_K2. rewrite gf_double_length, !app_length, repeat_length. cbn [length].
        destruct Rlen as (_ & _ & Rl). specialize (Rl eq_refl). lia.
    + apply xorl_bytes; [exact Q3|]. destruct complete; (apply xorl_bytes; [|apply gf_double_bytes]); [apply bytes_skipn; auto|].
      apply bytes_app. split; [apply bytes_skipn; auto|]. apply bytes_app. split; [constructor; [unfold byte; lia|constructor]|].
      apply bytes_repeat. unfold byte; lia.
Qed.
Lemma mac_run_ext F G os : (forall k m, bytes m -> F k m = G k m) -> Forall mop_bytes os ->
  forall k m fin, bytes m -> mac_run F k m fin os = mac_run G k m fin os.
Proof.
  intros X. induction os as [|o os IH]; intros Fo k m fin Hm; [reflexivity|]. apply Forall_cons_iff in Fo as [F1 F2].
  destruct o; cbn [mac_run].
  - apply IH; auto. destruct fin; [exact F1|]. apply bytes_app; auto.
  - rewrite X by auto. f_equal. apply IH; auto.
  - apply IH; auto. constructor.
  - apply IH; auto. constructor.
Qed.
(** A CMAC object over [c] computes the CMAC of the standard cipher [F]. *)
Definition cmac_computes (c : cipher) (b : nat) (R : Z) (F : list Z -> list Z) : Prop :=
  forall os, Forall op_bytes os ->
  exists s s', cmac_new c = Ok s /\
    fold_left (cm_exec c b) os (Ok (s, [])) = Ok (s', mac_run (fun _ => CMAC_value F b R) [] [] false (map mop_of os)).
Lemma cmac_std c b E Dd R F : GoodCipher c b E Dd -> block_size_to_rb b = Some R ->
  (forall x, length x = b -> bytes x -> enc c x = Ok (F x)) -> cmac_computes c b R F.
Proof.
  intros G HR HF os Fo. destruct (cmac_correct c b E Dd R G HR os Fo) as (s & s' & E1 & E2). exists s, s'. split; [exact E1|].
  rewrite E2. f_equal. f_equal. apply mac_run_ext; [|clear - Fo|constructor].
  - intros _ m Hm. apply cmac_ext; [exact (gc_pos _ _ _ _ G)| |exact Hm]. intros x Lx Bx.
    split; [|exact (gc_E _ _ _ _ G x Lx Bx)]. specialize (HF x Lx Bx). rewrite (gc_enc _ _ _ _ G x Lx) in HF. congruence.
  - induction Fo as [|o os Ho Fo IH]; cbn [map]; constructor; auto. destruct o; exact Ho.
Qed.
Lemma cmac_aes key a : bytes key -> aes_new key = Ok a -> cmac_computes (aes_cipher a) 16 0x87 (AES_Cipher key).
Proof.
  intros Hk Ha. assert (I : In (length key) [16; 24; 32]%nat) by (apply aes_new_exact; eauto).
  destruct (proj1 all_instances key Hk I) as (a' & E & D & Ea & G).
  assert (a' = a) by congruence. subst a'. apply (cmac_std _ _ E D); [exact G|reflexivity|].
  intros x Lx Bx. exact (proj1 (aes_is_fips key x a Hk Bx Lx Ha)).
Qed.
Lemma cmac_sm4 key k : bytes key -> sm4_from_slice key = Ok k -> cmac_computes (sm4_cipher k) 16 0x87 (SM4_enc key).
Proof.
  intros Hk Ha. assert (I : length key = 16%nat).
  { destruct (Nat.eq_dec (length key) 16) as [e|n]; [exact e|]. destruct (sm4_key_exact key) as [_ N]. rewrite (N n) in Ha. discriminate Ha. }
  destruct (proj1 (proj2 all_instances) key Hk I) as (a' & E & D & Ea & G).
  rewrite Ha in Ea. injection Ea as Ea. apply (cmac_std _ _ E D); [rewrite Ea; exact G|reflexivity|].
  intros x Lx Bx. destruct (sm4_is_std key x Hk I Bx Lx) as (k' & E1 & E2 & _). rewrite Ha in E1. injection E1 as E1. rewrite E1. exact E2.
Qed.
Lemma cmac_tdes k1 k2 k3 : bytes k1 -> bytes k2 -> bytes k3 -> length k1 = 8%nat -> length k2 = 8%nat -> length k3 = 8%nat ->
  cmac_computes (tdes_new k1 k2 k3) 8 0x1b (TDES_enc k1 k2 k3).
Proof.
  intros H1 H2 H3 L1 L2 L3. apply (cmac_std _ _ _ _ _ _ (tdes_good k1 k2 k3 H1 H2 H3 L1 L2 L3)); [reflexivity|].
  intros x Lx Bx. exact (proj1 (tdes_is_std k1 k2 k3 x H1 H2 H3 L1 L2 L3 Bx Lx)).
Qed.
Lemma cmac_des key : bytes key -> length key = 8%nat -> cmac_computes (des_new key) 8 0x1b (DES_enc key).
Proof.
  intros H1 L1. apply (cmac_std _ _ _ _ _ _ (des_good key H1 L1)); [reflexivity|].
  intros x Lx Bx. exact (proj1 (des_is_fips key x H1 L1 Bx Lx)).
Qed.
Lemma cmac_new_exact c b E D : GoodCipher c b E D ->
  ((exists s, cmac_new c = Ok s) <-> In b [4; 6; 8; 12; 16; 20; 24; 28; 32; 40; 48; 56; 64; 96; 128; 256]%nat) /\
  (~ (exists s, cmac_new c = Ok s) -> cmac_new c = Err InvalidParameter).
Proof.
  intros G. assert (T : (exists R, block_size_to_rb b = Some R) <-> In b [4; 6; 8; 12; 16; 20; 24; 28; 32; 40; 48; 56; 64; 96; 128; 256]%nat).
  { split.
    - intros [R HR]. unfold block_size_to_rb in HR. destruct (find _ rb_table) as [e|] eqn:F; [|discriminate HR].
      apply find_some in F as [F1 F2]. apply Z.eqb_eq in F2. rewrite <- (Nat2Z.id b), <- F2.
      repeat (destruct F1 as [<-|F1]; [cbn; tauto|]). destruct F1.
    - intros I. cbn [In] in I. repeat (destruct I as [<-|I]; [eexists; reflexivity|]). destruct I. }
  rewrite <- T. destruct (block_size_to_rb b) as [R|] eqn:Q.
  - destruct (cmac_new_ok c b E D R G Q) as (s & E1 & _). split; [split; eauto|]. intros N. exfalso. eauto.
  - assert (X : cmac_new c = Err InvalidParameter) by (unfold cmac_new; rewrite (gc_blk _ _ _ _ G), Q; reflexivity). rewrite X.
    split; [|auto]. split; [intros [s H]|intros [R H]]; discriminate H.
Qed.
