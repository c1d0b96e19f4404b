(** The DES and TDES objects against FIPS 46-3 / SP 800-67, and spec-level facts: decryption inverts
    encryption, parity bits are ignored, complementation. *)
From Verif Require Import Base Words ModesModel ModesSpec DesModel DesSpec DesProofs.

(** *** bit-string facts *)
Lemma xorb_l_length a b : length (xorb_l a b) = Nat.min (length a) (length b).
Proof. revert b. induction a; intros [|]; cbn; auto. Qed.
Lemma xorb_l_cancel a : forall b, (length a <= length b)%nat -> xorb_l (xorb_l a b) b = a.
Proof.
  induction a as [|x a IH]; intros [|y b] H; cbn in *; try lia; [reflexivity| reflexivity |].
  rewrite IH by lia. f_equal. destruct x, y; reflexivity.
Qed.
Lemma fb_lxor n x y : fb n (Z.lxor x y) = xorb_l (fb n x) (fb n y).
Proof.
  unfold fb. induction (seq 0 n) as [|k l IH]; [reflexivity|]. cbn [map xorb_l]. rewrite Z.lxor_spec. f_equal. exact IH.
Qed.
Lemma perm_length t l : length (perm t l) = length t.
Proof. apply map_length. Qed.
Lemma perm_perm t1 t2 l : forallb (fun k => (1 <=? k)%nat && (k <=? length t2)%nat) t1 = true ->
  perm t1 (perm t2 l) = perm (map (fun k => nth (k - 1) t2 0%nat) t1) l.
Proof.
  intros H. rewrite forallb_forall in H. unfold perm. rewrite map_map. apply map_ext_in. intros k Hk.
  specialize (H k Hk). apply andb_prop in H. destruct H as [H1 H2]. apply Nat.leb_le in H1, H2.
  rewrite (nth_indep _ false ((fun k => nth (k - 1) l false) 0%nat)) by (rewrite map_length; lia).
  rewrite (map_nth (fun k => nth (k - 1) l false)). reflexivity.
Qed.
Lemma perm_id n l : length l = n -> perm (seq 1 n) l = l.
Proof.
  intros H. unfold perm. rewrite <- seq_shift, map_map. subst n.
  transitivity (map (fun x => x) l); [|apply map_id]. rewrite (nth_map_seq _ l false). apply map_ext. intros k. cbn. f_equal. lia.
Qed.
Lemma IP_IPinv l : length l = 64%nat -> perm IP (perm IPinv l) = l.
Proof. intros H. rewrite perm_perm by reflexivity. etransitivity; [|apply (perm_id 64 l H)]. reflexivity. Qed.
Lemma IPinv_IP l : length l = 64%nat -> perm IPinv (perm IP l) = l.
Proof. intros H. rewrite perm_perm by reflexivity. etransitivity; [|apply (perm_id 64 l H)]. reflexivity. Qed.
Lemma F_length r k : length (F r k) = 32%nat.
Proof. unfold F. rewrite perm_length. reflexivity. Qed.

(** *** rounds *)
Lemma rnd_lengths ks : forall lr, length (fst lr) = 32%nat -> length (snd lr) = 32%nat ->
  length (fst (fold_left rnd ks lr)) = 32%nat /\ length (snd (fold_left rnd ks lr)) = 32%nat.
Proof.
  induction ks as [|k ks IH]; intros lr H1 H2; [auto|]. cbn [fold_left]. apply IH; unfold rnd; cbn [fst snd]; [auto|].
  rewrite xorb_l_length, F_length, H1. reflexivity.
Qed.
(** Running the rounds with the keys reversed, on exchanged halves, undoes them. *)
Lemma rnd_undo ks : forall l r, length l = 32%nat -> length r = 32%nat ->
  let lr := fold_left rnd ks (l, r) in
  fold_left rnd (rev ks) (snd lr, fst lr) = (r, l).
Proof.
  induction ks as [|k ks IH]; intros l r Hl Hr lr; [reflexivity|].
  unfold lr. cbn [fold_left rev]. rewrite fold_left_app. change (rnd (l, r) k) with (r, xorb_l l (F r k)).
  rewrite (IH r (xorb_l l (F r k))); [|auto|rewrite xorb_l_length, F_length, Hl; reflexivity].
  cbn [fold_left]. unfold rnd. cbn [fst snd]. f_equal. apply xorb_l_cancel. rewrite F_length. lia.
Qed.
Lemma feistel16_length ks m : length (feistel16 ks m) = 64%nat.
Proof. unfold feistel16. rewrite perm_length. reflexivity. Qed.
Lemma feistel16_inv ks m : length m = 64%nat -> feistel16 (rev ks) (feistel16 ks m) = m.
Proof.
  intros Hm. unfold feistel16 at 2. cbv zeta.
  assert (Hx : length (perm IP m) = 64%nat) by (rewrite perm_length; reflexivity).
  set (x := perm IP m) in *.
  assert (H1 : length (firstn 32 x) = 32%nat) by (rewrite firstn_length; lia).
  assert (H2 : length (skipn 32 x) = 32%nat) by (rewrite skipn_length; lia).
  destruct (rnd_lengths ks (firstn 32 x, skipn 32 x) H1 H2) as [L1 L2].
  pose proof (rnd_undo ks (firstn 32 x) (skipn 32 x) H1 H2) as U. cbv zeta in U.
  revert L1 L2 U. generalize (fold_left rnd ks (firstn 32 x, skipn 32 x)). intros [a b] L1 L2 U. cbn [fst snd] in *.
  unfold feistel16. rewrite IP_IPinv by (rewrite app_length; lia).
  rewrite firstn_app, L2, Nat.sub_diag, firstn_O, app_nil_r, firstn_all2 by lia.
  rewrite skipn_app, L2, Nat.sub_diag, (skipn_all2 b) by lia. cbn [skipn app]. rewrite U. cbn [fst snd].
  rewrite firstn_skipn. apply IPinv_IP; auto.
Qed.

(** *** the code's rounds *)
Lemma pow64 n : (n <= 64)%nat -> 2 ^ Z.of_nat n <= 2 ^ 64.
Proof. intros. apply Z.pow_le_mono_r; lia. Qed.
Lemma lxor_bound n a b : 0 <= a < 2 ^ Z.of_nat n -> 0 <= b < 2 ^ Z.of_nat n -> 0 <= Z.lxor a b < 2 ^ Z.of_nat n.
Proof. intros. apply lxor_range; lia. Qed.
Lemma feistel_spec r k : 0 <= k < 2 ^ 48 ->
  fb 32 (feistel r k) = F (fb 32 r) (fb 48 k) /\ 0 <= feistel r k < 2 ^ 32.
Proof.
  intros Hk. unfold feistel, F. pose proof (permute_bound r DES_E) as HE. change (Z.of_nat (length DES_E)) with 48 in HE.
  pose proof (lxor_range 48 _ _ ltac:(lia) HE Hk) as HX.
  assert (HX' : 0 <= Z.lxor (permute r DES_E) k < 2 ^ 64) by (pose proof (Z.pow_le_mono_r 2 48 64); lia).
  destruct (f_sbox_spec _ HX') as [S1 S2].
  split.
  - change 32%nat with (length Ptab) at 1. rewrite (permute_fb 32 DES_P Ptab) by (vm_compute; reflexivity).
    rewrite S1, fb_lxor. change 48%nat with (length Etab) at 1.
    rewrite (permute_fb 32 DES_E Etab) by (vm_compute; reflexivity). reflexivity.
  - apply (permute_bound _ DES_P).
Qed.
Definition lr_ok (lr : Z * Z) : Prop := 0 <= fst lr < 2 ^ 32 /\ 0 <= snd lr < 2 ^ 32.
Definition lr_bits (lr : Z * Z) : list bool * list bool := (fb 32 (fst lr), fb 32 (snd lr)).
Lemma des_rounds_spec ks : Forall (fun k => 0 <= k < 2 ^ 48) ks -> forall lr, lr_ok lr ->
  lr_ok (fold_left des_round ks lr) /\
  lr_bits (fold_left des_round ks lr) = fold_left rnd (map (fb 48) ks) (lr_bits lr).
Proof.
  induction 1 as [|k ks Hk Hks IH]; intros [l r] Hlr; [split; auto|]. cbn [fold_left map].
  destruct Hlr as [Hl Hr]. cbn [fst snd] in *. destruct (feistel_spec r k Hk) as [F1 F2].
  destruct (IH (des_round (l, r) k)) as [I1 I2].
  { unfold des_round, lr_ok. cbn [fst snd]. split; [auto|]. apply lxor_range; lia. }
  split; [exact I1|]. rewrite I2. f_equal. unfold des_round, lr_bits, rnd. cbn [fst snd]. rewrite fb_lxor, F1. reflexivity.
Qed.
Lemma fold_left_map {A B C} (f : A -> B -> A) (g : C -> B) l a :
  fold_left (fun x i => f x (g i)) l a = fold_left f (map g l) a.
Proof. revert a. induction l; intros; cbn; auto. Qed.

Lemma fb_land32 x : fb 32 (Z.land x (2 ^ 32 - 1)) = firstn 32 (fb 64 x).
Proof.
  rewrite <- fb_prefix by lia. unfold fb. apply map_ext_seq. intros k Hk.
  change (2 ^ 32 - 1) with (Z.ones 32). rewrite Z.land_ones by lia.
  apply Z.mod_pow2_bits_low. unfold pos. pose proof (Nat.mod_upper_bound k 8 ltac:(lia)).
  assert (k / 8 < 4)%nat by (apply Nat.div_lt_upper_bound; lia). lia.
Qed.
Lemma pos_32 k : pos (32 + k) = 32 + pos k.
Proof. unfold pos. replace (32 + k)%nat with (k + 4 * 8)%nat by lia. rewrite Nat.div_add, Nat.mod_add by lia. lia. Qed.
Lemma fb_split x : fb 64 x = fb 32 x ++ fb 32 (Z.shiftr x 32).
Proof.
  unfold fb. change 64%nat with (32 + 32)%nat. rewrite seq_app, map_app. f_equal.
  rewrite (seq_add (0 + 32)), map_map. apply map_ext_seq. intros k Hk.
  change (0 + 32 + k)%nat with (32 + k)%nat. rewrite pos_32, Z.shiftr_spec by apply pos_nonneg. f_equal. lia.
Qed.
Lemma fb_shiftr32 x : fb 32 (Z.shiftr x 32) = skipn 32 (fb 64 x).
Proof.
  rewrite fb_split, skipn_app, fb_length, Nat.sub_diag, skipn_all2 by (rewrite fb_length; lia). reflexivity.
Qed.
Lemma fb_join l r : 0 <= l < 2 ^ 32 -> 0 <= r < 2 ^ 32 ->
  let p := Z.lor (Z.shiftl l 32 mod 2 ^ 64) r in
  fb 64 p = fb 32 r ++ fb 32 l /\ 0 <= p < 2 ^ 64.
Proof.
  intros Hl Hr p.
  assert (E : p = r + 2 ^ 32 * l).
  { unfold p. rewrite Z.mod_small; [rewrite Z.lor_comm; apply lor_shift_add'; lia|].
    rewrite Z.shiftl_mul_pow2 by lia. change (2 ^ 64) with (2 ^ 32 * 2 ^ 32). nia. }
  split; [|rewrite E; change (2 ^ 64) with (2 ^ 32 * 2 ^ 32); nia].
  rewrite fb_split. f_equal.
  - unfold fb. apply map_ext_seq. intros k Hk. rewrite E. rewrite <- (Z.mod_pow2_bits_low (r + _) 32).
    + rewrite Z.mul_comm, Z.mod_add, Z.mod_small by lia. reflexivity.
    + unfold pos. pose proof (Nat.mod_upper_bound k 8 ltac:(lia)).
      assert (k / 8 < 4)%nat by (apply Nat.div_lt_upper_bound; lia). lia.
  - f_equal. rewrite E, Z.shiftr_div_pow2 by lia. rewrite Z.mul_comm, Z.div_add, Z.div_small by lia. lia.
Qed.

Lemma nth_seq_list {A} (l : list A) d n : length l = n -> map (fun i => nth i l d) (seq 0 n) = l.
Proof. intros <-. transitivity (map (fun x => x) l); [|apply map_id]. symmetry. apply (nth_map_seq (fun x => x)). Qed.
Lemma nth_rev_list (l : list Z) : length l = 16%nat -> map (fun i => nth (15 - i) l 0) (seq 0 16) = rev l.
Proof. intros H. list_of l H 16%nat. reflexivity. Qed.

Lemma IP_bits src : bytes src -> length src = 8%nat -> fb 64 (permute (le_val src) DES_IP) = perm IP (to_bits src).
Proof.
  intros Hs Hsl. rewrite <- (fb_le_val src Hs 8 Hsl).
  exact (permute_fb 64 DES_IP IP (le_val src) ltac:(vm_compute; reflexivity)).
Qed.
Lemma IIP_bytes p : le_bytes 8 (permute p DES_IIP) = of_bits (perm IPinv (fb 64 p)).
Proof.
  rewrite <- (of_to_bits (le_bytes 8 (permute p DES_IIP))) by apply le_bytes_bytes. f_equal.
  rewrite (fb_bytes 8); [|exact (permute_bound p DES_IIP)].
  exact (permute_fb 64 DES_IIP IPinv p ltac:(vm_compute; reflexivity)).
Qed.
Definition des_finish (lr : Z * Z) : list Z :=
  le_bytes 8 (permute (Z.lor (Z.shiftl (fst lr) 32 mod 2 ^ 64) (snd lr)) DES_IIP).
Lemma des_crypt_eq ks b src : des_crypt_block ks b src =
  let data := permute (le_val src) DES_IP in
  des_finish (fold_left des_round (map (fun i => if b then nth i ks 0 else nth (15 - i) ks 0) (seq 0 16))
     (Z.land data (2 ^ 32 - 1), Z.shiftr data 32)).
Proof.
  unfold des_crypt_block. cbv zeta. rewrite <- fold_left_map.
  match goal with |- (let '(l, r) := ?t in _) = _ => generalize t end.
  intros [l r]. reflexivity.
Qed.
Lemma des_core K data : Forall (fun k => 0 <= k < 2 ^ 48) K -> 0 <= data < 2 ^ 64 ->
  des_finish (fold_left des_round K (Z.land data (2 ^ 32 - 1), Z.shiftr data 32)) =
  of_bits (perm IPinv (snd (fold_left rnd (map (fb 48) K) (firstn 32 (fb 64 data), skipn 32 (fb 64 data))) ++
                       fst (fold_left rnd (map (fb 48) K) (firstn 32 (fb 64 data), skipn 32 (fb 64 data))))).
Proof.
  intros HK Hdb.
  destruct (des_rounds_spec K HK (Z.land data (2 ^ 32 - 1), Z.shiftr data 32)) as [R1 R2].
  { split; cbn [fst snd].
    - change (2 ^ 32 - 1) with (Z.ones 32). rewrite Z.land_ones by lia. apply Z.mod_pos_bound. lia.
    - rewrite Z.shiftr_div_pow2 by lia. split; [apply Z.div_pos; lia|]. apply Z.div_lt_upper_bound; [lia|].
      change (2 ^ 32 * 2 ^ 32) with (2 ^ 64). lia. }
  rewrite <- fb_land32, <- fb_shiftr32.
  change (fb 32 (Z.land data (2 ^ 32 - 1)), fb 32 (Z.shiftr data 32)) with (lr_bits (Z.land data (2 ^ 32 - 1), Z.shiftr data 32)).
  rewrite <- R2. clear R2. revert R1.
  generalize (fold_left des_round K (Z.land data (2 ^ 32 - 1), Z.shiftr data 32)).
  intros [l r] [Rl Rr]. cbn [fst snd lr_bits] in *. destruct (fb_join l r Rl Rr) as [J1 _]. cbv zeta in J1. rewrite <- J1.
  exact (IIP_bytes _).
Qed.
Lemma des_crypt_spec ks b src : length ks = 16%nat -> Forall (fun k => 0 <= k < 2 ^ 48) ks ->
  bytes src -> length src = 8%nat ->
  des_crypt_block ks b src =
    of_bits (feistel16 (if b then map (fb 48) ks else rev (map (fb 48) ks)) (to_bits src)).
Proof.
  intros Hl Hks Hs Hsl. rewrite des_crypt_eq. cbv zeta. unfold feistel16. cbv zeta. rewrite <- IP_bits by auto.
  pose proof (permute_bound (le_val src) DES_IP) as Hdb. change (2 ^ Z.of_nat (length DES_IP)) with (2 ^ 64) in Hdb.
  revert Hdb. generalize (permute (le_val src) DES_IP). intros data Hdb.
  assert (Hk : map (fun i => if b then nth i ks 0 else nth (15 - i) ks 0) (seq 0 16) = if b then ks else rev ks).
  { destruct b; [apply nth_seq_list; auto|apply nth_rev_list; auto]. }
  rewrite Hk. clear Hk.
  assert (Hm : (if b then map (fb 48) ks else rev (map (fb 48) ks)) = map (fb 48) (if b then ks else rev ks)).
  { destruct b; [reflexivity|symmetry; apply map_rev]. }
  rewrite Hm. apply des_core; [|auto]. destruct b; [auto|apply Forall_rev; auto].
Qed.

Lemma ks_fold_spec ls : Forall (fun c => c = 1 \/ c = 2) ls -> forall k, 0 <= k < 2 ^ 56 ->
  map (fb 48) (ks_fold k ls) = KS (firstn 28 (fb 56 k)) (skipn 28 (fb 56 k)) (map Z.to_nat ls) /\
  Forall (fun k => 0 <= k < 2 ^ 48) (ks_fold k ls).
Proof.
  induction 1 as [|c ls Hc Hls IH]; intros k Hk; [split; [reflexivity|constructor]|].
  cbn [ks_fold map KS].
  destruct (ks_rotate_spec k c ltac:(pose proof (Z.pow_le_mono_r 2 56 64); lia) Hc) as [R1 R2]. cbv zeta in R1.
  destruct (IH _ R2) as [I1 I2].
  assert (L1 : length (firstn 28 (fb 56 k)) = 28%nat) by (rewrite firstn_length, fb_length; reflexivity).
  assert (L2 : length (rotl (Z.to_nat c) (firstn 28 (fb 56 k))) = 28%nat).
  { unfold rotl. rewrite app_length, skipn_length, (firstn_length (Z.to_nat c)), L1. destruct Hc as [-> | ->]; reflexivity. }
  rewrite R1 in I1.
  rewrite firstn_app, L2, Nat.sub_diag, firstn_O, app_nil_r, firstn_all2 in I1 by lia.
  rewrite skipn_app, L2, Nat.sub_diag, skipn_all2 in I1 by lia. cbn [skipn app] in I1.
  split; [|constructor; [apply (permute_bound _ DES_PC2)|exact I2]].
  f_equal; [|exact I1]. rewrite <- R1. change 48%nat with (length PC2). apply permute_fb. vm_compute. reflexivity.
Qed.
Lemma ks_fold_length ls : forall k, length (ks_fold k ls) = length ls.
Proof. induction ls; intros; cbn; auto. Qed.
Lemma key_schedule_spec key : bytes key -> length key = 8%nat ->
  map (fb 48) (key_schedule key) = round_keys (to_bits key) /\
  Forall (fun k => 0 <= k < 2 ^ 48) (key_schedule key) /\ length (key_schedule key) = 16%nat.
Proof.
  intros Hb Hl. unfold key_schedule.
  assert (HLS : Forall (fun c => c = 1 \/ c = 2) DES_LS) by (unfold DES_LS; repeat (apply Forall_cons; [auto|]); apply Forall_nil).
  pose proof (permute_bound (le_val key) DES_PC1) as Hpb. change (2 ^ Z.of_nat (length DES_PC1)) with (2 ^ 56) in Hpb.
  destruct (ks_fold_spec DES_LS HLS _ Hpb) as [K1 K2].
  split; [|split; [exact K2|rewrite ks_fold_length; reflexivity]]. rewrite K1. unfold round_keys.
  assert (X : fb 56 (permute (le_val key) DES_PC1) = perm PC1C (to_bits key) ++ perm PC1D (to_bits key)).
  { change 56%nat with (length (PC1C ++ PC1D)). rewrite (permute_fb 64 DES_PC1 (PC1C ++ PC1D)) by (vm_compute; reflexivity).
    rewrite <- (fb_le_val key Hb 8 Hl). unfold perm. apply map_app. }
  rewrite X.
  rewrite firstn_app, perm_length. change (28 - length PC1C)%nat with 0%nat. rewrite firstn_O, app_nil_r, firstn_all2 by (rewrite perm_length; cbn; lia).
  rewrite skipn_app, perm_length. change (28 - length PC1C)%nat with 0%nat. rewrite skipn_all2 by (rewrite perm_length; cbn; lia).
  reflexivity.
Qed.

(** *** DES as a cipher *)
Lemma des_block_spec key b src : bytes key -> length key = 8%nat -> bytes src -> length src = 8%nat ->
  des_crypt_block (key_schedule key) b src = if b then DES_enc key src else DES_dec key src.
Proof.
  intros Hk Hkl Hs Hsl. destruct (key_schedule_spec key Hk Hkl) as (K1 & K2 & K3).
  rewrite des_crypt_spec by auto. rewrite K1. destruct b; reflexivity.
Qed.
Lemma des_block_e key src : bytes key -> length key = 8%nat -> bytes src -> length src = 8%nat ->
  des_crypt_block (key_schedule key) true src = DES_enc key src.
Proof. intros. exact (des_block_spec key true src H H0 H1 H2). Qed.
Lemma des_block_d key src : bytes key -> length key = 8%nat -> bytes src -> length src = 8%nat ->
  des_crypt_block (key_schedule key) false src = DES_dec key src.
Proof. intros. exact (des_block_spec key false src H H0 H1 H2). Qed.
Lemma feistel_block ks m : bytes m -> length m = 8%nat ->
  let y := of_bits (feistel16 ks (to_bits m)) in
  length y = 8%nat /\ bytes y /\ to_bits y = feistel16 ks (to_bits m).
Proof.
  intros Hm Hl y. destruct (to_of_bits 8 (feistel16 ks (to_bits m))) as (A & B & C); [apply feistel16_length|].
  repeat split; auto.
Qed.
Lemma DES_spec_valid key m : bytes m -> length m = 8%nat ->
  (length (DES_enc key m) = 8%nat /\ bytes (DES_enc key m)) /\ (length (DES_dec key m) = 8%nat /\ bytes (DES_dec key m)).
Proof.
  intros Hm Hl. destruct (feistel_block (round_keys (to_bits key)) m Hm Hl) as (A & B & _).
  destruct (feistel_block (rev (round_keys (to_bits key))) m Hm Hl) as (C & D & _). auto.
Qed.
Lemma DES_dec_enc key m : bytes m -> length m = 8%nat ->
  DES_dec key (DES_enc key m) = m /\ DES_enc key (DES_dec key m) = m.
Proof.
  intros Hm Hl. unfold DES_dec, DES_enc.
  destruct (feistel_block (round_keys (to_bits key)) m Hm Hl) as (_ & _ & E1).
  destruct (feistel_block (rev (round_keys (to_bits key))) m Hm Hl) as (_ & _ & E2).
  rewrite E1, E2, feistel16_inv by (rewrite to_bits_length; lia). split; [apply of_to_bits; auto|].
  rewrite <- (rev_involutive (round_keys (to_bits key))) at 1.
  rewrite feistel16_inv by (rewrite to_bits_length; lia). apply of_to_bits; auto.
Qed.
Lemma des_good key : bytes key -> length key = 8%nat ->
  GoodCipher (des_new key) 8 (des_crypt_block (key_schedule key) true) (des_crypt_block (key_schedule key) false).
Proof.
  intros Hk Hkl. split.
  - reflexivity.
  - lia.
  - intros b Hb. unfold des_new. cbn [enc des_cipher]. unfold des_encrypt. rewrite Hb. reflexivity.
  - intros b Hb. unfold des_new. cbn [dec des_cipher]. unfold des_decrypt. rewrite Hb. reflexivity.
  - intros b Hb. unfold des_new. cbn [enc des_cipher]. unfold des_encrypt. apply Nat.eqb_neq in Hb. rewrite Hb. reflexivity.
  - intros b Hb. unfold des_new. cbn [dec des_cipher]. unfold des_decrypt. apply Nat.eqb_neq in Hb. rewrite Hb. reflexivity.
  - intros b Hb Hbb. rewrite des_block_e by auto. exact (proj1 (DES_spec_valid key b Hbb Hb)).
  - intros b Hb Hbb. rewrite des_block_d by auto. exact (proj2 (DES_spec_valid key b Hbb Hb)).
  - intros b Hb Hbb. destruct (DES_spec_valid key b Hbb Hb) as [[A B] _]. rewrite des_block_e, des_block_d by auto.
    exact (proj1 (DES_dec_enc key b Hbb Hb)).
  - intros b Hb Hbb. destruct (DES_spec_valid key b Hbb Hb) as [_ [A B]]. rewrite des_block_d, des_block_e by auto.
    exact (proj2 (DES_dec_enc key b Hbb Hb)).
Qed.
(** Three ciphers chained E-D-E give a cipher again. *)
Lemma ede_good d1 d2 d3 n E1 D1 E2 D2 E3 D3 :
  GoodCipher d1 n E1 D1 -> GoodCipher d2 n E2 D2 -> GoodCipher d3 n E3 D3 ->
  (forall b, length (E1 b) = n) -> (forall b, length (E2 b) = n) -> (forall b, length (D2 b) = n) -> (forall b, length (D3 b) = n) ->
  GoodCipher (mkCipher (blk d1) (tdes_encrypt d1 d2 d3) (tdes_decrypt d1 d2 d3)) n
    (fun b => E3 (D2 (E1 b))) (fun b => D1 (E2 (D3 b))).
Proof.
  intros G1 G2 G3 L1 L2 L2' L3.
  split; cbn [enc dec blk]; try apply G1; unfold tdes_encrypt, tdes_decrypt.
  - intros b Hb. rewrite (gc_enc _ _ _ _ G1) by auto. cbn [rbind].
    rewrite (gc_dec _ _ _ _ G2) by auto. cbn [rbind]. apply (gc_enc _ _ _ _ G3). auto.
  - intros b Hb. rewrite (gc_dec _ _ _ _ G3) by auto. cbn [rbind].
    rewrite (gc_enc _ _ _ _ G2) by auto. cbn [rbind]. apply (gc_dec _ _ _ _ G1). auto.
  - intros b Hb. rewrite (gc_enc_bad _ _ _ _ G1) by auto. reflexivity.
  - intros b Hb. rewrite (gc_dec_bad _ _ _ _ G3) by auto. reflexivity.
  - intros b Hb Hbb. apply (gc_E _ _ _ _ G3); auto. apply (gc_D _ _ _ _ G2); auto. apply (gc_E _ _ _ _ G1); auto.
  - intros b Hb Hbb. apply (gc_D _ _ _ _ G1); auto. apply (gc_E _ _ _ _ G2); auto. apply (gc_D _ _ _ _ G3); auto.
  - intros b Hb Hbb.
    assert (B1 : bytes (E1 b)) by (apply (gc_E _ _ _ _ G1); auto).
    assert (B2 : bytes (D2 (E1 b))) by (apply (gc_D _ _ _ _ G2); auto).
    rewrite (gc_DE _ _ _ _ G3), (gc_ED _ _ _ _ G2), (gc_DE _ _ _ _ G1) by auto. reflexivity.
  - intros b Hb Hbb.
    assert (B1 : bytes (D3 b)) by (apply (gc_D _ _ _ _ G3); auto).
    assert (B2 : bytes (E2 (D3 b))) by (apply (gc_E _ _ _ _ G2); auto).
    rewrite (gc_ED _ _ _ _ G1), (gc_DE _ _ _ _ G2), (gc_ED _ _ _ _ G3) by auto. reflexivity.
Qed.
Lemma des_crypt_length k b s : length (des_crypt_block k b s) = 8%nat.
Proof. rewrite des_crypt_eq. cbv zeta. unfold des_finish. apply le_bytes_length. Qed.
Lemma tdes_good k1 k2 k3 : bytes k1 -> bytes k2 -> bytes k3 ->
  length k1 = 8%nat -> length k2 = 8%nat -> length k3 = 8%nat ->
  GoodCipher (tdes_new k1 k2 k3) 8
   (fun b => des_crypt_block (key_schedule k3) true (des_crypt_block (key_schedule k2) false (des_crypt_block (key_schedule k1) true b)))
   (fun b => des_crypt_block (key_schedule k1) false (des_crypt_block (key_schedule k2) true (des_crypt_block (key_schedule k3) false b))).
Proof.
  intros H1 H2 H3 L1 L2 L3.
  exact (ede_good _ _ _ _ _ _ _ _ _ _ (des_good k1 H1 L1) (des_good k2 H2 L2) (des_good k3 H3 L3)
    (des_crypt_length _ _) (des_crypt_length _ _) (des_crypt_length _ _) (des_crypt_length _ _)).
Qed.
Lemma des_is_fips key m : bytes key -> length key = 8%nat -> bytes m -> length m = 8%nat ->
  enc (des_new key) m = Ok (DES_enc key m) /\ dec (des_new key) m = Ok (DES_dec key m).
Proof.
  intros Hk Hkl Hm Hl. pose proof (des_good key Hk Hkl) as G.
  rewrite (gc_enc _ _ _ _ G), (gc_dec _ _ _ _ G), des_block_e, des_block_d by auto. split; reflexivity.
Qed.
Lemma tdes_is_std k1 k2 k3 m : bytes k1 -> bytes k2 -> bytes k3 ->
  length k1 = 8%nat -> length k2 = 8%nat -> length k3 = 8%nat -> bytes m -> length m = 8%nat ->
  enc (tdes_new k1 k2 k3) m = Ok (TDES_enc k1 k2 k3 m) /\ dec (tdes_new k1 k2 k3) m = Ok (TDES_dec k1 k2 k3 m).
Proof.
  intros H1 H2 H3 L1 L2 L3 Hm Hl. pose proof (tdes_good k1 k2 k3 H1 H2 H3 L1 L2 L3) as G.
  rewrite (gc_enc _ _ _ _ G), (gc_dec _ _ _ _ G) by auto. unfold TDES_enc, TDES_dec.
  pose proof (DES_spec_valid k1 m Hm Hl) as [[A1 A2] _].
  pose proof (DES_spec_valid k2 _ A2 A1) as [_ [B1 B2]].
  pose proof (DES_spec_valid k3 m Hm Hl) as [_ [C1 C2]].
  pose proof (DES_spec_valid k2 _ C2 C1) as [[D1 D2] _].
  split; f_equal.
  - rewrite (des_block_e k1) by auto. rewrite (des_block_d k2), (des_block_e k3) by auto. reflexivity.
  - rewrite (des_block_d k3) by auto. rewrite (des_block_e k2), (des_block_d k1) by auto. reflexivity.
Qed.

(** *** parity bits *)
Lemma nth_to_bits m k : (k < 8 * length m)%nat ->
  nth k (to_bits m) false = Z.testbit (nth (k / 8) m 0) (Z.of_nat (7 - k mod 8)).
Proof.
  revert k. induction m as [|b m IH]; intros k Hk; [cbn in Hk; lia|].
  change (to_bits (b :: m)) with (bits8 b ++ to_bits m).
  destruct (Nat.lt_ge_cases k 8).
  - rewrite app_nth1 by (rewrite bits8_length; auto). rewrite Nat.div_small, Nat.mod_small by auto. cbn [nth].
    do 8 (destruct k as [|k]; [reflexivity|]). lia.
  - rewrite app_nth2 by (rewrite bits8_length; auto). rewrite bits8_length, IH by (cbn [length] in Hk; lia).
    replace k with ((k - 8) + 1 * 8)%nat at 3 4 by lia. rewrite Nat.div_add, Nat.mod_add by lia.
    replace ((k - 8) / 8 + 1)%nat with (S ((k - 8) / 8)) by lia. reflexivity.
Qed.
Lemma perm_agree t a b : (forall k, In k t -> nth (k - 1) a false = nth (k - 1) b false) -> perm t a = perm t b.
Proof. intros H. apply map_ext_in. auto. Qed.
Lemma round_keys_parity k1 k2 : length k1 = 8%nat -> length k2 = 8%nat ->
  map (fun b => b / 2) k1 = map (fun b => b / 2) k2 ->
  round_keys (to_bits k1) = round_keys (to_bits k2).
Proof.
  intros L1 L2 H. unfold round_keys.
  assert (A : forall k, (1 <= k <= 64)%nat -> (k mod 8 <> 0)%nat -> nth (k - 1) (to_bits k1) false = nth (k - 1) (to_bits k2) false).
  { intros k Hk Hm. rewrite !nth_to_bits by lia.
    assert (Hp : (7 - (k - 1) mod 8)%nat = S (6 - (k - 1) mod 8)).
    { assert ((k - 1) mod 8 <> 7)%nat; [|pose proof (Nat.mod_upper_bound (k - 1) 8 ltac:(lia)); lia].
      intros E. apply Hm. replace k with ((k - 1) + 1)%nat by lia. rewrite Nat.add_mod, E by lia. reflexivity. }
    rewrite Hp, Nat2Z.inj_succ.
    assert (T : forall x i, Z.testbit x (Z.succ (Z.of_nat i)) = Z.testbit (x / 2) (Z.of_nat i)).
    { intros x i. rewrite Z.div2_bits by lia || (rewrite <- Z.div2_div, Z.div2_spec, Z.shiftr_spec by lia; f_equal; lia). reflexivity. }
    rewrite !T. f_equal.
    change (0 / 2) with 0 in *.
    assert (N : forall l j, nth j l 0 / 2 = nth j (map (fun b => b / 2) l) 0).
    { intros l j. change 0 with ((fun b => b / 2) 0) at 2. symmetry. apply (map_nth (fun b => b / 2)). }
    rewrite !N, H. reflexivity. }
  assert (P : forall t, forallb (fun k => (1 <=? k)%nat && (k <=? 64)%nat && negb (k mod 8 =? 0)%nat) t = true ->
    perm t (to_bits k1) = perm t (to_bits k2)).
  { intros t Ht. rewrite forallb_forall in Ht. apply perm_agree. intros k Hk. specialize (Ht k Hk).
    rewrite !Bool.andb_true_iff in Ht. destruct Ht as [[T1 T2] T3]. apply Nat.leb_le in T1, T2.
    apply Bool.negb_true_iff, Nat.eqb_neq in T3. apply A; lia. }
  rewrite (P PC1C), (P PC1D) by reflexivity. reflexivity.
Qed.
Lemma DES_parity k1 k2 m : length k1 = 8%nat -> length k2 = 8%nat ->
  map (fun b => b / 2) k1 = map (fun b => b / 2) k2 -> DES_enc k1 m = DES_enc k2 m /\ DES_dec k1 m = DES_dec k2 m.
Proof. intros. unfold DES_enc, DES_dec. rewrite (round_keys_parity k1 k2) by auto. auto. Qed.

(** *** complementation *)
Definition notl : list bool -> list bool := map negb.
Definition nots (m : list Z) : list Z := map (fun b => 255 - b) m.
Lemma bits8_not b : byte b -> bits8 (255 - b) = notl (bits8 b).
Proof. intros H. apply beql_eq. revert b H. apply (forall_byte (fun b => beql (bits8 (255 - b)) (notl (bits8 b)))). vm_compute. reflexivity. Qed.
Lemma nots_bytes m : bytes m -> bytes (nots m).
Proof. induction 1 as [|b m Hb Hm IH]; [constructor|]. unfold nots in *; cbn [map]; constructor; [unfold byte in *; lia|exact IH]. Qed.
Lemma to_bits_not m : bytes m -> to_bits (nots m) = notl (to_bits m).
Proof.
  induction 1 as [|b m Hb Hm IH]; [reflexivity|]. cbn [nots map to_bits flat_map]. unfold notl. rewrite map_app.
  f_equal; [apply bits8_not; auto|exact IH].
Qed.
Lemma notl_inv l : notl (notl l) = l.
Proof. unfold notl. rewrite map_map. rewrite <- (map_id l) at 2. apply map_ext. apply Bool.negb_involutive. Qed.
Lemma xorb_l_not a : forall b, xorb_l (notl a) (notl b) = xorb_l a b.
Proof. induction a as [|x a IH]; intros [|y b]; cbn; auto. fold (notl a) (notl b). rewrite IH. destruct x, y; reflexivity. Qed.
Lemma xorb_l_not_l a : forall b, xorb_l (notl a) b = notl (xorb_l a b).
Proof. induction a as [|x a IH]; intros [|y b]; cbn; auto. fold (notl a). rewrite IH. destruct x, y; reflexivity. Qed.
Lemma perm_not n t l : length l = n -> forallb (fun k => (1 <=? k)%nat && (k <=? n)%nat) t = true ->
  perm t (notl l) = notl (perm t l).
Proof.
  intros Hl H. rewrite forallb_forall in H. unfold perm, notl. rewrite map_map. apply map_ext_in. intros k Hk.
  specialize (H k Hk). apply andb_prop in H. destruct H as [H1 H2]. apply Nat.leb_le in H1, H2.
  rewrite (nth_indep (map negb l) false (negb false)) by (rewrite map_length; lia). apply map_nth.
Qed.
Lemma notl_length l : length (notl l) = length l. Proof. apply map_length. Qed.
Lemma notl_app a b : notl (a ++ b) = notl a ++ notl b. Proof. apply map_app. Qed.
Lemma rotl_not k l : rotl k (notl l) = notl (rotl k l).
Proof. unfold rotl, notl. rewrite map_app, firstn_map, skipn_map. reflexivity. Qed.
Lemma rotl_length k l : length (rotl k l) = length l.
Proof. unfold rotl. rewrite app_length, skipn_length, firstn_length. lia. Qed.
Lemma KS_not ls : forall c d, length c = 28%nat -> length d = 28%nat ->
  KS (notl c) (notl d) ls = map notl (KS c d ls).
Proof.
  induction ls as [|k ls IH]; intros c d Hc Hd; [reflexivity|]. cbn [KS map]. rewrite !rotl_not.
  rewrite IH by (rewrite rotl_length; auto). f_equal. unfold notl. rewrite <- map_app. fold notl.
  apply (perm_not 56); [rewrite app_length, !rotl_length; lia|reflexivity].
Qed.
Lemma rnd_not ks : forall l r, length l = 32%nat -> length r = 32%nat ->
  fold_left rnd (map notl ks) (notl l, notl r) =
  (notl (fst (fold_left rnd ks (l, r))), notl (snd (fold_left rnd ks (l, r)))).
Proof.
  induction ks as [|k ks IH]; intros l r Hl Hr; [reflexivity|]. cbn [map fold_left].
  change (rnd (l, r) k) with (r, xorb_l l (F r k)). change (rnd (notl l, notl r) (notl k)) with (notl r, xorb_l (notl l) (F (notl r) (notl k))).
  assert (HF : F (notl r) (notl k) = F r k).
  { unfold F. rewrite (perm_not 32) by (auto; reflexivity). rewrite xorb_l_not. reflexivity. }
  rewrite HF, xorb_l_not_l. apply IH; [auto|rewrite xorb_l_length, F_length, Hl; reflexivity].
Qed.
Lemma feistel16_not ks m : length m = 64%nat -> feistel16 (map notl ks) (notl m) = notl (feistel16 ks m).
Proof.
  intros Hm. unfold feistel16. cbv zeta. rewrite (perm_not 64) by (auto; reflexivity).
  assert (Hx : length (perm IP m) = 64%nat) by (rewrite perm_length; reflexivity).
  generalize dependent (perm IP m). intros x Hx.
  change (firstn 32 (notl x)) with (firstn 32 (map negb x)). change (skipn 32 (notl x)) with (skipn 32 (map negb x)).
  rewrite firstn_map, skipn_map. fold (notl (firstn 32 x)) (notl (skipn 32 x)).
  assert (H1 : length (firstn 32 x) = 32%nat) by (rewrite firstn_length; lia).
  assert (H2 : length (skipn 32 x) = 32%nat) by (rewrite skipn_length; lia).
  rewrite rnd_not by auto. cbn [fst snd].
  destruct (rnd_lengths ks (firstn 32 x, skipn 32 x) H1 H2) as [L1 L2].
  rewrite <- notl_app. apply (perm_not 64); [rewrite app_length; lia|reflexivity].
Qed.
Lemma DES_complement key m : bytes key -> bytes m -> length key = 8%nat -> length m = 8%nat ->
  DES_enc (nots key) (nots m) = nots (DES_enc key m).
Proof.
  intros Hk Hm Hkl Hml. unfold DES_enc. rewrite !to_bits_not by auto.
  assert (HK : round_keys (notl (to_bits key)) = map notl (round_keys (to_bits key))).
  { unfold round_keys. rewrite !(perm_not 64) by (reflexivity || (rewrite to_bits_length; lia)).
    apply KS_not; rewrite perm_length; reflexivity. }
  rewrite HK, feistel16_not by (rewrite to_bits_length; lia).
  destruct (feistel_block (round_keys (to_bits key)) m Hm Hml) as (A & B & C). cbv zeta in *.
  rewrite <- C at 1. rewrite <- to_bits_not by auto. apply of_to_bits. apply nots_bytes; auto.
Qed.
