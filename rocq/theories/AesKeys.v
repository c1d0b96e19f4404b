(** The key schedules of the AES model are those of FIPS 197; the model is the
    FIPS 197 cipher. *)
From Verif Require Import Base Words ModesModel ModesSpec AesTables AesModel AesSpec AesProofs AesLink.

Lemma sub_word_ok w : word4 w -> sub_word (be_val w) = be_val (SubWord w).
Proof.
  intros H. pose proof H as [Hl Hb]. unfold sub_word. rewrite be4_bytes by auto. w4 H.
  unfold SubWord. cbn [map]. rewrite !sbox0_ok by auto. reflexivity.
Qed.
Lemma SubWord_word w : word4 w -> word4 (SubWord w).
Proof. intros H. w4 H. cbn [SubWord map]. wrd. Qed.
Lemma RotWord_word w : word4 w -> word4 (RotWord w).
Proof. intros H. w4 H. cbn [RotWord skipn firstn app]. wrd. Qed.

Lemma rotl_ok w : word4 w -> rotl32 (be_val w) 8 = be_val (RotWord w).
Proof.
  intros H. rewrite rotl32_add by (try lia; apply w32_be; apply H).
  w4 H. cbn [RotWord skipn firstn app]. rewrite !be_val4.
  change (2 ^ 8) with 256. change (2 ^ (32 - 8)) with 16777216. unfold M32, byte in *.
  Z.to_euclidean_division_equations. lia.
Qed.

Lemma powx_ok i : (1 <= i <= 10)%nat -> nth (i - 1) AES_POWX 0 = be_val (Rcon i).
Proof. intros H. do 11 (destruct i as [|i]; [try lia; vm_compute; reflexivity|]). lia. Qed.
Lemma Rcon_word i : word4 (Rcon i).
Proof. apply word4_cons; try apply byte0. apply xtime_iter_byte. unfold byte; lia. Qed.

Lemma nth_word W i : Forall word4 W -> (i < length W)%nat -> word4 (nth i W []).
Proof. intros H Hi. apply (proj1 (Forall_forall _ _) H). apply nth_In; auto. Qed.
Lemma nth_map_be W i : (i < length W)%nat -> nth i (map be_val W) 0 = be_val (nth i W []).
Proof. intros H. rewrite (nth_indep _ 0 (be_val [])) by (rewrite map_length; auto). apply map_nth. Qed.

Lemma ks_step_ok nk W : Forall word4 W -> (0 < nk)%nat -> (nk <= length W)%nat ->
  (length W / nk <= 10)%nat ->
  word4 (next_word nk W) /\ ks_step nk (map be_val W) = map be_val (W ++ [next_word nk W]).
Proof.
  intros HW Hnk Hl H10. set (i := length W) in *.
  assert (H1 : (1 <= i / nk)%nat).
  { apply Nat.div_le_lower_bound; lia. }
  assert (Wt : word4 (nth (i - 1) W [])) by (apply nth_word; auto; lia).
  assert (Wb : word4 (nth (i - nk) W [])) by (apply nth_word; auto; lia).
  unfold next_word, ks_step. rewrite map_length. fold i.
  rewrite !nth_map_be by lia. rewrite map_app. cbn [map].
  destruct (i mod nk =? 0)%nat.
  - rewrite rotl_ok, sub_word_ok, powx_ok by auto using RotWord_word.
    rewrite !xor_be by auto using xor_word, SubWord_word, RotWord_word, Rcon_word.
    auto 10 using xor_word, SubWord_word, RotWord_word, Rcon_word.
  - destruct ((6 <? nk)%nat && (i mod nk =? 4)%nat).
    + rewrite sub_word_ok, xor_be by auto using SubWord_word. auto using xor_word, SubWord_word.
    + rewrite xor_be by auto. auto using xor_word.
Qed.

Lemma iter_comm {A} n (f : A -> A) x : Nat.iter n f (f x) = f (Nat.iter n f x).
Proof. induction n; [reflexivity|]. rewrite !iter_S. congruence. Qed.

Lemma iter_step_ok nk cnt : forall W, Forall word4 W -> (0 < nk)%nat -> (nk <= length W)%nat ->
  ((length W + cnt - 1) / nk <= 10)%nat ->
  let W' := Nat.iter cnt (fun w => w ++ [next_word nk w]) W in
  Forall word4 W' /\ length W' = (length W + cnt)%nat /\ iter_step cnt nk (map be_val W) = map be_val W'.
Proof.
  induction cnt as [|cnt IH]; intros W HW Hnk Hl H10; cbv zeta.
  - cbn. auto.
  - destruct (ks_step_ok nk W) as [Hn Hs]; auto.
    { etransitivity; [|exact H10]. apply Nat.div_le_mono; lia. }
    destruct (IH (W ++ [next_word nk W])) as [A [B C]]; auto.
    { apply Forall_app. auto. }
    { rewrite app_length. lia. }
    { rewrite app_length. cbn [length]. replace (length W + 1 + cnt - 1)%nat with (length W + S cnt - 1)%nat by lia. auto. }
    cbv zeta in *. set (f := fun w : list (list Z) => w ++ [next_word nk w]) in *.
    change (W ++ [next_word nk W]) with (f W) in A, B, C. rewrite iter_comm in A, B, C. rewrite iter_S. repeat split; auto.
    + rewrite B. unfold f. rewrite app_length. cbn. lia.
    + cbn [iter_step]. rewrite Hs. change (W ++ [next_word nk W]) with (f W). exact C.
Qed.

Lemma key_words_ok : forall fuel key, bytes key -> (length key mod 4 = 0)%nat -> (length key <= fuel)%nat ->
  key_words fuel key = map be_val (chunks 4 key) /\ Forall word4 (chunks 4 key).
Proof.
  intros fuel key. revert key fuel. block_induction 4%nat; [lia| |].
  - intros m Hl fuel Hb Hm Hf. rewrite Nat.mod_small in Hm by auto. destruct m; [|discriminate].
    rewrite chunks_nil by lia. destruct fuel; cbn; auto.
  - intros b m Hl IH fuel Hb Hm Hf. apply bytes_app in Hb. destruct Hb as [Hb Hb'].
    rewrite app_length, mod_block in Hm by auto. rewrite app_length in Hf.
    rewrite chunks_app by (auto; lia).
    destruct fuel as [|fuel]; [lia|]. destruct (IH fuel) as [A B]; auto; [lia|].
    assert (Hw : word4 b) by (split; auto). split; [|constructor; auto].
    cbn [map]. rewrite <- A. clear -Hw. w4 Hw. reflexivity.
Qed.

Definition keylen_ok (key : list Z) : Prop := (length key = 16 \/ length key = 24 \/ length key = 32)%nat.

Lemma chunks4_length key : (length key mod 4 = 0)%nat -> length (chunks 4 key) = (length key / 4)%nat.
Proof.
  intros H. unfold chunks. rewrite map_length, seq_length. unfold nblocks.
  pose proof (Nat.div_mod (length key) 4). set (q := (length key / 4)%nat) in *. rewrite H in H0.
  symmetry. apply (Nat.div_unique _ _ _ 3); lia.
Qed.

Lemma enc_schedule_ok key : bytes key -> keylen_ok key ->
  Forall word4 (KeyExpansion key) /\ length (KeyExpansion key) = (4 * (length key / 4 + 7))%nat /\
  enc_schedule key = map be_val (KeyExpansion key).
Proof.
  intros Hb Hk.
  assert (Hm : (length key mod 4 = 0)%nat) by (destruct Hk as [->|[->| ->]]; reflexivity).
  destruct (key_words_ok (length key) key Hb Hm (le_n _)) as [A B].
  pose proof (chunks4_length key Hm) as L.
  destruct (iter_step_ok (length key / 4) (4 * (length key / 4 + 7) - length key / 4) (chunks 4 key)) as [C [D E]]; auto.
  - destruct Hk as [->|[->| ->]]; cbn; lia.
  - lia.
  - rewrite L. destruct Hk as [->|[->| ->]]; cbn; lia.
  - unfold KeyExpansion. split; [exact C|]. split.
    + rewrite D, L. lia.
    + unfold enc_schedule, aes_nk, aes_nr. rewrite A.
      replace (length key / 4 + 6 + 1)%nat with (length key / 4 + 7)%nat by lia. exact E.
Qed.

Lemma firstn4_skipn {A} (d : A) : forall k (W : list A), (k + 4 <= length W)%nat ->
  firstn 4 (skipn k W) = [nth k W d; nth (k + 1) W d; nth (k + 2) W d; nth (k + 3) W d].
Proof.
  induction k as [|k IH]; intros W H.
  - do 4 (destruct W as [|? W]; [cbn in H; lia|]). reflexivity.
  - destruct W as [|x W]; [cbn in H; lia|]. cbn [skipn]. rewrite IH by (cbn in H; lia). reflexivity.
Qed.

Lemma enc_wkey W r : Forall word4 W -> (4 * r + 4 <= length W)%nat ->
  wkey (map be_val W) (4 * r) (round_key W r).
Proof.
  intros HW Hl. unfold round_key. rewrite (firstn4_skipn []) by lia.
  exists (nth (4 * r) W []), (nth (4 * r + 1) W []), (nth (4 * r + 2) W []), (nth (4 * r + 3) W []).
  repeat split; try (apply nth_word; auto; lia); try (apply nth_map_be; lia).
  cbn [concat]. rewrite app_nil_r. reflexivity.
Qed.

Lemma imc_word_ok w : word4 w -> imc_word (be_val w) = be_val (mix_column 14 11 13 9 w).
Proof.
  intros H. pose proof H as [Hl Hb]. unfold imc_word. rewrite be4_bytes by auto. w4 H.
  rewrite !sbox0_ok by auto.
  rewrite (proj1 (td_ok (sbox x) ltac:(byt))), (proj1 (proj2 (td_ok (sbox x0) ltac:(byt)))),
    (proj1 (proj2 (proj2 (td_ok (sbox x1) ltac:(byt))))), (proj2 (proj2 (proj2 (td_ok (sbox x2) ltac:(byt))))).
  rewrite !inv_sbox_sbox by auto.
  pose proof (td_col x x0 x1 x2 [0;0;0;0]) as T.
  change (be_val [0;0;0;0]) with 0 in T. rewrite Z.lxor_0_l in T. rewrite T; auto.
  - cbn [mix_column xorl]. rewrite !Z.lxor_0_r. reflexivity.
  - apply word4_cons; apply byte0.
Qed.

(** Reading the word list built by [flat_map]. *)
Lemma nth_flat4 {A} (d : A) (f : nat -> nat -> A) : forall n r0 r j, (r < n)%nat -> (j < 4)%nat ->
  nth (4 * r + j) (flat_map (fun x => map (f x) (seq 0 4)) (seq r0 n)) d = f (r0 + r)%nat j.
Proof.
  induction n as [|n IH]; intros r0 r j Hr Hj; [lia|].
  cbn [seq flat_map]. destruct r as [|r].
  - rewrite app_nth1 by (cbn; lia). rewrite Nat.add_0_r. do 4 (destruct j as [|j]; [reflexivity|]). lia.
  - rewrite app_nth2 by (cbn; lia). cbn [map seq length].
    replace (4 * S r + j - 4)%nat with (4 * r + j)%nat by lia. rewrite IH by lia. f_equal. lia.
Qed.

Lemma round_key_st W r : Forall word4 W -> (4 * r + 4 <= length W)%nat -> st16 (round_key W r).
Proof. intros. eapply wkey_st. apply enc_wkey; auto. Qed.

Definition dec_key (W : list (list Z)) (nr r : nat) : list Z :=
  if ((0 <? r) && (r <? nr))%nat then InvMixColumns (round_key W (nr - r)) else round_key W (nr - r).

Lemma dec_wkey W nr r : Forall word4 W -> length W = (4 * (nr + 1))%nat -> (r <= nr)%nat ->
  wkey (dec_schedule nr (map be_val W)) (4 * r) (dec_key W nr r).
Proof.
  intros HW Hl Hr.
  assert (N : forall j, (j < 4)%nat -> nth (4 * r + j) (dec_schedule nr (map be_val W)) 0 =
     (let w := nth (4 * (nr - r) + j) W [] in
      if ((0 <? r) && (r <? nr))%nat then be_val (mix_column 14 11 13 9 w) else be_val w)).
  { intros j Hj. unfold dec_schedule.
    rewrite (nth_flat4 0 (fun r j => let x := nth (4 * (nr + 1) - 4 * r - 4 + j) (map be_val W) 0 in
               if (0 <? 4 * r)%nat && (4 * r + 4 <? 4 * (nr + 1))%nat then imc_word x else x)) by lia.
    cbv zeta. rewrite Nat.add_0_l.
    replace (4 * (nr + 1) - 4 * r - 4 + j)%nat with (4 * (nr - r) + j)%nat by lia.
    rewrite nth_map_be by lia. rewrite imc_word_ok by (apply nth_word; auto; lia).
    destruct (Nat.ltb_spec 0 r); destruct (Nat.ltb_spec 0 (4 * r)); try lia; cbn [andb]; auto.
    destruct (Nat.ltb_spec r nr); destruct (Nat.ltb_spec (4 * r + 4) (4 * (nr + 1))); try lia; auto. }
  assert (Wj : forall j, (j < 4)%nat -> word4 (nth (4 * (nr - r) + j) W [])) by (intros; apply nth_word; auto; lia).
  assert (R : round_key W (nr - r) = nth (4 * (nr - r) + 0) W [] ++ nth (4 * (nr - r) + 1) W [] ++
     nth (4 * (nr - r) + 2) W [] ++ nth (4 * (nr - r) + 3) W []).
  { unfold round_key. rewrite (firstn4_skipn []) by lia. cbn [concat]. rewrite app_nil_r, Nat.add_0_r. reflexivity. }
  unfold wkey, dec_key. rewrite R. unfold InvMixColumns. rewrite mixcols_app by (apply Wj; lia).
  pose proof (N 0%nat ltac:(lia)) as N0. pose proof (N 1%nat ltac:(lia)) as N1.
  pose proof (N 2%nat ltac:(lia)) as N2. pose proof (N 3%nat ltac:(lia)) as N3.
  replace (4 * r + 0)%nat with (4 * r)%nat in N0 by lia. cbv zeta in *. clear N R.
  destruct ((0 <? r) && (r <? nr))%nat.
  - exists (mix_column 14 11 13 9 (nth (4 * (nr - r) + 0) W [])), (mix_column 14 11 13 9 (nth (4 * (nr - r) + 1) W [])),
      (mix_column 14 11 13 9 (nth (4 * (nr - r) + 2) W [])), (mix_column 14 11 13 9 (nth (4 * (nr - r) + 3) W [])).
    split; [apply mix_word, Wj; lia|]. split; [apply mix_word, Wj; lia|]. split; [apply mix_word, Wj; lia|].
    split; [apply mix_word, Wj; lia|]. auto.
  - exists (nth (4 * (nr - r) + 0) W []), (nth (4 * (nr - r) + 1) W []),
      (nth (4 * (nr - r) + 2) W []), (nth (4 * (nr - r) + 3) W []).
    split; [apply Wj; lia|]. split; [apply Wj; lia|]. split; [apply Wj; lia|]. split; [apply Wj; lia|]. auto.
Qed.

(** ** Main results *)
Section Key.
Variable key : list Z.
Hypothesis Hb : bytes key.
Hypothesis Hk : keylen_ok key.
Let W := KeyExpansion key.
Let nr := (length key / 4 + 6)%nat.

Lemma nr_ge : (2 <= nr)%nat.
Proof. unfold nr. lia. Qed.
Lemma W_len : length W = (4 * (nr + 1))%nat.
Proof. unfold W, nr. destruct (enc_schedule_ok key) as [_ [-> _]]; auto. lia. Qed.
Lemma W_words : Forall word4 W.
Proof. apply (enc_schedule_ok key); auto. Qed.

Lemma rks_split : AES_round_keys key =
  round_key W 0 :: map (round_key W) (seq 1 (nr - 1)) ++ [round_key W nr].
Proof.
  unfold AES_round_keys. fold W. replace (length key / 4 + 7)%nat with (S (S (nr - 1))) by (unfold nr; lia).
  rewrite (seq_S (S (nr - 1))), map_app. cbn [seq map]. cbn [app].
  replace (0 + S (nr - 1))%nat with nr by (pose proof nr_ge; lia). reflexivity.
Qed.

Lemma rk_st r : (r <= nr)%nat -> st16 (round_key W r).
Proof. intros. apply round_key_st; [apply W_words|]. rewrite W_len. lia. Qed.
Lemma rks_st : Forall st16 (map (round_key W) (seq 1 (nr - 1))).
Proof.
  apply Forall_forall. intros x Hx. apply in_map_iff in Hx. destruct Hx as [r [<- Hr]].
  apply in_seq in Hr. apply rk_st. pose proof nr_ge. lia.
Qed.

Theorem crypt_block_fips m : st16 m -> crypt_block (aes_make key) m = AES_Cipher key m.
Proof.
  intros Hm. destruct (enc_schedule_ok key) as [_ [_ HE]]; auto. fold W in HE.
  unfold crypt_block, aes_make. cbn [enc_ks aes_rounds]. unfold aes_nr. fold nr. rewrite HE.
  unfold AES_Cipher. rewrite rks_split.
  rewrite (add_key_ok _ 0 (round_key W 0)); auto.
  2:{ apply (enc_wkey W 0); [apply W_words|]. rewrite W_len. lia. }
  change 4%nat with (4 * 1)%nat.
  rewrite (enc_loop_ok _ (round_key W)).
  - rewrite store_load.
    + rewrite (seq_S (nr - 1)), map_app. cbn [map]. replace (1 + (nr - 1))%nat with nr by (pose proof nr_ge; lia). reflexivity.
    + apply enc_rounds_st; [|apply xor_st; auto; apply rk_st; lia].
      apply Forall_forall. intros x Hx. apply in_map_iff in Hx. destruct Hx as [r [<- Hr]].
      apply in_seq in Hr. apply rk_st. pose proof nr_ge. lia.
  - intros i Hi. apply enc_wkey; [apply W_words|]. rewrite W_len. pose proof nr_ge. lia.
  - apply xor_st; auto. apply rk_st; lia.
Qed.

Lemma rev_keys : rev (map (round_key W) (seq 1 (nr - 1))) = map (fun r => round_key W (nr - r)) (seq 1 (nr - 1)).
Proof.
  rewrite <- map_rev. pose proof nr_ge.
  assert (G : forall n, rev (seq 1 n) = map (fun r => (S n - r)%nat) (seq 1 n)).
  { induction n as [|n IH]; [reflexivity|].
    rewrite seq_S at 1. rewrite rev_app_distr, IH. cbn [rev app].
    cbn [seq map]. f_equal. rewrite <- (seq_shift n 1), map_map. apply map_ext. intros; lia. }
  rewrite G, map_map. apply map_ext_in. intros r Hr. apply in_seq in Hr. f_equal. lia.
Qed.

Theorem decrypt_block_fips m : st16 m -> decrypt_block (aes_make key) m = AES_InvCipher key m.
Proof.
  intros Hm. destruct (enc_schedule_ok key) as [_ [_ HE]]; auto. fold W in HE. pose proof nr_ge as Hnr.
  unfold decrypt_block, aes_make. cbn [dec_ks aes_rounds]. unfold aes_nr. fold nr. rewrite HE.
  assert (DK : forall r, (r <= nr)%nat -> wkey (dec_schedule nr (map be_val W)) (4 * r) (dec_key W nr r)).
  { intros. apply dec_wkey; auto using W_words, W_len. }
  unfold AES_InvCipher. rewrite rks_split. cbn [rev]. rewrite rev_app_distr. cbn [rev app].
  rewrite (add_key_ok _ 0 (dec_key W nr 0)) by (auto; apply (DK 0%nat); lia).
  change 4%nat with (4 * 1)%nat.
  replace (dec_key W nr 0) with (round_key W nr) by (unfold dec_key; cbn; rewrite Nat.sub_0_r; reflexivity).
  rewrite (dec_loop_ok _ (dec_key W nr)).
  - assert (E : map (dec_key W nr) (seq 1 (S (nr - 1))) =
       map InvMixColumns (rev (map (round_key W) (seq 1 (nr - 1)))) ++ [round_key W 0]).
    { rewrite rev_keys, (seq_S (nr - 1)), map_app, map_map. f_equal.
      - apply map_ext_in. intros r Hr. apply in_seq in Hr. unfold dec_key.
        replace ((0 <? r) && (r <? nr))%nat with true; auto.
        symmetry. apply andb_true_intro. split; apply Nat.ltb_lt; lia.
      - cbn [map]. unfold dec_key. replace (1 + (nr - 1))%nat with nr by lia.
        rewrite Nat.ltb_irrefl, Bool.andb_false_r, Nat.sub_diag. reflexivity. }
    rewrite E. rewrite eq_dec_ok.
    + rewrite store_load; [reflexivity|].
      apply dec_rounds_st; [|apply xor_st; auto; apply rk_st; lia].
      apply Forall_app. split; [apply Forall_rev, rks_st|]. constructor; auto. apply rk_st; lia.
    + apply Forall_rev, rks_st.
    + apply xor_st; auto. apply rk_st; lia.
  - intros i Hi. apply DK. lia.
  - apply xor_st; auto. apply rk_st; lia.
Qed.

Theorem fips_inverse m : st16 m -> AES_InvCipher key (AES_Cipher key m) = m.
Proof.
  intros Hm. unfold AES_InvCipher, AES_Cipher. rewrite rks_split. cbn [rev]. rewrite rev_app_distr. cbn [rev app].
  apply aes_inv_gen; auto; try (apply rk_st; lia). apply rks_st.
Qed.
Theorem fips_inverse' m : st16 m -> AES_Cipher key (AES_InvCipher key m) = m.
Proof.
  intros Hm. unfold AES_InvCipher, AES_Cipher. rewrite rks_split. cbn [rev]. rewrite rev_app_distr. cbn [rev app].
  rewrite <- (rev_involutive (map (round_key W) (seq 1 (nr - 1)))) at 2.
  apply aes_inv_gen'; auto; try (apply rk_st; lia). apply Forall_rev, rks_st.
Qed.
Lemma AES_Cipher_st m : st16 m -> st16 (AES_Cipher key m).
Proof.
  intros Hm. unfold AES_Cipher. rewrite rks_split. apply enc_rounds_st.
  - apply Forall_app. split; [apply rks_st|]. constructor; auto. apply rk_st; lia.
  - apply xor_st; auto. apply rk_st; lia.
Qed.
Lemma AES_InvCipher_st m : st16 m -> st16 (AES_InvCipher key m).
Proof.
  intros Hm. unfold AES_InvCipher. rewrite rks_split. cbn [rev]. rewrite rev_app_distr. cbn [rev app].
  apply dec_rounds_st.
  - apply Forall_app. split; [apply Forall_rev, rks_st|]. constructor; auto. apply rk_st; lia.
  - apply xor_st; auto. apply rk_st; lia.
Qed.

Theorem aes_good : GoodCipher (aes_cipher (aes_make key)) 16 (crypt_block (aes_make key)) (decrypt_block (aes_make key)).
Proof.
  constructor.
  - reflexivity.
  - lia.
  - intros b Hl. cbn. unfold aes_encrypt. rewrite Hl. reflexivity.
  - intros b Hl. cbn. unfold aes_decrypt. rewrite Hl. reflexivity.
  - intros b Hl. cbn. unfold aes_encrypt. apply Nat.eqb_neq in Hl. rewrite Hl. reflexivity.
  - intros b Hl. cbn. unfold aes_decrypt. apply Nat.eqb_neq in Hl. rewrite Hl. reflexivity.
  - intros b Hl Hbb. rewrite crypt_block_fips by (split; auto). apply AES_Cipher_st. split; auto.
  - intros b Hl Hbb. rewrite decrypt_block_fips by (split; auto). apply AES_InvCipher_st. split; auto.
  - intros b Hl Hbb. assert (st16 b) by (split; auto).
    rewrite crypt_block_fips, decrypt_block_fips by auto using AES_Cipher_st. apply fips_inverse; auto.
  - intros b Hl Hbb. assert (st16 b) by (split; auto).
    rewrite decrypt_block_fips, crypt_block_fips by auto using AES_InvCipher_st. apply fips_inverse'; auto.
Qed.
End Key.
