(** The SM4 model computes the standard's cipher, and decryption inverts it. *)
From Verif Require Import Base Words ModesModel ModesSpec Sm4Model Sm4Spec.

Lemma sbox_ok b : byte b -> tbl SM4_SBOX b = Sbox b.
Proof.
  intros H. apply Z.eqb_eq. revert b H. apply (forall_byte (fun b => tbl SM4_SBOX b =? Sbox b)).
  vm_compute. reflexivity.
Qed.
Lemma sbox_byte b : byte b -> byte (Sbox b).
Proof.
  intros H. rewrite <- sbox_ok by auto. apply byteb_spec. revert b H.
  apply (forall_byte (fun b => byteb (tbl SM4_SBOX b))). vm_compute. reflexivity.
Qed.
Lemma ck_ok i : (i < 32)%nat -> nth i SM4_CK 0 = CK i.
Proof. intros H. do 32 (destruct i as [|i]; [vm_compute; reflexivity|]). lia. Qed.

Lemma be4_explicit x : be_bytes 4 x = [x / 2 ^ 24 mod 256; x / 2 ^ 16 mod 256; x / 2 ^ 8 mod 256; x mod 256].
Proof.
  unfold be_bytes. cbn [le_bytes rev app]. rewrite !Z.div_div by lia. reflexivity.
Qed.
Lemma tau_ok x : f_tau x = tau x.
Proof.
  unfold f_tau. rewrite be4_explicit. cbn [map].
  rewrite !sbox_ok by (apply Z.mod_pos_bound; lia). rewrite be_val4. unfold tau.
  change (2 ^ 24) with 16777216. change (2 ^ 16) with 65536. change (2 ^ 8) with 256.
  generalize (Sbox (x / 16777216 mod 256)) (Sbox (x / 65536 mod 256)) (Sbox (x / 256 mod 256)) (Sbox (x mod 256)).
  intros. ring.
Qed.
Lemma tau_w32 x : w32 (tau x).
Proof.
  unfold tau, w32, M32.
  assert (forall y, 0 <= Sbox (y mod 256) < 256) by (intros; apply sbox_byte; apply Z.mod_pos_bound; lia).
  pose proof (H (x / 2 ^ 24)) as H1. pose proof (H (x / 2 ^ 16)) as H2. pose proof (H (x / 2 ^ 8)) as H3.
  pose proof (H x) as H4. clear H. revert H1 H2 H3 H4.
  generalize (Sbox (x / 2 ^ 24 mod 256)) (Sbox (x / 2 ^ 16 mod 256)) (Sbox (x / 2 ^ 8 mod 256)) (Sbox (x mod 256)).
  intros. lia.
Qed.
Lemma rol_ok x n : w32 x -> 0 <= n <= 32 -> rotl32 x n = rol x n.
Proof. intros. apply rotl32_add; auto. Qed.
Lemma L_ok x : w32 x -> f_l x = L x.
Proof. intros. unfold f_l, L. rewrite !rol_ok by (auto; lia). xor_ac. Qed.
Lemma L'_ok x : w32 x -> f_lb x = L' x.
Proof. intros. unfold f_lb, L'. rewrite !rol_ok by (auto; lia). xor_ac. Qed.
Lemma L_w32 x : w32 x -> w32 (L x).
Proof.
  intros. unfold L. rewrite <- !rol_ok by (auto; lia).
  repeat apply lxor_w32; auto; apply rotl32_w32; auto; lia.
Qed.

(** The array holds the window at its end. *)
Definition window (x : list Z) (i : nat) : win := (nth i x 0, nth (i + 1) x 0, nth (i + 2) x 0, nth (i + 3) x 0).

Lemma nth_app_l (x : list Z) v i : (i < length x)%nat -> nth i (x ++ [v]) 0 = nth i x 0.
Proof. intros. apply app_nth1; auto. Qed.
Lemma nth_app_last (x : list Z) v i : i = length x -> nth i (x ++ [v]) 0 = v.
Proof. intros ->. rewrite app_nth2 by lia. rewrite Nat.sub_diag. reflexivity. Qed.

Lemma lx4 a b c d : Z.lxor (Z.lxor (Z.lxor a b) c) d = Z.lxor a (Z.lxor b (Z.lxor c d)).
Proof. rewrite !Z.lxor_assoc. reflexivity. Qed.

Lemma window_step x i rk : length x = (i + 4)%nat ->
  let x' := x ++ [round_f (nth i x 0) (nth (i + 1) x 0) (nth (i + 2) x 0) (nth (i + 3) x 0) rk] in
  window x' (S i) = sm4_round (window x i) rk.
Proof.
  intros Hl. cbv zeta. unfold window, sm4_round.
  replace (S i + 1)%nat with (i + 2)%nat by lia. replace (S i + 2)%nat with (i + 3)%nat by lia.
  replace (S i + 3)%nat with (length x) by lia. replace (S i) with (i + 1)%nat by lia.
  rewrite (nth_app_last _ _ (length _)) by reflexivity. rewrite !nth_app_l by lia.
  unfold round_f. rewrite tau_ok, L_ok by apply tau_w32. rewrite lx4. reflexivity.
Qed.

Lemma sm4_loop_ok rk cnt : forall i x, length x = (i + 4)%nat ->
  length (sm4_loop rk cnt i x) = (i + cnt + 4)%nat /\
  window (sm4_loop rk cnt i x) (i + cnt) = fold_left sm4_round (map rk (seq i cnt)) (window x i).
Proof.
  induction cnt as [|cnt IH]; intros i x Hl.
  - cbn. rewrite Nat.add_0_r. auto.
  - cbn [sm4_loop seq map fold_left]. rewrite <- window_step by auto.
    match goal with |- context [sm4_loop rk cnt (S i) ?y] => destruct (IH (S i) y) as [A B] end.
    { rewrite app_length. cbn. lia. }
    replace (i + S cnt)%nat with (S i + cnt)%nat by lia. auto.
Qed.

Lemma ks_loop_ok cnt : forall i k rk, length k = (i + 4)%nat -> (i + cnt <= 32)%nat ->
  sm4_ks_loop cnt i k rk = rk ++ round_keys cnt i (window k i).
Proof.
  induction cnt as [|cnt IH]; intros i k rk Hl Hi.
  - cbn. rewrite app_nil_r. reflexivity.
  - cbn [sm4_ks_loop]. rewrite IH; [|rewrite app_length; cbn; lia|lia].
    rewrite <- app_assoc. cbn [app]. f_equal. unfold window. cbn [round_keys].
    rewrite tau_ok, L'_ok by apply tau_w32. rewrite lx4, ck_ok by lia.
    f_equal. f_equal. replace (S i + 1)%nat with (i + 2)%nat by lia. replace (S i + 2)%nat with (i + 3)%nat by lia.
    replace (S i + 3)%nat with (length k) by lia. replace (S i) with (i + 1)%nat by lia.
    rewrite (nth_app_last _ _ (length _)) by reflexivity. rewrite !nth_app_l by lia. reflexivity.
Qed.

Lemma words_ok b : length b = 16%nat -> sm4_words b = map be_val (chunks 4 b).
Proof.
  intros Hl. do 16 (destruct b as [|? b]; [discriminate|]). destruct b; [|discriminate]. reflexivity.
Qed.
Lemma window_words b : length b = 16%nat -> window (sm4_words b) 0 = words b.
Proof.
  intros Hl. do 16 (destruct b as [|? b]; [discriminate|]). destruct b; [|discriminate]. reflexivity.
Qed.

Lemma keys_ok key : length key = 16%nat -> sm4_key_schedule (sm4_words key) = SM4_keys key.
Proof.
  intros Hl. unfold sm4_key_schedule, SM4_keys. rewrite <- window_words by auto.
  do 16 (destruct key as [|? key]; [discriminate|]). destruct key; [|discriminate].
  rewrite ks_loop_ok; [|reflexivity|lia].
  cbn [app sm4_words chunks map firstn skipn]. cbv [window nth Nat.add FK SM4_FK]. reflexivity.
Qed.
Lemma round_keys_length cnt : forall i k, length (round_keys cnt i k) = cnt.
Proof. induction cnt; intros i [[[? ?] ?] ?]; cbn; auto. Qed.
Lemma SM4_keys_length key : length (SM4_keys key) = 32%nat.
Proof. unfold SM4_keys. destruct (words key) as [[[? ?] ?] ?]. apply round_keys_length. Qed.

Lemma block_ok rk b : length b = 16%nat ->
  sm4_block rk b = out (R (fold_left sm4_round (map rk (seq 0 32)) (words b))).
Proof.
  intros Hl. unfold sm4_block. destruct (sm4_loop_ok rk 32 0 (sm4_words b)) as [_ E]; [reflexivity|].
  rewrite window_words in E by auto. rewrite <- E. unfold window. cbn [R out flat_map Nat.add].
  rewrite app_nil_r. reflexivity.
Qed.
Lemma map_nth_seq (l : list Z) : map (fun i => nth i l 0) (seq 0 (length l)) = l.
Proof.
  induction l as [|x l IH]; [reflexivity|]. cbn [length seq map nth]. f_equal.
  rewrite <- seq_shift, map_map. exact IH.
Qed.
Lemma map_nth_rev (l : list Z) : length l = 32%nat -> map (fun i => nth (31 - i) l 0) (seq 0 32) = rev l.
Proof.
  intros Hl. rewrite <- (map_nth_seq (rev l)), rev_length, Hl. apply map_ext_in. intros i Hi.
  apply in_seq in Hi. rewrite rev_nth by lia. f_equal. lia.
Qed.

Theorem sm4_enc_std key b : length key = 16%nat -> length b = 16%nat ->
  sm4_block (fun i => nth i (sm4_key_schedule (sm4_words key)) 0) b = SM4_enc key b.
Proof.
  intros Hk Hb. rewrite block_ok, keys_ok by auto. unfold SM4_enc.
  rewrite <- (SM4_keys_length key), map_nth_seq. reflexivity.
Qed.
Theorem sm4_dec_std key b : length key = 16%nat -> length b = 16%nat ->
  sm4_block (fun i => nth (31 - i) (sm4_key_schedule (sm4_words key)) 0) b = SM4_dec key b.
Proof.
  intros Hk Hb. rewrite block_ok, keys_ok by auto. unfold SM4_dec.
  rewrite map_nth_rev by apply SM4_keys_length. reflexivity.
Qed.

(** ** Inversion *)
Lemma round_inv s rk : sm4_round (R (sm4_round s rk)) rk = R s.
Proof.
  destruct s as [[[a b] c] d]. unfold sm4_round, R. f_equal.
  replace (Z.lxor d (Z.lxor c (Z.lxor b rk))) with (Z.lxor b (Z.lxor c (Z.lxor d rk))) by xor_ac.
  apply lxor_cancel.
Qed.
Lemma fold_inv ks : forall s, fold_left sm4_round (rev ks) (R (fold_left sm4_round ks s)) = R s.
Proof.
  induction ks as [|k ks IH]; intros s; [reflexivity|]. cbn [rev fold_left].
  rewrite fold_left_app, IH. cbn [fold_left]. apply round_inv.
Qed.
Lemma R_R s : R (R s) = s.
Proof. destruct s as [[[a b] c] d]. reflexivity. Qed.
Definition win_ok (s : win) : Prop := let '(a, b, c, d) := s in w32 a /\ w32 b /\ w32 c /\ w32 d.
Lemma words_out s : win_ok s -> words (out s) = s.
Proof.
  destruct s as [[[a b] c] d]. intros [Ha [Hb [Hc Hd]]]. unfold out.
  assert (E : forall x, be_bytes 4 x = [x / 2 ^ 24 mod 256; x / 2 ^ 16 mod 256; x / 2 ^ 8 mod 256; x mod 256])
    by apply be4_explicit.
  unfold words. rewrite !chunks_app by (rewrite ?be_bytes_length; lia).
  rewrite <- (app_nil_r (be_bytes 4 d)), chunks_app by (rewrite ?be_bytes_length; lia). rewrite chunks_nil by lia.
  cbn [map]. rewrite !be4_word by auto. reflexivity.
Qed.
Lemma out_words b : length b = 16%nat -> bytes b -> out (words b) = b /\ win_ok (words b).
Proof.
  intros Hl Hb.
  assert (E : b = firstn 4 b ++ firstn 4 (skipn 4 b) ++ firstn 4 (skipn 8 b) ++ skipn 12 b).
  { do 16 (destruct b as [|? b]; [discriminate|]). destruct b; [|discriminate]. reflexivity. }
  assert (L1 : length (firstn 4 b) = 4%nat) by (rewrite firstn_length; lia).
  assert (L2 : length (firstn 4 (skipn 4 b)) = 4%nat) by (rewrite firstn_length, skipn_length; lia).
  assert (L3 : length (firstn 4 (skipn 8 b)) = 4%nat) by (rewrite firstn_length, skipn_length; lia).
  assert (L4 : length (skipn 12 b) = 4%nat) by (rewrite skipn_length; lia).
  assert (B1 : bytes (firstn 4 b)) by auto using bytes_firstn.
  assert (B2 : bytes (firstn 4 (skipn 4 b))) by auto using bytes_firstn, bytes_skipn.
  assert (B3 : bytes (firstn 4 (skipn 8 b))) by auto using bytes_firstn, bytes_skipn.
  assert (B4 : bytes (skipn 12 b)) by auto using bytes_skipn.
  assert (W : words b = (be_val (firstn 4 b), be_val (firstn 4 (skipn 4 b)), be_val (firstn 4 (skipn 8 b)), be_val (skipn 12 b))).
  { clear -Hl. do 16 (destruct b as [|? b]; [discriminate|]). destruct b; [|discriminate]. reflexivity. }
  rewrite W. cbn [out win_ok]. rewrite !be4_bytes by auto. split; [auto|]. auto 10 using w32_be.
Qed.
Lemma round_ok s rk : win_ok s -> win_ok (sm4_round s rk).
Proof.
  destruct s as [[[a b] c] d]. intros [Ha [Hb [Hc Hd]]]. cbn. repeat split; try apply Hb; try apply Hc; try apply Hd.
  all: apply lxor_w32; auto; apply L_w32, tau_w32.
Qed.
Lemma fold_ok ks : forall s, win_ok s -> win_ok (fold_left sm4_round ks s).
Proof. induction ks; intros; cbn; auto using round_ok. Qed.
Lemma R_ok s : win_ok s -> win_ok (R s).
Proof. destruct s as [[[a b] c] d]. cbn. intuition. Qed.

Theorem sm4_inverse key b : length b = 16%nat -> bytes b -> SM4_dec key (SM4_enc key b) = b.
Proof.
  intros Hl Hb. destruct (out_words b Hl Hb) as [E W]. unfold SM4_dec, SM4_enc.
  rewrite words_out by auto using R_ok, fold_ok. rewrite fold_inv, R_R. exact E.
Qed.
Theorem sm4_inverse' key b : length b = 16%nat -> bytes b -> SM4_enc key (SM4_dec key b) = b.
Proof.
  intros Hl Hb. destruct (out_words b Hl Hb) as [E W]. unfold SM4_dec, SM4_enc.
  rewrite words_out by auto using R_ok, fold_ok.
  rewrite <- (rev_involutive (SM4_keys key)) at 1. rewrite fold_inv, R_R. exact E.
Qed.
Lemma out_len s : length (out s) = 16%nat /\ bytes (out s).
Proof.
  destruct s as [[[a b] c] d]. cbn [out]. split; [rewrite !app_length, !be_bytes_length; reflexivity|].
  rewrite !bytes_app. auto using be_bytes_bytes.
Qed.

Definition sm4_rk (key : list Z) : list Z := sm4_key_schedule (sm4_words key).
Theorem sm4_good key : length key = 16%nat ->
  GoodCipher (sm4_cipher (sm4_rk key)) 16 (sm4_block (fun i => nth i (sm4_rk key) 0))
    (sm4_block (fun i => nth (31 - i) (sm4_rk key) 0)).
Proof.
  intros Hk. constructor.
  - reflexivity.
  - lia.
  - intros b Hl. cbn [enc dec sm4_cipher]. unfold sm4_encrypt. rewrite Hl. reflexivity.
  - intros b Hl. cbn [enc dec sm4_cipher]. unfold sm4_decrypt. rewrite Hl. reflexivity.
  - intros b Hl. cbn [enc dec sm4_cipher]. unfold sm4_encrypt. apply Nat.eqb_neq in Hl. rewrite Hl. reflexivity.
  - intros b Hl. cbn [enc dec sm4_cipher]. unfold sm4_decrypt. apply Nat.eqb_neq in Hl. rewrite Hl. reflexivity.
  - intros b Hl Hb. unfold sm4_rk. rewrite sm4_enc_std by auto. apply out_len.
  - intros b Hl Hb. unfold sm4_rk. rewrite sm4_dec_std by auto. apply out_len.
  - intros b Hl Hb. unfold sm4_rk. rewrite sm4_enc_std, sm4_dec_std by (auto; apply out_len). apply sm4_inverse; auto.
  - intros b Hl Hb. unfold sm4_rk. rewrite sm4_dec_std, sm4_enc_std by (auto; apply out_len). apply sm4_inverse'; auto.
Qed.
