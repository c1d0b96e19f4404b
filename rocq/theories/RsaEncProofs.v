(** PKCS1, OAEP and PSS against RFC 8017. *)
From Coq Require Import Znumtheory.
From Verif Require Import Base HashModel NumTheory RsaModel RsaEncModel RsaSpec RsaProofs HashApi.

(** ** Integers and byte strings *)
Lemma bits_len_bound x j : 0 <= x < 2 ^ Z.of_nat j -> (bits_len x <= j)%nat.
Proof.
  intros [B1 B2]. unfold bits_len. destruct (Z.leb_spec x 0); [lia|].
  assert (Z.log2 x < Z.of_nat j) by (apply Z.log2_lt_pow2; lia). pose proof (Z.log2_nonneg x). lia.
Qed.
Lemma bits_len_upper x : 0 <= x -> x < 2 ^ Z.of_nat (bits_len x).
Proof.
  intros B. unfold bits_len. destruct (Z.leb_spec x 0); [assert (x = 0) by lia; subst; reflexivity|].
  pose proof (Z.log2_nonneg x). rewrite Z2Nat.id by lia. apply Z.log2_spec. lia.
Qed.
Lemma bits_len_lower x : 0 < x -> (0 < bits_len x)%nat /\ 2 ^ Z.of_nat (bits_len x - 1) <= x.
Proof.
  intros B. unfold bits_len. destruct (Z.leb_spec x 0); [lia|].
  pose proof (Z.log2_nonneg x). split; [lia|]. replace (Z.of_nat _) with (Z.log2 x) by lia. apply Z.log2_spec. lia.
Qed.
Lemma pow256 j : 256 ^ Z.of_nat j = 2 ^ Z.of_nat (8 * j).
Proof. replace (Z.of_nat (8 * j)) with (8 * Z.of_nat j) by lia. rewrite Z.pow_mul_r by lia. reflexivity. Qed.
Lemma be_val_repeat0 j l : be_val (repeat 0 j ++ l) = be_val l.
Proof.
  rewrite be_val_app. assert (E : be_val (repeat 0 j) = 0); [|rewrite E; lia].
  unfold be_val. induction j as [|j IH]; [reflexivity|]. cbn [repeat fold_left]. exact IH.
Qed.
Lemma byte0 : byte 0. Proof. unfold byte; lia. Qed.
Lemma be_bytes_pad j k x : (j <= k)%nat -> 0 <= x < 256 ^ Z.of_nat j -> repeat 0 (k - j) ++ be_bytes j x = be_bytes k x.
Proof.
  intros L B. apply be_val_inj.
  - apply bytes_app. split; [apply bytes_repeat, byte0|apply be_bytes_bytes].
  - apply be_bytes_bytes.
  - rewrite app_length, repeat_length, !be_bytes_length. lia.
  - rewrite be_val_repeat0, !be_val_bytes, !Z.mod_small; [reflexivity| |exact B].
    pose proof (Z.pow_le_mono_r 256 (Z.of_nat j) (Z.of_nat k)). lia.
Qed.
Lemma to_be_bytes_fit x k : 0 <= x < 256 ^ Z.of_nat k -> ((bits_len x + 7) / 8 <= k)%nat /\ x < 256 ^ Z.of_nat ((bits_len x + 7) / 8).
Proof.
  intros [B1 B2]. rewrite pow256 in B2. pose proof (bits_len_bound x (8 * k) (conj B1 B2)) as L. split.
  - apply Nat.lt_succ_r. apply Nat.div_lt_upper_bound; lia.
  - rewrite pow256. eapply Z.lt_le_trans; [apply bits_len_upper; exact B1|]. apply Z.pow_le_mono_r; [lia|].
    pose proof (Nat.div_mod (bits_len x + 7) 8 ltac:(lia)). pose proof (Nat.mod_upper_bound (bits_len x + 7) 8 ltac:(lia)). lia.
Qed.
Lemma left_pad_ok k x : 0 <= x < 256 ^ Z.of_nat k -> left_pad k x = be_bytes k x.
Proof.
  intros B. destruct (to_be_bytes_fit x k B) as [L U]. unfold left_pad, to_be_bytes. rewrite be_bytes_length.
  apply be_bytes_pad; [exact L|]. split; [apply B|exact U].
Qed.
Lemma fix_len_ok k x : 0 <= x < 256 ^ Z.of_nat k -> fix_len k x = be_bytes k x.
Proof.
  intros B. destruct (to_be_bytes_fit x k B) as [L U]. unfold fix_len, to_be_bytes. rewrite be_bytes_length.
  destruct (Nat.ltb_spec ((bits_len x + 7) / 8) k) as [H|H]; [apply be_bytes_pad; [exact L|split; [apply B|exact U]]|].
  assert (E : ((bits_len x + 7) / 8 = k)%nat) by lia. rewrite E. apply firstn_all2. rewrite be_bytes_length. lia.
Qed.
Lemma modulus_len_bounds pk : 1 < pk_n pk -> (0 < modulus_len pk)%nat /\ 256 ^ Z.of_nat (modulus_len pk - 1) <= pk_n pk < 256 ^ Z.of_nat (modulus_len pk).
Proof.
  intros N. unfold modulus_len. destruct (bits_len_lower (pk_n pk) ltac:(lia)) as [B0 BL].
  assert (B : 0 <= pk_n pk < 256 ^ Z.of_nat (bits_len (pk_n pk))).
  { rewrite pow256. pose proof (bits_len_upper (pk_n pk) ltac:(lia)). split; [lia|]. eapply Z.lt_le_trans; [eassumption|]. apply Z.pow_le_mono_r; lia. }
  destruct (to_be_bytes_fit _ _ B) as [_ U].
  pose proof (Nat.div_mod (bits_len (pk_n pk) + 7) 8 ltac:(lia)) as DM. pose proof (Nat.mod_upper_bound (bits_len (pk_n pk) + 7) 8 ltac:(lia)) as DU.
  split; [|split; [|exact U]].
  - apply Nat.div_str_pos. lia.
  - rewrite pow256. eapply Z.le_trans; [|exact BL]. apply Z.pow_le_mono_r; lia.
Qed.
Lemma be_val_lead0 k l : bytes l -> length l = k -> be_val (0 :: l) < 256 ^ Z.of_nat k.
Proof. intros B L. change (0 :: l) with (repeat 0 1 ++ l). rewrite be_val_repeat0. pose proof (be_val_bound l B). rewrite L in *. lia. Qed.
Lemma enc_range pk m : 1 < pk_n pk -> 0 <= pub_encrypt pk m < pk_n pk.
Proof. intros N. unfold pub_encrypt. rewrite powmod_ok by lia. apply Z.mod_pos_bound. lia. Qed.
Lemma list_eqb_spec a b : list_eqb a b = true <-> a = b.
Proof.
  revert b. induction a as [|x a IH]; intros [|y b]; cbn [list_eqb]; split; try discriminate; try reflexivity.
  - rewrite andb_true_iff, Z.eqb_eq, IH. intros [-> ->]. reflexivity.
  - intros E. rewrite andb_true_iff, Z.eqb_eq, IH. split; congruence.
Qed.
Lemma list_eqb_refl a : list_eqb a a = true. Proof. apply list_eqb_spec. reflexivity. Qed.
Lemma list_eqb_neq a b : a <> b -> list_eqb a b = false.
Proof. intros N. destruct (list_eqb a b) eqn:E; [|reflexivity]. apply list_eqb_spec in E. contradiction. Qed.

Lemma key_N sk : key_ok sk -> 1 < pk_n (sk_pk sk). Proof. intros ((_ & _ & _ & N & _) & _). exact N. Qed.
Lemma pow_range c d n : 1 < n -> 0 <= c ^ d mod n < n. Proof. intros N. apply Z.mod_pos_bound. lia. Qed.

(** ** PKCS1 encryption *)
Definition nonzero_bytes (ws : list Z) : list Z := filter (fun x => negb (x =? 0)) (flat_map (be_bytes 4) ws).
Lemma filter_app' {A} (f : A -> bool) a b : filter f (a ++ b) = filter f a ++ filter f b.
Proof. induction a as [|x a IH]; cbn [filter app]; [reflexivity|]. destruct (f x); rewrite IH; reflexivity. Qed.
Lemma ps_loop_firstn bound ws : forall em, (length em <= bound)%nat -> firstn bound (ps_loop em bound ws) = firstn bound (em ++ nonzero_bytes ws).
Proof.
  induction ws as [|w ws IH]; intros em L.
  - cbn [ps_loop]. unfold nonzero_bytes. cbn [flat_map filter]. rewrite app_nil_r. reflexivity.
  - cbn [ps_loop]. unfold nonzero_bytes. cbn [flat_map]. rewrite filter_app', app_assoc.
    destruct (Nat.ltb_spec bound (length (em ++ filter (fun x => negb (x =? 0)) (be_bytes 4 w)))) as [H|H].
    + symmetry. rewrite firstn_app. replace (bound - _)%nat with 0%nat by lia. cbn [firstn]. rewrite app_nil_r. reflexivity.
    + apply IH. exact H.
Qed.
Lemma nonzero_bytes_ok ws : Forall (fun x => x <> 0) (nonzero_bytes ws) /\ bytes (nonzero_bytes ws).
Proof.
  unfold nonzero_bytes. pose proof (proj1 (flat_be_bytes 4 ws)) as B. revert B. generalize (flat_map (be_bytes 4) ws).
  induction l as [|x l IH]; intros B; cbn [filter]; [split; constructor|]. inversion B as [|? ? B1 B2]; subst. destruct (IH B2) as [I1 I2].
  destruct (Z.eqb_spec x 0); cbn [negb]; [split; assumption|]. split; constructor; assumption.
Qed.
Lemma Forall_firstn' {A} (P : A -> Prop) n l : Forall P l -> Forall P (firstn n l).
Proof. revert n. induction l as [|x l IH]; intros [|n] H; cbn [firstn]; try constructor; inversion H; subst; auto. Qed.

Definition pad_string (k : nat) (ws msg : list Z) : list Z := firstn (k - length msg - 3) (nonzero_bytes ws).

Lemma pkcs1_encrypt_ok kp ws msg :
  pub_is_valid (kp_public kp) = Ok tt -> 1 < pk_n (kp_public kp) -> bytes msg ->
  (1 <= length msg)%nat -> (length msg + 11 <= modulus_len (kp_public kp))%nat ->
  (modulus_len (kp_public kp) - length msg - 3 <= length (nonzero_bytes ws))%nat ->
  let k := modulus_len (kp_public kp) in
  let EM := EME_PKCS1 (pad_string k ws msg) msg in
  pkcs1_encrypt kp ws msg = Ok (I2OSP (OS2IP EM ^ pk_e (kp_public kp) mod pk_n (kp_public kp)) k) /\
  length EM = k /\ bytes EM /\ Forall (fun x => x <> 0) (pad_string k ws msg) /\ length (pad_string k ws msg) = (k - length msg - 3)%nat.
Proof.
  intros V N B L1 L2 HW k EM. unfold pkcs1_encrypt. rewrite (proj2 (Nat.eqb_neq _ _)) by lia. rewrite V. cbn [rbind]. fold k in L2, HW |- *.
  rewrite (proj2 (Nat.ltb_ge _ _)) by lia.
  assert (LP : length (pad_string k ws msg) = (k - length msg - 3)%nat) by (unfold pad_string; rewrite firstn_length; lia).
  assert (E : firstn (k - length msg - 3 + 2) (ps_loop [0; 2] (k - length msg - 3 + 2) ws) = [0; 2] ++ pad_string k ws msg).
  { rewrite ps_loop_firstn by (cbn [length]; lia). rewrite firstn_app. rewrite firstn_all2 by (cbn [length]; lia).
    cbn [length]. replace (k - length msg - 3 + 2 - 2)%nat with (k - length msg - 3)%nat by lia. reflexivity. }
  rewrite E. replace (([0; 2] ++ pad_string k ws msg) ++ [0] ++ msg) with EM by (unfold EM, EME_PKCS1; rewrite <- app_assoc; reflexivity).
  destruct (nonzero_bytes_ok ws) as [Z1 Z2].
  refine (conj _ (conj _ (conj _ (conj _ LP)))).
  - apply (f_equal Ok). unfold pub_encrypt. rewrite powmod_ok by lia. apply left_pad_ok.
    destruct (modulus_len_bounds _ N) as [_ [_ U]]. pose proof (pow_range (be_val EM) (pk_e (kp_public kp)) _ N). fold k in U. lia.
  - unfold EM, EME_PKCS1. rewrite !app_length. cbn [length]. lia.
  - unfold EM, EME_PKCS1. apply bytes_app. split; [apply Forall_cons; [unfold byte; lia|apply Forall_cons; [unfold byte; lia|constructor]]|].
    apply bytes_app. split; [apply Forall_firstn', Z2|]. apply bytes_app. split; [apply Forall_cons; [unfold byte; lia|constructor]|exact B].
  - apply Forall_firstn', Z1.
Qed.

Lemma nonzero_run_app a b : Forall (fun x => x <> 0) a -> nonzero_run (a ++ 0 :: b) = length a.
Proof. induction 1 as [|x a Hx Ha IH]; cbn [nonzero_run app length]; [reflexivity|]. rewrite (proj2 (Z.eqb_neq _ _) Hx), IH. reflexivity. Qed.
Lemma nonzero_run_split l : exists a b, l = a ++ b /\ length a = nonzero_run l /\ Forall (fun x => x <> 0) a /\ (b = [] \/ exists b', b = 0 :: b').
Proof.
  induction l as [|x l (a & b & E & L & F & C)]; [exists [], []; repeat split; auto|]. cbn [nonzero_run]. destruct (Z.eqb_spec x 0) as [->|NE].
  - exists [], (0 :: l). repeat split; [constructor|]. right. eauto.
  - exists (x :: a), b. cbn [length app]. rewrite E at 1. repeat split; [lia|constructor; assumption|exact C].
Qed.
Lemma pkcs1_decode_iff em m : (11 < length em)%nat -> pkcs1_decode em = Ok m <-> exists PS, em = EME_PKCS1 PS m /\ Forall (fun x => x <> 0) PS /\ (8 <= length PS)%nat.
Proof.
  intros L11. split.
  - unfold pkcs1_decode. destruct (Nat.leb_spec (length em) 11); cbn [orb]; [discriminate|].
    destruct em as [|e0 [|e1 em]]; [cbn in *; lia|cbn in *; lia|]. cbn [nth skipn].
    destruct (Z.eqb_spec e0 0); cbn [negb orb]; [|discriminate]. destruct (Z.eqb_spec e1 2); cbn [negb]; [|discriminate]. subst.
    destruct (nonzero_run_split em) as (a & b & E & L & F & C). rewrite <- L. cbn [length] in *.
    destruct (_ =? _)%nat eqn:E1; cbn [orb]; [discriminate|]. destruct (_ <? _)%nat eqn:E2; [discriminate|].
    apply Nat.eqb_neq in E1. apply Nat.ltb_ge in E2. intros Q.
    destruct C as [->|(b' & ->)]; [rewrite app_nil_r in E; subst em; lia|].
    exists a. split; [|split; [exact F|lia]]. assert (m = b') as ->.
    { rewrite E in Q. replace (2 + length a + 1)%nat with (S (S (S (length a)))) in Q by lia.
      change (skipn (S (S (S (length a)))) (0 :: 2 :: a ++ 0 :: b')) with (skipn (S (length a)) (a ++ 0 :: b')) in Q. rewrite skipn_app in Q. rewrite skipn_all2 in Q by lia. replace (S (length a) - length a)%nat with 1%nat in Q by lia. cbn [skipn app] in Q. congruence. }
    rewrite E. reflexivity.
  - intros (PS & -> & F & L). unfold EME_PKCS1 in L11. rewrite !app_length in L11. cbn [length] in L11. unfold pkcs1_decode, EME_PKCS1. cbn [app nth skipn]. rewrite nonzero_run_app by exact F. cbn [length].
    rewrite app_length. cbn [length]. rewrite (proj2 (Nat.leb_gt _ _)) by lia. cbn [Z.eqb negb orb Pos.eqb].
    rewrite (proj2 (Nat.eqb_neq _ _)) by lia. rewrite (proj2 (Nat.ltb_ge _ _)) by lia. cbn [orb]. f_equal.
    replace (2 + length PS + 1)%nat with (S (S (S (length PS)))) by lia.
    change (skipn (S (length PS)) (PS ++ [0] ++ m) = m). rewrite app_assoc, skipn_app. rewrite skipn_all2 by (rewrite app_length; cbn [length]; lia).
    rewrite app_length. cbn [length]. replace (S (length PS) - (length PS + 1))%nat with 0%nat by lia. reflexivity.
Qed.

Lemma pkcs1_decrypt_eq sk rd c : key_ok sk -> pub_is_valid (sk_pk sk) = Ok tt -> (11 < modulus_len (sk_pk sk))%nat ->
  bytes c -> length c = modulus_len (sk_pk sk) -> OS2IP c <= pk_n (sk_pk sk) -> usable (pk_n (sk_pk sk)) rd ->
  pkcs1_decrypt (inr sk) rd c = pkcs1_decode (I2OSP (OS2IP c ^ sk_d sk mod pk_n (sk_pk sk)) (modulus_len (sk_pk sk))).
Proof.
  intros K V LK B LC C U. pose proof (key_N sk K) as N. unfold pkcs1_decrypt. cbn [kp_public kp_private].
  rewrite (proj2 (Nat.leb_gt _ _)) by lia. rewrite LC, Nat.eqb_refl. cbn [negb]. rewrite V. cbn [rbind].
  rewrite priv_decrypt_ok by assumption. cbn [rbind]. rewrite fix_len_ok; [reflexivity|].
  destruct (modulus_len_bounds _ N) as [_ [_ HU]]. pose proof (pow_range (be_val c) (sk_d sk) _ N). lia.
Qed.

Lemma enc_dec_pow sk M : key_ok sk -> 0 <= M < pk_n (sk_pk sk) -> (M ^ pk_e (sk_pk sk) mod pk_n (sk_pk sk)) ^ sk_d sk mod pk_n (sk_pk sk) = M.
Proof.
  intros K B. pose proof K as ((_ & _ & _ & N & D0 & _) & _). rewrite pow_mod_idemp by exact D0. rewrite key_ok_ident by exact K. apply Z.mod_small. exact B.
Qed.
Lemma lead0_range pk l : 1 < pk_n pk -> bytes l -> S (length l) = modulus_len pk -> 0 <= be_val (0 :: l) < pk_n pk.
Proof.
  intros N B L. destruct (modulus_len_bounds pk N) as [_ [HL _]]. pose proof (be_val_lead0 _ l B eq_refl) as U.
  replace (modulus_len pk - 1)%nat with (length l) in HL by lia.
  pose proof (be_val_bound (0 :: l) (Forall_cons 0 byte0 B)). lia.
Qed.

Lemma pkcs1_roundtrip sk ws rd msg : key_ok sk -> pub_is_valid (sk_pk sk) = Ok tt -> bytes msg ->
  (1 <= length msg)%nat -> (length msg + 11 <= modulus_len (sk_pk sk))%nat ->
  (modulus_len (sk_pk sk) - length msg - 3 <= length (nonzero_bytes ws))%nat -> usable (pk_n (sk_pk sk)) rd ->
  exists c, pkcs1_encrypt (inr sk) ws msg = Ok c /\ pkcs1_encrypt (inl (sk_pk sk)) ws msg = Ok c /\
    length c = modulus_len (sk_pk sk) /\ bytes c /\ pkcs1_decrypt (inr sk) rd c = Ok msg.
Proof.
  intros K V B L1 L2 HW U. pose proof (key_N sk K) as N.
  destruct (pkcs1_encrypt_ok (inl (sk_pk sk)) ws msg V N B L1 L2 HW) as (E & LE & BE & F & LP). cbn [kp_public] in *.
  pose proof (pkcs1_encrypt_ok (inr sk) ws msg V N B L1 L2 HW) as (E' & _). cbn [kp_public] in *.
  set (EM := EME_PKCS1 (pad_string (modulus_len (sk_pk sk)) ws msg) msg) in *.
  set (k := modulus_len (sk_pk sk)) in *. set (x := OS2IP EM ^ pk_e (sk_pk sk) mod pk_n (sk_pk sk)) in *.
  assert (X : 0 <= x < pk_n (sk_pk sk)) by (apply pow_range; exact N).
  destruct (modulus_len_bounds _ N) as [K0 [_ KU]]. fold k in K0, KU.
  assert (VX : be_val (be_bytes k x) = x) by (rewrite be_val_bytes; apply Z.mod_small; lia).
  exists (I2OSP x k). refine (conj E' (conj E (conj (be_bytes_length _ _) (conj (be_bytes_bytes _ _) _)))).
  unfold I2OSP. rewrite pkcs1_decrypt_eq.
  - unfold OS2IP. rewrite VX. unfold x. rewrite enc_dec_pow.
    + unfold I2OSP, OS2IP. fold k. rewrite <- LE. rewrite be_bytes_val by exact BE. apply pkcs1_decode_iff; [lia|].
      exists (pad_string k ws msg). refine (conj eq_refl (conj F _)). lia.
    + exact K.
    + unfold OS2IP, EM, EME_PKCS1. cbn [app]. unfold EM, EME_PKCS1 in BE, LE. cbn [app] in BE, LE. cbn [length] in LE.
      apply lead0_range; [exact N|inversion BE; assumption|exact LE].
  - exact K.
  - exact V.
  - fold k. lia.
  - apply be_bytes_bytes.
  - apply be_bytes_length.
  - unfold OS2IP. rewrite VX. lia.
  - exact U.
Qed.
