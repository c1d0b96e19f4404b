(** ECDSA objects: hash values, nonces, signing and verifying. *)
From Coq Require Import Znumtheory String.
From Verif Require Import Base HashModel HashSpec HashApi NumTheory RsaModel RsaProofs RsaEncModel RsaEncProofs RsaSigProofs DsaModel DsaSpec DsaProofs Words
  EllModel EllSpec EllApi ModesModel ModesSpec ModesApi ModesExtra AesModel AesSpec AesKeys EcdsaModel EcdsaSpec EcdsaGroup.

(** ** Hash values as numbers *)
Lemma hash_number c hm : bytes hm -> hash_to_bigint c hm = DSA_z (Z.of_nat (bits_len (cp_n c))) hm.
Proof.
  intros B. unfold hash_to_bigint, DSA_z. set (N := bits_len (cp_n c)). set (ob := ((N + 7) / 8)%nat).
  assert (OB : (N <= 8 * ob < N + 8)%nat) by (unfold ob; pose proof (Nat.div_mod_eq (N + 7) 8); pose proof (Nat.mod_upper_bound (N + 7) 8); lia).
  assert (SH : forall v e, (if (0 <? e)%nat then Z.shiftr v (Z.of_nat e) else v) = v / 2 ^ Z.of_nat e).
  { intros v e. destruct (Nat.ltb_spec 0 e); [apply Z.shiftr_div_pow2; lia|]. replace e with 0%nat by lia. cbn [Z.of_nat]. rewrite Z.pow_0_r, Z.div_1_r. reflexivity. }
  rewrite SH. destruct (Nat.ltb_spec ob (length hm)) as [L|L].
  - rewrite firstn_length, Nat.min_l by lia. replace (8 * Z.of_nat (length hm) - Z.min (Z.of_nat N) (8 * Z.of_nat (length hm))) with (8 * Z.of_nat (length hm) - Z.of_nat N) by lia.
    rewrite <- (firstn_skipn ob hm) at 2. rewrite be_val_app. rewrite skipn_length.
    pose proof (be_val_bound (skipn ob hm) ltac:(rewrite <- (firstn_skipn ob hm) in B; apply bytes_app in B; apply B)) as V. rewrite skipn_length in V.
    replace (2 ^ (8 * Z.of_nat (length hm) - Z.of_nat N)) with (256 ^ Z.of_nat (length hm - ob) * 2 ^ Z.of_nat (ob * 8 - N)).
    + rewrite <- Z.div_div by first [apply Z.pow_pos_nonneg; lia|apply Z.pow_nonzero; lia]. f_equal. rewrite Z.div_add_l by (apply Z.pow_nonzero; lia).
      rewrite (Z.div_small (be_val (skipn ob hm))) by exact V. lia.
    + change 256 with (2 ^ 8). rewrite <- Z.pow_mul_r, <- Z.pow_add_r by lia. f_equal. lia.
  - f_equal. f_equal. lia.
Qed.
Lemma hash_nonneg c hm : bytes hm -> 0 <= hash_to_bigint c hm.
Proof. intros B. rewrite hash_number by exact B. unfold DSA_z. apply Z.div_pos; [apply be_val_bound, B|]. apply Z.pow_pos_nonneg; lia. Qed.

(** ** Nonces *)
Lemma iv_bytes : bytes ECDSA_IV. Proof. repeat constructor; unfold byte; lia. Qed.
Lemma concat_len (l : list (list Z)) : Forall (fun x => length x = 16%nat) l -> length (concat l) = (16 * length l)%nat.
Proof. induction 1 as [|x l H F IH]; [reflexivity|]. cbn [concat length]. rewrite app_length, IH, H. lia. Qed.
Section Nonce.
Variables (c : curve) (key : list Z).
Hypothesis KB : bytes key.
Hypothesis KL : length key = 32%nat.
Notation len := (element_len c).
Definition g0 : ctr := mkCtr (aes_cipher (aes_make key)) (mkCounter 128 ECDSA_IV None).
Definition gk (j : nat) : ctr := ctr_calls g0 (repeat (repeat 0 len) j).
Lemma csprng_ok : csprng_new key ECDSA_IV = Ok g0.
Proof. unfold csprng_new, aes_new. rewrite KL. reflexivity. Qed.
Lemma key_ok : keylen_ok key. Proof. unfold keylen_ok. lia. Qed.
Lemma gk_S j : fst (ctr_encrypt (gk j) [] (repeat 0 len)) = gk (Datatypes.S j).
Proof. unfold gk. cbn [repeat]. rewrite repeat_cons. unfold ctr_calls. rewrite fold_left_app. reflexivity. Qed.
Lemma list_sum_repeat x j : list_sum (repeat x j) = (j * x)%nat.
Proof. induction j as [|j IH]; [reflexivity|]. cbn [repeat list_sum fold_right]. unfold list_sum in IH. rewrite IH. reflexivity. Qed.
Lemma map_repeat {A B} (f : A -> B) x j : map f (repeat x j) = repeat (f x) j.
Proof. induction j as [|j IH]; [reflexivity|]. cbn. rewrite IH. reflexivity. Qed.
Lemma read_ok j : rand_field_element_csprng c (gk j) = (gk (Datatypes.S j), Ok (ECDSA_nonce (cp_n c) len key ECDSA_IV j)).
Proof.
  unfold rand_field_element_csprng, read_full. pose proof (gk_S j) as ES.
  destruct (ctr_object (aes_cipher (aes_make key)) 16 (crypt_block (aes_make key)) (decrypt_block (aes_make key)) (aes_good key KB key_ok)
    ECDSA_IV 128 (mkCounter 128 ECDSA_IV None) g0 (repeat (repeat 0 len) j) iv_bytes eq_refl eq_refl [] (repeat 0 len)) as [E _].
  fold (gk j) in E. destruct (ctr_encrypt (gk j) [] (repeat 0 len)) as [g' [dst r]]. cbn [fst snd] in *. subst g'.
  apply pair_equal_spec in E. destruct E as [E1 E2]. rewrite E2. cbn [rmap]. f_equal. apply (f_equal Ok). rewrite E1. unfold field_element, ECDSA_nonce.
  f_equal. f_equal. f_equal. unfold CTR. rewrite map_repeat, list_sum_repeat, repeat_length.
  assert (NB : nblocks 16 len = ((len + 15) / 16)%nat) by (unfold nblocks; f_equal; lia). rewrite NB.
  rewrite xorl_trunc. rewrite repeat_length.
  assert (EB : map (fun j0 => crypt_block (aes_make key) (counter_block 16 ((128 + 7) / 8) (be_val ECDSA_IV) (j * ((len + 15) / 16) + j0))) (seq 0 ((len + 15) / 16)) =
    map (fun i => AES_Cipher key (be_bytes 16 (be_val ECDSA_IV + Z.of_nat (j * ((len + 15) / 16) + i)))) (seq 0 ((len + 15) / 16))).
  { apply map_ext. intros i. unfold counter_block. change ((128 + 7) / 8)%nat with 16%nat. rewrite firstn_all2 by (rewrite be_bytes_length; lia).
    apply (crypt_block_fips key KB key_ok). split; [apply be_bytes_length|apply be_bytes_bytes]. }
  rewrite EB. rewrite xorl_comm. apply xorl_zeros. rewrite firstn_length, concat_len, map_length, seq_length.
  - pose proof (Nat.div_mod_eq (len + 15) 16). pose proof (Nat.mod_upper_bound (len + 15) 16 ltac:(lia)). lia.
  - apply Forall_forall. intros x Ix. apply in_map_iff in Ix. destruct Ix as (i & <- & _).
    apply (AES_Cipher_st key KB key_ok). split; [apply be_bytes_length|apply be_bytes_bytes].
Qed.
End Nonce.
Lemma element_range c buf : 1 < cp_n c -> 1 <= field_element c buf <= cp_n c - 1.
Proof. intros N. unfold field_element. pose proof (Z.mod_pos_bound (be_val buf) (cp_n c - 1) ltac:(lia)). lia. Qed.
Lemma nonce_range n len key iv j : 1 < n -> 0 < ECDSA_nonce n len key iv j < n.
Proof.
  intros N. unfold ECDSA_nonce. match goal with |- context [be_val ?l mod _] => pose proof (Z.mod_pos_bound (be_val l) (n - 1) ltac:(lia)) end. lia.
Qed.

(** ** The signing loop *)
Section Loop.
Variable o : ec_obj.
Notation c := (eo_params o). Notation p := (cp_p c). Notation b := (cp_b c). Notation n := (cp_n c).
Notation G := (decode (cp_gx c, cp_gy c)).
Hypothesis GR : ECDSA_group p b n G.
Hypothesis BASE : forall k, 0 < k < n -> eo_base o k = curve_scalar_base c k.
Variables (d z : Z) (key : list Z).
Hypothesis KB : bytes key.
Hypothesis KL : length key = 32%nat.
Notation nonce := (ECDSA_nonce n (element_len c) key ECDSA_IV).
Definition signs k := exists r s, ECDSA_signature p n G d z k r s.
Lemma N2 : 2 < n. Proof. apply GR. Qed.
Lemma sig_det k r s r' s' : 0 < k < n -> ECDSA_signature p n G d z k r s -> ECDSA_signature p n G d z k r' s' -> r = r' /\ s = s'.
Proof.
  intros K A B. apply (signature_iff c GR) in A; [|exact K]. apply (signature_iff c GR) in B; [|exact K].
  destruct A as (x & y & E & -> & _ & -> & _), B as (x' & y' & E' & -> & _ & -> & _). rewrite E in E'. injection E' as <- <-. split; reflexivity.
Qed.
Lemma loop_ok fuel : forall j,
  (exists i r s, (i < fuel)%nat /\ ECDSA_signature p n G d z (nonce (j + i)) r s /\ (forall i', (i' < i)%nat -> ~ signs (nonce (j + i'))) /\
     ec_sign_loop fuel o d z (gk c key j) = Ok (r, s)) \/
  ((forall i, (i < fuel)%nat -> ~ signs (nonce (j + i))) /\ ec_sign_loop fuel o d z (gk c key j) = Panic).
Proof.
  pose proof N2 as N2. induction fuel as [|fuel IH]; intros j; [right; split; [lia|reflexivity]|].
  assert (NR := fun j => nonce_range n (element_len c) key ECDSA_IV j ltac:(lia)).
  assert (STEP : (exists r s, ECDSA_signature p n G d z (nonce j) r s /\ ec_sign_loop (S fuel) o d z (gk c key j) = Ok (r, s)) \/
    (~ signs (nonce j) /\ ec_sign_loop (S fuel) o d z (gk c key j) = ec_sign_loop fuel o d z (gk c key (S j)))).
  { cbn [ec_sign_loop]. rewrite (read_ok c key KB KL). rewrite BASE by apply NR.
    destruct (base_point c GR (nonce j) (NR j)) as (x & y & E & X & _). rewrite E.
    pose proof (Z.mod_pos_bound x n ltac:(lia)) as RB. pose proof (Z.mod_pos_bound ((d * (x mod n) + z) * fermat_inverse (nonce j) n) n ltac:(lia)) as SB.
    destruct (Z.eqb_spec (Z.sgn (x mod n)) 1) as [R|R].
    - apply Z.sgn_pos_iff in R. destruct (Z.eqb_spec (Z.sgn (((d * (x mod n) + z) * fermat_inverse (nonce j) n) mod n)) 1) as [SS|SS].
      + apply Z.sgn_pos_iff in SS. left. eexists. eexists. split; [|reflexivity]. apply (signature_iff c GR); [apply NR|]. exists x, y. auto.
      + right. split; [|reflexivity]. intros (r & s & SG). apply (signature_iff c GR) in SG; [|apply NR]. destruct SG as (x' & y' & E' & -> & _ & SV & S0).
        rewrite E in E'. injection E' as <- <-. apply SS, Z.sgn_pos_iff. rewrite <- SV. exact S0.
    - right. split; [|reflexivity]. intros (r & s & SG). apply (signature_iff c GR) in SG; [|apply NR]. destruct SG as (x' & y' & E' & -> & R0 & _).
      rewrite E in E'. injection E' as <- <-. apply R, Z.sgn_pos_iff. exact R0. }
  destruct STEP as [(r & s & SG & E)|[NS E]].
  - left. exists 0%nat, r, s. rewrite Nat.add_0_r. split; [lia|]. split; [exact SG|]. split; [lia|exact E].
  - rewrite E. destruct (IH (S j)) as [(i & r & s & L & SG & B & EI)|[B EI]].
    + left. exists (S i), r, s. rewrite <- plus_n_Sm. split; [lia|]. split; [exact SG|]. split; [|exact EI].
      intros i' L'. destruct i' as [|i']; [rewrite Nat.add_0_r; exact NS|]. rewrite <- plus_n_Sm. apply B. lia.
    + right. split; [|exact EI]. intros i' L'. destruct i' as [|i']; [rewrite Nat.add_0_r; exact NS|]. rewrite <- plus_n_Sm. apply B. lia.
Qed.
End Loop.

(** ** Objects *)
Lemma sha512_ok : DigestOk SHA512 (fun _ => True) SHA512_hash M64.
Proof.
  assert (E : forall m, mk_hash SHA512_std m = SHA512_hash m) by (intros m; apply (std_hashes m)).
  destruct sha512_facts as [[G1 G2 G3 G4] _ _ _ _]. apply good_ok. constructor; [|exact G2| |exact G4].
  - intros s ws A B. rewrite <- E. exact (G1 s ws A B).
  - intros m A B. rewrite <- E. exact (G3 m A B).
Qed.
Section Obj.
Context {S : Type}.
Variables (D : digest S) (I : S -> Prop) (H : list Z -> list Z) (limit : Z).
Hypothesis HG : DigestOk D I H limit.
Lemma ec_hash_keeps o m : I (es_hf o) -> let o' := ec_hash D o m in
  es_curve o' = es_curve o /\ es_kp o' = es_kp o /\ es_dbytes o' = es_dbytes o /\ I (es_hf o').
Proof.
  intros IH. unfold ec_hash, hash_run. destruct HG as [G1 G2 G3 _ _ _].
  pose proof (G2 _ (G1 _ m (G3 _ IH))) as IX. cbn [fold_left]. destruct (d_checksum D _) as [s' dg]. cbn in *. auto.
Qed.
Lemma ec_hash_ok o m : I (es_hf o) -> bytes m -> Z.of_nat (length m) < limit -> es_hash (ec_hash D o m) = H m.
Proof.
  intros IH B L. unfold ec_hash. destruct (run1 D I H limit HG (es_hf o) m IH B L) as (s' & E & _). rewrite E. reflexivity.
Qed.
Lemma ec_sign_keeps fuel o ws c m : I (es_hf o) -> let o' := fst (fst (fst (ecdsa_sign D fuel o ws c m))) in
  es_curve o' = es_curve o /\ es_kp o' = es_kp o /\ es_dbytes o' = es_dbytes o /\ I (es_hf o').
Proof.
  intros IH. destruct (ec_hash_keeps o m IH) as (A & B & C & E). unfold ecdsa_sign. set (o1 := ec_hash D o m) in *. clearbody o1.
  unfold ec_sign_inner. rewrite <- A, <- B, <- C. destruct (ekp_private (es_kp o1)); [|cbn; auto]. destruct (es_dbytes o1) eqn:DB; [|cbn; auto].
  destruct (draw_bytes _ ws) as [en ws']. destruct (hash_run SHA512 (es_md o1) _) as [md key].
  match goal with |- context [match ?r with Ok _ => _ | Err _ => _ | Panic => _ end] => destruct r as [[? ?]|?|] end; cbn; auto.
Qed.
Lemma ec_verify_keeps o c m : I (es_hf o) -> let o' := fst (ecdsa_verify D o c m) in
  es_curve o' = es_curve o /\ es_kp o' = es_kp o /\ es_dbytes o' = es_dbytes o /\ I (es_hf o').
Proof.
  intros IH. pose proof (ec_hash_keeps o m IH) as K. unfold ecdsa_verify. destruct (sigc_to_bigint c) as [[r s]|e|]; cbn [fst]; exact K.
Qed.
Lemma draw_bytes_bytes len ws : bytes (fst (draw_bytes len ws)) /\ (length (fst (draw_bytes len ws)) <= len)%nat.
Proof.
  unfold draw_bytes. cbn [fst]. split; [|rewrite firstn_length; lia]. apply Forall_firstn', flat_be_bytes.
Qed.
Lemma to_be_bytes_are x : bytes (to_be_bytes x).
Proof. unfold to_be_bytes. apply be_bytes_bytes. Qed.
(** Signing: the nonces of the specification, in turn. *)
Lemma sign_ok fuel o ws sc m pk d :
  let c := eo_params (es_curve o) in let G := decode (cp_gx c, cp_gy c) in
  ECDSA_group (cp_p c) (cp_b c) (cp_n c) G ->
  (forall k, 0 < k < cp_n c -> eo_base (es_curve o) k = curve_scalar_base c k) ->
  es_kp o = inr (mkEpriv pk d) -> es_dbytes o = Some (to_be_bytes d) -> I (es_hf o) -> bytes m -> Z.of_nat (length m) < limit ->
  Z.of_nat (length (to_be_bytes d)) + Z.of_nat (length (H m)) + 32 < 2 ^ 64 ->
  let z := DSA_z (Z.of_nat (bits_len (cp_n c))) (H m) in
  let key := ECDSA_key (to_be_bytes d) (fst (draw_bytes (entropy_len c) ws)) (H m) in
  let nonce := ECDSA_nonce (cp_n c) (element_len c) key ECDSA_IV in
  let res := ecdsa_sign D fuel o ws sc m in
  snd (fst (fst res)) = snd (draw_bytes (entropy_len c) ws) /\
  ((exists i r s, (i < fuel)%nat /\ ECDSA_signature (cp_p c) (cp_n c) G d z (nonce i) r s /\
      (forall i', (i' < i)%nat -> ~ exists r' s', ECDSA_signature (cp_p c) (cp_n c) G d z (nonce i') r' s') /\
      snd res = Ok tt /\ snd (fst res) = sigc_set sc r s) \/
   ((forall i, (i < fuel)%nat -> ~ exists r' s', ECDSA_signature (cp_p c) (cp_n c) G d z (nonce i) r' s') /\ snd res = Panic)).
Proof.
  intros c G GR BASE KP DB IH B L LL z key nonce res.
  assert (HB : bytes (H m) /\ length (H m) = (d_bits_len D / 8)%nat) by (destruct HG as [_ _ _ _ _ G6]; destruct (G6 m B L); auto).
  destruct HB as [HB _]. pose proof (ec_hash_ok o m IH B L) as EH. destruct (ec_hash_keeps o m IH) as (A1 & A2 & A3 & A4).
  subst res. unfold ecdsa_sign. set (o1 := ec_hash D o m) in *. clearbody o1. unfold ec_sign_inner. rewrite A1, A2, A3, KP, DB, EH. cbn [ekp_private ed_d].
  fold c. destruct (draw_bytes_bytes (entropy_len c) ws) as [DBB DBL]. subst nonce key. destruct (draw_bytes (entropy_len c) ws) as [en ws'] eqn:DR. cbn [fst snd] in *.
  assert (EL : (length en <= 32)%nat) by (unfold entropy_len in DBL; lia).
  destruct (hash_run_ok SHA512 _ _ _ sha512_ok (es_md o1) [to_be_bytes d; en; H m] Logic.I) as (md & EM & _).
  { repeat constructor; [apply to_be_bytes_are|exact DBB|exact HB]. }
  { cbn [concat]. rewrite !app_length. cbn [length]. change M64 with (2 ^ 64). lia. }
  rewrite EM. cbn [concat] in *. rewrite app_nil_r.
  assert (KK : bytes (SHA512_hash (to_be_bytes d ++ en ++ H m)) /\ length (SHA512_hash (to_be_bytes d ++ en ++ H m)) = 64%nat).
  { destruct sha512_ok as [_ _ _ _ _ G6]. destruct (G6 (to_be_bytes d ++ en ++ H m)) as [X Y].
    - apply bytes_app. split; [apply to_be_bytes_are|]. apply bytes_app. split; [exact DBB|exact HB].
    - rewrite !app_length. change M64 with (2 ^ 64). lia.
    - split; [exact Y|]. rewrite X. reflexivity. }
  fold (ECDSA_key (to_be_bytes d) en (H m)). set (key := ECDSA_key (to_be_bytes d) en (H m)).
  assert (KB : bytes key) by (unfold key, ECDSA_key; apply Forall_firstn', KK).
  assert (KL : length key = 32%nat) by (unfold key, ECDSA_key; rewrite firstn_length, (proj2 KK); reflexivity).
  clearbody key. clear KK EM. rewrite (csprng_ok key KL).
  assert (N2 : 2 < cp_n c) by apply GR. rewrite (proj2 (sgn1 (cp_n c)) ltac:(lia)). cbn [es_curve es_hash].
  rewrite hash_number by exact HB. fold z.
  change (g0 key) with (gk c key 0).
  destruct (loop_ok (es_curve o) GR BASE d z key KB KL fuel 0) as [(i & r & s & LI & SG & BE & E)|[BE E]]; fold c in E; rewrite E; cbn [fst snd]; (split; [reflexivity|]).
  - left. exists i, r, s. cbn [Nat.add] in *. split; [exact LI|]. split; [exact SG|]. split; [exact BE|]. split; reflexivity.
  - right. split; [exact BE|reflexivity].
Qed.
(** Verification. *)
Lemma verify_ok o c qx qy r s m : eo_params (es_curve o) = c -> ekp_public (es_kp o) = mkEpub qx qy ->
  ECDSA_group (cp_p c) (cp_b c) (cp_n c) (decode (cp_gx c, cp_gy c)) ->
  on_curve (cp_p c) (cp_b c) (decode (qx, qy)) -> ec_multiple (cp_p c) (Z.to_nat (cp_n c)) (decode (qx, qy)) None ->
  I (es_hf o) -> bytes m -> Z.of_nat (length m) < limit ->
  forall sc, sigc_to_bigint sc = Ok (r, s) ->
  let res := snd (ecdsa_verify D o sc m) in
  (res = Ok tt \/ res = Err VerificationFailed) /\
  (res = Ok tt <-> ECDSA_accepts (cp_p c) (cp_n c) (decode (cp_gx c, cp_gy c)) (decode (qx, qy)) (DSA_z (Z.of_nat (bits_len (cp_n c))) (H m)) r s).
Proof.
  intros EC EK GR OQ MQ IH B L sc ES. unfold ecdsa_verify. rewrite ES. cbn [snd].
  assert (HB : bytes (H m)) by (destruct HG as [_ _ _ _ _ G6]; destruct (G6 m B L); auto).
  pose proof (ec_hash_ok o m IH B L) as EH. destruct (ec_hash_keeps o m IH) as (A1 & A2 & A3 & A4). set (o1 := ec_hash D o m) in *. clearbody o1.
  destruct (accepts_iff c GR qx qy OQ MQ o1 r s) as [X Y]; [congruence|congruence|rewrite EH; apply hash_nonneg, HB|].
  rewrite EH, hash_number in Y by exact HB. split; [exact X|exact Y].
Qed.
End Obj.
(** Key generation. *)
Lemma draw_bytes_eq len ws : draw_bytes len ws = (firstn len (flat_map (be_bytes 4) ws), skipn (Nat.max 1 ((len + 3) / 4)) ws).
Proof.
  unfold draw_bytes. f_equal. set (m := Nat.max 1 ((len + 3) / 4)).
  rewrite <- (firstn_skipn m ws) at 2. rewrite flat_map_app.
  destruct (Nat.le_gt_cases (length ws) m) as [LE|GT].
  - rewrite (skipn_all2 ws LE). cbn [flat_map]. rewrite app_nil_r. reflexivity.
  - rewrite firstn_app. rewrite (proj2 (Nat.sub_0_le len _)).
    + cbn [firstn]. rewrite app_nil_r. reflexivity.
    + rewrite (proj2 (flat_be_bytes 4 _)), firstn_length, Nat.min_l by lia. unfold m. pose proof (Nat.div_mod_eq (len + 3) 4). pose proof (Nat.mod_upper_bound (len + 3) 4 ltac:(lia)). lia.
Qed.
Lemma keygen_ok {S} (hf : S) ws o :
  let c := eo_params o in ECDSA_group (cp_p c) (cp_b c) (cp_n c) (decode (cp_gx c, cp_gy c)) ->
  (forall k, 0 < k < cp_n c -> eo_base o k = curve_scalar_base c k) ->
  let len := (cp_bits c / 8 + 8)%nat in
  let d := be_val (firstn len (flat_map (be_bytes 4) ws)) mod (cp_n c - 1) + 1 in
  exists qx qy, curve_scalar_base c d = Some (qx, qy) /\ 0 < d < cp_n c /\
    auto_generate_key hf ws o = Ok (ecdsa_new hf o (inr (mkEpriv (mkEpub qx qy) d)), skipn ((len + 3) / 4) ws).
Proof.
  intros c GR BASE len d. assert (N2 : 2 < cp_n c) by apply GR.
  assert (DR : 0 < d < cp_n c).
  { unfold d. pose proof (Z.mod_pos_bound (be_val (firstn len (flat_map (be_bytes 4) ws))) (cp_n c - 1) ltac:(lia)). lia. }
  destruct (base_point c GR d DR) as (x & y & E & _). exists x, y. split; [exact E|]. split; [exact DR|].
  unfold auto_generate_key, rand_field_element. fold c. change (element_len c) with len. rewrite draw_bytes_eq.
  replace (Nat.max 1 ((len + 3) / 4)) with ((len + 3) / 4)%nat by (symmetry; apply Nat.max_r; apply (Nat.div_le_lower_bound (len + 3) 4); unfold len; lia).
  change (field_element c (firstn len (flat_map (be_bytes 4) ws))) with d. rewrite BASE by exact DR. rewrite E. reflexivity.
Qed.
(** How to see that a base point has order n. *)
Lemma group_criterion c : sound_curve (cp_p c) (cp_b c) -> on_curve (cp_p c) (cp_b c) (decode (cp_gx c, cp_gy c)) -> decode (cp_gx c, cp_gy c) <> None ->
  prime (cp_n c) -> 2 < cp_n c -> curve_scalar_base c (cp_n c) = Some (0, 0) <-> ECDSA_group (cp_p c) (cp_b c) (cp_n c) (decode (cp_gx c, cp_gy c)).
Proof.
  intros S O N P L. assert (M : ec_multiple (cp_p c) (Z.to_nat (cp_n c)) (decode (cp_gx c, cp_gy c)) None <-> curve_scalar_base c (cp_n c) = Some (0, 0)).
  { rewrite (multiple_ok c S) by exact O. rewrite Z2Nat.id by lia. split.
    - intros (u & v & E & SP). unfold curve_scalar_base. rewrite E. destruct (decode (u, v)) as [[? ?]|] eqn:DD; [contradiction SP|]. apply decode_none in DD. rewrite DD. reflexivity.
    - intros E. exists 0, 0. split; [exact E|exact I]. }
  unfold ECDSA_group. tauto.
Qed.
