(** PKCS1 signatures, OAEP and PSS against RFC 8017. *)
From Coq Require Import Znumtheory.
From Verif Require Import Base HashModel NumTheory RsaModel RsaEncModel RsaSpec RsaProofs RsaEncProofs HashApi Words.

Lemma firstn_exact {A} n (a b : list A) : length a = n -> firstn n (a ++ b) = a.
Proof. intros <-. rewrite firstn_app, firstn_all, Nat.sub_diag. cbn [firstn]. apply app_nil_r. Qed.
Lemma skipn_exact {A} n (a b : list A) : length a = n -> skipn n (a ++ b) = b.
Proof. intros <-. rewrite skipn_app, skipn_all, Nat.sub_diag. reflexivity. Qed.
Lemma nth_exact n (a b : list Z) x d : length a = n -> nth n (a ++ x :: b) d = x.
Proof. intros <-. rewrite app_nth2 by lia. rewrite Nat.sub_diag. reflexivity. Qed.
Lemma split_len {A} n (l : list A) : (n <= length l)%nat -> exists a b, l = a ++ b /\ length a = n.
Proof. intros L. exists (firstn n l), (skipn n l). rewrite firstn_skipn, firstn_length. split; [reflexivity|lia]. Qed.
Lemma forallb_repeat x l : forallb (fun e => e =? x) l = true <-> l = repeat x (length l).
Proof.
  induction l as [|y l IH]; cbn [forallb length repeat]; [split; reflexivity|]. rewrite andb_true_iff, Z.eqb_eq, IH. split.
  - intros [-> E]. f_equal. exact E.
  - intros E. split; [congruence|]. congruence.
Qed.

Section Dig.
Context {S : Type}.
Variables (D : digest S) (I : S -> Prop) (H : list Z -> list Z) (limit : Z).
Hypothesis HG : DigestOk D I H limit.
Hypothesis H8 : (d_bits_len D mod 8 = 0)%nat.
Hypothesis Hpos : (0 < d_bits_len D)%nat.
Notation h := (d_bits_len D / 8)%nat.

Lemma hlen_eq : hlen D = h.
Proof.
  unfold hlen. pose proof (Nat.div_mod (d_bits_len D) 8 ltac:(lia)) as E. rewrite H8 in E.
  symmetry. apply (Nat.div_unique _ 8 _ 7); lia.
Qed.
Lemma h_pos : (0 < h)%nat.
Proof. pose proof (Nat.div_mod (d_bits_len D) 8 ltac:(lia)) as E. rewrite H8 in E. lia. Qed.
Lemma H_ok m : bytes m -> Z.of_nat (length m) < limit -> length (H m) = h /\ bytes (H m).
Proof. destruct HG as [_ _ _ _ _ G]. apply G. Qed.
Lemma I_fold s ws : I s -> I (fold_left (d_write D) ws s).
Proof. revert s. induction ws as [|w ws IH]; intros s Hs; cbn [fold_left]; [exact Hs|]. apply IH. destruct HG as [G _ _ _ _ _]. apply G, Hs. Qed.
Lemma hash_run_ok s ws : I s -> Forall bytes ws -> Z.of_nat (length (concat ws)) < limit ->
  exists s', hash_run D s ws = (s', H (concat ws)) /\ I s'.
Proof.
  intros Hs HW L. unfold hash_run. destruct HG as [_ G2 G3 G4 _ _]. specialize (G4 s ws Hs HW L).
  pose proof (G2 _ (I_fold _ ws (G3 s Hs))) as G2'. destruct (d_checksum D _) as [s' dg]. cbn [fst snd] in *. exists s'. split; [congruence|exact G2'].
Qed.

(** ** MGF1 *)
Definition mgf_stream (seed : list Z) (c : Z) (n : nat) : list Z := flat_map (fun i => H (seed ++ be_bytes 4 (c + Z.of_nat i))) (seq 0 n).
Lemma mgf_stream_S seed c n : mgf_stream seed c (Datatypes.S n) = H (seed ++ be_bytes 4 c) ++ mgf_stream seed (c + 1) n.
Proof.
  unfold mgf_stream. cbn [seq flat_map]. change (Z.of_nat 0) with 0. rewrite Z.add_0_r. f_equal.
  rewrite <- seq_shift. generalize (seq 0 n). induction l as [|x l IH]; cbn [map flat_map]; [reflexivity|].
  rewrite IH. replace (c + Z.of_nat (Datatypes.S x)) with (c + 1 + Z.of_nat x) by lia. reflexivity.
Qed.
Lemma xorl_split n a b d : length b = n -> xorl a (b ++ d) = xorl (firstn n a) b ++ xorl (skipn n a) d.
Proof.
  intros L. destruct (Nat.le_gt_cases n (length a)) as [LE|GT].
  - rewrite <- (firstn_skipn n a) at 1. apply xorl_app. rewrite firstn_length. lia.
  - rewrite firstn_all2, skipn_all2 by lia. cbn [xorl]. rewrite app_nil_r. rewrite <- (firstn_all2 (n := length a) a) at 1 by lia.
    revert a GT L. clear. revert n. induction b as [|y b IH]; intros n [|x a] GT L; cbn [length firstn xorl app] in *; try lia; try reflexivity.
    f_equal. apply (IH (length b)); lia.
Qed.
Lemma mgf1_loop_ok seed : bytes seed -> Z.of_nat (length seed) + 4 < limit -> forall fuel s c out n, I s -> (length out <= fuel)%nat -> (length out <= n * h)%nat ->
  exists s', mgf1_loop D fuel s seed c out = (s', xorl out (mgf_stream seed c n)) /\ I s'.
Proof.
  intros BS LS. induction fuel as [|fuel IH]; intros s c out n Hs LF LN.
  - destruct out; [|cbn in LF; lia]. cbn [mgf1_loop xorl]. eauto.
  - destruct out as [|x out]; [cbn [mgf1_loop xorl]; eauto|]. cbn [mgf1_loop].
    destruct n as [|n]; [cbn in LN; lia|]. rewrite mgf_stream_S.
    destruct (hash_run_ok s [seed; be_bytes 4 c] Hs) as (s1 & E1 & I1).
    { apply Forall_cons; [exact BS|]. apply Forall_cons; [apply be_bytes_bytes|constructor]. }
    { cbn [concat]. rewrite !app_length, be_bytes_length. cbn [length]. lia. }
    rewrite E1. cbn [concat]. rewrite app_nil_r.
    destruct (H_ok (seed ++ be_bytes 4 c)) as [LH _].
    { apply bytes_app. split; [exact BS|apply be_bytes_bytes]. }
    { rewrite app_length, be_bytes_length. lia. }
    pose proof h_pos as HP.
    destruct (IH s1 (c + 1) (skipn (length (H (seed ++ be_bytes 4 c))) (x :: out)) n I1) as (s2 & E2 & I2).
    { rewrite skipn_length, LH. cbn [length] in *. lia. }
    { rewrite skipn_length, LH. cbn [length] in *. lia. }
    rewrite E2. exists s2. split; [|exact I2]. f_equal. symmetry. apply xorl_split. reflexivity.
Qed.
Lemma ceil_ok L : (L <= ((L + h - 1) / h) * h)%nat.
Proof.
  pose proof h_pos as HP. pose proof (Nat.div_mod (L + h - 1) h ltac:(lia)) as E.
  pose proof (Nat.mod_upper_bound (L + h - 1) h ltac:(lia)). nia.
Qed.
Lemma mgf1_xor_ok s seed out : I s -> bytes seed -> Z.of_nat (length seed) + 4 < limit ->
  exists s', mgf1_xor D s seed out = (s', xorl out (MGF1 H h seed (length out))) /\ I s'.
Proof.
  intros Hs BS LS. unfold mgf1_xor.
  destruct (mgf1_loop_ok seed BS LS (length out) s 0 out ((length out + h - 1) / h) Hs (le_n _) (ceil_ok _)) as (s' & E & I').
  exists s'. split; [|exact I']. rewrite E. f_equal. unfold MGF1, I2OSP, mgf_stream.
  assert (E0 : flat_map (fun i => H (seed ++ be_bytes 4 (0 + Z.of_nat i))) (seq 0 ((length out + h - 1) / h)) =
    flat_map (fun i => H (seed ++ be_bytes 4 (Z.of_nat i))) (seq 0 ((length out + h - 1) / h))) by (apply flat_map_ext; reflexivity).
  rewrite E0. rewrite (xorl_comm out (firstn _ _)), xorl_firstn, (xorl_comm _ out). symmetry. apply firstn_all2. rewrite xorl_length. lia.
Qed.
Lemma flat_len (l : list nat) seed : bytes seed -> Z.of_nat (length seed) + 4 < limit ->
  length (flat_map (fun i => H (seed ++ I2OSP (Z.of_nat i) 4)) l) = (length l * h)%nat /\ bytes (flat_map (fun i => H (seed ++ I2OSP (Z.of_nat i) 4)) l).
Proof.
  intros BS LS. induction l as [|x l [I1 I2]]; cbn [flat_map length]; [split; [reflexivity|constructor]|].
  destruct (H_ok (seed ++ I2OSP (Z.of_nat x) 4)) as [LH BH].
  { apply bytes_app. split; [exact BS|apply be_bytes_bytes]. }
  { unfold I2OSP. rewrite app_length, be_bytes_length. lia. }
  rewrite app_length, LH, I1. split; [lia|]. apply bytes_app. split; assumption.
Qed.
Lemma MGF1_ok seed L : bytes seed -> Z.of_nat (length seed) + 4 < limit -> length (MGF1 H h seed L) = L /\ bytes (MGF1 H h seed L).
Proof.
  intros BS LS. unfold MGF1. destruct (flat_len (seq 0 ((L + h - 1) / h)) seed BS LS) as [E B]. rewrite seq_length in E.
  pose proof (ceil_ok L). rewrite firstn_length. split; [lia|]. apply Forall_firstn', B.
Qed.

(** ** PKCS1 signatures *)
Variable t : hash_ty.
Section P1.
Variables (pre : list Z).
Hypothesis Hpre : hash_prefix t = Some pre.
Definition emsa (k : nat) (msg : list Z) : list Z := EMSA_PKCS1 k (pre ++ H msg).

Lemma prefix_bytes : bytes pre.
Proof. destruct t; cbn [hash_prefix] in Hpre; try discriminate; injection Hpre as <-; repeat (apply Forall_cons; [unfold byte; lia|]); constructor. Qed.
Lemma emsa_ok k msg : bytes msg -> Z.of_nat (length msg) < limit -> (length pre + h + 11 <= k)%nat ->
  length (emsa k msg) = k /\ bytes (emsa k msg) /\ exists r, emsa k msg = 0 :: r.
Proof.
  intros B L LK. destruct (H_ok msg B L) as [LH BH]. unfold emsa, EMSA_PKCS1. rewrite !app_length, repeat_length. cbn [length]. rewrite LH.
  split; [lia|]. split; [|eexists; reflexivity].
  apply bytes_app. split; [apply Forall_cons; [unfold byte; lia|apply Forall_cons; [unfold byte; lia|constructor]]|].
  apply bytes_app. split; [apply bytes_repeat; unfold byte; lia|]. apply bytes_app. split; [apply Forall_cons; [unfold byte; lia|constructor]|].
  apply bytes_app. split; [apply prefix_bytes|exact BH].
Qed.
Lemma emsa_range pk msg : 1 < pk_n pk -> bytes msg -> Z.of_nat (length msg) < limit -> (length pre + h + 11 <= modulus_len pk)%nat ->
  0 <= OS2IP (emsa (modulus_len pk) msg) < pk_n pk.
Proof.
  intros N B L LK. destruct (emsa_ok _ msg B L LK) as (L1 & B1 & r & E). rewrite E in *. unfold OS2IP.
  apply lead0_range; [exact N|inversion B1; assumption|exact L1].
Qed.

Lemma pkcs1_sign_ok sk s rd msg : key_ok sk -> I s -> bytes msg -> Z.of_nat (length msg) < limit ->
  (length pre + h + 11 <= modulus_len (sk_pk sk))%nat -> usable (pk_n (sk_pk sk)) rd ->
  exists s', I s' /\ pkcs1_sign D t (inr sk) s rd msg =
    (s', Ok (I2OSP (OS2IP (emsa (modulus_len (sk_pk sk)) msg) ^ sk_d sk mod pk_n (sk_pk sk)) (modulus_len (sk_pk sk)))).
Proof.
  intros K Hs B L LK U. pose proof (key_N sk K) as N. unfold pkcs1_sign. rewrite Hpre. cbn [kp_private]. rewrite hlen_eq.
  rewrite (proj2 (Nat.ltb_ge _ _)) by lia.
  destruct (hash_run_ok s [msg] Hs) as (s' & E & I').
  { apply Forall_cons; [exact B|constructor]. } { cbn [concat]. rewrite app_nil_r. exact L. }
  rewrite E. cbn [concat]. rewrite app_nil_r. exists s'. split; [exact I'|]. f_equal.
  assert (EE : [0; 1] ++ repeat 255 (modulus_len (sk_pk sk) - (length pre + h) - 3) ++ [0] ++ pre ++ H msg = emsa (modulus_len (sk_pk sk)) msg).
  { unfold emsa, EMSA_PKCS1. rewrite app_length. destruct (H_ok msg B L) as [-> _]. reflexivity. }
  rewrite EE. pose proof (emsa_range _ msg N B L LK) as R. unfold OS2IP in *. rewrite decrypt_check_ok by assumption. cbn [rbind].
  apply (f_equal Ok). apply left_pad_ok. destruct (modulus_len_bounds _ N) as [_ [_ HU]].
  pose proof (pow_range (be_val (emsa (modulus_len (sk_pk sk)) msg)) (sk_d sk) _ N). lia.
Qed.

Lemma pkcs1_verify_ok kp s sg msg : 1 < pk_n (kp_public kp) -> I s -> bytes msg -> Z.of_nat (length msg) < limit ->
  (length pre + h + 11 <= modulus_len (kp_public kp))%nat ->
  exists s', I s' /\ pkcs1_verify D t kp s sg msg =
    (s', if list_eqb (I2OSP (OS2IP sg ^ pk_e (kp_public kp) mod pk_n (kp_public kp)) (modulus_len (kp_public kp))) (emsa (modulus_len (kp_public kp)) msg)
         then Ok tt else Err VerificationFailed).
Proof.
  intros N Hs B L LK. unfold pkcs1_verify. rewrite Hpre, hlen_eq. set (k := modulus_len (kp_public kp)) in *.
  rewrite (proj2 (Nat.ltb_ge _ _)) by lia.
  assert (EM : fix_len k (pub_encrypt (kp_public kp) (be_val sg)) = I2OSP (OS2IP sg ^ pk_e (kp_public kp) mod pk_n (kp_public kp)) k).
  { destruct (modulus_len_bounds _ N) as [_ [_ HU]]. fold k in HU. rewrite fix_len_ok by (pose proof (enc_range _ (be_val sg) N); lia).
    unfold pub_encrypt. rewrite powmod_ok by lia. reflexivity. }
  rewrite EM. clear EM. set (em := I2OSP _ k).
  assert (LE : length em = k) by apply be_bytes_length. clearbody em.
  destruct (hash_run_ok s [msg] Hs) as (s' & E & I').
  { apply Forall_cons; [exact B|constructor]. } { cbn [concat]. rewrite app_nil_r. exact L. }
  cbn [concat] in E. rewrite app_nil_r in E. destruct (H_ok msg B L) as [LH _].
  destruct (split_len 2 em ltac:(lia)) as (a & r1 & -> & La). destruct a as [|e0 [|e1 [|? ?]]]; cbn [length] in La; try lia. clear La.
  rewrite app_length in LE. cbn [length] in LE.
  destruct (split_len (k - (length pre + h) - 3) r1 ltac:(lia)) as (ps & r2 & -> & Lps).
  rewrite app_length in LE. destruct r2 as [|z r3]; [cbn [length] in LE; lia|]. cbn [length] in LE.
  destruct (split_len (length pre) r3 ltac:(lia)) as (pf & dg & -> & Lpf). rewrite app_length in LE.
  assert (Ldg : length dg = h) by lia.
  assert (X1 : firstn (length pre) (skipn (k - (length pre + h)) ([e0; e1] ++ ps ++ z :: pf ++ dg)) = pf).
  { replace ([e0; e1] ++ ps ++ z :: pf ++ dg) with (([e0; e1] ++ ps ++ [z]) ++ pf ++ dg) by (rewrite <- !app_assoc; reflexivity).
    rewrite skipn_exact by (rewrite !app_length; cbn [length]; lia). apply firstn_exact. exact Lpf. }
  assert (X2 : nth (k - (length pre + h) - 1) ([e0; e1] ++ ps ++ z :: pf ++ dg) 0 = z).
  { rewrite app_assoc. apply nth_exact. rewrite app_length. cbn [length]. lia. }
  assert (X3 : skipn (k - h) ([e0; e1] ++ ps ++ z :: pf ++ dg) = dg).
  { replace ([e0; e1] ++ ps ++ z :: pf ++ dg) with (([e0; e1] ++ ps ++ [z] ++ pf) ++ dg) by (rewrite <- !app_assoc; reflexivity).
    apply skipn_exact. rewrite !app_length. cbn [length]. lia. }
  assert (X4 : firstn (k - (length pre + h) - 3) (skipn 2 ([e0; e1] ++ ps ++ z :: pf ++ dg)) = ps).
  { change (skipn 2 ([e0; e1] ++ ps ++ z :: pf ++ dg)) with (ps ++ z :: pf ++ dg). apply firstn_exact. exact Lps. }
  rewrite X1, X2, X3, X4. cbn [nth app].
  destruct (list_eqb (e0 :: e1 :: ps ++ z :: pf ++ dg) (emsa k msg)) eqn:Q.
  - apply list_eqb_spec in Q. unfold emsa, EMSA_PKCS1 in Q. rewrite app_length, LH in Q. cbn [app] in Q.
    assert (e0 = 0 /\ e1 = 1) as [-> ->] by (split; congruence).
    assert (Q' : ps ++ z :: pf ++ dg = repeat 255 (k - (length pre + h) - 3) ++ 0 :: pre ++ H msg) by congruence.
    assert (ps = repeat 255 (k - (length pre + h) - 3)) as ->.
    { rewrite <- (firstn_exact _ ps (z :: pf ++ dg) Lps), Q'. apply firstn_exact. apply repeat_length. }
    apply app_inv_head in Q'. assert (z = 0) as -> by congruence. assert (Q2 : pf ++ dg = pre ++ H msg) by congruence.
    assert (pf = pre) as -> by (rewrite <- (firstn_exact _ pf dg Lpf), Q2; apply firstn_exact; reflexivity).
    apply app_inv_head in Q2. subst dg. cbn [Z.eqb Pos.eqb negb orb]. rewrite list_eqb_refl. cbn [negb orb]. rewrite E, list_eqb_refl. cbn [negb].
    rewrite (proj2 (forallb_repeat 255 _)) by (rewrite repeat_length; reflexivity). eauto.
  - destruct ((e0 =? 0) && (e1 =? 1) && list_eqb pf pre && (z =? 0) && list_eqb dg (H msg) && forallb (fun e => e =? 255) ps) eqn:C.
    + exfalso. rewrite !andb_true_iff, !Z.eqb_eq, !list_eqb_spec, forallb_repeat in C. destruct C as (((((-> & ->) & ->) & ->) & ->) & Eps).
      assert (T : list_eqb (0 :: 1 :: ps ++ 0 :: pre ++ H msg) (emsa k msg) = true); [|congruence].
      apply list_eqb_spec. unfold emsa, EMSA_PKCS1. rewrite app_length, LH. rewrite Eps, Lps. reflexivity.
    + destruct (e0 =? 0); cbn [negb orb andb] in *; [|eauto]. destruct (e1 =? 1); cbn [negb orb andb] in *; [|eauto].
      destruct (list_eqb pf pre); cbn [negb orb andb] in *; [|eauto]. destruct (z =? 0); cbn [negb orb andb] in *; [|eauto].
      rewrite E. destruct (list_eqb dg (H msg)); cbn [negb orb andb] in *; [|eauto]. rewrite C. eauto.
Qed.
End P1.

(** ** OAEP *)
Lemma flat_map_firstn j (ws : list Z) : flat_map (be_bytes 4) (firstn j ws) = firstn (j * 4) (flat_map (be_bytes 4) ws).
Proof.
  revert ws. induction j as [|j IH]; intros [|w ws]; [reflexivity|reflexivity|rewrite firstn_nil; reflexivity|].
  cbn [firstn flat_map]. rewrite IH. replace (Datatypes.S j * 4)%nat with (4 + j * 4)%nat by lia.
  rewrite firstn_app, be_bytes_length. rewrite (firstn_all2 (n := (4 + j * 4)%nat)) by (rewrite be_bytes_length; lia).
  replace (4 + j * 4 - 4)%nat with (j * 4)%nat by lia. reflexivity.
Qed.
(** The first [n] random bytes. *)
Definition rand_bytes (n : nat) (ws : list Z) : list Z := firstn n (flat_map (be_bytes 4) ws).
Lemma rand_bytes_cut n j ws : (n <= j * 4)%nat -> firstn n (flat_map (be_bytes 4) (firstn j ws)) = rand_bytes n ws.
Proof. intros L. rewrite flat_map_firstn, firstn_firstn. rewrite Nat.min_l by lia. reflexivity. Qed.
Lemma rand_bytes_ok n ws : (n <= 4 * length ws)%nat -> length (rand_bytes n ws) = n /\ bytes (rand_bytes n ws).
Proof.
  intros L. unfold rand_bytes. destruct (flat_be_bytes 4 ws) as [B E]. rewrite firstn_length, E. split; [lia|]. apply Forall_firstn', B.
Qed.

Lemma mask_parts k DB seed : length seed = h -> length DB = (k - h - 1)%nat -> bytes seed -> bytes DB -> Z.of_nat k + 4 < limit -> (h + 1 <= k)%nat ->
  let md := xorl DB (MGF1 H h seed (k - h - 1)) in let ms := xorl seed (MGF1 H h md h) in
  OAEP_mask H h k DB seed = 0 :: ms ++ md /\ length ms = h /\ length md = (k - h - 1)%nat /\ bytes ms /\ bytes md /\
  xorl ms (MGF1 H h md h) = seed /\ xorl md (MGF1 H h seed (k - h - 1)) = DB.
Proof.
  intros Ls Ld Bs Bd LK Hk md ms.
  destruct (MGF1_ok seed (k - h - 1) Bs ltac:(lia)) as [L1 B1].
  assert (Lm : length md = (k - h - 1)%nat) by (unfold md; rewrite xorl_length; lia).
  assert (Bm : bytes md) by (apply xorl_bytes; assumption).
  destruct (MGF1_ok md h Bm ltac:(lia)) as [L2 B2].
  refine (conj eq_refl (conj _ (conj Lm (conj _ (conj Bm (conj _ _)))))).
  - unfold ms. rewrite xorl_length. lia.
  - apply xorl_bytes; assumption.
  - apply xorl_cancel. lia.
  - apply xorl_cancel. lia.
Qed.

Lemma oaep_encrypt_ok kp label s ws msg : pub_is_valid (kp_public kp) = Ok tt -> 1 < pk_n (kp_public kp) -> I s ->
  bytes label -> Z.of_nat (length label) < limit -> bytes msg -> (length msg + 2 * h + 2 <= modulus_len (kp_public kp))%nat ->
  Z.of_nat (modulus_len (kp_public kp)) + 4 < limit -> (h <= 4 * length ws)%nat ->
  let k := modulus_len (kp_public kp) in
  exists s', I s' /\ oaep_encrypt D kp label s ws msg =
    (s', Ok (I2OSP (OS2IP (EME_OAEP H h k label msg (rand_bytes h ws)) ^ pk_e (kp_public kp) mod pk_n (kp_public kp)) k)).
Proof.
  intros V N Hs BL LL B LM LK LW k. unfold oaep_encrypt. rewrite V, hlen_eq. fold k in LM, LK |- *.
  rewrite (proj2 (Nat.ltb_ge _ _)) by lia. rewrite (proj2 (Nat.ltb_ge _ _)) by lia.
  destruct (hash_run_ok s [label] Hs) as (s1 & E1 & I1).
  { apply Forall_cons; [exact BL|constructor]. } { cbn [concat]. rewrite app_nil_r. exact LL. }
  rewrite E1. cbn [concat]. rewrite app_nil_r. destruct (H_ok label BL LL) as [LH BH].
  rewrite rand_bytes_cut by (pose proof (Nat.div_mod (h + 3) 2 ltac:(lia)); pose proof (Nat.mod_upper_bound (h + 3) 2 ltac:(lia)); lia).
  destruct (rand_bytes_ok h ws LW) as [Ls Bs]. set (seed := rand_bytes h ws) in *.
  replace (k - (length msg + 2 * h + 2))%nat with (k - length msg - 2 * h - 2)%nat by lia.
  change (H label ++ repeat 0 (k - length msg - 2 * h - 2) ++ [1] ++ msg) with (OAEP_DB H h k label msg).
  set (DB := OAEP_DB H h k label msg).
  assert (LD : length DB = (k - h - 1)%nat) by (unfold DB, OAEP_DB; rewrite !app_length, repeat_length, LH; cbn [length]; lia).
  assert (BD : bytes DB).
  { unfold DB, OAEP_DB. apply bytes_app. split; [exact BH|]. apply bytes_app. split; [apply bytes_repeat, byte0|].
    apply bytes_app. split; [apply Forall_cons; [unfold byte; lia|constructor]|exact B]. }
  rewrite !app_length, LD, Ls. cbn [length]. rewrite (proj2 (Nat.eqb_eq (1 + (h + (k - h - 1))) k)) by lia. cbn [negb].
  change (skipn 1 ([0] ++ seed ++ DB)) with (seed ++ DB). rewrite (firstn_exact h seed DB Ls).
  replace (skipn (h + 1) ([0] ++ seed ++ DB)) with DB by (rewrite app_assoc; symmetry; apply skipn_exact; rewrite app_length; cbn [length]; lia).
  destruct (mgf1_xor_ok s1 seed DB I1 Bs ltac:(lia)) as (s2 & E2 & I2). rewrite E2, LD.
  destruct (mask_parts k DB seed Ls LD Bs BD LK ltac:(lia)) as (EM & Lms & Lmd & Bms & Bmd & _).
  set (md := xorl DB (MGF1 H h seed (k - h - 1))) in *.
  destruct (mgf1_xor_ok s2 md seed I2 Bmd ltac:(lia)) as (s3 & E3 & I3). rewrite E3, Ls. exists s3. split; [exact I3|]. f_equal. apply (f_equal Ok).
  set (ms := xorl seed (MGF1 H h md h)) in *.
  change (fix_len k (pub_encrypt (kp_public kp) (be_val ([0] ++ ms ++ md))) = I2OSP (OS2IP (OAEP_mask H h k DB seed) ^ pk_e (kp_public kp) mod pk_n (kp_public kp)) k).
  rewrite EM. destruct (modulus_len_bounds _ N) as [_ [_ HU]]. fold k in HU. rewrite fix_len_ok by (pose proof (enc_range _ (be_val ([0] ++ ms ++ md)) N); lia).
  unfold pub_encrypt. rewrite powmod_ok by lia. reflexivity.
Qed.

Definition oaep_open (L DB : list Z) : res (list Z) :=
  if list_eqb (H L) (firstn h DB) then rbind (oaep_scan (skipn h DB)) (fun i => Ok (skipn (h + i) DB)) else Err VerificationFailed.
Lemma oaep_decode_mask s lhash k DB seed : I s -> length seed = h -> length DB = (k - h - 1)%nat -> bytes seed -> bytes DB -> Z.of_nat k + 4 < limit -> (h + 1 <= k)%nat ->
  exists s', I s' /\ oaep_decode D s lhash (OAEP_mask H h k DB seed) =
    (s', if list_eqb lhash (firstn h DB) then rbind (oaep_scan (skipn h DB)) (fun i => Ok (skipn (h + i) DB)) else Err VerificationFailed).
Proof.
  intros Hs Ls Ld Bs Bd LK Hk. destruct (mask_parts k DB seed Ls Ld Bs Bd LK Hk) as (EM & Lms & Lmd & Bms & Bmd & X1 & X2).
  rewrite EM. set (md := xorl DB (MGF1 H h seed (k - h - 1))) in *. set (ms := xorl seed (MGF1 H h md h)) in *.
  unfold oaep_decode. rewrite hlen_eq. cbn [nth]. change (negb (0 =? 0)) with false. cbv iota.
  change (skipn 1 (0 :: ms ++ md)) with (ms ++ md). rewrite (firstn_exact h ms md Lms).
  replace (skipn (h + 1) (0 :: ms ++ md)) with md by (change (0 :: ms ++ md) with (([0] ++ ms) ++ md); symmetry; apply skipn_exact; rewrite app_length; cbn [length]; lia).
  destruct (mgf1_xor_ok s md ms Hs Bmd ltac:(lia)) as (s2 & E2 & I2). rewrite E2, Lms, X1.
  destruct (mgf1_xor_ok s2 seed md I2 Bs ltac:(lia)) as (s3 & E3 & I3). rewrite E3, Lmd, X2. exists s3. split; [exact I3|].
  destruct (list_eqb lhash (firstn h DB)); reflexivity.
Qed.
(** Every byte string with a leading zero is a masked block. *)
Lemma mask_surj k em : bytes em -> length em = k -> (h + 1 <= k)%nat -> Z.of_nat k + 4 < limit -> nth 0 em 0 = 0 ->
  exists DB seed, em = OAEP_mask H h k DB seed /\ length seed = h /\ length DB = (k - h - 1)%nat /\ bytes seed /\ bytes DB.
Proof.
  intros B L Hk LK Z0. destruct em as [|x em]; [cbn in L; lia|]. cbn [nth] in Z0. subst x. cbn [length] in L. inversion B as [|? ? _ B']; subst.
  destruct (split_len h em ltac:(lia)) as (ms & md & -> & Lms). apply bytes_app in B'. destruct B' as [Bms Bmd].
  rewrite app_length in *. assert (Lmd : length md = (Datatypes.S (length ms + length md) - h - 1)%nat) by lia.
  set (k := Datatypes.S (length ms + length md)) in *.
  destruct (MGF1_ok md h Bmd ltac:(lia)) as [L2 B2].
  set (seed := xorl ms (MGF1 H h md h)). assert (Lsd : length seed = h) by (unfold seed; rewrite xorl_length; lia).
  assert (Bsd : bytes seed) by (apply xorl_bytes; assumption).
  destruct (MGF1_ok seed (k - h - 1) Bsd ltac:(lia)) as [L3 B3].
  exists (xorl md (MGF1 H h seed (k - h - 1))), seed.
  assert (X : xorl (xorl md (MGF1 H h seed (k - h - 1))) (MGF1 H h seed (k - h - 1)) = md) by (apply xorl_cancel; lia).
  refine (conj _ (conj Lsd (conj _ (conj Bsd _)))).
  - unfold OAEP_mask. rewrite X. unfold seed. rewrite xorl_cancel by lia. reflexivity.
  - rewrite xorl_length. lia.
  - apply xorl_bytes; assumption.
Qed.

Lemma oaep_decrypt_eq sk label s rd c : key_ok sk -> pub_is_valid (sk_pk sk) = Ok tt -> I s -> bytes label -> Z.of_nat (length label) < limit ->
  bytes c -> (1 <= length c <= modulus_len (sk_pk sk))%nat -> (2 * h + 2 <= modulus_len (sk_pk sk))%nat -> OS2IP c <= pk_n (sk_pk sk) -> usable (pk_n (sk_pk sk)) rd ->
  exists s1, I s1 /\ oaep_decrypt D (inr sk) label s rd c = oaep_decode D s1 (H label) (I2OSP (OS2IP c ^ sk_d sk mod pk_n (sk_pk sk)) (modulus_len (sk_pk sk))).
Proof.
  intros K V Hs BL LL B LC L2 C U. pose proof (key_N sk K) as N. unfold oaep_decrypt. cbn [kp_private]. rewrite (proj2 (Nat.eqb_neq _ _)) by lia.
  rewrite V, hlen_eq. rewrite (proj2 (Nat.ltb_ge _ _)) by lia. rewrite (proj2 (Nat.ltb_ge _ _)) by lia. cbn [orb].
  unfold OS2IP in *. rewrite priv_decrypt_ok by assumption.
  destruct (hash_run_ok s [label] Hs) as (s1 & E1 & I1).
  { apply Forall_cons; [exact BL|constructor]. } { cbn [concat]. rewrite app_nil_r. exact LL. }
  rewrite E1. cbn [concat]. rewrite app_nil_r. exists s1. split; [exact I1|]. rewrite fix_len_ok; [reflexivity|].
  destruct (modulus_len_bounds _ N) as [_ [_ HU]]. pose proof (pow_range (be_val c) (sk_d sk) _ N). lia.
Qed.
(** Decrypting an encryption of a masked data block opens the block. *)
Lemma oaep_decrypt_mask sk label s rd DB seed : key_ok sk -> pub_is_valid (sk_pk sk) = Ok tt -> I s -> bytes label -> Z.of_nat (length label) < limit ->
  (2 * h + 2 <= modulus_len (sk_pk sk))%nat -> Z.of_nat (modulus_len (sk_pk sk)) + 4 < limit -> usable (pk_n (sk_pk sk)) rd ->
  length seed = h -> length DB = (modulus_len (sk_pk sk) - h - 1)%nat -> bytes seed -> bytes DB ->
  let k := modulus_len (sk_pk sk) in
  snd (oaep_decrypt D (inr sk) label s rd (I2OSP (OS2IP (OAEP_mask H h k DB seed) ^ pk_e (sk_pk sk) mod pk_n (sk_pk sk)) k)) = oaep_open label DB /\
  I (fst (oaep_decrypt D (inr sk) label s rd (I2OSP (OS2IP (OAEP_mask H h k DB seed) ^ pk_e (sk_pk sk) mod pk_n (sk_pk sk)) k))).
Proof.
  intros K V Hs BL LL L2 LK U Ls Ld Bs Bd k. fold k in L2, LK, Ld. pose proof (key_N sk K) as N.
  destruct (mask_parts k DB seed Ls Ld Bs Bd LK ltac:(lia)) as (EM & Lms & Lmd & Bms & Bmd & _).
  set (M := OAEP_mask H h k DB seed) in *.
  assert (BM : bytes M) by (rewrite EM; apply Forall_cons; [apply byte0|]; apply bytes_app; split; assumption).
  assert (LM : length M = k) by (rewrite EM; cbn [length]; rewrite app_length; lia).
  assert (R : 0 <= OS2IP M < pk_n (sk_pk sk)).
  { unfold OS2IP. rewrite EM. apply lead0_range; [exact N|apply bytes_app; split; assumption|]. rewrite app_length. fold k. lia. }
  set (x := OS2IP M ^ pk_e (sk_pk sk) mod pk_n (sk_pk sk)).
  assert (X : 0 <= x < pk_n (sk_pk sk)) by (apply pow_range; exact N).
  destruct (modulus_len_bounds _ N) as [K0 [_ KU]]. fold k in K0, KU.
  assert (VX : OS2IP (I2OSP x k) = x) by (unfold OS2IP, I2OSP; rewrite be_val_bytes; apply Z.mod_small; lia).
  destruct (oaep_decrypt_eq sk label s rd (I2OSP x k) K V Hs BL LL) as (s1 & I1 & E).
  { apply be_bytes_bytes. } { unfold I2OSP. rewrite be_bytes_length. fold k. lia. } { exact L2. } { rewrite VX. lia. } { exact U. }
  rewrite E, VX. unfold x. rewrite enc_dec_pow by assumption. unfold I2OSP, OS2IP. fold k.
  assert (VM : be_bytes k (be_val M) = M) by (transitivity (be_bytes (length M) (be_val M)); [f_equal; symmetry; exact LM|apply be_bytes_val; exact BM]). rewrite VM.
  destruct (oaep_decode_mask s1 (H label) k DB seed I1 Ls Ld Bs Bd LK ltac:(lia)) as (s2 & I2 & E2). unfold M. rewrite E2. cbn [fst snd]. split; [reflexivity|exact I2].
Qed.

Lemma oaep_scan_zeros z m : oaep_scan (repeat 0 z ++ 1 :: m) = Ok (Datatypes.S z).
Proof. induction z as [|z IH]; cbn [repeat app oaep_scan Z.eqb Pos.eqb]; [reflexivity|]. rewrite IH. reflexivity. Qed.
Lemma oaep_scan_allzero z : oaep_scan (repeat 0 z) = Ok z.
Proof. induction z as [|z IH]; cbn [repeat app oaep_scan Z.eqb]; [reflexivity|]. rewrite IH. reflexivity. Qed.
Lemma oaep_scan_inv l : forall i, oaep_scan l = Ok i ->
  (exists z m, l = repeat 0 z ++ 1 :: m /\ i = Datatypes.S z) \/ (exists z, l = repeat 0 z /\ i = z).
Proof.
  induction l as [|x l IH]; intros i E; cbn [oaep_scan] in E.
  - right. exists 0%nat. split; [reflexivity|congruence].
  - destruct (Z.eqb_spec x 0) as [->|N0].
    + destruct (oaep_scan l) as [j| |]; cbn [rmap] in E; try discriminate. destruct (IH j eq_refl) as [(z & m & -> & Ej)|(z & -> & Ej)].
      * left. exists (Datatypes.S z), m. split; [reflexivity|]. assert (i = Datatypes.S j) by congruence. lia.
      * right. exists (Datatypes.S z). split; [reflexivity|]. assert (i = Datatypes.S j) by congruence. lia.
    + destruct (Z.eqb_spec x 1) as [->|N1]; [|discriminate]. left. exists 0%nat, l. split; [reflexivity|congruence].
Qed.
Lemma oaep_open_iff L DB m : length (H L) = h -> (h <= length DB)%nat -> oaep_open L DB = Ok m <->
  (exists z, DB = H L ++ repeat 0 z ++ [1] ++ m) \/ (exists z, DB = H L ++ repeat 0 z /\ m = []).
Proof.
  intros LH LD. unfold oaep_open. split.
  - destruct (list_eqb (H L) (firstn h DB)) eqn:E; [|discriminate]. apply list_eqb_spec in E.
    destruct (oaep_scan (skipn h DB)) as [i| |] eqn:Sc; cbn [rbind]; try discriminate. intros Q.
    assert (ED : DB = H L ++ skipn h DB) by (rewrite E, firstn_skipn; reflexivity).
    assert (Qm : m = skipn i (skipn h DB)) by (rewrite skipn_skipn, (Nat.add_comm i h); congruence).
    destruct (oaep_scan_inv _ _ Sc) as [(z & m' & E2 & ->)|(z & E2 & ->)].
    + left. exists z. rewrite ED, Qm, E2. f_equal. f_equal. change (1 :: m') with ([1] ++ m'). f_equal. symmetry. rewrite app_assoc. apply skipn_exact.
      rewrite app_length, repeat_length. cbn [length]. lia.
    + right. exists z. rewrite Qm, E2. split; [rewrite ED at 1; rewrite E2; reflexivity|]. apply skipn_all2. rewrite repeat_length. lia.
  - intros [(z & ->)|(z & -> & ->)]; rewrite (firstn_exact h (H L)), list_eqb_refl, (skipn_exact h (H L)) by exact LH.
    + cbn [app]. rewrite oaep_scan_zeros. cbn [rbind]. f_equal.
      replace (H L ++ repeat 0 z ++ 1 :: m) with ((H L ++ repeat 0 z ++ [1]) ++ m) by (rewrite <- !app_assoc; reflexivity).
      apply skipn_exact. rewrite !app_length, repeat_length. cbn [length]. lia.
    + rewrite oaep_scan_allzero. cbn [rbind]. f_equal. apply skipn_all2. rewrite app_length, repeat_length. lia.
Qed.

(** ** PSS *)
Definition em_len (emBits : nat) : nat := ((emBits + 7) / 8)%nat.
(** The bits of the first octet that do not belong to the encoded message. *)
Definition spare (emBits : nat) : nat := (8 * em_len emBits - emBits)%nat.
Lemma spare_lt emBits : (spare emBits < 8)%nat /\ (emBits <= 8 * em_len emBits)%nat.
Proof.
  unfold spare, em_len. pose proof (Nat.div_mod (emBits + 7) 8 ltac:(lia)). pose proof (Nat.mod_upper_bound (emBits + 7) 8 ltac:(lia)). lia.
Qed.
Lemma shiftr_mask z d : (z < 8)%nat -> Z.land d (Z.shiftr 255 (Z.of_nat z)) = d mod 2 ^ (8 - Z.of_nat z).
Proof.
  intros L. rewrite <- Z.land_ones by lia. f_equal. do 8 (destruct z as [|z]; [reflexivity|]). lia.
Qed.
Lemma pss_hash_ok msg salt : bytes msg -> Z.of_nat (length msg) < limit -> bytes salt -> Z.of_nat (8 + h + length salt) < limit ->
  bytes (repeat 0 8 ++ H msg ++ salt) /\ length (H (repeat 0 8 ++ H msg ++ salt)) = h /\ bytes (H (repeat 0 8 ++ H msg ++ salt)).
Proof.
  intros B L Bs Ls. destruct (H_ok msg B L) as [LH BH].
  assert (BB : bytes (repeat 0 8 ++ H msg ++ salt)).
  { apply bytes_app. split; [apply bytes_repeat, byte0|]. apply bytes_app. split; assumption. }
  split; [exact BB|]. apply H_ok; [exact BB|]. rewrite !app_length, repeat_length, LH. lia.
Qed.
Lemma hash_run3 s msg salt : I s -> bytes msg -> Z.of_nat (length msg) < limit -> bytes salt -> Z.of_nat (8 + h + length salt) < limit ->
  exists s', hash_run D s [repeat 0 8; H msg; salt] = (s', H (repeat 0 8 ++ H msg ++ salt)) /\ I s'.
Proof.
  intros Hs B L Bs Ls. destruct (H_ok msg B L) as [LH BH].
  destruct (hash_run_ok s [repeat 0 8; H msg; salt] Hs) as (s' & E & I').
  { apply Forall_cons; [apply bytes_repeat, byte0|]. apply Forall_cons; [exact BH|]. apply Forall_cons; [exact Bs|constructor]. }
  { cbn [concat]. rewrite app_nil_r, !app_length, repeat_length, LH. lia. }
  exists s'. split; [|exact I']. rewrite E. cbn [concat]. rewrite app_nil_r. reflexivity.
Qed.

Lemma pss_encode_ok s msg emBits salt : I s -> bytes msg -> Z.of_nat (length msg) < limit -> bytes salt ->
  (h + length salt + 2 <= em_len emBits)%nat -> Z.of_nat (em_len emBits) + 8 < limit ->
  exists s', I s' /\ emsa_pss_encode D s msg emBits salt = (s', Ok (EMSA_PSS H h emBits msg salt)).
Proof.
  intros Hs B L Bs Hl LK. unfold emsa_pss_encode, EMSA_PSS. rewrite hlen_eq. fold (em_len emBits). set (el := em_len emBits) in *.
  rewrite (proj2 (Nat.ltb_ge _ _)) by lia.
  destruct (hash_run_ok s [msg] Hs) as (s1 & E1 & I1).
  { apply Forall_cons; [exact B|constructor]. } { cbn [concat]. rewrite app_nil_r. exact L. }
  rewrite E1. cbn [concat]. rewrite app_nil_r. destruct (H_ok msg B L) as [LH BH]. rewrite LH, Nat.eqb_refl. cbn [negb].
  destruct (hash_run3 s1 msg salt I1 B L Bs ltac:(lia)) as (s2 & E2 & I2). rewrite E2.
  destruct (pss_hash_ok msg salt B L Bs ltac:(lia)) as (_ & LHh & BHh). set (Hh := H (repeat 0 8 ++ H msg ++ salt)) in *.
  set (DB := repeat 0 (el - length salt - h - 2) ++ [1] ++ salt).
  assert (LD : length DB = (el - h - 1)%nat) by (unfold DB; rewrite !app_length, repeat_length; cbn [length]; lia).
  destruct (mgf1_xor_ok s2 Hh DB I2 BHh ltac:(lia)) as (s3 & E3 & I3). rewrite E3, LD. exists s3. split; [exact I3|].
  destruct (MGF1_ok Hh (el - h - 1) BHh ltac:(lia)) as [LM _].
  destruct (xorl DB (MGF1 H h Hh (el - h - 1))) as [|d0 ds] eqn:EX.
  { apply (f_equal (@length Z)) in EX. rewrite xorl_length in EX. cbn [length] in EX. lia. }
  cbn [clear_top app]. f_equal. apply (f_equal Ok). f_equal. apply shiftr_mask. apply spare_lt.
Qed.

(** What the first octet test and the clearing amount to in a build without overflow checks. *)
Definition top_bits (emBits : nat) : nat := if (spare emBits =? 0)%nat then 8 else spare emBits.
Definition clr_bits (emBits : nat) : nat := ((em_len emBits / 8 + spare emBits) mod 8)%nat.
Definition top_tab (z : nat) (e : Z) : bool :=
  Bool.eqb (Z.land e (Z.land (Z.shiftl 255 ((8 - Z.of_nat z) mod 8)) 255) =? 0) (e <? 2 ^ (8 - Z.of_nat (if (z =? 0)%nat then 8 else z))).
Lemma top_tab_ok : forallb (fun z => forallb (top_tab z) all_bytes) (seq 0 8) = true.
Proof. vm_compute. reflexivity. Qed.
Lemma top_mask z e : (z < 8)%nat -> byte e -> exists m, shl8 false 255 (8 - Z.of_nat z) = Ok m /\
  (Z.land e m =? 0) = (e <? 2 ^ (8 - Z.of_nat (if (z =? 0)%nat then 8 else z))).
Proof.
  intros L B. unfold shl8. cbn [andb]. eexists. split; [reflexivity|]. apply Bool.eqb_prop.
  pose proof top_tab_ok as T. rewrite forallb_forall in T. specialize (T z ltac:(apply in_seq; lia)). exact (forall_byte _ T e B).
Qed.
Lemma clr_mask emBits : (1 < em_len emBits)%nat -> rbind (usub false (Z.of_nat (em_len emBits / 8)) (Z.of_nat emBits)) (shr8 false 255) = Ok (Z.shiftr 255 (Z.of_nat (clr_bits emBits))).
Proof.
  intros L. destruct (spare_lt emBits) as [S1 S2]. assert (EB : emBits = (8 * em_len emBits - spare emBits)%nat) by (unfold spare; lia).
  assert (Q : (em_len emBits / 8 < emBits)%nat). { pose proof (Nat.div_mod (em_len emBits) 8 ltac:(lia)). lia. }
  unfold usub. rewrite (proj2 (Z.ltb_lt _ _)) by lia. cbn [rbind]. unfold shr8. cbn [andb]. f_equal. f_equal.
  rewrite mod_divide_mod by (try (exists (2 ^ 61); reflexivity); lia).
  unfold clr_bits. rewrite Nat2Z.inj_mod. rewrite EB at 2. apply divide_mod_eq; [lia|].
  exists (- Z.of_nat (em_len emBits)). lia.
Qed.
Lemma clear_top_map z l : (z < 8)%nat -> match l with [] => [] | d0 :: ds => Z.land d0 (Z.shiftr 255 (Z.of_nat z)) :: ds end = clear_top z l.
Proof. intros L. destruct l as [|d ds]; [reflexivity|]. cbn [clear_top]. rewrite shiftr_mask by exact L. reflexivity. Qed.
Lemma clear_top_bytes z l : (z < 8)%nat -> bytes l -> bytes (clear_top z l).
Proof.
  intros L B. destruct l as [|d ds]; [constructor|]. cbn [clear_top]. inversion B as [|? ? B1 B2]; subst. apply Forall_cons; [|exact B2].
  unfold byte in *. pose proof (Z.pow_le_mono_r 2 (8 - Z.of_nat z) 8 ltac:(lia) ltac:(lia)). pose proof (Z.mod_pos_bound d (2 ^ (8 - Z.of_nat z)) ltac:(apply Z.pow_pos_nonneg; lia)).
  change (2 ^ 8) with 256 in *. lia.
Qed.
Lemma clear_top_length z l : length (clear_top z l) = length l. Proof. destruct l; reflexivity. Qed.
Lemma bytes_nth0 l : bytes l -> byte (nth 0 l 0). Proof. intros B. destruct l; [apply byte0|inversion B; assumption]. Qed.

(** Verification in a build without overflow checks accepts exactly the messages the (shifted) standard condition accepts. *)
Lemma pss_verify_ok sl s em msg emBits : I s -> bytes em -> bytes msg -> Z.of_nat (length msg) < limit ->
  (h + sl + 2 <= em_len emBits)%nat -> Z.of_nat (em_len emBits) + 8 < limit ->
  exists s' r, I s' /\ emsa_pss_verify D false sl s em msg emBits = (s', r) /\ (r = Ok tt \/ r = Err VerificationFailed) /\
    (r = Ok tt <-> PSS_accepts H h (top_bits emBits) (clr_bits emBits) emBits sl msg em).
Proof.
  intros Hs Be B L Hl LK. unfold emsa_pss_verify, PSS_accepts. rewrite hlen_eq. fold (em_len emBits). pose proof (clr_mask emBits ltac:(lia)) as CM.
  destruct (spare_lt emBits) as [S1 S2]. set (el := em_len emBits) in *.
  destruct (hash_run_ok s [msg] Hs) as (s1 & E1 & I1).
  { apply Forall_cons; [exact B|constructor]. } { cbn [concat]. rewrite app_nil_r. exact L. }
  rewrite E1. cbn [concat]. rewrite app_nil_r. destruct (H_ok msg B L) as [LH BH]. rewrite LH, Nat.eqb_refl. cbn [negb].
  destruct (Nat.eqb_spec el (length em)) as [Le|Le]; cbn [negb orb].
  2:{ exists s1. eexists. split; [exact I1|]. split; [reflexivity|]. split; [right; reflexivity|]. split; [discriminate|].
      intros (mdb & hh & salt & -> & L1 & L2 & _). exfalso. rewrite !app_length in Le. cbn [length] in Le. lia. }
  rewrite (proj2 (Nat.ltb_ge el _)) by lia.
  destruct (split_len (el - h - 1) em ltac:(lia)) as (mdb & r1 & -> & Lm). rewrite app_length in Le.
  destruct (split_len h r1 ltac:(lia)) as (hh & r2 & -> & Lh). rewrite app_length in Le.
  destruct r2 as [|x [|? ?]]; cbn [length] in Le; try lia. apply bytes_app in Be. destruct Be as [Bm Be]. apply bytes_app in Be. destruct Be as [Bh _].
  assert (NX : nth (el - 1) (mdb ++ hh ++ [x]) 0 = x) by (rewrite app_assoc; apply nth_exact; rewrite app_length; lia). rewrite NX.
  assert (N0 : nth 0 (mdb ++ hh ++ [x]) 0 = nth 0 mdb 0) by (apply app_nth1; lia). rewrite N0.
  assert (EQ : forall mdb' hh', mdb ++ hh ++ [x] = mdb' ++ hh' ++ [0xbc] -> length mdb' = (el - h - 1)%nat -> length hh' = h -> mdb = mdb' /\ hh = hh' /\ x = 0xbc).
  { intros mdb' hh' E La Lb. assert (mdb = mdb') as -> by (rewrite <- (firstn_exact _ mdb (hh ++ [x]) Lm), E; apply firstn_exact; exact La).
    apply app_inv_head in E. assert (hh = hh') as -> by (rewrite <- (firstn_exact _ hh [x] Lh), E; apply firstn_exact; exact Lb).
    apply app_inv_head in E. split; [reflexivity|]. split; [reflexivity|congruence]. }
  destruct (Z.eqb_spec x 188) as [->|Nx]; cbn [negb].
  2:{ exists s1. eexists. split; [exact I1|]. split; [reflexivity|]. split; [right; reflexivity|]. split; [discriminate|].
      intros (mdb' & hh' & salt & E & L1 & L2 & _). exfalso. apply Nx. apply (EQ mdb' hh' E L1 L2). }
  destruct (top_mask (8 * el - emBits) (nth 0 mdb 0) S1 (bytes_nth0 _ Bm)) as (mask & EM & ET). rewrite EM, ET.
  assert (TT : (if (8 * el - emBits =? 0)%nat then 8%nat else (8 * el - emBits)%nat) = top_bits emBits) by reflexivity. rewrite TT. clear EM ET mask.
  destruct (Z.ltb_spec (nth 0 mdb 0) (2 ^ (8 - Z.of_nat (top_bits emBits)))) as [LT|GE]; cbn [negb].
  2:{ exists s1. eexists. split; [exact I1|]. split; [reflexivity|]. split; [right; reflexivity|]. split; [discriminate|].
      intros (mdb' & hh' & salt & E & L1 & L2 & LT & _). exfalso. destruct (EQ mdb' hh' E L1 L2) as (<- & _). lia. }
  rewrite (firstn_exact _ mdb (hh ++ [188]) Lm), (skipn_exact _ mdb (hh ++ [188]) Lm), (firstn_exact _ hh [188] Lh).
  destruct (mgf1_xor_ok s1 hh mdb I1 Bh ltac:(lia)) as (s2 & E2 & I2). rewrite E2, Lm.
  destruct (MGF1_ok hh (el - h - 1) Bh ltac:(lia)) as [LM BM]. rewrite CM.
  assert (CB : (clr_bits emBits < 8)%nat) by (apply Nat.mod_upper_bound; lia).
  rewrite clear_top_map by exact CB. set (db := clear_top (clr_bits emBits) (xorl mdb (MGF1 H h hh (el - h - 1)))).
  assert (Ld : length db = (el - h - 1)%nat) by (unfold db; rewrite clear_top_length, xorl_length; lia).
  assert (Bd : bytes db) by (apply clear_top_bytes; [exact CB|apply xorl_bytes; assumption]).
  destruct (split_len (el - h - sl - 2) db ltac:(lia)) as (zs & r3 & Edb & Lz).
  assert (Lr : length r3 = (sl + 1)%nat) by (rewrite Edb, app_length in Ld; lia).
  destruct r3 as [|o salt]; [cbn in Lr; lia|]. cbn [length] in Lr.
  assert (F1 : firstn (el - h - sl - 2) db = zs) by (rewrite Edb; apply firstn_exact; exact Lz).
  assert (F2 : nth (el - h - sl - 2) db 0 = o) by (rewrite Edb; apply nth_exact; exact Lz).
  assert (F3 : skipn (length db - sl) db = salt).
  { rewrite Ld, Edb. replace (zs ++ o :: salt) with ((zs ++ [o]) ++ salt) by (rewrite <- app_assoc; reflexivity). apply skipn_exact. rewrite app_length. cbn [length]. lia. }
  rewrite F1, F2, F3.
  assert (Bsalt : bytes salt) by (rewrite Edb in Bd; apply bytes_app in Bd; destruct Bd as [_ Bd]; inversion Bd; assumption).
  assert (EQ2 : forall salt', length salt' = sl -> db = repeat 0 (el - h - sl - 2) ++ [1] ++ salt' -> zs = repeat 0 (el - h - sl - 2) /\ o = 1 /\ salt = salt').
  { intros salt' Ls E. rewrite Edb in E. assert (zs = repeat 0 (el - h - sl - 2)) as EZ by (rewrite <- (firstn_exact _ zs (o :: salt) Lz), E; apply firstn_exact, repeat_length).
    split; [exact EZ|]. rewrite EZ in E. apply app_inv_head in E. cbn [app] in E. split; congruence. }
  destruct (forallb (fun e => e =? 0) zs) eqn:FZ; cbn [negb].
  2:{ exists s2. eexists. split; [exact I2|]. split; [reflexivity|]. split; [right; reflexivity|]. split; [discriminate|].
      intros (mdb' & hh' & salt' & E & L1 & L2 & _ & L3 & ED & _). exfalso. destruct (EQ mdb' hh' E L1 L2) as (<- & <- & _). fold db in ED.
      destruct (EQ2 salt' L3 ED) as (-> & _). assert (T : forallb (fun e => e =? 0) (repeat 0 (el - h - sl - 2)) = true); [|congruence].
      apply forallb_repeat. rewrite repeat_length. reflexivity. }
  apply forallb_repeat in FZ. rewrite Lz in FZ.
  destruct (Z.eqb_spec o 1) as [->|No]; cbn [negb].
  2:{ exists s2. eexists. split; [exact I2|]. split; [reflexivity|]. split; [right; reflexivity|]. split; [discriminate|].
      intros (mdb' & hh' & salt' & E & L1 & L2 & _ & L3 & ED & _). exfalso. destruct (EQ mdb' hh' E L1 L2) as (<- & <- & _). fold db in ED.
      destruct (EQ2 salt' L3 ED) as (_ & -> & _). contradiction. }
  destruct (hash_run3 s2 msg salt I2 B L Bsalt ltac:(lia)) as (s3 & E3 & I3). rewrite E3.
  exists s3. destruct (list_eqb (H (repeat 0 8 ++ H msg ++ salt)) hh) eqn:FH; cbn [negb]; eexists; (split; [exact I3|]; split; [reflexivity|]).
  - apply list_eqb_spec in FH. split; [left; reflexivity|]. split; [intros _|reflexivity].
    exists mdb, hh, salt. refine (conj eq_refl (conj Lm (conj Lh (conj LT (conj _ (conj _ (eq_sym FH))))))); [lia|]. fold db. rewrite Edb, FZ at 1. reflexivity.
  - split; [right; reflexivity|]. split; [discriminate|].
    intros (mdb' & hh' & salt' & E & L1 & L2 & _ & L3 & ED & EH). exfalso. destruct (EQ mdb' hh' E L1 L2) as (<- & <- & _). fold db in ED.
    destruct (EQ2 salt' L3 ED) as (_ & _ & ->). rewrite <- EH, list_eqb_refl in FH. discriminate.
Qed.

(** With overflow checks nothing is ever accepted. *)
Lemma pss_verify_checked sl s em msg emBits : I s -> bytes msg -> Z.of_nat (length msg) < limit ->
  (h + sl + 2 <= em_len emBits)%nat ->
  snd (emsa_pss_verify D true sl s em msg emBits) = Panic \/ snd (emsa_pss_verify D true sl s em msg emBits) = Err VerificationFailed.
Proof.
  intros Hs B L Hl. unfold emsa_pss_verify. rewrite hlen_eq. fold (em_len emBits).
  destruct (spare_lt emBits) as [S1 S2]. unfold spare in S1.
  destruct (hash_run_ok s [msg] Hs) as (s1 & E1 & I1).
  { apply Forall_cons; [exact B|constructor]. } { cbn [concat]. rewrite app_nil_r. exact L. }
  rewrite E1. cbn [concat]. rewrite app_nil_r. destruct (H_ok msg B L) as [LH BH]. rewrite LH, Nat.eqb_refl. cbn [negb].
  destruct (_ || _); [right; reflexivity|]. destruct (negb _); [right; reflexivity|].
  unfold shl8. cbn [andb]. destruct (Z.leb_spec 8 (8 - Z.of_nat (8 * em_len emBits - emBits))); [left; reflexivity|].
  destruct (negb _); [right; reflexivity|]. destruct (mgf1_xor D s1 _ _) as [s2 db].
  assert (Q : (em_len emBits / 8 < emBits)%nat). { pose proof (Nat.div_mod (em_len emBits) 8 ltac:(lia)). lia. }
  unfold usub. rewrite (proj2 (Z.ltb_lt _ _)) by lia. cbn [rbind snd]. left. reflexivity.
Qed.
Lemma emsa_pss_shape msg emBits salt : bytes msg -> Z.of_nat (length msg) < limit -> bytes salt ->
  (h + length salt + 2 <= em_len emBits)%nat -> Z.of_nat (em_len emBits) + 8 < limit ->
  exists mdb hh, EMSA_PSS H h emBits msg salt = mdb ++ hh ++ [0xbc] /\ hh = H (repeat 0 8 ++ H msg ++ salt) /\
    mdb = clear_top (spare emBits) (xorl (repeat 0 (em_len emBits - length salt - h - 2) ++ [1] ++ salt) (MGF1 H h hh (em_len emBits - h - 1))) /\
    length mdb = (em_len emBits - h - 1)%nat /\ length hh = h /\ bytes mdb /\ bytes hh /\
    (nth 0 mdb 0 < 2 ^ (8 - Z.of_nat (spare emBits))).
Proof.
  intros B L Bs Hl LK. unfold EMSA_PSS. fold (em_len emBits). destruct (pss_hash_ok msg salt B L Bs ltac:(lia)) as (_ & LHh & BHh).
  set (Hh := H (repeat 0 8 ++ H msg ++ salt)) in *. fold (spare emBits).
  destruct (MGF1_ok Hh (em_len emBits - h - 1) BHh ltac:(lia)) as [LM BM]. destruct (spare_lt emBits) as [S1 S2].
  set (X := xorl _ (MGF1 H h Hh (em_len emBits - h - 1))).
  assert (LX : length X = (em_len emBits - h - 1)%nat) by (unfold X; rewrite xorl_length, !app_length, repeat_length; cbn [length]; lia).
  assert (BX : bytes X).
  { apply xorl_bytes; [|exact BM]. apply bytes_app. split; [apply bytes_repeat, byte0|]. apply bytes_app. split; [apply Forall_cons; [unfold byte; lia|constructor]|exact Bs]. }
  exists (clear_top (spare emBits) X), Hh. refine (conj eq_refl (conj eq_refl (conj eq_refl (conj _ (conj LHh (conj _ (conj BHh _))))))).
  - rewrite clear_top_length. exact LX.
  - apply clear_top_bytes; assumption.
  - clearbody X; destruct X as [|x X]; [cbn [length] in LX; lia|]. cbn [clear_top nth]. apply Z.mod_pos_bound, Z.pow_pos_nonneg; lia.
Qed.
Lemma pss_verify_checked_encode s s' msg emBits salt : I s -> I s' -> bytes msg -> Z.of_nat (length msg) < limit -> bytes salt ->
  (h + length salt + 2 <= em_len emBits)%nat -> Z.of_nat (em_len emBits) + 8 < limit ->
  snd (emsa_pss_verify D true (length salt) s' (EMSA_PSS H h emBits msg salt) msg emBits) = Panic.
Proof.
  intros Hs Hs' B L Bs Hl LK. destruct (emsa_pss_shape msg emBits salt B L Bs Hl LK) as (mdb & hh & -> & _ & _ & Lm & Lh & Bm & Bh & LT).
  unfold emsa_pss_verify. rewrite hlen_eq. fold (em_len emBits). destruct (spare_lt emBits) as [S1 S2].
  destruct (hash_run_ok s' [msg] Hs') as (s1 & E1 & I1).
  { apply Forall_cons; [exact B|constructor]. } { cbn [concat]. rewrite app_nil_r. exact L. }
  rewrite E1. cbn [concat]. rewrite app_nil_r. destruct (H_ok msg B L) as [LH BH]. rewrite LH, Nat.eqb_refl. cbn [negb].
  assert (LL : (em_len emBits =? length (mdb ++ hh ++ [188%Z]))%nat = true) by (apply Nat.eqb_eq; rewrite !app_length; cbn [length]; lia).
  rewrite LL. cbn [negb orb]. rewrite (proj2 (Nat.ltb_ge _ _)) by lia.
  assert (NX : nth (em_len emBits - 1) (mdb ++ hh ++ [188]) 0 = 188) by (rewrite app_assoc; apply nth_exact; rewrite app_length; lia). rewrite NX. change (negb (188 =? 188)) with false. cbv iota.
  assert (N0 : nth 0 (mdb ++ hh ++ [188]) 0 = nth 0 mdb 0) by (apply app_nth1; lia). rewrite N0.
  unfold spare in *. destruct (Nat.eq_dec (8 * em_len emBits - emBits) 0) as [Z0|NZ].
  - unfold shl8. rewrite Z0. reflexivity.
  - destruct (top_mask _ (nth 0 mdb 0) S1 (bytes_nth0 _ Bm)) as (mask & EM & ET).
    assert (EM' : shl8 true 255 (8 - Z.of_nat (8 * em_len emBits - emBits)) = Ok mask).
    { rewrite <- EM. unfold shl8. cbn [andb]. rewrite (proj2 (Z.leb_gt 8 _)) by lia. reflexivity. }
    rewrite EM', ET. rewrite (proj2 (Nat.eqb_neq _ _) NZ). rewrite (proj2 (Z.ltb_lt _ _) LT). cbn [negb].
    destruct (mgf1_xor D s1 _ _) as [s2 db].
    assert (Q : (em_len emBits / 8 < emBits)%nat). { pose proof (Nat.div_mod (em_len emBits) 8 ltac:(lia)). lia. }
    unfold usub. rewrite (proj2 (Z.ltb_lt _ _)) by lia. reflexivity.
Qed.

(** The only two things the misplaced masks change for an encoding that the signer itself produced. *)
Definition clr_tab (z c : nat) (b m : Z) : bool :=
  Bool.eqb (Z.lxor (Z.lxor b m mod 2 ^ (8 - Z.of_nat z)) m mod 2 ^ (8 - Z.of_nat c) =? b) (m mod 2 ^ (8 - Z.of_nat c) <? 2 ^ (8 - Z.of_nat z)).
Lemma clr_tab_ok : forallb (fun z => forallb (fun c => forallb (fun b => forallb (clr_tab z c b) all_bytes) [0; 1]) (seq 0 8)) (seq 0 8) = true.
Proof. vm_compute. reflexivity. Qed.
Lemma clr_tab_use z c b m : (z < 8)%nat -> (c < 8)%nat -> (b = 0 \/ b = 1) -> byte m ->
  Z.lxor (Z.lxor b m mod 2 ^ (8 - Z.of_nat z)) m mod 2 ^ (8 - Z.of_nat c) = b <-> m mod 2 ^ (8 - Z.of_nat c) < 2 ^ (8 - Z.of_nat z).
Proof.
  intros Lz Lc Hb Bm. pose proof clr_tab_ok as T. rewrite forallb_forall in T. specialize (T z ltac:(apply in_seq; lia)).
  rewrite forallb_forall in T. specialize (T c ltac:(apply in_seq; lia)).
  rewrite forallb_forall in T. specialize (T b ltac:(destruct Hb as [-> | ->]; cbn; auto)).
  pose proof (forall_byte _ T m Bm) as T1. unfold clr_tab in T1. apply Bool.eqb_prop in T1. rewrite <- Z.eqb_eq, T1. apply Z.ltb_lt.
Qed.
Lemma top_bits_nz emBits : spare emBits <> 0%nat -> top_bits emBits = spare emBits.
Proof. intros N. unfold top_bits. rewrite (proj2 (Nat.eqb_neq _ _) N). reflexivity. Qed.
Lemma accept_encode_gen top clr msg emBits salt : bytes msg -> Z.of_nat (length msg) < limit -> bytes salt -> (clr < 8)%nat ->
  (h + length salt + 2 <= em_len emBits)%nat -> Z.of_nat (em_len emBits) + 8 < limit ->
  PSS_accepts H h top clr emBits (length salt) msg (EMSA_PSS H h emBits msg salt) <->
  nth 0 (EMSA_PSS H h emBits msg salt) 0 < 2 ^ (8 - Z.of_nat top) /\
  nth 0 (MGF1 H h (H (repeat 0 8 ++ H msg ++ salt)) (em_len emBits - h - 1)) 0 mod 2 ^ (8 - Z.of_nat clr) < 2 ^ (8 - Z.of_nat (spare emBits)).
Proof.
  intros B L Bs CB Hl LK. destruct (emsa_pss_shape msg emBits salt B L Bs Hl LK) as (mdb & hh & -> & EH & EM & Lm & Lh & Bm & Bh & LT).
  rewrite <- EH. destruct (MGF1_ok hh (em_len emBits - h - 1) Bh ltac:(lia)) as [LM BM]. destruct (spare_lt emBits) as [S1 S2].
  unfold PSS_accepts. fold (em_len emBits). rewrite app_nth1 by lia. set (el := em_len emBits) in *.
  replace (el - length salt - h - 2)%nat with (el - h - length salt - 2)%nat in EM by lia.
  set (DB := repeat 0 (el - h - length salt - 2) ++ [1] ++ salt) in *.
  assert (LD : length DB = (el - h - 1)%nat) by (unfold DB; rewrite !app_length, repeat_length; cbn [length]; lia).
  assert (D0 : nth 0 DB 0 = 0 \/ nth 0 DB 0 = 1).
  { unfold DB. destruct (el - h - length salt - 2)%nat; [right|left]; reflexivity. }
  set (MK := MGF1 H h hh (el - h - 1)) in *.
  assert (KEY : clear_top clr (xorl mdb MK) = DB <-> nth 0 MK 0 mod 2 ^ (8 - Z.of_nat clr) < 2 ^ (8 - Z.of_nat (spare emBits))).
  { clearbody MK DB. destruct MK as [|m ms]; [cbn [length] in LM; lia|]. destruct DB as [|b bs]; [cbn [length] in LD; lia|].
    cbn [nth] in *. cbn [length] in LM, LD. rewrite EM. cbn [xorl clear_top]. inversion BM as [|? ? BM1 BM2]; subst.
    rewrite <- (clr_tab_use (spare emBits) clr b m S1 CB D0 BM1). rewrite xorl_cancel by lia. split; [congruence|intros ->; reflexivity]. }
  split.
  - intros (mdb' & hh' & salt' & E & L1 & L2 & T & L3 & ED & EH').
    assert (mdb = mdb') as <- by (rewrite <- (firstn_exact _ mdb (hh ++ [188]) Lm), E; apply firstn_exact; exact L1).
    apply app_inv_head in E. assert (hh = hh') as <- by (rewrite <- (firstn_exact _ hh [188] Lh), E; apply firstn_exact; exact L2).
    split; [exact T|]. fold MK in ED. destruct mdb as [|x mdb]; [cbn [length] in Lm; lia|]. clearbody MK.
    (* the cleared block ends in salt' which, position by position past the first octet, is the tail of DB *)
    apply KEY. rewrite ED. unfold DB.
    destruct MK as [|m ms]; [cbn [length] in LM; lia|]. destruct DB as [|b bs] eqn:EDB; [cbn [length] in LD; lia|].
    cbn [xorl clear_top] in ED, EM. assert (mdb = xorl bs ms) as -> by congruence. cbn [length] in LM, LD. rewrite xorl_cancel in ED by lia.
    destruct (el - h - length salt - 2)%nat as [|j] eqn:EJ; cbn [repeat app] in ED, EDB.
    + subst DB. cbn [repeat app] in EDB. assert (salt' = salt) as -> by congruence. reflexivity.
    + subst DB. cbn [repeat app] in EDB. assert (E2 : repeat 0 j ++ 1 :: salt' = repeat 0 j ++ 1 :: salt) by congruence.
      apply app_inv_head in E2. cbn [repeat app]. congruence.
  - intros [T K]. exists mdb, hh, salt. refine (conj eq_refl (conj Lm (conj Lh (conj T (conj eq_refl (conj _ EH)))))). apply KEY. exact K.
Qed.
Lemma pss_value msg emBits salt : bytes msg -> Z.of_nat (length msg) < limit -> bytes salt ->
  (h + length salt + 2 <= em_len emBits)%nat -> Z.of_nat (em_len emBits) + 8 < limit ->
  length (EMSA_PSS H h emBits msg salt) = em_len emBits /\ bytes (EMSA_PSS H h emBits msg salt) /\ 0 <= OS2IP (EMSA_PSS H h emBits msg salt) < 2 ^ Z.of_nat emBits.
Proof.
  intros B L Bs Hl LK. destruct (emsa_pss_shape msg emBits salt B L Bs Hl LK) as (mdb & hh & -> & _ & _ & Lm & Lh & Bm & Bh & LT).
  destruct (spare_lt emBits) as [S1 S2].
  assert (LL : length (mdb ++ hh ++ [188]) = em_len emBits) by (rewrite !app_length; cbn [length]; lia).
  assert (BB : bytes (mdb ++ hh ++ [188])).
  { apply bytes_app. split; [exact Bm|]. apply bytes_app. split; [exact Bh|]. apply Forall_cons; [unfold byte; lia|constructor]. }
  split; [exact LL|]. split; [exact BB|]. unfold OS2IP. split; [apply be_val_bound; exact BB|].
  destruct mdb as [|x mdb]; [cbn [length] in Lm; lia|]. cbn [nth] in LT. cbn [app] in *. set (r := mdb ++ hh ++ [188]) in *. cbn [length] in LL.
  inversion BB as [|? ? B1 B2]; subst. change (x :: r) with ([x] ++ r). rewrite be_val_app. pose proof (be_val_bound r B2) as U.
  change (be_val [x]) with (0 * 256 + x). unfold spare in *.
  assert (EP : 2 ^ Z.of_nat emBits = 2 ^ (8 - Z.of_nat (8 * em_len emBits - emBits)) * 256 ^ Z.of_nat (length r)).
  { rewrite pow256, <- Z.pow_add_r by lia. f_equal. lia. }
  rewrite EP. unfold byte in B1. nia.
Qed.
Lemma em_len_mod pk : 1 < pk_n pk -> (em_len (bits_len (pk_n pk) - 1) <= modulus_len pk)%nat.
Proof. intros N. unfold em_len, modulus_len. apply Nat.div_le_mono; lia. Qed.
Lemma pss_range pk msg salt : 1 < pk_n pk -> bytes msg -> Z.of_nat (length msg) < limit -> bytes salt ->
  (h + length salt + 2 <= em_len (bits_len (pk_n pk) - 1))%nat -> Z.of_nat (em_len (bits_len (pk_n pk) - 1)) + 8 < limit ->
  0 <= OS2IP (EMSA_PSS H h (bits_len (pk_n pk) - 1) msg salt) < pk_n pk.
Proof.
  intros N B L Bs Hl LK. destruct (pss_value msg _ salt B L Bs Hl LK) as (_ & _ & V). destruct (bits_len_lower (pk_n pk) ltac:(lia)) as [_ BL]. lia.
Qed.

Lemma pss_sign_ok sk sl s ws rd msg : key_ok sk -> I s -> bytes msg -> Z.of_nat (length msg) < limit ->
  (h + sl + 2 <= em_len (bits_len (pk_n (sk_pk sk)) - 1))%nat -> Z.of_nat (em_len (bits_len (pk_n (sk_pk sk)) - 1)) + 8 < limit ->
  (sl <= 4 * length ws)%nat -> usable (pk_n (sk_pk sk)) rd ->
  exists s', I s' /\ pss_sign D (inr sk) sl s ws rd msg =
    (s', Ok (I2OSP (OS2IP (EMSA_PSS H h (bits_len (pk_n (sk_pk sk)) - 1) msg (rand_bytes sl ws)) ^ sk_d sk mod pk_n (sk_pk sk)) (modulus_len (sk_pk sk)))).
Proof.
  intros K Hs B L Hl LK LW U. pose proof (key_N sk K) as N. destruct (rand_bytes_ok sl ws LW) as [Ls Bs].
  unfold pss_sign, pss_sign_with_salt. cbn [kp_private kp_public].
  rewrite rand_bytes_cut.
  2:{ pose proof (Nat.div_mod (sl + 3) 4 ltac:(lia)). pose proof (Nat.mod_upper_bound (sl + 3) 4 ltac:(lia)). lia. }
  destruct (pss_encode_ok s msg (bits_len (pk_n (sk_pk sk)) - 1) (rand_bytes sl ws) Hs B L Bs ltac:(lia) LK) as (s' & I' & E). rewrite E.
  exists s'. split; [exact I'|]. f_equal. pose proof (pss_range (sk_pk sk) msg (rand_bytes sl ws) N B L Bs ltac:(lia) LK) as R. unfold OS2IP in *.
  rewrite decrypt_check_ok by assumption. cbn [rbind]. apply (f_equal Ok). apply left_pad_ok. destruct (modulus_len_bounds _ N) as [_ [_ HU]].
  pose proof (pow_range (be_val (EMSA_PSS H h (bits_len (pk_n (sk_pk sk)) - 1) msg (rand_bytes sl ws))) (sk_d sk) _ N). unfold modulus_len in HU. lia.
Qed.
Lemma bytes_fit m k : 0 <= m -> ((k <? (bits_len m + 7) / 8)%nat = false <-> m < 256 ^ Z.of_nat k).
Proof.
  intros P. rewrite Nat.ltb_ge. split.
  - intros LE. pose proof (bits_len_upper m P) as U. rewrite pow256.
    eapply Z.lt_le_trans; [exact U|]. apply Z.pow_le_mono_r; [lia|].
    pose proof (Nat.div_mod (bits_len m + 7) 8 ltac:(lia)). pose proof (Nat.mod_upper_bound (bits_len m + 7) 8 ltac:(lia)). lia.
  - intros U. apply (to_be_bytes_fit m k). lia.
Qed.
Lemma pss_verify_full kp sl s sg msg : 1 < pk_n (kp_public kp) -> I s -> bytes msg -> Z.of_nat (length msg) < limit ->
  (h + sl + 2 <= em_len (bits_len (pk_n (kp_public kp)) - 1))%nat -> Z.of_nat (em_len (bits_len (pk_n (kp_public kp)) - 1)) + 8 < limit ->
  let emBits := (bits_len (pk_n (kp_public kp)) - 1)%nat in let m := OS2IP sg ^ pk_e (kp_public kp) mod pk_n (kp_public kp) in
  exists s' r, I s' /\ pss_verify D false kp sl s sg msg = (s', r) /\ (r = Ok tt \/ r = Err VerificationFailed) /\
    (r = Ok tt <-> length sg = modulus_len (kp_public kp) /\ m < 256 ^ Z.of_nat (em_len emBits) /\
                   PSS_accepts H h (top_bits emBits) (clr_bits emBits) emBits sl msg (I2OSP m (em_len emBits))).
Proof.
  intros N Hs B L Hl LK emBits m. unfold pss_verify. fold (modulus_len (kp_public kp)). fold emBits. fold (em_len emBits).
  assert (EM : pub_encrypt (kp_public kp) (be_val sg) = m) by (unfold pub_encrypt; rewrite powmod_ok by lia; reflexivity). rewrite EM.
  assert (M0 : 0 <= m) by (unfold m; apply Z.mod_pos_bound; lia). fold emBits in Hl, LK. clearbody emBits m.
  destruct (Nat.eqb_spec (length sg) (modulus_len (kp_public kp))) as [E|E]; cbn [negb].
  2:{ exists s. eexists. split; [exact Hs|]. split; [reflexivity|]. split; [right; reflexivity|]. split; [discriminate|]. intros [? _]. contradiction. }
  pose proof (bytes_fit m (em_len emBits) M0) as F. destruct (Nat.ltb _ _).
  { exists s. eexists. split; [exact Hs|]. split; [reflexivity|]. split; [right; reflexivity|]. split; [discriminate|]. intros (_ & U & _). apply F in U. discriminate. }
  pose proof (proj1 F eq_refl) as U. rewrite left_pad_ok by lia.
  destruct (pss_verify_ok sl s (be_bytes (em_len emBits) m) msg emBits Hs (be_bytes_bytes _ _) B L Hl LK) as (s' & r & I' & EV & C & A).
  exists s', r. split; [exact I'|]. split; [exact EV|]. split; [exact C|]. rewrite A. unfold I2OSP. tauto.
Qed.
Lemma pss_open sk msg salt : key_ok sk -> bytes msg -> Z.of_nat (length msg) < limit -> bytes salt ->
  (h + length salt + 2 <= em_len (bits_len (pk_n (sk_pk sk)) - 1))%nat -> Z.of_nat (em_len (bits_len (pk_n (sk_pk sk)) - 1)) + 8 < limit ->
  let EM := EMSA_PSS H h (bits_len (pk_n (sk_pk sk)) - 1) msg salt in
  let sg := I2OSP (OS2IP EM ^ sk_d sk mod pk_n (sk_pk sk)) (modulus_len (sk_pk sk)) in
  length sg = modulus_len (sk_pk sk) /\ OS2IP sg ^ pk_e (sk_pk sk) mod pk_n (sk_pk sk) = OS2IP EM /\
  OS2IP EM < 256 ^ Z.of_nat (em_len (bits_len (pk_n (sk_pk sk)) - 1)) /\ I2OSP (OS2IP EM) (em_len (bits_len (pk_n (sk_pk sk)) - 1)) = EM.
Proof.
  intros K B L Bs Hl LK EM sg. pose proof (key_N sk K) as N.
  destruct (pss_value msg _ salt B L Bs Hl LK) as (LE & BE & V). fold EM in LE, BE, V.
  pose proof (pss_range (sk_pk sk) msg salt N B L Bs Hl LK) as R. fold EM in R.
  split; [apply be_bytes_length|]. split; [|split].
  - unfold sg, OS2IP, I2OSP in *. destruct (modulus_len_bounds _ N) as [_ [_ HU]].
    pose proof (pow_range (be_val EM) (sk_d sk) _ N). rewrite be_val_bytes. rewrite (Z.mod_small (be_val EM ^ sk_d sk mod pk_n (sk_pk sk))) by lia.
    rewrite <- (sign_primitive sk (be_val EM) K R) at 2. unfold pub_encrypt. rewrite powmod_ok by lia. reflexivity.
  - unfold OS2IP. rewrite <- LE. apply be_val_bound. exact BE.
  - unfold I2OSP, OS2IP. rewrite <- LE. apply be_bytes_val. exact BE.
Qed.
End Dig.
