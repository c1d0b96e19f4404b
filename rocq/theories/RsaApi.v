(** RSA schemes at the level of the objects' entry points, for any digest of [8 h] bits. *)
From Verif Require Import Base Words HashModel HashApi NumTheory RsaModel RsaProofs RsaEncModel RsaSpec RsaEncProofs RsaSigProofs.

(** The object identifier and digest length RFC 8017 assigns to each supported hash. *)
Definition pkcs1_hash (t : hash_ty) : option (list Z * nat) :=
  match t with
  | TMD5 => Some (oid_md5, 16%nat) | TSHA1 => Some (oid_sha1, 20%nat) | TSHA224 => Some (oid_sha224, 28%nat)
  | TSHA256 => Some (oid_sha256, 32%nat) | TSHA384 => Some (oid_sha384, 48%nat) | TSHA512 => Some (oid_sha512, 64%nat)
  | TOther => None
  end.
Lemma prefix_digestinfo t oid h dg : pkcs1_hash t = Some (oid, h) -> length dg = h ->
  exists pre, hash_prefix t = Some pre /\ pre ++ dg = DigestInfo oid dg.
Proof.
  intros E L. assert (DI : forall x, DigestInfo x dg = [0x30; Z.of_nat (4 + length (DER_OID x) + (2 + length dg))] ++ [0x30; Z.of_nat (2 + length (DER_OID x))] ++ DER_OID x ++ [5; 0] ++ [4; Z.of_nat (length dg)] ++ dg).
  { intros x. unfold DigestInfo, DER. cbn [app length]. repeat (rewrite app_length; cbn [length]).
    f_equal. f_equal; [f_equal; lia|]. f_equal. f_equal; [f_equal; lia|]. rewrite <- app_assoc. reflexivity. }
  destruct t; cbn [pkcs1_hash] in E; try discriminate; injection E as <- <-; rewrite DI, L; eexists; (split; [reflexivity|]); reflexivity.
Qed.

Section Api.
Context {S : Type}.
Variables (D : digest S) (I : S -> Prop) (H : list Z -> list Z) (limit : Z) (h : nat).
Hypothesis HG : DigestOk D I H limit.
Hypothesis HB : d_bits_len D = (8 * h)%nat.
Hypothesis Hh : (0 < h)%nat.
Lemma h8 : (d_bits_len D mod 8)%nat = 0%nat. Proof. rewrite HB, Nat.mul_comm. apply Nat.mod_mul. lia. Qed.
Lemma hpos : (0 < d_bits_len D)%nat. Proof. lia. Qed.
Lemma hdiv : (d_bits_len D / 8)%nat = h. Proof. rewrite HB, Nat.mul_comm. apply Nat.div_mul. lia. Qed.
Lemma hlen_h : hlen D = h. Proof. unfold hlen. rewrite HB. symmetry. apply (Nat.div_unique _ 8 _ 7); lia. Qed.
Lemma H_len m : bytes m -> Z.of_nat (length m) < limit -> length (H m) = h.
Proof. intros B L. destruct (H_ok D I H limit HG m B L) as [E _]. rewrite E. exact hdiv. Qed.

(** ** PKCS1 signatures *)
Lemma api_pkcs1_sign t oid sk s rd msg : pkcs1_hash t = Some (oid, h) -> key_ok sk -> I s -> bytes msg -> Z.of_nat (length msg) < limit ->
  (length (DigestInfo oid (H msg)) + 11 <= modulus_len (sk_pk sk))%nat -> usable (pk_n (sk_pk sk)) rd ->
  let k := modulus_len (sk_pk sk) in
  exists s', I s' /\ pkcs1_sign D t (inr sk) s rd msg =
    (s', Ok (I2OSP (OS2IP (EMSA_PKCS1 k (DigestInfo oid (H msg))) ^ sk_d sk mod pk_n (sk_pk sk)) k)).
Proof.
  intros T K Hs B L LK U k. destruct (prefix_digestinfo t oid h (H msg) T (H_len msg B L)) as (pre & Hp & E).
  rewrite <- E in *. rewrite app_length, H_len in LK by assumption.
  apply (pkcs1_sign_ok D I H limit HG h8 hpos t pre Hp sk s rd msg K Hs B L); [rewrite hdiv; exact LK|exact U].
Qed.
Lemma api_pkcs1_verify t oid kp s sg msg : pkcs1_hash t = Some (oid, h) -> 1 < pk_n (kp_public kp) -> I s -> bytes msg -> Z.of_nat (length msg) < limit ->
  (length (DigestInfo oid (H msg)) + 11 <= modulus_len (kp_public kp))%nat ->
  let k := modulus_len (kp_public kp) in
  exists s' r, I s' /\ pkcs1_verify D t kp s sg msg = (s', r) /\ (r = Ok tt \/ r = Err VerificationFailed) /\
    (r = Ok tt <-> OS2IP sg ^ pk_e (kp_public kp) mod pk_n (kp_public kp) = OS2IP (EMSA_PKCS1 k (DigestInfo oid (H msg)))).
Proof.
  intros T N Hs B L LK k. destruct (prefix_digestinfo t oid h (H msg) T (H_len msg B L)) as (pre & Hp & E).
  rewrite <- E in *. rewrite app_length, H_len in LK by assumption.
  destruct (pkcs1_verify_ok D I H limit HG h8 hpos t pre Hp kp s sg msg N Hs B L ltac:(rewrite hdiv; exact LK)) as (s' & I' & EV).
  destruct (emsa_ok D I H limit HG h8 hpos t pre Hp k msg B L) as (L1 & B1 & _); [rewrite hdiv; exact LK|].
  destruct (modulus_len_bounds _ N) as [_ [_ HU]]. fold k in HU, EV. pose proof (pow_range (OS2IP sg) (pk_e (kp_public kp)) _ N) as R.
  exists s'. eexists. split; [exact I'|]. split; [exact EV|]. unfold emsa in *. set (EM := EMSA_PKCS1 k (pre ++ H msg)) in *.
  set (v := OS2IP sg ^ _ mod _) in *.
  assert (X : list_eqb (I2OSP v k) EM = true <-> v = OS2IP EM).
  { rewrite list_eqb_spec. unfold OS2IP, I2OSP. split.
    - intros <-. rewrite be_val_bytes, Z.mod_small by lia. reflexivity.
    - intros ->. rewrite <- L1. apply be_bytes_val. exact B1. }
  destruct (list_eqb (I2OSP v k) EM).
  - split; [left; reflexivity|]. split; [intros _; apply X; reflexivity|reflexivity].
  - split; [right; reflexivity|]. split; [discriminate|]. intros Q. apply X in Q. discriminate.
Qed.

(** ** OAEP *)
Lemma oaep_new_len kp : oaep_new_uncheck D kp = Ok tt <-> (2 * h + 2 < modulus_len (kp_public kp))%nat.
Proof. unfold oaep_new_uncheck. rewrite hlen_h. destruct (Nat.leb_spec (modulus_len (kp_public kp)) (2 * h + 2)); split; (discriminate || lia || reflexivity). Qed.
Lemma api_oaep_encrypt kp label s ws msg : pub_is_valid (kp_public kp) = Ok tt -> 1 < pk_n (kp_public kp) -> I s ->
  bytes label -> Z.of_nat (length label) < limit -> bytes msg -> (length msg + 2 * h + 2 <= modulus_len (kp_public kp))%nat ->
  Z.of_nat (modulus_len (kp_public kp)) + 4 < limit -> (h <= 4 * length ws)%nat ->
  let k := modulus_len (kp_public kp) in
  exists s', I s' /\ oaep_encrypt D kp label s ws msg =
    (s', Ok (I2OSP (OS2IP (EME_OAEP H h k label msg (rand_bytes h ws)) ^ pk_e (kp_public kp) mod pk_n (kp_public kp)) k)).
Proof.
  intros V N Hs BL LL B LM LK LW. pose proof (oaep_encrypt_ok D I H limit HG h8 hpos kp label s ws msg) as E. rewrite hdiv in E. exact (E V N Hs BL LL B LM LK LW).
Qed.
Lemma oaep_long kp label s ws msg : pub_is_valid (kp_public kp) = Ok tt -> (2 * h + 2 <= modulus_len (kp_public kp))%nat ->
  (modulus_len (kp_public kp) < length msg + 2 * h + 2)%nat -> oaep_encrypt D kp label s ws msg = (s, Err InvalidParameter).
Proof.
  intros V LK L. unfold oaep_encrypt. rewrite V, hlen_h. rewrite (proj2 (Nat.ltb_ge _ _)) by lia. rewrite (proj2 (Nat.ltb_lt _ _)) by lia. reflexivity.
Qed.
(** What decryption does to an encryption of a masked data block. *)
Lemma api_oaep_open sk label s rd DB seed m : key_ok sk -> pub_is_valid (sk_pk sk) = Ok tt -> I s -> bytes label -> Z.of_nat (length label) < limit ->
  (2 * h + 2 <= modulus_len (sk_pk sk))%nat -> Z.of_nat (modulus_len (sk_pk sk)) + 4 < limit -> usable (pk_n (sk_pk sk)) rd ->
  length seed = h -> length DB = (modulus_len (sk_pk sk) - h - 1)%nat -> bytes seed -> bytes DB ->
  let k := modulus_len (sk_pk sk) in
  let r := oaep_decrypt D (inr sk) label s rd (I2OSP (OS2IP (OAEP_mask H h k DB seed) ^ pk_e (sk_pk sk) mod pk_n (sk_pk sk)) k) in
  I (fst r) /\ (snd r = Ok m <-> (exists z, DB = H label ++ repeat 0 z ++ [1] ++ m) \/ (exists z, DB = H label ++ repeat 0 z /\ m = [])) /\
  (firstn h DB <> H label -> snd r = Err VerificationFailed).
Proof.
  intros K V Hs BL LL L2 LK U Ls Ld Bs Bd k r. pose proof (oaep_decrypt_mask D I H limit HG h8 hpos sk label s rd DB seed) as E. rewrite hdiv in E.
  destruct (E K V Hs BL LL L2 LK U Ls Ld Bs Bd) as [E1 E2]. fold k r in E1, E2. split; [exact E2|]. rewrite E1. split.
  - pose proof (oaep_open_iff D H h8 hpos label DB m) as OI. rewrite ?hdiv in OI. apply OI; [apply H_len; assumption|lia].
  - intros NE. unfold oaep_open. rewrite hdiv. rewrite list_eqb_neq; [reflexivity|congruence].
Qed.
Lemma rep_bytes0 z : bytes (repeat 0 z). Proof. apply bytes_repeat, byte0. Qed.
Lemma OAEP_DB_ok k L M : bytes L -> Z.of_nat (length L) < limit -> bytes M -> (length M + 2 * h + 2 <= k)%nat ->
  length (OAEP_DB H h k L M) = (k - h - 1)%nat /\ bytes (OAEP_DB H h k L M).
Proof.
  intros BL LL BM LM. unfold OAEP_DB. destruct (H_ok D I H limit HG L BL LL) as [LH BH]. rewrite hdiv in LH.
  rewrite !app_length, repeat_length, LH. cbn [length]. split; [lia|]. apply bytes_app. split; [exact BH|]. apply bytes_app. split; [apply rep_bytes0|].
  apply bytes_app. split; [|exact BM]. apply Forall_cons; [unfold byte; lia|constructor].
Qed.
Lemma firstn_DB k L M : bytes L -> Z.of_nat (length L) < limit -> firstn h (OAEP_DB H h k L M) = H L.
Proof. intros BL LL. apply firstn_exact. apply H_len; assumption. Qed.
Lemma api_oaep_roundtrip sk kp label label' s s' ws rd msg : key_ok sk -> kp_public kp = sk_pk sk -> pub_is_valid (sk_pk sk) = Ok tt -> I s -> I s' ->
  bytes label -> Z.of_nat (length label) < limit -> bytes label' -> Z.of_nat (length label') < limit ->
  bytes msg -> (length msg + 2 * h + 2 <= modulus_len (sk_pk sk))%nat ->
  Z.of_nat (modulus_len (sk_pk sk)) + 4 < limit -> (h <= 4 * length ws)%nat -> usable (pk_n (sk_pk sk)) rd ->
  exists c, snd (oaep_encrypt D kp label s ws msg) = Ok c /\ length c = modulus_len (sk_pk sk) /\
    snd (oaep_decrypt D (inr sk) label s' rd c) = Ok msg /\
    (H label' <> H label -> snd (oaep_decrypt D (inr sk) label' s' rd c) = Err VerificationFailed).
Proof.
  intros K EK V Hs Hs' BL LL BL' LL' BM LM LK LW U. pose proof (key_N sk K) as N.
  destruct (api_oaep_encrypt kp label s ws msg) as (s1 & _ & E); rewrite ?EK; try assumption. rewrite EK in E.
  destruct (rand_bytes_ok D h8 hpos h ws LW) as [Ls Bs]. destruct (OAEP_DB_ok (modulus_len (sk_pk sk)) label msg BL LL BM LM) as [Ld Bd].
  eexists. rewrite E. split; [reflexivity|]. split; [apply be_bytes_length|]. unfold EME_OAEP. split.
  - destruct (api_oaep_open sk label s' rd _ _ msg K V Hs' BL LL ltac:(lia) LK U Ls Ld Bs Bd) as (_ & X & _). apply X. left.
    eexists. reflexivity.
  - intros NE. destruct (api_oaep_open sk label' s' rd _ _ msg K V Hs' BL' LL' ltac:(lia) LK U Ls Ld Bs Bd) as (_ & _ & X). apply X.
    rewrite firstn_DB by assumption. congruence.
Qed.

(** ** PSS *)
Lemma pss_new_len kp salt sl : pss_new_uncheck D kp salt = Ok sl <->
  (0 < bits_len (pk_n (kp_public kp)))%nat /\ sl = match salt with Some 0%nat => (modulus_len (kp_public kp) - (2 + h))%nat | Some x => x | None => h end /\
  (h + sl + 2 <= em_len (bits_len (pk_n (kp_public kp)) - 1))%nat.
Proof.
  unfold pss_new_uncheck, compute_salt_len, em_len, modulus_len. rewrite hlen_h. set (b := bits_len _).
  assert (E : match salt with Some x => if (0 <? x)%nat then x else ((b + 7) / 8 - (2 + h))%nat | None => h end = match salt with Some 0%nat => ((b + 7) / 8 - (2 + h))%nat | Some x => x | None => h end).
  { destruct salt as [[|x]|]; reflexivity. }
  rewrite E. set (v := match salt with Some 0%nat => _ | Some x => x | None => h end). clearbody v b. clear E salt.
  destruct (Nat.eqb_spec b 0); [split; [discriminate|lia]|]. destruct (Nat.ltb_spec ((b - 1 + 7) / 8) (h + v + 2)) as [LT|GE].
  - split; [discriminate|]. intros (_ & -> & L). lia.
  - split; [intros Q; injection Q as <-; lia|]. intros (_ & -> & _). reflexivity.
Qed.
Lemma api_pss_encode s msg emBits salt : I s -> bytes msg -> Z.of_nat (length msg) < limit -> bytes salt ->
  (h + length salt + 2 <= em_len emBits)%nat -> Z.of_nat (em_len emBits) + 8 < limit ->
  exists s', I s' /\ emsa_pss_encode D s msg emBits salt = (s', Ok (EMSA_PSS H h emBits msg salt)).
Proof. pose proof (pss_encode_ok D I H limit HG h8 hpos s msg emBits salt) as E. rewrite hdiv in E. exact E. Qed.
Lemma api_pss_sign sk sl s ws rd msg : key_ok sk -> I s -> bytes msg -> Z.of_nat (length msg) < limit ->
  (h + sl + 2 <= em_len (bits_len (pk_n (sk_pk sk)) - 1))%nat -> Z.of_nat (em_len (bits_len (pk_n (sk_pk sk)) - 1)) + 8 < limit ->
  (sl <= 4 * length ws)%nat -> usable (pk_n (sk_pk sk)) rd ->
  exists s', I s' /\ pss_sign D (inr sk) sl s ws rd msg =
    (s', Ok (I2OSP (OS2IP (EMSA_PSS H h (bits_len (pk_n (sk_pk sk)) - 1) msg (rand_bytes sl ws)) ^ sk_d sk mod pk_n (sk_pk sk)) (modulus_len (sk_pk sk)))).
Proof. pose proof (pss_sign_ok D I H limit HG h8 hpos sk sl s ws rd msg) as E. rewrite hdiv in E. exact E. Qed.
Lemma api_pss_verify kp sl s sg msg : 1 < pk_n (kp_public kp) -> I s -> bytes msg -> Z.of_nat (length msg) < limit ->
  (h + sl + 2 <= em_len (bits_len (pk_n (kp_public kp)) - 1))%nat -> Z.of_nat (em_len (bits_len (pk_n (kp_public kp)) - 1)) + 8 < limit ->
  let emBits := (bits_len (pk_n (kp_public kp)) - 1)%nat in let m := OS2IP sg ^ pk_e (kp_public kp) mod pk_n (kp_public kp) in
  exists s' r, I s' /\ pss_verify D false kp sl s sg msg = (s', r) /\ (r = Ok tt \/ r = Err VerificationFailed) /\
    (r = Ok tt <-> length sg = modulus_len (kp_public kp) /\ m < 256 ^ Z.of_nat (em_len emBits) /\
                   PSS_accepts H h (top_bits emBits) (clr_bits emBits) emBits sl msg (I2OSP m (em_len emBits))).
Proof. pose proof (pss_verify_full D I H limit HG h8 hpos kp sl s sg msg) as E. rewrite hdiv in E. exact E. Qed.
(** Whether the signer's own signature is accepted: the condition on the first octet of EM and of the mask. *)
Lemma api_pss_own sk kp sl s s' ws rd msg : key_ok sk -> kp_public kp = sk_pk sk -> I s -> I s' -> bytes msg -> Z.of_nat (length msg) < limit ->
  (h + sl + 2 <= em_len (bits_len (pk_n (sk_pk sk)) - 1))%nat -> Z.of_nat (em_len (bits_len (pk_n (sk_pk sk)) - 1)) + 8 < limit ->
  (sl <= 4 * length ws)%nat -> usable (pk_n (sk_pk sk)) rd ->
  let emBits := (bits_len (pk_n (sk_pk sk)) - 1)%nat in let salt := rand_bytes sl ws in
  exists sg, snd (pss_sign D (inr sk) sl s ws rd msg) = Ok sg /\ length sg = modulus_len (sk_pk sk) /\
    (snd (pss_verify D false kp sl s' sg msg) = Ok tt <->
       nth 0 (EMSA_PSS H h emBits msg salt) 0 < 2 ^ (8 - Z.of_nat (top_bits emBits)) /\
       nth 0 (MGF1 H h (H (repeat 0 8 ++ H msg ++ salt)) (em_len emBits - h - 1)) 0 mod 2 ^ (8 - Z.of_nat (clr_bits emBits)) < 2 ^ (8 - Z.of_nat (spare emBits))) /\
    (snd (pss_verify D false kp sl s' sg msg) = Ok tt \/ snd (pss_verify D false kp sl s' sg msg) = Err VerificationFailed) /\
    snd (pss_verify D true kp sl s' sg msg) = Panic.
Proof.
  intros K EK Hs Hs' B L Hl LK LW U emBits salt. pose proof (key_N sk K) as N.
  destruct (rand_bytes_ok D h8 hpos sl ws LW) as [Ls Bs]. fold salt in Ls, Bs.
  destruct (api_pss_sign sk sl s ws rd msg K Hs B L Hl LK LW U) as (s1 & _ & E). fold emBits salt in E. rewrite E. cbn [snd]. eexists. split; [reflexivity|].
  assert (Hl' : (d_bits_len D / 8 + length salt + 2 <= em_len emBits)%nat) by (rewrite hdiv, Ls; exact Hl).
  pose proof (pss_open D I H limit HG h8 hpos sk msg salt K B L Bs Hl' LK) as PO. rewrite hdiv in PO. fold emBits in PO.
  set (EM := EMSA_PSS H h emBits msg salt) in *. cbv zeta in PO. destruct PO as (P1 & P2 & P3 & P4). set (sg := I2OSP (OS2IP EM ^ sk_d sk mod pk_n (sk_pk sk)) (modulus_len (sk_pk sk))) in *.
  split; [exact P1|].
  destruct (api_pss_verify kp sl s' sg msg) as (s2 & r & _ & EV & C & A); rewrite ?EK; try assumption. rewrite EV. cbn [snd].
  rewrite EK in A. rewrite P2 in A. fold emBits in A. split; [|split].
  - rewrite A. rewrite P4. pose proof (accept_encode_gen D I H limit HG h8 hpos (top_bits emBits) (clr_bits emBits) msg emBits salt B L Bs) as AE.
    rewrite hdiv in AE. fold EM in AE. rewrite Ls in AE. rewrite AE by (try assumption; apply Nat.mod_upper_bound; lia). tauto.
  - exact C.
  - unfold pss_verify. rewrite EK. fold (modulus_len (sk_pk sk)). rewrite P1, Nat.eqb_refl. cbn [negb]. fold emBits. fold (em_len emBits).
    assert (EM' : pub_encrypt (sk_pk sk) (be_val sg) = OS2IP EM) by (unfold pub_encrypt; rewrite powmod_ok by lia; exact P2). rewrite EM'.
    assert (M0 : 0 <= OS2IP EM) by (rewrite <- P2; apply Z.mod_pos_bound; lia).
    rewrite (proj2 (bytes_fit D h8 hpos (OS2IP EM) (em_len emBits) M0) P3). rewrite left_pad_ok by lia.
    change (be_bytes (em_len emBits) (OS2IP EM)) with (I2OSP (OS2IP EM) (em_len emBits)). rewrite P4.
    rewrite <- Ls. pose proof (pss_verify_checked_encode D I H limit HG h8 hpos s s' msg emBits salt Hs Hs' B L Bs Hl' LK) as X.
    rewrite hdiv in X. exact X.
Qed.
(** With overflow checks nothing at all is accepted. *)
Lemma api_pss_checked kp sl s sg msg : I s -> bytes msg -> Z.of_nat (length msg) < limit ->
  (h + sl + 2 <= em_len (bits_len (pk_n (kp_public kp)) - 1))%nat -> snd (pss_verify D true kp sl s sg msg) <> Ok tt.
Proof.
  intros Hs B L Hl. unfold pss_verify. destruct (negb _); [discriminate|]. fold (em_len (bits_len (pk_n (kp_public kp)) - 1)).
  destruct (_ <? _)%nat; [discriminate|].
  destruct (pss_verify_checked D I H limit HG h8 hpos sl s (left_pad (em_len (bits_len (pk_n (kp_public kp)) - 1)) (pub_encrypt (kp_public kp) (be_val sg))) msg
    (bits_len (pk_n (kp_public kp)) - 1) Hs B L ltac:(rewrite hdiv; exact Hl)) as [-> | ->]; discriminate.
Qed.
(** Moduli whose bit length is a multiple of 512: the masks are the standard's. *)
Lemma masks_512 b : (0 < b)%nat -> (b mod 512 = 0)%nat -> spare (b - 1) = 1%nat /\ top_bits (b - 1) = 1%nat /\ clr_bits (b - 1) = 1%nat.
Proof.
  intros B0 M. pose proof (Nat.div_mod b 512 ltac:(lia)) as E. rewrite M in E. set (q := (b / 512)%nat) in *. assert (Hq : (0 < q)%nat) by lia.
  assert (EL : em_len (b - 1) = (64 * q)%nat). { unfold em_len. symmetry. apply (Nat.div_unique _ 8 _ 6); lia. }
  assert (SP : spare (b - 1) = 1%nat) by (unfold spare; rewrite EL; lia).
  split; [exact SP|]. split; [unfold top_bits; rewrite SP; reflexivity|]. unfold clr_bits. rewrite SP, EL.
  replace (64 * q / 8)%nat with (8 * q)%nat by (apply (Nat.div_unique _ 8 _ 0); lia).
  symmetry. apply (Nat.mod_unique _ 8 q); lia.
Qed.
Lemma api_pss_512 sk kp sl s s' ws rd msg : (bits_len (pk_n (sk_pk sk)) mod 512 = 0)%nat -> key_ok sk -> kp_public kp = sk_pk sk -> I s -> I s' -> bytes msg -> Z.of_nat (length msg) < limit ->
  (h + sl + 2 <= em_len (bits_len (pk_n (sk_pk sk)) - 1))%nat -> Z.of_nat (em_len (bits_len (pk_n (sk_pk sk)) - 1)) + 8 < limit ->
  (sl <= 4 * length ws)%nat -> usable (pk_n (sk_pk sk)) rd ->
  exists sg, snd (pss_sign D (inr sk) sl s ws rd msg) = Ok sg /\ snd (pss_verify D false kp sl s' sg msg) = Ok tt.
Proof.
  intros M K EK Hs Hs' B L Hl LK LW U. pose proof (key_N sk K) as N. destruct (bits_len_lower (pk_n (sk_pk sk)) ltac:(lia)) as [B0 _].
  destruct (api_pss_own sk kp sl s s' ws rd msg K EK Hs Hs' B L Hl LK LW U) as (sg & E1 & _ & E2 & _). exists sg. split; [exact E1|]. apply E2.
  destruct (masks_512 _ B0 M) as (M1 & M2 & M3). rewrite M1, M2, M3. clear E1 E2.
  destruct (rand_bytes_ok D h8 hpos sl ws LW) as [Ls Bs].
  destruct (emsa_pss_shape D I H limit HG h8 hpos msg (bits_len (pk_n (sk_pk sk)) - 1) (rand_bytes sl ws) B L Bs) as (mdb & hh & E & _ & _ & Lm & _ & _ & _ & LT); [rewrite hdiv, Ls; exact Hl|exact LK|].
  rewrite hdiv in E, Lm. rewrite M1 in LT. split; [rewrite E, app_nth1 by lia; exact LT|]. apply Z.mod_pos_bound. reflexivity.
Qed.
Lemma api_pss_verify_512 kp sl s sg msg : (bits_len (pk_n (kp_public kp)) mod 512 = 0)%nat -> 1 < pk_n (kp_public kp) -> I s -> bytes msg -> Z.of_nat (length msg) < limit ->
  (h + sl + 2 <= em_len (bits_len (pk_n (kp_public kp)) - 1))%nat -> Z.of_nat (em_len (bits_len (pk_n (kp_public kp)) - 1)) + 8 < limit ->
  let emBits := (bits_len (pk_n (kp_public kp)) - 1)%nat in let m := OS2IP sg ^ pk_e (kp_public kp) mod pk_n (kp_public kp) in
  snd (pss_verify D false kp sl s sg msg) = Ok tt <-> length sg = modulus_len (kp_public kp) /\ EMSA_PSS_VERIFY H h emBits sl msg (I2OSP m (em_len emBits)).
Proof.
  intros M N Hs B L Hl LK emBits m. destruct (bits_len_lower (pk_n (kp_public kp)) ltac:(lia)) as [B0 _].
  destruct (api_pss_verify kp sl s sg msg N Hs B L Hl LK) as (s' & r & _ & E & _ & A). rewrite E. cbn [snd]. rewrite A. fold emBits m.
  destruct (masks_512 _ B0 M) as (M1 & M2 & M3). fold emBits in M1, M2, M3. unfold EMSA_PSS_VERIFY. fold (em_len emBits). fold (spare emBits). rewrite M1, M2, M3.
  assert (U : m < 256 ^ Z.of_nat (em_len emBits)).
  { destruct (modulus_len_bounds _ N) as [_ [_ HU]]. pose proof (pow_range (OS2IP sg) (pk_e (kp_public kp)) _ N) as R. fold m in R.
    assert (EL : em_len emBits = modulus_len (kp_public kp)); [|rewrite EL; lia].
    unfold em_len, modulus_len, emBits in *. unfold spare, em_len in M1.
    pose proof (Nat.div_mod (bits_len (pk_n (kp_public kp)) + 7) 8 ltac:(lia)). pose proof (Nat.mod_upper_bound (bits_len (pk_n (kp_public kp)) + 7) 8 ltac:(lia)). lia. }
  tauto.
Qed.
End Api.
