(** Property C86: what an RSA private key object releases when its parts are wrong: a private exponent that does not belong to the
    modulus, false primes, or damaged values of the second representation (CRT).  Nothing is assumed of the key object except what
    a theorem says.  [DigestOk], [EMSA_PKCS1], [EMSA_PSS] are described in PropRsa.v. *)
From Coq Require Import Znumtheory.
From Verif Require Import Base Words HashModel HashSpec HashApi PropHash MacApi NumTheory RsaModel RsaProofs RsaEncModel RsaSpec RsaEncProofs RsaSigProofs RsaApi RsaCases PropRsa.
Local Open Scope Z_scope.

(** ** The checked operation *)
(** Whatever the object contains: what comes out is a root of the argument, and a wrong result is replaced by an error. *)
Theorem C86_check : forall k c rd, let n := pk_n (sk_pk k) in let e := pk_e (sk_pk k) in n <> 0 ->
  (forall m, priv_decrypt_check k c rd = Ok m -> priv_decrypt k c rd = Ok m /\ m ^ e mod n = c) /\
  (forall m, priv_decrypt k c rd = Ok m -> m ^ e mod n <> c -> priv_decrypt_check k c rd = Err InnerErr).
Proof.
  intros k c rd n e N. unfold priv_decrypt_check. destruct (priv_decrypt k c rd) as [m|x|]; cbn [rbind].
  - unfold pub_encrypt. fold e n. rewrite powmod_ok by exact N. split; intros m0 E.
    + destruct (Z.eqb_spec c (m ^ e mod n)) as [Q|Q]; [injection E as <-; auto|discriminate].
    + injection E as <-. intros W. destruct (Z.eqb_spec c (m ^ e mod n)) as [Q|Q]; [congruence|reflexivity].
  - split; intros m E; discriminate.
  - split; intros m E; discriminate.
Qed.
Print Assumptions C86_check.

(** Results are below n for every key without CRT values, and for every key when blinding is used. *)
Lemma result_range k c rd m : 0 < pk_n (sk_pk k) -> sk_pre k = None \/ rd <> None -> priv_decrypt k c rd = Ok m -> 0 <= m < pk_n (sk_pk k).
Proof.
  intros N Q. unfold priv_decrypt. destruct (_ <? c); [discriminate|]. destruct (_ =? 0); [discriminate|]. destruct rd as [draws|].
  - destruct (blind_loop _ draws) as [[r ir]|]; [|discriminate]. destruct (raw_decrypt _ _) as [x|x|]; cbn [rbind]; [|discriminate|discriminate]. intros E. injection E as <-. apply Z.mod_pos_bound. exact N.
  - destruct Q as [Q|Q]; [|congruence]. unfold raw_decrypt. rewrite Q. intros E. injection E as <-. rewrite powmod_ok by lia. apply Z.mod_pos_bound. exact N.
Qed.

(** ** Signatures: one that is released is accepted, whatever private key made it. *)
Theorem C86_pkcs1_released : forall (S : Type) (D : digest S) (I : S -> Prop) H limit h t oid sk kp s s2 rd msg sg,
  DigestOk D I H limit -> d_bits_len D = (8 * h)%nat -> pkcs1_hash t = Some (oid, h) ->
  1 < pk_n (sk_pk sk) -> kp_public kp = sk_pk sk -> sk_pre sk = None \/ rd <> None -> I s -> I s2 -> bytes msg -> Z.of_nat (length msg) < limit ->
  snd (pkcs1_sign D t (inr sk) s rd msg) = Ok sg -> length sg = modulus_len (sk_pk sk) /\ snd (pkcs1_verify D t kp s2 sg msg) = Ok tt.
Proof.
  intros S D I H limit h t oid sk kp s s2 rd msg sg HG HB T N EK Q Hs Hs2 B L E.
  assert (Hh : (0 < h)%nat) by (destruct t; cbn in T; try discriminate; injection T as _ <-; lia).
  assert (h8 : (d_bits_len D mod 8 = 0)%nat) by (rewrite HB, Nat.mul_comm; apply Nat.mod_mul; lia).
  assert (hpos : (0 < d_bits_len D)%nat) by lia.
  pose proof (H_len D I H limit h HG HB Hh msg B L) as LH.
  destruct (prefix_digestinfo t oid h (H msg) T LH) as (pre & Hp & EP).
  revert E. unfold pkcs1_sign. rewrite Hp. cbn [kp_private].
  assert (HL : hlen D = h) by (unfold hlen; rewrite HB, Nat.mul_comm, ?Nat.div_mul by lia; try reflexivity; lia). rewrite HL.
  destruct (Nat.ltb_spec (modulus_len (sk_pk sk)) (length pre + h + 11)) as [LT|GE]; [cbn [snd]; discriminate|].
  destruct (hash_run_ok D I H limit HG s [msg] Hs) as (s' & ER & I'); [constructor; [exact B|constructor]|cbn [concat]; rewrite app_nil_r; exact L|].
  rewrite ER. cbn [concat snd]. rewrite app_nil_r.
  assert (EE : [0; 1] ++ repeat 255 (modulus_len (sk_pk sk) - (length pre + h) - 3) ++ [0] ++ pre ++ H msg = EMSA_PKCS1 (modulus_len (sk_pk sk)) (DigestInfo oid (H msg))).
  { rewrite <- EP. unfold EMSA_PKCS1. rewrite app_length, LH. reflexivity. }
  rewrite EE. destruct (C86_check sk (be_val (EMSA_PKCS1 (modulus_len (sk_pk sk)) (DigestInfo oid (H msg)))) rd ltac:(lia)) as [CK _].
  destruct (priv_decrypt_check sk _ rd) as [m|x|]; cbn [rbind]; [|discriminate|discriminate]. intros E. injection E as <-. destruct (CK m eq_refl) as [C1 C2].
  pose proof (result_range sk _ rd m ltac:(lia) Q C1) as R. destruct (modulus_len_bounds _ N) as [_ [_ HU]].
  rewrite left_pad_ok by lia. split; [apply be_bytes_length|].
  destruct (C42_verify_iff S D I H limit h t oid kp s2 (be_bytes (modulus_len (sk_pk sk)) m) msg HG HB T) as (s3 & r & _ & EV & _ & V); auto; [rewrite EK; exact N|rewrite EK, <- EP, app_length, LH; exact GE|].
  rewrite EV. cbn [snd]. apply V. rewrite EK. unfold OS2IP. rewrite be_val_bytes, (Z.mod_small m) by lia. exact C2.
Qed.
Print Assumptions C86_pkcs1_released.
Theorem C86_pss_released : forall (S : Type) (D : digest S) (I : S -> Prop) H limit h sk sl s ws rd msg sg,
  DigestOk D I H limit -> d_bits_len D = (8 * h)%nat -> (0 < h)%nat ->
  1 < pk_n (sk_pk sk) -> sk_pre sk = None \/ rd <> None -> I s -> bytes msg -> Z.of_nat (length msg) < limit ->
  let emBits := (bits_len (pk_n (sk_pk sk)) - 1)%nat in
  (h + sl + 2 <= em_len emBits)%nat -> Z.of_nat (em_len emBits) + 8 < limit -> (sl <= 4 * length ws)%nat ->
  snd (pss_sign D (inr sk) sl s ws rd msg) = Ok sg ->
  length sg = modulus_len (sk_pk sk) /\ OS2IP sg ^ pk_e (sk_pk sk) mod pk_n (sk_pk sk) = OS2IP (EMSA_PSS H h emBits msg (rand_bytes sl ws)).
Proof.
  intros S D I H limit h sk sl s ws rd msg sg HG HB Hh N Q Hs B L emBits LE LL LW. unfold pss_sign, pss_sign_with_salt. cbn [kp_public kp_private].
  rewrite (rand_bytes_cut D) by (pose proof (Nat.div_mod (sl + 3) 4 ltac:(lia)); pose proof (Nat.mod_upper_bound (sl + 3) 4 ltac:(lia)); lia).
  fold emBits. assert (h8 : (d_bits_len D mod 8 = 0)%nat) by (rewrite HB, Nat.mul_comm; apply Nat.mod_mul; lia).
  destruct (rand_bytes_ok D h8 ltac:(lia) sl ws LW) as [RL RB].
  destruct (api_pss_encode D I H limit h HG HB Hh s msg emBits (rand_bytes sl ws) Hs B L RB) as (s' & _ & ->); [rewrite RL; exact LE|exact LL|]. cbn [snd].
  destruct (C86_check sk (be_val (EMSA_PSS H h emBits msg (rand_bytes sl ws))) rd ltac:(lia)) as [CK _].
  destruct (priv_decrypt_check sk _ rd) as [m|x|]; cbn [rbind]; [|discriminate|discriminate]. intros E. injection E as <-. destruct (CK m eq_refl) as [C1 C2].
  pose proof (result_range sk _ rd m ltac:(lia) Q C1) as R. destruct (modulus_len_bounds _ N) as [_ [_ HU]]. change (fst (Nat.divmod (bits_len (pk_n (sk_pk sk)) + 7) 7 0 7)) with (modulus_len (sk_pk sk)).
  rewrite left_pad_ok by lia. split; [apply be_bytes_length|]. unfold OS2IP at 1. rewrite be_val_bytes, (Z.mod_small m) by lia. exact C2.
Qed.
Print Assumptions C86_pss_released.

(** ** The unchecked operation and damaged CRT values *)
Lemma root_mod q c d e : prime q -> 0 <= d -> 0 <= e -> (e * d) mod (q - 1) = 1 -> (powmod c (d mod (q - 1)) q) ^ e mod q = c mod q.
Proof.
  intros P D0 E0 ED. pose proof (prime_ge_2 q P) as Q2.
  assert (DN : d mod (q - 1) <> 0) by (intros Z0; rewrite <- Zmult_mod_idemp_r, Z0, Z.mul_0_r, Zmod_0_l in ED; discriminate).
  rewrite (exp_red c d D0 q P DN), pow_mod_idemp, <- Z.pow_mul_r by lia. rewrite Z.mul_comm.
  apply pow_cong1; [exact P| |].
  - assert (e * d <> 0) by (intros Z0; rewrite Z0, Zmod_0_l in ED; discriminate). nia.
  - rewrite ED. symmetry. apply Z.mod_small. destruct (Z.eq_dec q 2) as [->|]; [cbn in ED; rewrite Z.mod_1_r in ED; discriminate|lia].
Qed.
(** The first half (exponent, coefficient and first prime) may be anything. *)
Lemma raw_mod_q k p q pc c m : sk_pre k = Some pc -> sk_primes k = [p; q] -> raw_decrypt k c = Ok m -> m mod q = powmod c (pc_dq pc) q mod q.
Proof.
  intros EP PP. unfold raw_decrypt. rewrite EP, PP. unfold crt_decrypt. destruct (pc_qinv pc) as [qi|]; [|discriminate].
  assert (X : forall x vs, crt_loop c x vs [] = Ok x) by (intros x [|v vs]; reflexivity). rewrite X. intros E. injection E as <-. rewrite Z.add_comm. apply Z_mod_plus_full.
Qed.
(** The second half may be anything. *)
Lemma raw_mod_p k p q pc c m qi : 0 < p -> sk_pre k = Some pc -> sk_primes k = [p; q] -> pc_qinv pc = Some qi -> (qi * q) mod p = 1 mod p ->
  raw_decrypt k c = Ok m -> m mod p = powmod c (pc_dp pc) p mod p.
Proof.
  intros P EP PP EQ HQ. unfold raw_decrypt. rewrite EP, PP. unfold crt_decrypt. rewrite EQ.
  assert (X : forall x vs, crt_loop c x vs [] = Ok x) by (intros x [|v vs]; reflexivity). rewrite X. intros E. injection E as <-. clear X.
  set (m1 := powmod c (pc_dp pc) p). set (m2 := powmod c (pc_dq pc) q). clearbody m1 m2.
  assert (Y : exists j, (if m1 - m2 <? 0 then m1 - m2 + p else m1 - m2) = m1 - m2 + j * p) by (destruct (_ <? 0); [exists 1|exists 0]; lia). destruct Y as [j ->].
  rewrite Zplus_mod, Zmult_mod_idemp_l. rewrite <- Z.mul_assoc, <- Zmult_mod_idemp_r, HQ, Zmult_mod_idemp_r, Z.mul_1_r, <- Zplus_mod.
  replace (m1 - m2 + j * p + m2) with (m1 + j * p) by ring. apply Z_mod_plus_full.
Qed.
Lemma mod_of_divide a b n : (n | a - b) -> a mod n = b mod n.
Proof. intros [z Z]. replace a with (b + z * n) by lia. apply Z_mod_plus_full. Qed.
(** From the unblinded to the blinded operation. *)
Lemma blinded_root k c rd m f : let n := pk_n (sk_pk k) in let e := pk_e (sk_pk k) in 0 < n -> 0 < f -> (f | n) -> 0 <= e ->
  (forall c m, raw_decrypt k c = Ok m -> m ^ e mod f = c mod f) -> priv_decrypt k c rd = Ok m -> m ^ e mod f = c mod f.
Proof.
  intros n e N F DF E0 R. unfold priv_decrypt. fold n. destruct (n <? c); [discriminate|]. destruct (n =? 0); [discriminate|]. destruct rd as [draws|]; [|apply R].
  destruct (blind_loop n draws) as [[r ir]|] eqn:BL; [|discriminate]. fold e.
  assert (IR : (ir * r) mod n = 1 mod n).
  { revert BL. clear -N. induction draws as [|x ds IH]; cbn [blind_loop]; [discriminate|]. unfold mod_inverse. destruct (inv_mod _ n) as [y|] eqn:Y; [|exact IH].
    intros Q. injection Q as <- <-. apply inv_mod_some in Y; [apply Y|exact N]. }
  destruct (raw_decrypt k _) as [x|x|] eqn:RX; cbn [rbind]; [|discriminate|discriminate]. intros Q. injection Q as <-. apply R in RX.
  assert (MM : forall a b, a mod n = b mod n -> a mod f = b mod f).
  { intros a b Q. apply mod_eq_divide in Q; [|lia]. apply mod_of_divide. exact (Z.divide_trans _ _ _ DF Q). }
  rewrite (MM _ ((x * ir) ^ e)) by (apply pow_mod_idemp; exact E0). rewrite Z.pow_mul_l, <- Zmult_mod_idemp_l, RX, Zmult_mod_idemp_l. apply MM.
  rewrite Zmult_mod_idemp_l, powmod_ok by lia. rewrite <- Z.mul_assoc, Zmult_mod_idemp_l.
  replace (r ^ e * (c * ir ^ e)) with (c * (ir * r) ^ e) by (rewrite Z.pow_mul_l; ring).
  rewrite <- Zmult_mod_idemp_r, <- pow_mod_idemp, IR, pow_mod_idemp, Z.pow_1_l, Zmult_mod_idemp_r, Z.mul_1_r by exact E0. reflexivity.
Qed.
Lemma gcd_of_half p q n r e c : prime p -> prime q -> n = p * q -> 0 <= c < n -> r ^ e mod q = c mod q -> r ^ e mod n <> c -> Z.gcd (r ^ e - c) n = q.
Proof.
  intros P Q N C H W. pose proof (prime_ge_2 p P) as P2. pose proof (prime_ge_2 q Q) as Q2.
  assert (D1 : (q | r ^ e - c)) by (apply mod_eq_divide; [lia|exact H]).
  assert (D2 : (q | n)) by (exists p; lia).
  pose proof (Z.gcd_greatest _ _ _ D1 D2) as G1. set (g := Z.gcd (r ^ e - c) n) in *.
  pose proof (Z.gcd_nonneg (r ^ e - c) n) as G0. fold g in G0.
  assert (G2 : (g | n)) by apply Z.gcd_divide_r. assert (G3 : (g | r ^ e - c)) by apply Z.gcd_divide_l.
  destruct G1 as [a G1]. assert (A : (a | p)). { destruct G2 as [b G2]. exists b. apply (Z.mul_reg_r _ _ q); [lia|]. rewrite <- N, G2, G1. ring. }
  apply prime_divisors in A; [|exact P]. assert (A0 : 0 <= a) by (clear -G0 G1 Q2; nia). destruct A as [A|[A|[A|A]]]; try (exfalso; clear -A A0 P2; lia).
  - rewrite G1, A. apply Z.mul_1_l.
  - exfalso. apply W. assert (GN : g = n) by (rewrite G1, A, N; ring). rewrite GN in G3. rewrite <- (Z.mod_small c n C). apply mod_of_divide. exact G3.
Qed.
(** If only the part of the key that belongs to one of the two primes is damaged (first theorem: the first half, with its coefficient;
    second theorem: the second half), a wrong result of the unchecked operation gives the factors of n to anyone who sees it, blinded
    or not; the checked operation answers an error instead. *)
Theorem C86_first_half_damaged : forall p q e d pc c rd r, let n := p * q in let k := mkPriv (mkPub n e) d [p; q] (Some pc) in
  prime p -> prime q -> 0 <= d -> 0 <= e -> (e * d) mod (q - 1) = 1 -> pc_dq pc = d mod (q - 1) -> 0 <= c < n ->
  priv_decrypt k c rd = Ok r -> r ^ e mod n <> c ->
  Z.gcd (r ^ e - c) n = q /\ priv_decrypt_check k c rd = Err InnerErr.
Proof.
  intros p q e d pc c rd r n k P Q D0 E0 ED DQ C R W. pose proof (prime_ge_2 p P) as P2. pose proof (prime_ge_2 q Q) as Q2. assert (N : 0 < n) by (apply Z.mul_pos_pos; [clear -P2|clear -Q2]; lia). split.
  - apply (gcd_of_half p q n); auto. apply (blinded_root k c rd r q); auto; [clear -Q2; lia|exists p; reflexivity|]. intros c0 m RM.
    rewrite <- pow_mod_idemp, (raw_mod_q k p q pc c0 m eq_refl eq_refl RM), DQ, pow_mod_idemp by exact E0. apply root_mod; auto.
  - apply (proj2 (C86_check k c rd ltac:(cbn; fold n; clear -N; lia)) r R W).
Qed.
Print Assumptions C86_first_half_damaged.
Theorem C86_second_half_damaged : forall p q e d pc qi c rd r, let n := p * q in let k := mkPriv (mkPub n e) d [p; q] (Some pc) in
  prime p -> prime q -> 0 <= d -> 0 <= e -> (e * d) mod (p - 1) = 1 -> pc_dp pc = d mod (p - 1) -> pc_qinv pc = Some qi -> (qi * q) mod p = 1 -> 0 <= c < n ->
  priv_decrypt k c rd = Ok r -> r ^ e mod n <> c ->
  Z.gcd (r ^ e - c) n = p /\ priv_decrypt_check k c rd = Err InnerErr.
Proof.
  intros p q e d pc qi c rd r n k P Q D0 E0 ED DP EQ HQ C R W. pose proof (prime_ge_2 p P) as P2. pose proof (prime_ge_2 q Q) as Q2. assert (N : 0 < n) by (apply Z.mul_pos_pos; [clear -P2|clear -Q2]; lia). split.
  - apply (gcd_of_half q p n); auto; [apply Z.mul_comm|]. apply (blinded_root k c rd r p); auto; [clear -P2; lia|exists q; apply Z.mul_comm|]. intros c0 m RM.
    rewrite <- pow_mod_idemp, (raw_mod_p k p q pc c0 m qi ltac:(clear -P2; lia) eq_refl eq_refl EQ ltac:(rewrite HQ, Z.mod_small; clear -P2; lia) RM), DP, pow_mod_idemp by exact E0. apply root_mod; auto.
  - apply (proj2 (C86_check k c rd ltac:(cbn; fold n; clear -N; lia)) r R W).
Qed.
Print Assumptions C86_second_half_damaged.

(** A key of two primes with one of its CRT exponents off by one, the first and then the second; the unchecked operation, blinded, gives
    its factors.  A released signature is accepted; with a private exponent that is not the right one no signature is released. *)
Definition pq : Z := 65521 * 65519.
Definition hurt_p : privkey := mkPriv (mkPub pq 65537) 1475213633 [65521; 65519] (Some (mkPre (1475213633 mod 65520 + 1) (1475213633 mod 65518) (Some 32760) [])).
Definition hurt_q : privkey := mkPriv (mkPub pq 65537) 1475213633 [65521; 65519] (Some (mkPre (1475213633 mod 65520) (1475213633 mod 65518 + 1) (Some 32760) [])).
Definition bad_d : privkey := mkPriv (sk_pk key12) 3 (sk_primes key12) None.
Example C86_case :
  (exists r, priv_decrypt hurt_p 1234567 (Some [77]) = Ok r /\ Z.gcd (r ^ 65537 - 1234567) pq = 65519 /\ priv_decrypt_check hurt_p 1234567 (Some [77]) = Err InnerErr) /\
  (exists r, priv_decrypt hurt_q 1234567 (Some [77]) = Ok r /\ Z.gcd (r ^ 65537 - 1234567) pq = 65521 /\ priv_decrypt_check hurt_q 1234567 (Some [77]) = Err InnerErr) /\
  (exists sg, snd (pkcs1_sign MD5 TMD5 (inr key64) md5_init (Some [2]) abc_msg) = Ok sg /\ length sg = 64%nat /\ snd (pkcs1_verify MD5 TMD5 (inl (sk_pk key64)) md5_init sg abc_msg) = Ok tt) /\
  (exists sg, snd (pss_sign SumDigest (inr key64) 4 [] [0x01020304] (Some [2]) [1; 2; 3]) = Ok sg /\ length sg = 64%nat) /\
  snd (pss_sign SumDigest (inr bad_d) 2 [] [0x01020304] None [1; 2; 3]) = Err InnerErr.
Proof.
  assert (ML : modulus_len (sk_pk key64) = 64%nat) by (unfold modulus_len; rewrite key64_bits; reflexivity).
  assert (EL : em_len (bits_len (pk_n (sk_pk key64)) - 1) = 64%nat) by (rewrite key64_bits; reflexivity).
  assert (P1 : prime 65521) by (apply (primeb_ok 255); vm_compute; reflexivity). assert (P2 : prime 65519) by (apply (primeb_ok 255); vm_compute; reflexivity).
  split; [|split; [|split; [|split]]].
  - assert (W : match priv_decrypt hurt_p 1234567 (Some [77]) with Ok r => negb (powmod r 65537 pq =? 1234567) | _ => false end = true) by (vm_compute; reflexivity).
    destruct (priv_decrypt hurt_p 1234567 (Some [77])) as [r|x|] eqn:E; [|discriminate|discriminate]. apply negb_true_iff, Z.eqb_neq in W. rewrite powmod_ok in W by (unfold pq; lia).
    exists r. split; [reflexivity|]. apply (C86_first_half_damaged 65521 65519 65537 1475213633 (mkPre (1475213633 mod 65520 + 1) (1475213633 mod 65518) (Some 32760) []) 1234567 (Some [77]) r P1 P2); [lia|lia|reflexivity|reflexivity|lia|exact E|exact W].
  - assert (W : match priv_decrypt hurt_q 1234567 (Some [77]) with Ok r => negb (powmod r 65537 pq =? 1234567) | _ => false end = true) by (vm_compute; reflexivity).
    destruct (priv_decrypt hurt_q 1234567 (Some [77])) as [r|x|] eqn:E; [|discriminate|discriminate]. apply negb_true_iff, Z.eqb_neq in W. rewrite powmod_ok in W by (unfold pq; lia).
    exists r. split; [reflexivity|]. apply (C86_second_half_damaged 65521 65519 65537 1475213633 (mkPre (1475213633 mod 65520) (1475213633 mod 65518 + 1) (Some 32760) []) 32760 1234567 (Some [77]) r P1 P2); [lia|lia|reflexivity|reflexivity|reflexivity|reflexivity|lia|exact E|exact W].
  - destruct C42_case as (sg & E & _). exists sg. split; [exact E|]. rewrite <- ML.
    assert (IN : In (TMD5, MD5, md5_init, MD5_std, true) pkcs1_digests) by (left; reflexivity).
    destruct (pkcs1_digests_ok _ _ _ _ _ IN) as (G & _).
    apply (C86_pkcs1_released mdst MD5 (fun _ => True) (mk_hash MD5_std) (2 ^ 64) 16 TMD5 oid_md5 key64 (inl (sk_pk key64)) md5_init md5_init (Some [2]) abc_msg sg G eq_refl eq_refl); auto.
    + vm_compute. reflexivity. + right. discriminate. + apply bytes_forallb. reflexivity. + reflexivity.
  - destruct C44_case as (sg & E & _). exists sg. split; [exact E|]. rewrite <- ML.
    apply (C86_pss_released _ SumDigest (fun _ => True) sum_hash (2 ^ 64) 1 key64 4 [] [0x01020304] (Some [2]) [1; 2; 3] sg (sum_digest_ok _) eq_refl (le_n _)); auto.
    + vm_compute. reflexivity. + right. discriminate. + apply bytes_forallb. reflexivity. + reflexivity. + rewrite EL. lia. + rewrite EL. reflexivity.
  - vm_compute. reflexivity.
Qed.
