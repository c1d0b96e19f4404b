(** Properties C45, C46 and C48: DSA signatures, DSA parameters and keys, signature contents.
    Specification: DsaSpec.v (FIPS 186-4).  [D] computes the hash function [H], with [h]-byte values, on messages shorter than
    [limit], from states satisfying [I].  [draws] are the numbers the random source yields for nonces or keys; [sign_inner]
    and [verify_inner] are what [sign] and [verify] call with the numbers r and s. *)
From Coq Require Import Znumtheory.
From Verif Require Import Base HashModel HashSpec HashApi PropHash MacApi NumTheory RsaModel RsaProofs RsaEncModel RsaEncProofs RsaSigProofs RsaCases DsaModel DsaSpec DsaProofs.

(** ** C45 *)
(** A signature is the standard's, for one of the nonces drawn and the leftmost bits of the digest. *)
Theorem C45_sign_standard : forall (S : Type) (D : digest S) (I : S -> Prop) H limit h p q g y x s s1 draws msg r v,
  DigestOk D I H limit -> d_bits_len D = (8 * h)%nat ->
  0 < p -> prime q -> 0 < g -> 0 < x -> (bits_len q mod 8 = 0)%nat -> I s -> bytes msg -> Z.of_nat (length msg) < limit ->
  sign_inner D (inr (mkDpriv (mkDpub (mkDp p q g) y) x)) s draws msg = (s1, Ok (r, v)) ->
  exists k, In k draws /\ 0 < k /\ DSA_signature p q g x (DSA_z (Z.of_nat (bits_len q)) (H msg)) k r v.
Proof.
  intros S D I H limit h p q g y x s s1 draws msg r v HG HB P Q G X M Hs B L E. pose proof (prime_ge_2 q Q) as Q2.
  destruct (sign_inner_ok D I H limit h HG HB (mkDpriv (mkDpub (mkDp p q g) y) x) s draws msg P ltac:(cbn; lia) G X M Hs B L) as (s' & _ & E').
  rewrite E' in E. apply pair_equal_spec in E. destruct E as [_ E]. exact (sign_loop_ok 10 (mkDp p q g) x _ Q (bits8_big q ltac:(lia) M) P draws r v E).
Qed.
Print Assumptions C45_sign_standard.
(** It succeeds with the first nonce in [1, q-1] that gives a signature, and never panics given ten positive draws. *)
Theorem C45_sign_first : forall (S : Type) (D : digest S) (I : S -> Prop) H limit h p q g y x s draws msg k r v,
  DigestOk D I H limit -> d_bits_len D = (8 * h)%nat ->
  0 < p -> prime q -> 0 < g -> 0 < x -> (bits_len q mod 8 = 0)%nat -> I s -> bytes msg -> Z.of_nat (length msg) < limit ->
  0 < k < q -> DSA_signature p q g x (DSA_z (Z.of_nat (bits_len q)) (H msg)) k r v ->
  snd (sign_inner D (inr (mkDpriv (mkDpub (mkDp p q g) y) x)) s (k :: draws) msg) = Ok (r, v).
Proof.
  intros S D I H limit h p q g y x s draws msg k r v HG HB P Q G X M Hs B L K SG. pose proof (prime_ge_2 q Q) as Q2.
  destruct (sign_inner_ok D I H limit h HG HB (mkDpriv (mkDpub (mkDp p q g) y) x) s (k :: draws) msg P ltac:(cbn; lia) G X M Hs B L) as (s' & _ & E').
  rewrite E'. cbn [snd]. exact (sign_loop_first 9 (mkDp p q g) x _ Q k draws r v [] (bits8_big q ltac:(lia) M) P K (Forall_nil _) SG).
Qed.
Print Assumptions C45_sign_first.
Theorem C45_sign_total : forall (S : Type) (D : digest S) (I : S -> Prop) H limit h p q g y x s draws msg,
  DigestOk D I H limit -> d_bits_len D = (8 * h)%nat ->
  0 < p -> 0 < q -> 0 < g -> 0 < x -> (bits_len q mod 8 = 0)%nat -> I s -> bytes msg -> Z.of_nat (length msg) < limit ->
  (10 <= length (filter (fun k => (0 <? k)%Z) draws))%nat ->
  let o := snd (sign_inner D (inr (mkDpriv (mkDpub (mkDp p q g) y) x)) s draws msg) in (exists r v, o = Ok (r, v)) \/ o = Err InvalidPrivateKey.
Proof.
  intros S D I H limit h p q g y x s draws msg HG HB P Q G X M Hs B L N.
  destruct (sign_inner_ok D I H limit h HG HB (mkDpriv (mkDpub (mkDp p q g) y) x) s draws msg P Q G X M Hs B L) as (s' & _ & E').
  rewrite E'. cbn [snd]. exact (sign_loop_total _ _ _ 10 draws N).
Qed.
Print Assumptions C45_sign_total.
(** Verification accepts exactly the standard's signatures of the whole digest ... *)
Theorem C45_verify_iff : forall (S : Type) (D : digest S) (I : S -> Prop) H limit h p q g y kp s msg r v,
  DigestOk D I H limit -> d_bits_len D = (8 * h)%nat -> dkp_public kp = mkDpub (mkDp p q g) y ->
  0 < p -> (bits_len q mod 8 = 0)%nat -> I s -> bytes msg -> Z.of_nat (length msg) < limit ->
  let o := snd (verify_inner D kp s msg r v) in
  (o = Ok tt \/ o = Err VerificationFailed) /\ (o = Ok tt <-> DSA_accepts p q g y (be_val (H msg)) r v) /\
  ((8 * h <= bits_len q)%nat -> o = Ok tt <-> DSA_accepts p q g y (DSA_z (Z.of_nat (bits_len q)) (H msg)) r v).
Proof.
  intros S D I H limit h p q g y kp s msg r v HG HB K P M Hs B L.
  destruct (verify_inner_ok D I H limit h HG HB kp s msg r v) as (s' & o & _ & E & A1 & A2); rewrite ?K; try assumption. rewrite K in A2. rewrite E. cbn [snd dk_dp dk_y dp_p dp_q dp_g] in *.
  split; [exact A1|]. split; [exact A2|]. intros LE. rewrite dsa_z_short; [exact A2|]. rewrite (proj1 (H_facts D I H limit h HG HB msg B L)). lia.
Qed.
Print Assumptions C45_verify_iff.
(** ... so that r or s outside (0, q) is refused. *)
Theorem C45_range : forall (S : Type) (D : digest S) p q g y kp s msg r v, dkp_public kp = mkDpub (mkDp p q g) y ->
  0 < p -> (bits_len q mod 8 = 0)%nat -> ~ (0 < r < q /\ 0 < v < q) -> verify_inner D kp s msg r v = (s, Err VerificationFailed).
Proof.
  intros S D p q g y kp s msg r v K P M N. unfold verify_inner. rewrite K. cbn [dk_dp dk_y dp_p dp_q dp_g]. rewrite (proj2 (sgn1 p) P), (proj2 (Nat.eqb_eq _ _) M). cbn [negb orb].
  destruct (negb (Z.sgn r =? 1)) eqn:R; cbn [orb]; [reflexivity|]. apply sgn1 in R. destruct (negb (Z.sgn v =? 1)) eqn:V; cbn [orb]; [reflexivity|]. apply sgn1 in V.
  destruct (Z.leb_spec q r); cbn [orb]; [reflexivity|]. destruct (Z.leb_spec q v); cbn [orb]; [reflexivity|]. exfalso. apply N. lia.
Qed.
Print Assumptions C45_range.
(** Every signature made verifies, when the digest is no longer than q. *)
Theorem C45_sign_verify : forall (S : Type) (D : digest S) (I : S -> Prop) H limit h p q g x kp s s' draws c c1 msg s1,
  DigestOk D I H limit -> d_bits_len D = (8 * h)%nat ->
  1 < p -> prime q -> 0 < g -> g ^ q mod p = 1 -> 0 < x -> dkp_public kp = mkDpub (mkDp p q g) (g ^ x mod p) ->
  (bits_len q mod 8 = 0)%nat -> (8 * h <= bits_len q)%nat -> I s -> I s' -> bytes msg -> Z.of_nat (length msg) < limit ->
  dsa_sign D (inr (mkDpriv (mkDpub (mkDp p q g) (g ^ x mod p)) x)) s draws c msg = (s1, c1, Ok tt) ->
  snd (dsa_verify D kp s' c1 msg) = Ok tt.
Proof.
  intros S D I H limit h p q g x kp s s' draws c c1 msg s1 HG HB P Q G OG X K M LE Hs Hs' B L E. unfold dsa_sign in E.
  destruct (sign_inner D _ s draws msg) as [s2 [[r v]|e|]] eqn:SI; try discriminate. apply pair_equal_spec in E. destruct E as [E _]. apply pair_equal_spec in E. destruct E as [_ <-].
  destruct (sign_verify D I H limit h HG HB (mkDpriv (mkDpub (mkDp p q g) (g ^ x mod p)) x) kp s s' draws msg r v s2 P Q G OG X eq_refl K M Hs Hs' B L LE SI) as (R & V & A).
  unfold dsa_verify. rewrite sigc_set_get by lia. exact A.
Qed.
Print Assumptions C45_sign_verify.
(** The library's hashes with their standards, also within the bound. *)
Theorem C45_repo_hashes : forall D s0 m zl p q g x kp s s' draws c c1 msg s1, In (D, s0, m, zl) repo_hashes ->
  1 < p -> prime q -> 0 < g -> g ^ q mod p = 1 -> 0 < x -> dkp_public kp = mkDpub (mkDp p q g) (g ^ x mod p) ->
  (bits_len q mod 8 = 0)%nat -> (d_bits_len D <= bits_len q)%nat -> bytes msg -> Z.of_nat (length msg) < 2 ^ 64 ->
  dsa_sign D (inr (mkDpriv (mkDpub (mkDp p q g) (g ^ x mod p)) x)) s draws c msg = (s1, c1, Ok tt) ->
  snd (dsa_verify D kp s' c1 msg) = Ok tt.
Proof.
  intros D s0 m zl p q g x kp s s' draws c c1 msg s1 HI P Q G OG X K M LE B L E.
  assert (HB : exists h, d_bits_len D = (8 * h)%nat).
  { clear -HI. cbv [repo_hashes] in HI. cbn [In] in HI.
    repeat (destruct HI as [HI|HI]; [apply pair_equal_spec in HI; destruct HI as [HI _]; apply pair_equal_spec in HI; destruct HI as [HI _];
      apply pair_equal_spec in HI; destruct HI as [E1 _]; rewrite <- E1|]); [exists 16%nat|exists 20%nat|exists 28%nat|exists 32%nat|exists 48%nat|exists 64%nat|exists 28%nat|exists 32%nat|exists 32%nat|]; try reflexivity. destruct HI. }
  destruct HB as [h HB]. rewrite HB in LE.
  exact (C45_sign_verify mdst D (fun _ => True) (mk_hash m) (2 ^ 64) h p q g x kp s s' draws c c1 msg s1 (good_ok _ _ _ (facts_good _ _ _ _ (repo_facts _ _ _ _ HI)))
    HB P Q G OG X K M LE Logic.I Logic.I B L E).
Qed.
Print Assumptions C45_repo_hashes.
(** Longer digests: sign uses the leftmost bits, verify the whole digest.  Exactly when an own signature is accepted: *)
Theorem C45_own_signature : forall (S : Type) (D : digest S) (I : S -> Prop) H limit h p q g x kp s s' draws msg r v s1,
  DigestOk D I H limit -> d_bits_len D = (8 * h)%nat ->
  1 < p -> prime q -> 0 < g -> g ^ q mod p = 1 -> 0 < x -> dkp_public kp = mkDpub (mkDp p q g) (g ^ x mod p) ->
  (bits_len q mod 8 = 0)%nat -> I s -> I s' -> bytes msg -> Z.of_nat (length msg) < limit ->
  sign_inner D (inr (mkDpriv (mkDpub (mkDp p q g) (g ^ x mod p)) x)) s draws msg = (s1, Ok (r, v)) ->
  let z := DSA_z (Z.of_nat (bits_len q)) (H msg) in
  exists k w, In k draws /\ DSA_signature p q g x z k r v /\ (v * w) mod q = 1 /\
    (snd (verify_inner D kp s' msg r v) = Ok tt <-> (g ^ ((k + (be_val (H msg) - z) * w) mod q) mod p) mod q = (g ^ k mod p) mod q).
Proof.
  intros S D I H limit h p q g x kp s s' draws msg r v s1 HG HB P Q G OG X K M Hs Hs' B L E z.
  destruct (own_signature D I H limit h HG HB (mkDpriv (mkDpub (mkDp p q g) (g ^ x mod p)) x) kp s s' draws msg r v s1 P Q G OG X eq_refl K M Hs Hs' B L E) as (_ & k & w & I1 & _ & SG & _ & W & A).
  exists k, w. split; [exact I1|]. split; [exact SG|]. split; [exact W|]. pose proof (proj1 SG) as R0; cbn [ds_pk dk_dp dp_p dp_q dp_g] in R0; rewrite <- R0; exact A.
Qed.
Print Assumptions C45_own_signature.
(** A two-byte digest and an eight-bit q: an own signature that is refused, and a standard signature refused. *)
Definition sum2_hash (m : list Z) : list Z := [fold_left Z.add m 0 mod 256; Z.of_nat (length m) mod 256].
Definition Sum2 : digest (list Z) := {|
  d_block_size := Some 64%nat; d_bits_len := 16%nat; d_write := fun s d => s ++ d; d_checksum := fun s => (s, sum2_hash s); d_reset := fun _ => [] |}.
Lemma sum2_ok limit : DigestOk Sum2 (fun _ => True) sum2_hash limit.
Proof.
  apply good_ok. constructor.
  - intros s ws _ _. cbn [d_checksum d_reset Sum2 snd]. f_equal.
    assert (G : forall a, fold_left (fun s d => s ++ d) ws a = a ++ concat ws).
    { induction ws as [|w ws IH]; intros a; cbn [fold_left concat]; [rewrite app_nil_r; reflexivity|]. rewrite IH, app_assoc. reflexivity. }
    exact (G []).
  - reflexivity.
  - intros m _ _. split; [reflexivity|]. constructor; [|constructor; [|constructor]]; unfold byte; apply Z.mod_pos_bound; lia.
  - reflexivity.
Qed.
Lemma prime_251 : prime 251. Proof. apply (primeb_ok 20). vm_compute. reflexivity. Qed.
Lemma prime_503 : prime 503. Proof. apply (primeb_ok 30). vm_compute. reflexivity. Qed.
Definition toy_key : dsa_priv := mkDpriv (mkDpub (mkDp 503 251 4) (4 ^ 17 mod 503)) 17.
Theorem C45_long_digest_refuted : exists sk (D : digest (list Z)) msg draws r v, DSA_params 9 8 (dp_p (dk_dp (ds_pk sk))) (dp_q (dk_dp (ds_pk sk))) (dp_g (dk_dp (ds_pk sk))) /\
  DigestOk D (fun _ => True) sum2_hash (2 ^ 64) /\ snd (sign_inner D (inr sk) [] draws msg) = Ok (r, v) /\
  snd (verify_inner D (inl (ds_pk sk)) [] msg r v) = Err VerificationFailed.
Proof.
  exists toy_key, Sum2, [1; 2; 3], [2], 16, 139. split; [|split; [apply sum2_ok|split; vm_compute; reflexivity]]. cbn [toy_key ds_pk dk_dp dp_p dp_q dp_g].
  split; [exact prime_503|]. split; [exact prime_251|]. split; [cbn; lia|]. split; [cbn; lia|]. split; [exists 2; reflexivity|]. split; [lia|vm_compute; reflexivity].
Qed.
Print Assumptions C45_long_digest_refuted.
Example C45_case : snd (dsa_sign SumDigest (inr toy_key) [] [0; 3] sigc_new [1; 2; 3]) = Ok tt /\
  (let c := snd (fst (dsa_sign SumDigest (inr toy_key) [] [0; 3] sigc_new [1; 2; 3])) in
   sc_content c = [64; 30] /\ snd (dsa_verify SumDigest (inl (ds_pk toy_key)) [] c [1; 2; 3]) = Ok tt /\
   snd (dsa_verify SumDigest (inl (ds_pk toy_key)) [] c [1; 2; 4]) = Err VerificationFailed).
Proof. vm_compute. repeat split; reflexivity. Qed.
Example C45_case_hypotheses : 1 < 503 /\ prime 251 /\ 4 ^ 251 mod 503 = 1 /\ (bits_len 251 mod 8 = 0)%nat /\ (8 * 1 <= bits_len 251)%nat /\ DigestOk SumDigest (fun _ => True) sum_hash (2 ^ 64).
Proof. split; [lia|]. split; [exact prime_251|]. split; [vm_compute; reflexivity|]. split; [reflexivity|]. split; [cbn; lia|]. apply sum_digest_ok. Qed.

(** ** C46 *)
(** [atts] are the attempts of the prime search: the candidate q (a prime of [N] bits when generate_prime succeeds), the words
    drawn and the outcomes of the primality test, assumed right when positive.  [fuel] bounds the search for g. *)
Theorem C46_parameters : forall fuel L8 N atts dp, (0 < L8)%nat ->
  Forall (fun a => (forall i x, at_test a i x = true -> prime x) /\ (forall q, at_q a = Some q -> prime q /\ bits_len q = N)) atts ->
  generate_parameters fuel (8 * L8) atts = Ok dp -> DSA_params (Z.of_nat (8 * L8)) (Z.of_nat N) (dp_p dp) (dp_q dp) (dp_g dp).
Proof. intros fuel L8 N atts dp L F E. exact (generate_parameters_ok fuel (8 * L8) L8 N atts dp eq_refl L F E). Qed.
Print Assumptions C46_parameters.
(** The search for g ends, for every pair of primes with q dividing p - 1. *)
Theorem C46_search_ends : forall p q, prime p -> prime q -> (q | p - 1) ->
  exists fuel g, forall fuel', (fuel <= fuel')%nat -> find_g fuel' 2 ((p - 1) / q) p = Some g.
Proof.
  intros p q P Q D. pose proof (prime_ge_2 p P) as P2. pose proof (prime_ge_2 q Q) as Q2.
  destruct (find_g_some p q P Q D (Z.to_nat p) 2 ltac:(lia)) as [g G]; [|lia|exists (Z.to_nat p), g; intros f L; exact (find_g_mono _ _ _ _ _ _ L G)].
  intros x Hx. replace x with 1 by lia. rewrite Z.pow_1_l by (apply Z.div_pos; lia). apply Z.mod_1_l. lia.
Qed.
Print Assumptions C46_search_ends.
Theorem C46_key : forall dp draws sk, 0 < dp_p dp -> Forall (fun x => 0 <= x) draws -> dsa_generate_key dp draws = Ok sk ->
  dk_dp (ds_pk sk) = dp /\ DSA_key (dp_p dp) (dp_q dp) (dp_g dp) (ds_x sk) (dk_y (ds_pk sk)).
Proof. exact generate_key_ok. Qed.
Print Assumptions C46_key.
(** A generated key with generated parameters signs so that verification accepts. *)
Theorem C46_generated_key_signs : forall (S : Type) (D : digest S) (I : S -> Prop) H limit h fuel L8 N8 atts dp xs sk s s' draws c c1 msg s1,
  DigestOk D I H limit -> d_bits_len D = (8 * h)%nat -> (0 < L8)%nat -> (h <= N8)%nat ->
  Forall (fun a => (forall i x, at_test a i x = true -> prime x) /\ (forall q, at_q a = Some q -> prime q /\ bits_len q = (8 * N8)%nat)) atts ->
  generate_parameters fuel (8 * L8) atts = Ok dp -> Forall (fun x => 0 <= x) xs -> dsa_generate_key dp xs = Ok sk ->
  I s -> I s' -> bytes msg -> Z.of_nat (length msg) < limit ->
  dsa_sign D (inr sk) s draws c msg = (s1, c1, Ok tt) -> snd (dsa_verify D (inl (ds_pk sk)) s' c1 msg) = Ok tt.
Proof.
  intros S D I H limit h fuel L8 N8 atts dp xs sk s s' draws c c1 msg s1 HG HB L LE F GP FX GK Hs Hs' B LM E.
  destruct (C46_parameters fuel L8 (8 * N8) atts dp L F GP) as (P & Q & _ & QB & _ & G & OG). pose proof (prime_ge_2 _ P) as P2. pose proof (prime_ge_2 _ Q) as Q2.
  destruct (generate_key_ok dp xs sk ltac:(lia) FX GK) as (ED & X & Y). destruct sk as [[dp' y] x]. cbn [ds_pk dk_dp ds_x dk_y] in *. subst dp' y. destruct dp as [p q g]. cbn [dp_p dp_q dp_g] in *.
  assert (BQ : bits_len q = (8 * N8)%nat).
  { apply Nat.le_antisymm; [apply bits_len_bound; lia|]. destruct (Nat.le_gt_cases (8 * N8) (bits_len q)) as [|C]; [assumption|]. exfalso.
    pose proof (bits_len_upper q ltac:(lia)) as U. assert (2 ^ Z.of_nat (bits_len q) <= 2 ^ (Z.of_nat (8 * N8) - 1)) by (apply Z.pow_le_mono_r; lia). lia. }
  refine (C45_sign_verify S D I H limit h p q g x (inl (mkDpub (mkDp p q g) (g ^ x mod p))) s s' draws c c1 msg s1 HG HB ltac:(lia) Q ltac:(lia) OG (proj1 X) eq_refl _ _ Hs Hs' B LM E).
  - rewrite BQ, Nat.mul_comm. apply Nat.mod_mul. lia.
  - rewrite BQ. lia.
Qed.
Print Assumptions C46_generated_key_signs.
(** What the constructors accept. *)
Theorem C46_constructors : forall p q g dp y pk x, 0 <= p -> 0 <= q -> 0 <= g -> 0 <= y ->
  (dp_new_uncheck p q g = Ok (mkDp p q g) <-> 0 < p /\ 0 < q /\ 0 < g /\ (bits_len g <= bits_len p)%nat) /\
  (dpub_new_uncheck dp y = Ok (mkDpub dp y) <-> 0 < y /\ (bits_len y <= bits_len (dp_p dp))%nat) /\
  (dpriv_new_uncheck pk x = Ok (mkDpriv pk x) <-> 0 < x < dp_q (dk_dp pk)).
Proof.
  intros p q g dp y pk x P Q G Y.
  assert (B0 : forall z, 0 <= z -> (bits_len z =? 0)%nat = (z =? 0)).
  { intros z Z0. destruct (Z.eqb_spec z 0) as [->|N]; [reflexivity|]. apply Nat.eqb_neq. pose proof (bits_len_lower z ltac:(lia)). lia. }
  split; [|split].
  - unfold dp_new_uncheck. rewrite !B0 by assumption. destruct (Z.eqb_spec p 0), (Z.eqb_spec q 0), (Z.eqb_spec g 0), (Nat.ltb_spec (bits_len p) (bits_len g)); cbn [orb]; split; (discriminate || lia || reflexivity).
  - unfold dpub_new_uncheck. rewrite !B0 by assumption. destruct (Z.eqb_spec y 0), (Nat.ltb_spec (bits_len (dp_p dp)) (bits_len y)); cbn [orb]; split; (discriminate || lia || reflexivity).
  - unfold dpriv_new_uncheck. destruct (Z.eqb_spec (Z.sgn x) (-1)) as [E|E]; cbn [orb]; [apply Z.sgn_neg_iff in E; split; (discriminate || lia)|].
    destruct (Z.eqb_spec (Z.sgn x) 0) as [E'|E']; cbn [orb]; [apply Z.sgn_null_iff in E'; split; (discriminate || lia)|].
    destruct (Z.leb_spec (dp_q (dk_dp pk)) x); (split; [|]); [discriminate|lia|intros _|reflexivity]. split; [|assumption].
    destruct (Z.lt_trichotomy x 0) as [C|[C|C]]; [apply Z.sgn_neg_iff in C; contradiction|subst x; contradiction|exact C].
Qed.
Print Assumptions C46_constructors.
(** A run: q = 251, sixteen-bit p. *)
Definition toy_att : dsa_attempt := mkAtt (Some 251) (fun i => [3196059648 + 16449536 * Z.of_nat i]) (fun _ => primeb 255).
Example C46_case : (forall i x, at_test toy_att i x = true -> prime x) /\ (prime 251 /\ bits_len 251 = 8%nat) /\
  exists dp, generate_parameters 5 16 [toy_att] = Ok dp /\ exists sk, dsa_generate_key dp [0; 300; 19] = Ok sk /\ ds_x sk = 19.
Proof.
  split; [intros i x; exact (primeb_ok 255 x)|]. split; [exact (conj prime_251 eq_refl)|]. eexists. split; [vm_compute; reflexivity|]. eexists. split; vm_compute; reflexivity.
Qed.

(** ** C48 *)
(** A content is made by [new] or [form_bigint] and overwritten any number of times; it returns the last pair written. *)
Inductive sig_made : sigc -> option (Z * Z) -> Prop :=
| made_new : sig_made sigc_new None
| made_from r s : 0 <= r -> 0 <= s -> sig_made (sigc_from r s) (Some (r, s))
| made_set c o r s : sig_made c o -> 0 <= r -> 0 <= s -> sig_made (sigc_set c r s) (Some (r, s)).
Theorem C48_last_pair : forall c o, sig_made c o -> sigc_to_bigint c = Ok (match o with Some p => p | None => (0, 0) end).
Proof. intros c o [|r s R S|c' o' r s _ R S]; [reflexivity| |]; [rewrite sigc_from_set|]; apply sigc_set_get; assumption. Qed.
Print Assumptions C48_last_pair.
(** The bytes are those of r followed by those of s, without leading zero bytes, and the recorded lengths are theirs. *)
Theorem C48_layout : forall c r s, 0 <= r -> 0 <= s ->
  let c' := sigc_set c r s in exists rb sb, sc_content c' = rb ++ sb /\ sc_rlen c' = length rb /\ sc_slen c' = length sb /\ be_val rb = r /\ be_val sb = s /\ bytes (sc_content c') /\
    (0 < r -> 0 < hd 0 rb) /\ (0 < s -> 0 < hd 0 sb).
Proof.
  intros c r s R S c'. exists (to_be_bytes r), (to_be_bytes s). split; [reflexivity|]. split; [reflexivity|]. split; [cbn; rewrite app_length; lia|].
  split; [apply be_val_to_be_bytes, R|]. split; [apply be_val_to_be_bytes, S|]. split; [apply bytes_app; split; apply be_bytes_bytes|].
  assert (G : forall x, 0 < x -> 0 < hd 0 (to_be_bytes x)).
  { intros x X. pose proof (be_val_to_be_bytes x ltac:(lia)) as V. pose proof (be_bytes_bytes ((bits_len x + 7) / 8) x) as B. fold (to_be_bytes x) in B.
    assert (LN : length (to_be_bytes x) = ((bits_len x + 7) / 8)%nat) by apply be_bytes_length. destruct (bits_len_lower x X) as [B1 B2].
    pose proof (Nat.div_mod (bits_len x + 7) 8 ltac:(lia)) as DM. pose proof (Nat.mod_upper_bound (bits_len x + 7) 8 ltac:(lia)) as MB.
    destruct (to_be_bytes x) as [|b l]; [cbn [length] in LN; lia|]. cbn [hd]. pose proof (Forall_inv B) as Bb. pose proof (Forall_inv_tail B) as Bl. destruct (Z.eq_dec b 0) as [->|]; [|unfold byte in Bb; lia].
    exfalso. change (0 :: l) with ([0] ++ l) in V. rewrite be_val_app in V. change (be_val [0]) with 0 in V. rewrite Z.mul_0_l, Z.add_0_l in V.
    pose proof (be_val_bound l Bl) as Bd. rewrite V, pow256 in Bd. assert (2 ^ Z.of_nat (8 * length l) <= 2 ^ Z.of_nat (bits_len x - 1)) by (apply Z.pow_le_mono_r; cbn [length] in LN; lia). lia. }
  split; apply G.
Qed.
Print Assumptions C48_layout.
(** [as_mut] gives access to the bytes: shortening them below the length of r makes [verify] panic instead of refusing. *)
Theorem C48_truncation_refuted : forall (S : Type) (D : digest S) kp st msg c r s, 0 < r -> 0 <= s ->
  snd (dsa_verify D kp st (sigc_as_mut (sigc_set c r s) (fun _ => [])) msg) = Panic.
Proof.
  intros S D kp st msg c r s R _. unfold dsa_verify, sigc_to_bigint. cbn [sigc_as_mut sigc_set sc_content sc_rlen length].
  rewrite (proj2 (Nat.ltb_lt _ _)); [reflexivity|]. unfold to_be_bytes. rewrite be_bytes_length. destruct (bits_len_lower r R) as [B1 _].
  pose proof (Nat.div_mod (bits_len r + 7) 8 ltac:(lia)). pose proof (Nat.mod_upper_bound (bits_len r + 7) 8 ltac:(lia)). lia.
Qed.
Print Assumptions C48_truncation_refuted.
Example C48_case : sig_made (sigc_set (sigc_set (sigc_from 70000 5) 1 2) 258 65536) (Some (258, 65536)) /\
  sc_content (sigc_set (sigc_set (sigc_from 70000 5) 1 2) 258 65536) = [1; 2; 1; 0; 0].
Proof. split; [|vm_compute; reflexivity]. eapply made_set; [eapply made_set; [apply made_from; lia|lia|lia]|lia|lia]. Qed.
