(** Property C73: second signatures and exposed nonces.  ECDSA verification takes (r, n - s) whenever it takes (r, s); one known
    nonce gives away the private key; two DSA signatures with the same nonce do. *)
From Coq Require Import Znumtheory String.
From Verif Require Import Base HashModel HashSpec HashApi PropHash MacApi NumTheory Fp EcGroup RsaModel RsaEncModel RsaCases DsaModel DsaSpec DsaProofs
  EllModel EllSpec EllProofs EllApi AesSpec EcdsaModel EcdsaSpec EcdsaGroup EcdsaProofs PropDsa PropEc PropEcdsa.

(** ** The opposite point *)
Definition opposite (P : pt) : pt := match P with None => None | Some (x, y) => Some (x, - y) end.
Lemma opposite_sum p P Q R : ec_sum p P Q R -> ec_sum p (opposite P) (opposite Q) (opposite R).
Proof.
  intros H. destruct H as [Q R H|P R H|x1 y1 x2 y2 H1 H2|l x1 y1 x2 y2 x3 y3 H1 H2 H3 H4|l x1 y1 x2 y2 x3 y3 H1 H2 H3 H4 H5 H6]; cbn [opposite].
  - apply sum_zero_l. destruct Q as [[? ?]|], R as [[? ?]|]; cbn in *; try exact H. split; [apply H|apply cong_opp, H].
  - apply sum_zero_r. destruct P as [[? ?]|], R as [[? ?]|]; cbn in *; try exact H. split; [apply H|apply cong_opp, H].
  - apply sum_opposite; [exact H1|]. apply cong_opp in H2. exact H2.
  - apply (sum_chord p (- l)); [exact H1| | |].
    + replace (- l * (x2 - x1)) with (- (l * (x2 - x1))) by ring. replace (- y2 - - y1) with (- (y2 - y1)) by ring. apply cong_opp, H2.
    + replace (- l * - l - x1 - x2) with (l * l - x1 - x2) by ring. exact H3.
    + replace (- l * (x1 - x3) - - y1) with (- (l * (x1 - x3) - y1)) by ring. apply cong_opp, H4.
  - apply (sum_tangent p (- l)); [exact H1|apply cong_opp, H2| | | |].
    + intros X. apply H3. apply cong_opp in X. rewrite Z.opp_involutive in X. exact X.
    + replace (- l * (2 * - y1)) with (l * (2 * y1)) by ring. exact H4.
    + replace (- l * - l - x1 - x2) with (l * l - x1 - x2) by ring. exact H5.
    + replace (- l * (x1 - x3) - - y1) with (- (l * (x1 - x3) - y1)) by ring. apply cong_opp, H6.
Qed.
Lemma opposite_same p P Q : same_point p P Q -> same_point p (opposite P) (opposite Q).
Proof. destruct P as [[? ?]|], Q as [[? ?]|]; cbn; auto. intros [A B]. split; [exact A|apply cong_opp, B]. Qed.

Section Group.
Variable c : curve.
Hypothesis S : sound_curve (cp_p c) (cp_b c).
Hypothesis N : 0 < cp_n c.
Notation p := (cp_p c). Notation b := (cp_b c). Notation n := (cp_n c).
Let Hp : prime p := proj1 S.
Let P3 : 3 < p := proj1 (proj2 S).
Let Hb : ~ cong p b 0 := proj1 (proj2 (proj2 S)).
Let Hd : ~ cong p (b * b) 4 := proj2 (proj2 (proj2 S)).
Lemma multiple_opposite x y k R : on_curve p b (decode (x, y)) -> ec_multiple p (Z.to_nat n) (decode (x, y)) None -> 0 <= k <= n ->
  ec_multiple p (Z.to_nat k) (decode (x, y)) R -> ec_multiple p (Z.to_nat (n - k)) (decode (x, y)) (opposite R).
Proof.
  intros O MN K M. apply (multiple_ok c S) in M; [|exact O]. apply (multiple_ok c S) in MN; [|exact O]. apply (multiple_ok c S); [exact O|].
  rewrite !Z2Nat.id in * by lia. destruct M as (u & v & E & SP). destruct MN as (u0 & v0 & E0 & SP0).
  pose proof (proj1 (on_phi p b Hp P3 _) O) as OP. set (T := phi p Hp (x, y)) in *.
  rewrite (curve_scalar_ok p b Hp P3 Hd c eq_refl) in E by (try exact O; lia). rewrite (curve_scalar_ok p b Hp P3 Hd c eq_refl) in E0 by (try exact O; lia).
  rewrite (curve_scalar_ok p b Hp P3 Hd c eq_refl) by (try exact O; lia). fold T in E, E0 |- *.
  pose proof (on_zmul p b Hp P3 k T OP) as OK. pose proof (on_zmul p b Hp P3 (n - k) T OP) as ONK. pose proof (on_zmul p b Hp P3 n T OP) as ON.
  injection E as E. injection E0 as E0. rewrite <- E0 in SP0. rewrite <- E in SP.
  rewrite (decode_psi p b Hp P3 Hb) in SP0 by exact ON. rewrite (decode_psi p b Hp P3 Hb) in SP by exact OK.
  assert (ZN : zmul p Hp n T = None) by (destruct (zmul p Hp n T) as [[? ?]|]; [contradiction SP0|reflexivity]).
  replace n with ((n - k) + k) in ZN by lia. rewrite (zmul_add p b Hp P3 Hd) in ZN by (try exact OP; lia).
  pose proof (padd_none _ _ _ _ _ _ _ _ (Fp_field p Hp) _ _ _ (two_nz p Hp P3) (fdisc p b Hp P3 Hd) _ _ ONK OK ZN) as ZM. clear ZN. rename ZM into ZN.
  exists (fst (psi p (zmul p Hp (n - k) T))), (snd (psi p (zmul p Hp (n - k) T))).
  split; [destruct (psi p (zmul p Hp (n - k) T)); reflexivity|].
  replace (fst (psi p (zmul p Hp (n - k) T)), snd (psi p (zmul p Hp (n - k) T))) with (psi p (zmul p Hp (n - k) T)) by (destruct (psi p (zmul p Hp (n - k) T)); reflexivity).
  rewrite (decode_psi p b Hp P3 Hb) by exact ONK. rewrite ZN. destruct (zmul p Hp k T) as [[a d]|], R as [[a' d']|]; cbn [neg opposite same_point] in SP |- *; try exact SP.
  destruct SP as [SX SY]. split; [exact SX|]. apply (cong_trans p _ (- to_Z p d)); [|apply cong_opp, SY].
  apply (cong_oz p Hp P3). rewrite tz_oz, of_opp, tz_oz. reflexivity.
Qed.
Notation G := (decode (cp_gx c, cp_gy c)).
Lemma accepts_opposite Q z r s : ECDSA_group p b n G -> on_curve p b Q -> (exists x y, Q = decode (x, y)) -> ec_multiple p (Z.to_nat n) Q None ->
  ECDSA_accepts p n G Q z r s -> ECDSA_accepts p n G Q z r (n - s).
Proof.
  intros (_ & OG & _ & PN & N2 & MG) OQ (qx & qy & ->) MQ (R0 & S0 & w & U & V & x & y & HW & MU & MV & SU & RX & ER).
  split; [exact R0|]. split; [lia|].
  assert (NEG : forall a X Y R, on_curve p b (decode (X, Y)) -> ec_multiple p (Z.to_nat n) (decode (X, Y)) None ->
    ec_multiple p (Z.to_nat ((a * w) mod n)) (decode (X, Y)) R -> ec_multiple p (Z.to_nat ((a * (- w)) mod n)) (decode (X, Y)) (opposite R)).
  { intros a X Y R O M MR. pose proof (Z.mod_pos_bound (a * w) n N) as B. replace (a * - w) with (- (a * w)) by ring.
    destruct (Z.eq_dec ((a * w) mod n) 0) as [Z0|Z0].
    - rewrite Z_mod_zero_opp_full by exact Z0. rewrite Z0 in MR. cbn in MR |- *. subst R. reflexivity.
    - rewrite Z_mod_nz_opp_full by exact Z0. apply multiple_opposite; [exact O|exact M|lia|exact MR]. }
  exists (- w), (opposite U), (opposite V), x, (- y). split.
  { replace ((n - s) * - w) with (s * w + (- w) * n) by ring. rewrite Z_mod_plus_full. exact HW. }
  split; [apply NEG; assumption|]. split; [apply NEG; assumption|]. split; [exact (opposite_sum p _ _ _ SU)|]. split; [exact RX|exact ER].
Qed.
End Group.

(** ** C73 *)
(** The second signature: [verify] answers (r, s) and (r, n - s) alike. *)
Theorem C73_ecdsa_second_signature : forall (S : Type) (D : digest S) (I : S -> Prop) H limit c qx qy o sc sc' r s msg, DigestOk D I H limit ->
  group_of c -> verifier I c qx qy o -> on_curve (cp_p c) (cp_b c) (decode (qx, qy)) -> ec_multiple (cp_p c) (Z.to_nat (cp_n c)) (decode (qx, qy)) None ->
  bytes msg -> Z.of_nat (length msg) < limit -> sigc_to_bigint sc = Ok (r, s) -> sigc_to_bigint sc' = Ok (r, cp_n c - s) ->
  snd (ecdsa_verify D o sc' msg) = snd (ecdsa_verify D o sc msg).
Proof.
  intros S D I H limit c qx qy o sc sc' r s msg HG GR VE OQ MQ B L E E'.
  destruct (C47_verify_iff S D I H limit c qx qy o sc r s msg HG GR VE OQ MQ B L E) as [D1 A1]. cbv zeta in D1, A1.
  destruct (C47_verify_iff S D I H limit c qx qy o sc' r (cp_n c - s) msg HG GR VE OQ MQ B L E') as [D2 A2]. cbv zeta in D2, A2.
  pose proof GR as (SC & _ & _ & _ & N2 & _).
  assert (X : forall z u, ECDSA_accepts (cp_p c) (cp_n c) (decode (cp_gx c, cp_gy c)) (decode (qx, qy)) z r u -> ECDSA_accepts (cp_p c) (cp_n c) (decode (cp_gx c, cp_gy c)) (decode (qx, qy)) z r (cp_n c - u)).
  { intros z u A. apply (accepts_opposite c SC); [lia|exact GR|exact OQ|eauto|exact MQ|exact A]. }
  assert (Y : snd (ecdsa_verify D o sc' msg) = Ok tt <-> snd (ecdsa_verify D o sc msg) = Ok tt).
  { rewrite A1, A2. split; [|apply X]. intros A. apply X in A. replace (cp_n c - (cp_n c - s)) with s in A by ring. exact A. }
  destruct D1 as [D1|D1], D2 as [D2|D2]; rewrite D1, D2 in *; try reflexivity; destruct Y as [Y1 Y2]; [discriminate (Y2 eq_refl)|discriminate (Y1 eq_refl)].
Qed.
Print Assumptions C73_ecdsa_second_signature.
(** It is a different one: s is not n - s, n being odd. *)
Theorem C73_second_differs : forall c s, group_of c -> s <> cp_n c - s.
Proof.
  intros c s (_ & _ & _ & PN & N2 & _) E. assert (X : 2 = cp_n c) by (apply (prime_div_prime 2 (cp_n c) prime_2 PN); exists s; lia). lia.
Qed.
Print Assumptions C73_second_differs.

(** Solving for the private key. *)
Lemma solve_key n x a t : prime n -> ~ (n | a) -> (x * a) mod n = t mod n -> forall x', (x' * a) mod n = t mod n <-> x' mod n = x mod n.
Proof.
  intros P NA E x'. pose proof (prime_ge_2 n P) as N2. rewrite <- E. split; intros H.
  - apply divide_mod_eq; [lia|]. apply mod_eq_divide in H; [|lia]. replace (x' * a - x * a) with ((x' - x) * a) in H by ring.
    apply prime_mult in H; [|exact P]. destruct H as [H|H]; [exact H|contradiction].
  - rewrite <- (Z.mul_mod_idemp_l x'), H, Z.mul_mod_idemp_l by lia. reflexivity.
Qed.
Lemma not_div n r : 0 < r < n -> ~ (n | r).
Proof. intros R D. apply Z.divide_pos_le in D; lia. Qed.

(** Whoever knows the nonce of one ECDSA signature, the signature and the message solves one linear equation for the key. *)
Theorem C73_ecdsa_known_nonce : forall (S : Type) (D : digest S) (I : S -> Prop) H limit c d o fuel ws sc msg o1 ws1 sc1, DigestOk D I H limit ->
  group_of c -> signer I c d o -> bytes msg -> Z.of_nat (length msg) < limit ->
  Z.of_nat (length (to_be_bytes d)) + Z.of_nat (length (H msg)) + 32 < 2 ^ 64 ->
  ecdsa_sign D fuel o ws sc msg = (o1, ws1, sc1, Ok tt) ->
  exists k r s, 0 < k < cp_n c /\ sigc_to_bigint sc1 = Ok (r, s) /\
    ECDSA_signature (cp_p c) (cp_n c) (decode (cp_gx c, cp_gy c)) d (DSA_z (Z.of_nat (bits_len (cp_n c))) (H msg)) k r s /\
    forall d', (d' * r) mod cp_n c = (s * k - DSA_z (Z.of_nat (bits_len (cp_n c))) (H msg)) mod cp_n c <-> d' mod cp_n c = d mod cp_n c.
Proof.
  intros S D I H limit c d o fuel ws sc msg o1 ws1 sc1 HG GR SI B L LL E.
  pose proof (C47_sign_exact S D I H limit c d o fuel ws sc msg HG GR SI B L LL) as SX. cbv zeta in SX. rewrite E in SX. destruct SX as (_ & _ & _ & SX).
  destruct (SX eq_refl) as (i & r & s & _ & SG & _ & ES). pose proof GR as (_ & _ & _ & PN & N2 & _).
  set (k := ECDSA_nonce _ _ _ _ i) in SG. assert (K : 0 < k < cp_n c) by (apply nonce_range; lia). clearbody k. exists k, r, s. split; [exact K|]. split; [exact ES|]. split; [exact SG|].
  destruct SG as (x & y & _ & _ & _ & R & _ & EQ). apply solve_key; [exact PN|apply not_div, R|].
  apply divide_mod_eq; [lia|]. apply mod_eq_divide in EQ; [|lia]. destruct EQ as [q EQ]. exists (- q). lia.
Qed.
Print Assumptions C73_ecdsa_known_nonce.
(** Two DSA signatures: each nonce gives away the key, and a nonce used for two different digests gives it away without being known. *)
Theorem C73_dsa_nonces : forall (S : Type) (D : digest S) (I : S -> Prop) H limit h p q g y x s1 s2 draws1 draws2 msg1 msg2 s1' s2' r1 v1 r2 v2,
  DigestOk D I H limit -> d_bits_len D = (8 * h)%nat -> 0 < p -> prime q -> 0 < g -> 0 < x -> (bits_len q mod 8 = 0)%nat -> I s1 -> I s2 ->
  bytes msg1 -> bytes msg2 -> Z.of_nat (length msg1) < limit -> Z.of_nat (length msg2) < limit ->
  sign_inner D (inr (mkDpriv (mkDpub (mkDp p q g) y) x)) s1 draws1 msg1 = (s1', Ok (r1, v1)) ->
  sign_inner D (inr (mkDpriv (mkDpub (mkDp p q g) y) x)) s2 draws2 msg2 = (s2', Ok (r2, v2)) ->
  let z1 := DSA_z (Z.of_nat (bits_len q)) (H msg1) in let z2 := DSA_z (Z.of_nat (bits_len q)) (H msg2) in
  exists k1 k2, In k1 draws1 /\ In k2 draws2 /\ 0 < k1 /\ 0 < k2 /\
    (forall x', (x' * r1) mod q = (v1 * k1 - z1) mod q <-> x' mod q = x mod q) /\
    (k1 = k2 -> r1 = r2) /\
    (k1 = k2 -> z1 mod q <> z2 mod q -> forall x', (x' * (r1 * (v2 - v1))) mod q = (v1 * z2 - v2 * z1) mod q <-> x' mod q = x mod q).
Proof.
  intros S D I H limit h p q g y x s1 s2 draws1 draws2 msg1 msg2 s1' s2' r1 v1 r2 v2 HG HB P Q G X M I1 I2 B1 B2 L1 L2 E1 E2 z1 z2. pose proof (prime_ge_2 q Q) as Q2.
  destruct (C45_sign_standard S D I H limit h p q g y x s1 s1' draws1 msg1 r1 v1 HG HB P Q G X M I1 B1 L1 E1) as (k1 & IK1 & K1 & ER1 & R1 & V1 & EQ1).
  destruct (C45_sign_standard S D I H limit h p q g y x s2 s2' draws2 msg2 r2 v2 HG HB P Q G X M I2 B2 L2 E2) as (k2 & IK2 & K2 & ER2 & R2 & V2 & EQ2).
  fold z1 in EQ1. fold z2 in EQ2. exists k1, k2. split; [exact IK1|]. split; [exact IK2|]. split; [exact K1|]. split; [exact K2|].
  apply mod_eq_divide in EQ1; [|lia]. apply mod_eq_divide in EQ2; [|lia]. destruct EQ1 as [a1 EQ1]. destruct EQ2 as [a2 EQ2]. split; [|split].
  - apply solve_key; [exact Q|apply not_div, R1|]. apply divide_mod_eq; [lia|]. exists (- a1). lia.
  - intros <-. congruence.
  - intros <- ZD. assert (r1 = r2) by congruence. subst r2. apply solve_key; [exact Q| |].
    + intros DV. apply prime_mult in DV; [|exact Q]. destruct DV as [DV|[m DV]]; [exact (not_div _ _ R1 DV)|]. apply ZD.
      assert (m = 0) by (clear -DV V1 V2; nia). assert (v1 = v2) by (subst m; lia). subst v2. apply divide_mod_eq; [lia|]. exists (a2 - a1). lia.
    + apply divide_mod_eq; [lia|]. exists (v1 * a2 - v2 * a1). replace (v1 * a2 - v2 * a1) with (- (a1 * v2 - a2 * v1)) by ring.
      transitivity (v2 * (z1 + x * r1 - v1 * k1) - v1 * (z2 + x * r1 - v2 * k1)); [ring|].
      replace (z1 + x * r1 - v1 * k1) with (- (a1 * q)) by lia. replace (z2 + x * r1 - v2 * k1) with (- (a2 * q)) by lia. ring.
Qed.
Print Assumptions C73_dsa_nonces.
(** The signature of C47_sign_case and its second; the key 17 of [toy_key] from two signatures with nonce 3. *)
Example C73_case : snd (ecdsa_verify Sum2 toy_signer (sigc_from 20 211) [5; 6]) = Ok tt /\ snd (ecdsa_verify Sum2 toy_signer (sigc_from 20 (cp_n toy9 - 211)) [5; 6]) = Ok tt /\
  exists r v1 v2, snd (sign_inner SumDigest (inr toy_key) [] [3] [1; 2; 3]) = Ok (r, v1) /\ snd (sign_inner SumDigest (inr toy_key) [] [3] [1; 2; 4]) = Ok (r, v2) /\
    (17 * (r * (v2 - v1))) mod 251 = (v1 * 7 - v2 * 6) mod 251.
Proof. split; [vm_compute; reflexivity|]. split; [vm_compute; reflexivity|]. do 3 eexists. split; [vm_compute; reflexivity|]. split; vm_compute; reflexivity. Qed.
