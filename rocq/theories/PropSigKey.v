(** Property C81: what an accepted ECDSA signature says.  It is accepted exactly when the holder of the private key could have made it
    with some nonce; only the number made from the hash counts; it does not single out one public key, for any message and any
    signature have a key that accepts them; and without a hash in front anyone can sign.
    [ECDSA_signature], [ECDSA_accepts] are in EcdsaSpec.v, [signer], [verifier], [group_of] in PropEcdsa.v, [builtin_curves] in PropCurves.v. *)
From Coq Require Import Znumtheory.
From Verif Require Import Base NumTheory RsaModel RsaEncModel HashModel HashApi EllModel EllSpec EllProofs EllApi DsaSpec DsaModel DsaProofs EcdsaModel EcdsaSpec EcdsaGroup EcdsaProofs
  PropDsa PropEc PropEcdsa PropSigRel PropCurves CurveGroup PropOrder.
Local Open Scope Z_scope.

Definition accepts (c : curve) (qx qy z r s : Z) : Prop := ECDSA_accepts (cp_p c) (cp_n c) (decode (cp_gx c, cp_gy c)) (decode (qx, qy)) z r s.
Definition signed (c : curve) (d z k r s : Z) : Prop := ECDSA_signature (cp_p c) (cp_n c) (decode (cp_gx c, cp_gy c)) d z k r s.
(** The number the algorithm makes from a message. *)
Definition number (H : list Z -> list Z) (c : curve) (msg : list Z) : Z := DSA_z (Z.of_nat (bits_len (cp_n c))) (H msg).

Lemma base_mod c k : group_of c -> 0 <= k -> curve_scalar_base c k = curve_scalar_base c (k mod cp_n c).
Proof.
  intros GR K. assert (N2 : 2 < cp_n c) by apply GR. pose proof (Z.mod_pos_bound k (cp_n c) ltac:(lia)) as R. rewrite !(base_ok c GR) by lia. do 2 f_equal.
  symmetry. apply (order_mod c (proj1 GR) (proj1 (proj2 (proj2 (proj2 GR)))) _ (PG_on c GR) (PG_n c GR)). exact K.
Qed.
Lemma accepted_signature c d z r s qx qy : group_of c -> 0 <= d -> curve_scalar_base c d = Some (qx, qy) -> accepts c qx qy z r s ->
  exists k, 0 < k < cp_n c /\ signed c d z k r s.
Proof.
  intros GR D EQ (R & S0 & w & U & V & x & y & HW & MU & MV & SM & X & ER).
  assert (S := proj1 GR). assert (OG := proj1 (proj2 GR)). assert (N2 : 2 < cp_n c) by apply GR.
  destruct (multiple_order c GR d qx qy D EQ) as (OQ & _ & _).
  set (u1 := (z * w) mod cp_n c) in *. set (u2 := (r * w) mod cp_n c) in *.
  assert (B1 : 0 <= u1 < cp_n c) by (apply Z.mod_pos_bound; lia). assert (B2 : 0 <= u2 < cp_n c) by (apply Z.mod_pos_bound; lia).
  apply (multiple_ok c S) in MU; [|exact OG]. apply (multiple_ok c S) in MV; [|exact OQ]. rewrite Z2Nat.id in MU, MV by lia.
  destruct MU as (a1 & b1 & E1 & S1). destruct MV as (a2 & b2 & E2 & S2).
  assert (UD : 0 <= u2 * d) by (apply Z.mul_nonneg_nonneg; lia).
  destruct (C49_scalar_of_product c _ _ u2 d S OG (proj1 B2) D) as (qx' & qy' & EQ' & E3). unfold curve_scalar_base in EQ. rewrite EQ in EQ'. injection EQ' as <- <-. rewrite E2 in E3.
  destruct (C49_scalar_of_sum c _ _ u1 (u2 * d) S OG (proj1 B1) UD) as (a1' & b1' & a2' & b2' & F1 & F2 & O1 & O2 & E4).
  rewrite E1 in F1. injection F1 as <- <-. rewrite E3 in F2. injection F2 as <- <-.
  destruct (C49_addition c a1 b1 a2 b2 S O1 O2) as (a3 & b3 & E5 & RX & RY & O3 & SM'). rewrite E5 in E4.
  assert (SP : same_point (cp_p c) (decode (a3, b3)) (Some (x, y))).
  { apply (C49_sum_is_unique (cp_p c) U V); [apply S|apply S| |exact SM]. apply (sum_proper _ (decode (a1, b1)) (decode (a2, b2)) (decode (a3, b3))); auto. apply same_refl. }
  change (curve_scalar_base c (u1 + u2 * d) = Some (a3, b3)) in E4. rewrite base_mod in E4 by (exact GR || lia).
  set (k := (u1 + u2 * d) mod cp_n c) in *. assert (KR : 0 <= k < cp_n c) by (apply Z.mod_pos_bound; lia).
  assert (K0 : k <> 0).
  { intros K0. rewrite K0 in E4. unfold curve_scalar_base in E4. rewrite C49_scalar_is_repeated_addition in E4 by (try exact S; try exact OG; lia).
    cbn [Z.to_nat Nat.iter nat_rect] in E4. injection E4 as <- <-. exact SP. }
  exists k. split; [lia|]. exists x, y. split; [|split; [exact X|split; [exact ER|split; [exact R|split; [exact S0|]]]]].
  - apply (multiple_ok c S); [exact OG|]. rewrite Z2Nat.id by lia. exists a3, b3. split; [exact E4|exact SP].
  - apply cong_mod; [lia|]. apply cong_1 in HW; [|lia].
    assert (C1 : cong (cp_n c) u1 (z * w)) by (apply cong_mod; [lia|]; apply Z.mod_mod; lia). assert (C2 : cong (cp_n c) u2 (r * w)) by (apply cong_mod; [lia|]; apply Z.mod_mod; lia).
    assert (CK : cong (cp_n c) k (u1 + u2 * d)) by (apply cong_mod; [lia|]; apply Z.mod_mod; lia).
    apply (cong_trans _ _ (s * (z * w + r * w * d))).
    + apply cong_mul; [apply cong_refl|]. apply (cong_trans _ _ _ _ CK). apply cong_add; [exact C1|]. apply cong_mul; [exact C2|apply cong_refl].
    + replace (s * (z * w + r * w * d)) with (s * w * (z + d * r)) by ring. replace (z + d * r) with (1 * (z + d * r)) at 2 by ring. apply cong_mul; [exact HW|apply cong_refl].
Qed.

Lemma number_nonneg (S : Type) (D : digest S) (I : S -> Prop) H limit c msg : DigestOk D I H limit -> bytes msg -> Z.of_nat (length msg) < limit -> 0 <= number H c msg.
Proof.
  intros HG B L. assert (HB : bytes (H msg)) by (destruct HG as [_ _ _ _ _ G6]; destruct (G6 msg B L); auto). unfold number. rewrite <- hash_number by exact HB. apply hash_nonneg, HB.
Qed.

(** Verification with the public key of [d] accepts exactly what signing with [d] and some nonce gives. *)
Theorem C81_accepted_iff_signed : forall (S : Type) (D : digest S) (I : S -> Prop) H limit c d qx qy o sc r s msg, DigestOk D I H limit ->
  group_of c -> 0 <= d -> curve_scalar_base c d = Some (qx, qy) -> verifier I c qx qy o ->
  bytes msg -> Z.of_nat (length msg) < limit -> sigc_to_bigint sc = Ok (r, s) ->
  snd (ecdsa_verify D o sc msg) = Ok tt <-> exists k, 0 < k < cp_n c /\ signed c d (number H c msg) k r s.
Proof.
  intros S D I H limit c d qx qy o sc r s msg HG GR D0 EQ VE B L ES. destruct (multiple_order c GR d qx qy D0 EQ) as (OQ & MQ & _).
  rewrite (proj2 (C47_verify_iff S D I H limit c qx qy o sc r s msg HG GR VE OQ MQ B L ES)). split.
  - intros A. exact (accepted_signature c d _ r s qx qy GR D0 EQ A).
  - intros (k & K & SG). apply (signature_accepted c GR d _ k r s qx qy K D0); [|exact EQ|exact SG].
    exact (number_nonneg S D I H limit c msg HG B L).
Qed.
Print Assumptions C81_accepted_iff_signed.

(** On the built-in curves: every valid public key has one such private key. *)
Theorem C81_valid_key : forall c qx qy, In c builtin_curves -> is_on_curve c qx qy = true -> 0 <= qx < cp_p c -> 0 <= qy < cp_p c ->
  exists d, 1 <= d <= cp_n c - 1 /\ curve_scalar_base c d = Some (qx, qy) /\
  forall (S : Type) (D : digest S) (I : S -> Prop) H limit o sc r s msg, DigestOk D I H limit -> verifier I c qx qy o ->
    bytes msg -> Z.of_nat (length msg) < limit -> sigc_to_bigint sc = Ok (r, s) ->
    snd (ecdsa_verify D o sc msg) = Ok tt <-> exists k, 0 < k < cp_n c /\ signed c d (number H c msg) k r s.
Proof.
  intros c qx qy B ON X Y. destruct (C60_private_key c qx qy B ON X Y) as (d & D0 & E & _). exists d. split; [exact D0|]. split; [exact E|].
  intros S D I H limit o sc r s msg HG VE BM L ES. exact (C81_accepted_iff_signed S D I H limit c d qx qy o sc r s msg HG (C50_prime_order c B) ltac:(lia) E VE BM L ES).
Qed.
Print Assumptions C81_valid_key.

(** Two messages whose numbers agree modulo n are accepted with the same signatures: of the hash value only its leftmost bits count. *)
Theorem C81_same_number : forall (S : Type) (D : digest S) (I : S -> Prop) H limit c qx qy o sc r s msg msg', DigestOk D I H limit ->
  group_of c -> verifier I c qx qy o -> on_curve (cp_p c) (cp_b c) (decode (qx, qy)) -> ec_multiple (cp_p c) (Z.to_nat (cp_n c)) (decode (qx, qy)) None ->
  bytes msg -> Z.of_nat (length msg) < limit -> bytes msg' -> Z.of_nat (length msg') < limit -> sigc_to_bigint sc = Ok (r, s) ->
  number H c msg mod cp_n c = number H c msg' mod cp_n c -> snd (ecdsa_verify D o sc msg) = snd (ecdsa_verify D o sc msg').
Proof.
  intros S D I H limit c qx qy o sc r s msg msg' HG GR VE OQ MQ B L B' L' ES E.
  destruct (C47_verify_iff S D I H limit c qx qy o sc r s msg HG GR VE OQ MQ B L ES) as [O1 A1]. destruct (C47_verify_iff S D I H limit c qx qy o sc r s msg' HG GR VE OQ MQ B' L' ES) as [O2 A2].
  cbv zeta in *. fold (number H c msg) in A1. fold (number H c msg') in A2. assert (N2 : 2 < cp_n c) by apply GR.
  assert (K : forall z z', z mod cp_n c = z' mod cp_n c -> ECDSA_accepts (cp_p c) (cp_n c) (decode (cp_gx c, cp_gy c)) (decode (qx, qy)) z r s ->
    ECDSA_accepts (cp_p c) (cp_n c) (decode (cp_gx c, cp_gy c)) (decode (qx, qy)) z' r s).
  { intros z z' EZ (R & S0 & w & U & V & x & y & HW & MU & R'). split; [exact R|]. split; [exact S0|]. exists w, U, V, x, y. split; [exact HW|]. split; [|exact R'].
    rewrite <- Z.mul_mod_idemp_l, <- EZ, Z.mul_mod_idemp_l by lia. exact MU. }
  destruct O1 as [O1|O1]; rewrite O1.
  - symmetry. apply A2. apply (K _ _ E). apply A1. exact O1.
  - destruct O2 as [O2|O2]; rewrite O2; [|reflexivity]. exfalso. assert (X : snd (ecdsa_verify D o sc msg) = Ok tt) by (apply A1, (K _ _ (eq_sym E)), A2, O2). congruence.
Qed.
Print Assumptions C81_same_number.

(** ** A key for any signature *)
(** Whatever the message and the signature (r, s), if r belongs to a point of the curve there is a valid public key that accepts them. *)
Lemma key_for c x y z s : In c builtin_curves -> is_on_curve c x y = true -> 0 <= x < cp_p c -> 0 <= y < cp_p c -> 0 < x mod cp_n c -> 0 < s < cp_n c ->
  exists d k, 1 <= d <= cp_n c - 1 /\ 0 < k < cp_n c /\ signed c d z k (x mod cp_n c) s.
Proof.
  intros B ON X Y R0 S0. assert (GR := C50_prime_order c B). assert (PN := C50_prime_n c B). assert (N2 : 2 < cp_n c) by apply GR. assert (SC := proj1 GR). assert (OG := proj1 (proj2 GR)).
  destruct (point_some c GR x y ON) as [DS O]. destruct (C60_private_key c x y B ON X Y) as (k & K & E & _).
  set (n := cp_n c) in *. set (r := x mod n) in *. assert (RR : 0 < r < n) by (pose proof (Z.mod_pos_bound x n); lia).
  assert (GC : Z.gcd r n = 1) by (apply prime_gcd_1; [exact PN|intros Dv; apply Z.divide_pos_le in Dv; lia]).
  destruct (inv_mod_coprime r n ltac:(lia) GC) as (w & _ & RW & HW). assert (HW1 : cong n (w * r) 1) by (apply cong_mod; [lia|]; exact HW).
  assert (MK : ec_multiple (cp_p c) (Z.to_nat k) (decode (cp_gx c, cp_gy c)) (Some (x, y))).
  { apply (multiple_ok c SC); [exact OG|]. rewrite Z2Nat.id by lia. exists x, y. split; [exact E|]. rewrite DS. apply same_refl. }
  assert (MK' : ec_multiple (cp_p c) (Z.to_nat (n - k)) (decode (cp_gx c, cp_gy c)) (Some (x, - y))).
  { exact (multiple_opposite c SC ltac:(unfold n in *; lia) _ _ k (Some (x, y)) OG (proj2 (proj2 (proj2 (proj2 (proj2 GR))))) ltac:(unfold n in *; lia) MK). }
  assert (T : forall j y', 0 < j < n -> ec_multiple (cp_p c) (Z.to_nat j) (decode (cp_gx c, cp_gy c)) (Some (x, y')) -> ~ cong n (s * j) z ->
    exists d j, 1 <= d <= n - 1 /\ 0 < j < n /\ signed c d z j r s).
  { intros j y' J MJ NC. exists (((s * j - z) * w) mod n), j. pose proof (Z.mod_pos_bound ((s * j - z) * w) n ltac:(lia)) as DR.
    assert (CD : cong n (((s * j - z) * w) mod n * r) (s * j - z)).
    { apply (cong_trans _ _ ((s * j - z) * w * r)); [apply cong_mul; [apply cong_mod; [lia|apply Z.mod_mod; lia]|apply cong_refl]|].
      replace ((s * j - z) * w * r) with ((s * j - z) * (w * r)) by ring. rewrite <- (Z.mul_1_r (s * j - z)) at 2. apply cong_mul; [apply cong_refl|exact HW1]. }
    split; [|split; [exact J|]].
    - assert (D0 : ((s * j - z) * w) mod n <> 0); [|lia]. intros D0. rewrite D0 in CD. apply NC. destruct CD as [q Eq]. exists (- q). lia.
    - exists x, y'. split; [exact MJ|]. split; [exact X|]. split; [reflexivity|]. split; [exact RR|]. split; [exact S0|]. apply cong_mod; [lia|].
      apply (cong_trans _ _ (z + (s * j - z))); [replace (z + (s * j - z)) with (s * j) by ring; apply cong_refl|]. apply cong_add; [apply cong_refl|apply cong_sym, CD]. }
  destruct (Zdivide_dec n (s * k - z)) as [C1|C1]; [|exact (T k y ltac:(lia) MK C1)]. destruct (Zdivide_dec n (s * (n - k) - z)) as [C2|C2]; [|exact (T (n - k) (- y) ltac:(lia) MK' C2)].
  exfalso. assert (C3 : (n | 2 * (s * k))).
  { replace (2 * (s * k)) with ((s * k - z) - (s * (n - k) - z) + s * n) by ring. apply Z.divide_add_r; [apply Z.divide_sub_r; assumption|]. exists s. reflexivity. }
  apply prime_mult in C3; [|exact PN]. destruct C3 as [C3|C3]; [apply Z.divide_pos_le in C3; lia|].
  apply prime_mult in C3; [|exact PN]. destruct C3 as [C3|C3]; apply Z.divide_pos_le in C3; lia.
Qed.
Theorem C81_some_key_accepts : forall c x y z s, In c builtin_curves -> is_on_curve c x y = true -> 0 <= x < cp_p c -> 0 <= y < cp_p c ->
  0 < x mod cp_n c -> 0 < s < cp_n c ->
  exists qx qy, is_on_curve c qx qy = true /\ 0 <= qx < cp_p c /\ 0 <= qy < cp_p c /\
  forall (S : Type) (D : digest S) (I : S -> Prop) H limit o sc msg, DigestOk D I H limit -> verifier I c qx qy o ->
    bytes msg -> Z.of_nat (length msg) < limit -> number H c msg = z -> sigc_to_bigint sc = Ok (x mod cp_n c, s) ->
    snd (ecdsa_verify D o sc msg) = Ok tt.
Proof.
  intros c x y z s B ON X Y R0 S0. destruct (key_for c x y z s B ON X Y R0 S0) as (d & k & D0 & K & SG).
  destruct (C60_exact_order c (cp_gx c) (cp_gy c) d B (proj1 (C50_base_point c B)) ltac:(lia)) as (qx & qy & E & _ & QX & QY & OQ).
  exists qx, qy. split; [exact OQ|]. split; [exact QX|]. split; [exact QY|]. intros S D I H limit o sc msg HG VE BM L EZ ES.
  apply (C81_accepted_iff_signed S D I H limit c d qx qy o sc _ s msg HG (C50_prime_order c B) ltac:(lia) E VE BM L ES). exists k. split; [exact K|]. rewrite EZ. exact SG.
Qed.
Print Assumptions C81_some_key_accepts.

(** ** Signing numbers without the private key *)
(** From u and v anyone can compute R = uG + vQ, r, s = r / v and z = u s: the public key Q accepts (r, s) for any message whose number is z
    modulo n.  Only the hash function keeps such a message from being found. *)
Theorem C81_number_first : forall c qx qy u v ux uy vx vy x y s z, In c builtin_curves -> is_on_curve c qx qy = true -> 0 <= qx < cp_p c -> 0 <= qy < cp_p c -> 0 <= u -> 0 <= v ->
  curve_scalar_base c u = Some (ux, uy) -> curve_scalar c qx qy v = Some (vx, vy) -> curve_add c ux uy vx vy = Some (x, y) -> (x, y) <> (0, 0) ->
  0 < x mod cp_n c -> 0 < s < cp_n c -> (s * v) mod cp_n c = x mod cp_n c -> z mod cp_n c = (u * s) mod cp_n c ->
  forall (S : Type) (D : digest S) (I : S -> Prop) H limit o sc msg, DigestOk D I H limit -> verifier I c qx qy o ->
    bytes msg -> Z.of_nat (length msg) < limit -> number H c msg = z -> sigc_to_bigint sc = Ok (x mod cp_n c, s) ->
    snd (ecdsa_verify D o sc msg) = Ok tt.
Proof.
  intros c qx qy u v ux uy vx vy x y s z B ON QX QY U V EU EV EA NI R0 S0 ES EZ S D I H limit o sc msg HG VE BM L EN SG.
  assert (GR := C50_prime_order c B). assert (N2 : 2 < cp_n c) by apply GR. assert (SC := proj1 GR). assert (OG := proj1 (proj2 GR)).
  destruct (C60_private_key c qx qy B ON QX QY) as (d & D0 & EQ & _).
  assert (VD : 0 <= v * d) by (apply Z.mul_nonneg_nonneg; lia).
  destruct (C49_scalar_of_product c _ _ v d SC OG V ltac:(lia)) as (qx' & qy' & EQ' & E1). unfold curve_scalar_base in EQ. rewrite EQ in EQ'. injection EQ' as <- <-. rewrite EV in E1.
  destruct (C49_scalar_of_sum c _ _ u (v * d) SC OG U VD) as (a1 & b1 & a2 & b2 & F1 & F2 & O1 & O2 & E2). unfold curve_scalar_base in EU. rewrite EU in F1. injection F1 as <- <-. rewrite E1 in F2. injection F2 as <- <-. rewrite EA in E2.
  change (curve_scalar_base c (u + v * d) = Some (x, y)) in E2. rewrite base_mod in E2 by (exact GR || lia). set (k := (u + v * d) mod cp_n c) in *.
  assert (KR : 0 <= k < cp_n c) by (apply Z.mod_pos_bound; lia).
  assert (K0 : k <> 0).
  { intros K0. rewrite K0 in E2. unfold curve_scalar_base in E2. rewrite C49_scalar_is_repeated_addition in E2 by (try exact SC; try exact OG; lia).
    cbn [Z.to_nat Nat.iter nat_rect] in E2. congruence. }
  destruct (C49_addition c ux uy vx vy SC O1 O2) as (x3 & y3 & E5 & RX & RY & O3 & _). rewrite EA in E5. injection E5 as <- <-.
  assert (DS : decode (x, y) = Some (x, y)) by (destruct (decode (x, y)) as [q|] eqn:DE; [f_equal; symmetry; exact (decode_some _ _ DE)|apply decode_none in DE; contradiction]).
  apply (C81_accepted_iff_signed S D I H limit c d qx qy o sc _ s msg HG GR ltac:(lia) EQ VE BM L SG). exists k. split; [lia|]. rewrite EN. exists x, y.
  split; [apply (multiple_ok c SC); [exact OG|]; rewrite Z2Nat.id by lia; exists x, y; split; [exact E2|rewrite DS; apply same_refl]|].
  split; [exact RX|]. split; [reflexivity|]. split; [pose proof (Z.mod_pos_bound x (cp_n c)); lia|]. split; [exact S0|].
  apply cong_mod; [lia|]. rewrite <- cong_mod in ES by lia. rewrite <- cong_mod in EZ by lia.
  apply (cong_trans _ _ (s * (u + v * d))); [apply cong_mul; [apply cong_refl|apply cong_mod; [lia|apply Z.mod_mod; lia]]|].
  replace (s * (u + v * d)) with (u * s + d * (s * v)) by ring. apply cong_add; [apply cong_sym, EZ|]. apply cong_mul; [apply cong_refl|].
  apply (cong_trans _ _ x); [exact ES|apply cong_mod; [lia|symmetry; apply Z.mod_mod; lia]].
Qed.
Print Assumptions C81_number_first.

(** ** Cases *)
(** The signature of C47's example, with the nonce that gives it; a message whose number is the same modulo n. *)
Example C81_case : group_of toy9 /\ DigestOk Sum2 (fun _ => True) sum2_hash (2 ^ 64) /\ curve_scalar_base toy9 100 = Some (18, 167) /\ verifier (fun _ => True) toy9 18 167 toy_signer /\
  sigc_to_bigint (sigc_from 20 211) = Ok (20, 211) /\ snd (ecdsa_verify Sum2 toy_signer (sigc_from 20 211) [5; 6]) = Ok tt /\
  [5; 6] <> [6; 5] /\ number sum2_hash toy9 [5; 6] = number sum2_hash toy9 [6; 5].
Proof.
  destruct C47_met as (A & B & _ & V & E). split; [exact A|]. split; [exact B|]. split; [exact E|]. split; [exact V|]. split; [vm_compute; reflexivity|].
  split; [exact (proj1 C47_verify_case)|]. split; [discriminate|vm_compute; reflexivity].
Qed.
(** The base point of each built-in curve serves as R; with u = v = 1 and the public key 2G, R is 3G. *)
Example C81_builtin_met : forall c, In c builtin_curves -> is_on_curve c (cp_gx c) (cp_gy c) = true /\ 0 <= cp_gx c < cp_p c /\ 0 <= cp_gy c < cp_p c /\ 0 < cp_gx c mod cp_n c /\ 0 < 1 < cp_n c.
Proof.
  intros c B. destruct (C50_base_point c B) as (O & _ & _ & X & Y). split; [exact O|]. split; [exact X|]. split; [exact Y|].
  destruct B as [<-|[<-|[<-|[<-|[]]]]]; (split; [vm_compute; reflexivity|split; reflexivity]).
Qed.
Example C81_number_first_met : exists qx qy ux uy vx vy x y, curve_scalar_base p224 2 = Some (qx, qy) /\ is_on_curve p224 qx qy = true /\
  curve_scalar_base p224 1 = Some (ux, uy) /\ curve_scalar p224 qx qy 1 = Some (vx, vy) /\ curve_add p224 ux uy vx vy = Some (x, y) /\ (x, y) <> (0, 0) /\
  0 < x mod cp_n p224 /\ 0 < x mod cp_n p224 < cp_n p224 /\ (x mod cp_n p224 * 1) mod cp_n p224 = x mod cp_n p224.
Proof.
  do 8 eexists. split; [vm_compute; reflexivity|]. split; [vm_compute; reflexivity|]. split; [vm_compute; reflexivity|]. split; [vm_compute; reflexivity|]. split; [vm_compute; reflexivity|].
  split; [discriminate|]. split; [vm_compute; reflexivity|]. split; [split; vm_compute; reflexivity|vm_compute; reflexivity].
Qed.
