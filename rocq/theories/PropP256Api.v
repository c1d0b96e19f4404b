(** Property C59: scalar multiplication of CurveP256, src/elliptic/p256.rs.  [on_curve], [decode] are in EllSpec.v, [ec_multiple] in EcdsaSpec.v.
    The first argument of [c256_scalar] says whether overflow checks are compiled in; [None] is a panic. *)
From Coq Require Import Znumtheory.
From Verif Require Import Base NumTheory RsaModel RsaEncModel HashModel HashApi EllModel EllSpec EllProofs EllApi DsaSpec DsaModel EcdsaModel EcdsaSpec EcdsaGroup EcdsaProofs
  PropDsa PropEcdsa PropCurves CurveGroup PropOrder P256Model P256Debug P256Point.
Local Open Scope Z_scope.

Lemma in256 : In p256 builtin_curves. Proof. right. left. reflexivity. Qed.
Lemma sound256 : sound_curve (cp_p p256) (cp_b p256). Proof. exact (proj1 (C50_prime_order p256 in256)). Qed.

(** Without overflow checks: for every point of the curve, infinity included, and every scalar, the window method computes
    what the generic code computes, which is the scalar multiple. *)
Theorem C59_scalar : forall x y k, on_curve (cp_p p256) (cp_b p256) (decode (x, y)) -> 0 <= k -> c256_scalar false x y k = curve_scalar p256 x y k.
Proof. intros x y k O K. exact (point_scalar (proj1 (C50_prime_order p256 in256)) x y k K O (phi_killed p256 in256 (C50_prime_order p256 in256) x y O)). Qed.
Print Assumptions C59_scalar.
Theorem C59_scalar_multiple : forall x y k, on_curve (cp_p p256) (cp_b p256) (decode (x, y)) -> 0 <= k ->
  exists u v, c256_scalar false x y k = Some (u, v) /\ 0 <= u < cp_p p256 /\ 0 <= v < cp_p p256 /\
    on_curve (cp_p p256) (cp_b p256) (decode (u, v)) /\ ec_multiple (cp_p p256) (Z.to_nat k) (decode (x, y)) (decode (u, v)).
Proof.
  intros x y k O K. rewrite C59_scalar by assumption. destruct (scalar_some p256 sound256 x y k O K) as (u & v & E & U & V & OU & _). exists u, v.
  split; [exact E|]. split; [exact U|]. split; [exact V|]. split; [exact OU|]. apply (multiple_ok p256 sound256 x y _ _ O). exists u, v.
  split; [rewrite Z2Nat.id by exact K; exact E|apply same_refl].
Qed.
Print Assumptions C59_scalar_multiple.
(** The comb method with its precomputed table does the same for the base point. *)
Theorem C59_scalar_base : forall k, 0 <= k -> c256_scalar_base false k = curve_scalar_base p256 k.
Proof. intros k K. exact (base_scalar (proj1 (C50_prime_order p256 in256)) (proj1 (proj2 (C50_prime_order p256 in256))) (PG_n p256 (C50_prime_order p256 in256)) k K). Qed.
Print Assumptions C59_scalar_base.
Theorem C59_scalar_base_multiple : forall k, 0 <= k ->
  exists u v, c256_scalar_base false k = Some (u, v) /\ 0 <= u < cp_p p256 /\ 0 <= v < cp_p p256 /\
    on_curve (cp_p p256) (cp_b p256) (decode (u, v)) /\ ec_multiple (cp_p p256) (Z.to_nat k) (decode (cp_gx p256, cp_gy p256)) (decode (u, v)).
Proof.
  intros k K. assert (O := proj1 (proj2 (C50_prime_order p256 in256))). destruct (C59_scalar_multiple _ _ k O K) as (u & v & E & R). exists u, v.
  split; [|exact R]. rewrite C59_scalar_base by exact K. rewrite C59_scalar in E by assumption. exact E.
Qed.
Print Assumptions C59_scalar_base_multiple.
(** Whatever the coordinates, on the curve or not, the call returns two reduced numbers. *)
Theorem C59_scalar_total : forall x y k, 0 <= k -> exists u v, c256_scalar false x y k = Some (u, v) /\ 0 <= u < cp_p p256 /\ 0 <= v < cp_p p256.
Proof. exact (point_total sound256). Qed.
Print Assumptions C59_scalar_total.

(** With overflow checks every call stops the program, whatever the arguments: no multiple can be computed. *)
Theorem C59_checked_panics : forall x y k, c256_scalar true x y k = None /\ c256_scalar_base true k = None.
Proof. intros x y k. split; [exact (scalar_debug x y k)|exact (base_debug k)]. Qed.
Print Assumptions C59_checked_panics.

(** CurveP256 as ECDSA sees it, p256.rs:1183-1229. *)
Definition p256_obj : ec_obj := mkEco p256 (c256_scalar_base false).
(** Signatures made with CurveP256 are accepted, and they are the ones made with the generic code. *)
Theorem C59_ecdsa_signer : forall (S : Type) (I : S -> Prop) hf pk d, I hf -> signer I p256 d (ecdsa_new hf p256_obj (inr (mkEpriv pk d))).
Proof.
  intros S I hf pk d H. split; [reflexivity|]. split; [intros k K; apply C59_scalar_base; lia|]. split; [exists pk; reflexivity|]. split; [reflexivity|exact H].
Qed.
Print Assumptions C59_ecdsa_signer.
Theorem C59_ecdsa_sign_verify : forall (S : Type) (D : digest S) (I : S -> Prop) H limit d qx qy hf hf2 o1 fuel ws ws1 sc sc1 msg, DigestOk D I H limit -> I hf -> I hf2 ->
  0 <= d -> c256_scalar_base false d = Some (qx, qy) -> bytes msg -> Z.of_nat (length msg) < limit ->
  Z.of_nat (length (to_be_bytes d)) + Z.of_nat (length (H msg)) + 32 < 2 ^ 64 ->
  let signer := ecdsa_new hf p256_obj (inr (mkEpriv (mkEpub qx qy) d)) in
  let verifier := ecdsa_new hf2 p256_obj (inl (mkEpub qx qy)) in
  ecdsa_sign D fuel signer ws sc msg = (o1, ws1, sc1, Ok tt) -> snd (ecdsa_verify D verifier sc1 msg) = Ok tt.
Proof.
  intros S D I H limit d qx qy hf hf2 o1 fuel ws ws1 sc sc1 msg HG H1 H2 D0 EQ B L LL sg ve E. rewrite C59_scalar_base in EQ by exact D0.
  apply (C47_sign_verify S D I H limit p256 d qx qy sg o1 ve fuel ws ws1 sc sc1 msg HG (C50_prime_order p256 in256)); try assumption.
  - exact (C59_ecdsa_signer S I hf (mkEpub qx qy) d H1).
  - split; [reflexivity|]. split; [reflexivity|exact H2].
Qed.
Print Assumptions C59_ecdsa_sign_verify.

(** A point of the curve other than the base point, with a scalar longer than the order. *)
Example C59_met : let y := 31468013646237722594854082025316614106172411895747863909393730389177298123724 in
  on_curve (cp_p p256) (cp_b p256) (decode (5, y)) /\ exists u v, c256_scalar false 5 y (2 ^ 300 + 7) = Some (u, v) /\ (u, v) <> (0, 0) /\ is_on_curve p256 u v = true.
Proof.
  cbv zeta. assert (H : is_on_curve p256 5 31468013646237722594854082025316614106172411895747863909393730389177298123724 = true) by (vm_compute; reflexivity).
  destruct (point_some p256 (C50_prime_order p256 in256) _ _ H) as [_ O]. split; [exact O|].
  rewrite C59_scalar by (exact O || discriminate). rewrite C60_scalar_mod by (exact in256 || exact O || discriminate).
  destruct (C60_exact_order p256 _ _ ((2 ^ 300 + 7) mod cp_n p256) in256 H) as (u & v & E & N & _ & _ & V); [vm_compute; split; reflexivity|]. exists u, v. split; [exact E|]. split; assumption.
Qed.
Example C59_ecdsa_met : exists qx qy, c256_scalar_base false 100 = Some (qx, qy) /\ DigestOk Sum2 (fun _ => True) sum2_hash (2 ^ 64) /\
  bytes [5; 6] /\ Z.of_nat (length [5; 6]) < 2 ^ 64 /\ Z.of_nat (length (to_be_bytes 100)) + Z.of_nat (length (sum2_hash [5; 6])) + 32 < 2 ^ 64.
Proof.
  destruct (C59_scalar_base_multiple 100 ltac:(lia)) as (u & v & E & _). exists u, v. split; [exact E|]. split; [apply sum2_ok|].
  split; [repeat (apply Forall_cons; [split; lia|]); constructor|]. split; reflexivity.
Qed.
