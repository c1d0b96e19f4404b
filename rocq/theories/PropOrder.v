(** Property C60: the points of the built-in curves are exactly the multiples of the base point; every valid point has order n.
    [on_curve], [decode] are in EllSpec.v, [ec_multiple], [ECDSA_accepts] in EcdsaSpec.v, [builtin_curves] in PropCurves.v. *)
From Coq Require Import Znumtheory.
From Verif Require Import Base NumTheory RsaModel RsaEncModel HashModel HashApi EllModel EllSpec EllProofs EllApi DsaSpec DsaModel EcdsaModel EcdsaSpec EcdsaGroup EcdsaProofs PropEcdsa PropCurves CurveGroup.
Local Open Scope Z_scope.

Theorem C60_annihilated : forall c P, In c builtin_curves -> on_curve (cp_p c) (cp_b c) P -> ec_multiple (cp_p c) (Z.to_nat (cp_n c)) P None.
Proof. intros c P B. exact (killed_all c B (C50_prime_order c B) P). Qed.
Print Assumptions C60_annihilated.

(** As returned by the interface: multiplying a valid point by n gives infinity, and scalars count modulo n. *)
Theorem C60_scalar_n : forall c x y, In c builtin_curves -> on_curve (cp_p c) (cp_b c) (decode (x, y)) -> curve_scalar c x y (cp_n c) = Some (0, 0).
Proof. intros c x y B O. exact (scalar_n c B (C50_prime_order c B) x y O). Qed.
Print Assumptions C60_scalar_n.
Theorem C60_scalar_mod : forall c x y k, In c builtin_curves -> on_curve (cp_p c) (cp_b c) (decode (x, y)) -> 0 <= k ->
  curve_scalar c x y k = curve_scalar c x y (k mod cp_n c).
Proof. intros c x y k B O K. exact (scalar_mod c B (C50_prime_order c B) x y k O K). Qed.
Print Assumptions C60_scalar_mod.
(** No smaller multiple is infinity. *)
Theorem C60_exact_order : forall c x y k, In c builtin_curves -> is_on_curve c x y = true -> 0 < k < cp_n c ->
  exists x' y', curve_scalar c x y k = Some (x', y') /\ (x', y') <> (0, 0) /\ 0 <= x' < cp_p c /\ 0 <= y' < cp_p c /\ is_on_curve c x' y' = true.
Proof. intros c x y k B O K. exact (exact_order c B (C50_prime_order c B) x y k O K). Qed.
Print Assumptions C60_exact_order.

(** Every valid point is a multiple of the base point: every public key on the curve has exactly one private key. *)
Theorem C60_cyclic : forall c x y, In c builtin_curves -> on_curve (cp_p c) (cp_b c) (decode (x, y)) ->
  exists k, 0 <= k < cp_n c /\ curve_scalar_base c k = Some (x mod cp_p c, y mod cp_p c) /\ ec_multiple (cp_p c) (Z.to_nat k) (decode (cp_gx c, cp_gy c)) (decode (x, y)).
Proof. intros c x y B. exact (base_all c B (C50_prime_order c B) x y). Qed.
Print Assumptions C60_cyclic.
Theorem C60_private_key : forall c x y, In c builtin_curves -> is_on_curve c x y = true -> 0 <= x < cp_p c -> 0 <= y < cp_p c ->
  exists d, 1 <= d <= cp_n c - 1 /\ curve_scalar_base c d = Some (x, y) /\ forall d', 0 <= d' < cp_n c -> curve_scalar_base c d' = Some (x, y) -> d' = d.
Proof. intros c x y B. exact (private_key c B (C50_prime_order c B) x y). Qed.
Print Assumptions C60_private_key.

(** So what C47 says of verification needs only a public key on the curve. *)
Theorem C60_verify_iff : forall (S : Type) (D : digest S) (I : S -> Prop) H limit c qx qy o sc r s msg, DigestOk D I H limit ->
  In c builtin_curves -> verifier I c qx qy o -> is_on_curve c qx qy = true ->
  bytes msg -> Z.of_nat (length msg) < limit -> sigc_to_bigint sc = Ok (r, s) ->
  let out := snd (ecdsa_verify D o sc msg) in
  (out = Ok tt \/ out = Err VerificationFailed) /\
  (out = Ok tt <-> ECDSA_accepts (cp_p c) (cp_n c) (decode (cp_gx c, cp_gy c)) (Some (qx, qy)) (DSA_z (Z.of_nat (bits_len (cp_n c))) (H msg)) r s).
Proof.
  intros S D I H limit c qx qy o sc r s msg HG B VE ON BM L ES. assert (GR := C50_prime_order c B). destruct (point_some c GR qx qy ON) as [E O]. rewrite <- E.
  exact (C47_verify_iff S D I H limit c qx qy o sc r s msg HG GR VE O (C60_annihilated c _ B O) BM L ES).
Qed.
Print Assumptions C60_verify_iff.

(** A point of P-521 with a small coordinate; nobody knows its private key. *)
Example C60_met : let y := 4048383429867983019751561044577887008670900511270988491586045067096074500699366233977142476807339590725590122822528718811068784769681055635884271629972320376 in
  In p521 builtin_curves /\ is_on_curve p521 0 y = true /\ 0 <= y < cp_p p521 /\ on_curve (cp_p p521) (cp_b p521) (decode (0, y)) /\ 0 < 2 < cp_n p521.
Proof.
  cbv zeta. split; [cbn; intuition|]. assert (H : is_on_curve p521 0 4048383429867983019751561044577887008670900511270988491586045067096074500699366233977142476807339590725590122822528718811068784769681055635884271629972320376 = true) by (vm_compute; reflexivity).
  split; [exact H|]. split; [split; [discriminate|reflexivity]|]. split; [|split; reflexivity]. exact (proj2 (point_some p521 (C50_prime_order p521 ltac:(cbn; intuition)) _ _ H)).
Qed.
