(** Properties C49 and C51: the arithmetic of a curve y^2 = x^3 - 3x + b and key generation on it.
    [sound_curve], [on_curve], [decode] and [ec_sum] are in EllSpec.v. *)
From Coq Require Import Znumtheory String.
From Verif Require Import Base HashModel NumTheory RsaModel RsaEncModel Words EllModel EllSpec EllApi.

(** A small curve: 22 finite points, group of prime order 23. *)
Definition toy_curve : curve := mkCurve 17 23 3 1 1 5 "toy".
Lemma toy_sound : sound_curve 17 3.
Proof.
  refine (conj (primeb_ok 10 17 eq_refl) (conj _ (conj _ _))); [lia| |]; intros [k E]; lia.
Qed.
(** One whose order, 271, has nine bits. *)
Definition toy9 : curve := mkCurve 257 271 9 0 3 9 "toy9".
Lemma toy9_sound : sound_curve 257 9.
Proof.
  refine (conj (primeb_ok 20 257 eq_refl) (conj _ (conj _ _))); [lia| |]; intros [k E]; lia.
Qed.

(** ** C49 *)
(** [is_on_curve] decides the curve equation. *)
Theorem C49_is_on_curve : forall c x y, 0 < cp_p c ->
  is_on_curve c x y = true <-> cong (cp_p c) (y * y) (x * x * x - 3 * x + cp_b c).
Proof. exact api_on_curve. Qed.
Print Assumptions C49_is_on_curve.
Example C49_is_on_curve_met : is_on_curve toy_curve 3 (-15) = true /\ is_on_curve toy_curve 3 3 = false.
Proof. split; reflexivity. Qed.

(** [add] returns the chord-and-tangent sum, reduced, and it is on the curve; (0, 0) stands for infinity in arguments and result. *)
Theorem C49_addition : forall c x1 y1 x2 y2, sound_curve (cp_p c) (cp_b c) ->
  on_curve (cp_p c) (cp_b c) (decode (x1, y1)) -> on_curve (cp_p c) (cp_b c) (decode (x2, y2)) ->
  exists x3 y3, curve_add c x1 y1 x2 y2 = Some (x3, y3) /\ 0 <= x3 < cp_p c /\ 0 <= y3 < cp_p c /\
    on_curve (cp_p c) (cp_b c) (decode (x3, y3)) /\ ec_sum (cp_p c) (decode (x1, y1)) (decode (x2, y2)) (decode (x3, y3)).
Proof. intros c x1 y1 x2 y2 S. exact (api_add c S x1 y1 x2 y2). Qed.
Print Assumptions C49_addition.
(** The specification leaves no choice. *)
Theorem C49_sum_is_unique : forall p P Q R R', prime p -> 3 < p -> ec_sum p P Q R -> ec_sum p P Q R' -> same_point p R R'.
Proof. exact sum_unique. Qed.
Print Assumptions C49_sum_is_unique.
Theorem C49_double : forall c x y, sound_curve (cp_p c) (cp_b c) -> on_curve (cp_p c) (cp_b c) (decode (x, y)) ->
  curve_double c x y = curve_add c x y x y.
Proof. intros c x y S. exact (api_double c S x y). Qed.
Print Assumptions C49_double.
(** A chord, a tangent, opposite points and infinity; representatives need not be reduced. *)
Example C49_met : sound_curve (cp_p toy_curve) (cp_b toy_curve) /\
  (on_curve 17 3 (decode (1, 1)) /\ on_curve 17 3 (decode (20, 2)) /\ curve_add toy_curve 1 1 20 2 = Some (9, 12)) /\
  curve_double toy_curve 1 1 = Some (15, 16) /\ curve_add toy_curve 3 2 3 15 = Some (0, 0) /\
  curve_add toy_curve 0 0 20 (-15) = Some (3, 2).
Proof.
  refine (conj toy_sound (conj (conj _ (conj _ _)) (conj _ (conj _ _)))); try reflexivity.
  - exists 0. reflexivity.
  - exists (-467). reflexivity.
Qed.

(** The points form a group under [add]. *)
Theorem C49_commutative : forall c x1 y1 x2 y2, sound_curve (cp_p c) (cp_b c) ->
  on_curve (cp_p c) (cp_b c) (decode (x1, y1)) -> on_curve (cp_p c) (cp_b c) (decode (x2, y2)) ->
  curve_add c x1 y1 x2 y2 = curve_add c x2 y2 x1 y1.
Proof. intros c x1 y1 x2 y2 S. exact (api_comm c S x1 y1 x2 y2). Qed.
Print Assumptions C49_commutative.
Theorem C49_associative : forall c x1 y1 x2 y2 x3 y3, sound_curve (cp_p c) (cp_b c) ->
  on_curve (cp_p c) (cp_b c) (decode (x1, y1)) -> on_curve (cp_p c) (cp_b c) (decode (x2, y2)) -> on_curve (cp_p c) (cp_b c) (decode (x3, y3)) ->
  exists u v s t x y, curve_add c x1 y1 x2 y2 = Some (u, v) /\ curve_add c x2 y2 x3 y3 = Some (s, t) /\
    curve_add c u v x3 y3 = Some (x, y) /\ curve_add c x1 y1 s t = Some (x, y).
Proof. intros c x1 y1 x2 y2 x3 y3 S. exact (api_assoc c S x1 y1 x2 y2 x3 y3). Qed.
Print Assumptions C49_associative.
Theorem C49_identity_and_inverse : forall c x y, sound_curve (cp_p c) (cp_b c) -> on_curve (cp_p c) (cp_b c) (decode (x, y)) ->
  curve_add c x y 0 0 = Some (x mod cp_p c, y mod cp_p c) /\ curve_add c x y x (- y) = Some (0, 0).
Proof. intros c x y S O. split; [exact (api_zero c S x y O)|exact (api_opp c S x y O)]. Qed.
Print Assumptions C49_identity_and_inverse.
Example C49_group_met : sound_curve 17 3 /\ on_curve 17 3 (decode (1, 1)) /\ on_curve 17 3 (decode (3, 2)) /\ on_curve 17 3 (decode (9, 12)) /\
  curve_add toy_curve 1 1 3 2 = Some (9, 12) /\ curve_add toy_curve 3 2 9 12 = Some (4, 2) /\
  curve_add toy_curve 9 12 9 12 = Some (14, 6) /\ curve_add toy_curve 1 1 4 2 = Some (14, 6).
Proof. refine (conj toy_sound _). split; [exists 0; reflexivity|]. split; [exists (-1); reflexivity|]. split; [exists (-33); reflexivity|]. vm_compute. repeat split. Qed.

(** [scalar] adds the point [k] times; hence its laws. *)
Theorem C49_scalar_is_repeated_addition : forall c x y k, sound_curve (cp_p c) (cp_b c) ->
  on_curve (cp_p c) (cp_b c) (decode (x, y)) -> 0 <= k ->
  curve_scalar c x y k = Nat.iter (Z.to_nat k) (fun acc => match acc with Some (u, v) => curve_add c x y u v | None => None end) (Some (0, 0)).
Proof. intros c x y k S. exact (api_scalar c S x y k). Qed.
Print Assumptions C49_scalar_is_repeated_addition.
Theorem C49_scalar_of_sum : forall c x y j k, sound_curve (cp_p c) (cp_b c) ->
  on_curve (cp_p c) (cp_b c) (decode (x, y)) -> 0 <= j -> 0 <= k ->
  exists x1 y1 x2 y2, curve_scalar c x y j = Some (x1, y1) /\ curve_scalar c x y k = Some (x2, y2) /\
    on_curve (cp_p c) (cp_b c) (decode (x1, y1)) /\ on_curve (cp_p c) (cp_b c) (decode (x2, y2)) /\
    curve_scalar c x y (j + k) = curve_add c x1 y1 x2 y2.
Proof. intros c x y j k S. exact (api_scalar_add c S x y j k). Qed.
Print Assumptions C49_scalar_of_sum.
Theorem C49_scalar_of_product : forall c x y j k, sound_curve (cp_p c) (cp_b c) ->
  on_curve (cp_p c) (cp_b c) (decode (x, y)) -> 0 <= j -> 0 <= k ->
  exists x1 y1, curve_scalar c x y k = Some (x1, y1) /\ curve_scalar c x y (j * k) = curve_scalar c x1 y1 j.
Proof. intros c x y j k S. exact (api_scalar_mul c S x y j k). Qed.
Print Assumptions C49_scalar_of_product.
(** Including a scalar of more than one byte, the multiple that is infinity, and multiples of infinity. *)
Example C49_scalar_met : on_curve 17 3 (decode (1, 1)) /\ curve_scalar toy_curve 1 1 5 = Some (11, 14) /\
  curve_scalar toy_curve 1 1 23 = Some (0, 0) /\ curve_scalar toy_curve 1 1 (23 * 1000 + 5) = Some (11, 14) /\ curve_scalar toy_curve 0 0 77 = Some (0, 0).
Proof. split; [exists 0; reflexivity|]. vm_compute. repeat split. Qed.

(** ** C51 *)
(** What [generate_key] returns: the first candidate below n and its multiple of the base point. *)
Theorem C51_generate_key_exact : forall c draws k, sound_curve (cp_p c) (cp_b c) ->
  on_curve (cp_p c) (cp_b c) (decode (cp_gx c, cp_gy c)) ->
  ec_generate_key c draws = Ok k <->
  exists i ws d qx qy, nth_error draws i = Some ws /\ candidate c ws = Some d /\ d < cp_n c /\
    (forall j, (j < i)%nat -> exists d', option_map (candidate c) (nth_error draws j) = Some (Some d') /\ cp_n c <= d') /\
    curve_scalar_base c d = Some (qx, qy) /\ k = mkEpriv (mkEpub qx qy) d.
Proof. intros c draws k S G. exact (keygen_iff c S G draws k). Qed.
Print Assumptions C51_generate_key_exact.

(** The candidate is the number formed by the first bytes drawn, cut to the length of n, with 0x42 exclusive-ored into the second byte. *)
Theorem C51_candidate : forall c ws, let bits := bits_len (cp_n c) in let len := ((bits + 7) / 8)%nat in
  (9 <= bits)%nat -> (len <= 4 * length ws)%nat ->
  candidate c ws = Some (Z.lxor (be_val (firstn len (flat_map (be_bytes 4) ws)) mod 2 ^ Z.of_nat bits) (66 * 256 ^ Z.of_nat (len - 2))).
Proof. exact candidate_value. Qed.
Print Assumptions C51_candidate.
(** So a key is in range, and every number from 0 to n - 1 can be the private key. *)
Theorem C51_generate_key_range : forall c draws k, sound_curve (cp_p c) (cp_b c) ->
  on_curve (cp_p c) (cp_b c) (decode (cp_gx c, cp_gy c)) -> ec_generate_key c draws = Ok k ->
  0 <= ed_d k < cp_n c /\ curve_scalar_base c (ed_d k) = Some (eq_x (ed_pk k), eq_y (ed_pk k)).
Proof.
  intros c draws k S G E. apply (keygen_iff c S G) in E. destruct E as (i & ws & d & qx & qy & _ & C & L & _ & F & ->).
  cbn [ed_d ed_pk eq_x eq_y]. split; [split; [exact (candidate_nonneg c ws d C)|exact L]|exact F].
Qed.
Print Assumptions C51_generate_key_range.
Theorem C51_every_key_is_possible : forall c d, sound_curve (cp_p c) (cp_b c) ->
  on_curve (cp_p c) (cp_b c) (decode (cp_gx c, cp_gy c)) -> (9 <= bits_len (cp_n c))%nat -> 0 <= d < cp_n c ->
  exists ws qx qy, Forall w32 ws /\ length ws = (((bits_len (cp_n c) + 7) / 8 + 3) / 4)%nat /\
    ec_generate_key c [ws] = Ok (mkEpriv (mkEpub qx qy) d) /\ curve_scalar_base c d = Some (qx, qy).
Proof. exact keygen_onto. Qed.
Print Assumptions C51_every_key_is_possible.
(** "The private key is never 0" is false: the draw that cancels the 0x42 gives d = 0 and the point at infinity as public key. *)
Theorem C51_key_zero_refuted : forall c, sound_curve (cp_p c) (cp_b c) ->
  on_curve (cp_p c) (cp_b c) (decode (cp_gx c, cp_gy c)) -> (9 <= bits_len (cp_n c))%nat -> 0 < cp_n c ->
  exists ws, Forall w32 ws /\ ec_generate_key c [ws] = Ok (mkEpriv (mkEpub 0 0) 0).
Proof.
  intros c S G B N. destruct (keygen_onto c 0 S G B (conj (Z.le_refl 0) N)) as (ws & qx & qy & W & _ & E & F).
  exists ws. split; [exact W|]. rewrite E. assert (H : Some (qx, qy) = Some (0, 0)) by (rewrite <- F; reflexivity). injection H as -> ->. reflexivity.
Qed.
Print Assumptions C51_key_zero_refuted.
Example C51_met : sound_curve (cp_p toy9) (cp_b toy9) /\ on_curve (cp_p toy9) (cp_b toy9) (decode (cp_gx toy9, cp_gy toy9)) /\ bits_len (cp_n toy9) = 9%nat /\
  ec_generate_key toy9 [[0x01ff0000]; [0x00400000]] = Ok (mkEpriv (mkEpub 193 222) 2) /\ ec_generate_key toy9 [[0x00420000]] = Ok (mkEpriv (mkEpub 0 0) 0).
Proof. refine (conj toy9_sound _). split; [exists 0; reflexivity|]. vm_compute. repeat split. Qed.
