(** The facts of EllProofs restated for the interface. *)
From Coq Require Import Znumtheory String.
From Verif Require Import Base HashModel NumTheory RsaModel RsaEncModel DsaModel DsaProofs Words RsaEncProofs EcGroup Fp EllModel EllSpec EllProofs.

Section API.
Variable c : curve.
Hypothesis S : sound_curve (cp_p c) (cp_b c).
Notation p := (cp_p c). Notation b := (cp_b c).
Let Hp : prime p := proj1 S.
Let P3 : 3 < p := proj1 (proj2 S).
Let Hb : ~ cong p b 0 := proj1 (proj2 (proj2 S)).
Let Hd : ~ cong p (b * b) 4 := proj2 (proj2 (proj2 S)).
Notation on xy := (on_curve p b (decode xy)).
Let add_ok := add_ok p b Hp P3 c eq_refl.
Let on_iff := on_phi p b Hp P3.
Let on_padd := on_fpadd p b Hp P3.
Let phi_psi := phi_psi p b Hp P3 Hb.
Notation phi := (phi p Hp). Notation psi := (psi p).

Ltac op := clearbody add_ok on_iff on_padd phi_psi Hp P3 Hb Hd.
Lemma api_add x1 y1 x2 y2 : on (x1, y1) -> on (x2, y2) ->
  exists x3 y3, curve_add c x1 y1 x2 y2 = Some (x3, y3) /\ 0 <= x3 < p /\ 0 <= y3 < p /\ on (x3, y3) /\
    ec_sum p (decode (x1, y1)) (decode (x2, y2)) (decode (x3, y3)).
Proof.
  op. intros O1 O2. rewrite add_ok by assumption. apply on_iff in O1. apply on_iff in O2.
  pose proof (on_padd _ _ O1 O2) as OS. pose proof (sum_ok p b Hp P3 Hb (x1, y1) (x2, y2) O1 O2) as E.
  pose proof (psi_range p Hp P3 (padd (f1 p Hp) (fadd p Hp) (fmul p Hp) (fsub p Hp) (fopp p Hp) (fdiv p Hp) (Fp_eq_dec p) (fa p Hp) (phi (x1, y1)) (phi (x2, y2)))) as R.
  pose proof (on_psi p b Hp P3 Hb _ OS) as OZ.
  match goal with |- context [Some ?t] => destruct t as [x3 y3] eqn:EE end.
  exists x3, y3. split; [reflexivity|]. cbn [fst snd] in R. split; [apply R|]. split; [apply R|]. split; [exact OZ|exact E].
Qed.
Lemma api_double x y : on (x, y) -> curve_double c x y = curve_add c x y x y.
Proof. op. intros O. rewrite add_ok by assumption. apply (double_ok p Hp P3 c eq_refl). Qed.
Lemma api_comm x1 y1 x2 y2 : on (x1, y1) -> on (x2, y2) -> curve_add c x1 y1 x2 y2 = curve_add c x2 y2 x1 y1.
Proof.
  op. intros O1 O2. rewrite !add_ok by assumption. do 2 f_equal. apply (fpadd_comm p b Hp P3); apply on_iff; assumption.
Qed.
Lemma api_assoc x1 y1 x2 y2 x3 y3 : on (x1, y1) -> on (x2, y2) -> on (x3, y3) ->
  exists u v s t x y, curve_add c x1 y1 x2 y2 = Some (u, v) /\ curve_add c x2 y2 x3 y3 = Some (s, t) /\
    curve_add c u v x3 y3 = Some (x, y) /\ curve_add c x1 y1 s t = Some (x, y).
Proof.
  op. intros O1 O2 O3. rewrite (add_ok x1 y1 x2 y2), (add_ok x2 y2 x3 y3) by assumption.
  pose proof (proj1 (on_iff _) O1) as F1. pose proof (proj1 (on_iff _) O2) as F2. pose proof (proj1 (on_iff _) O3) as F3.
  pose proof (on_padd _ _ F1 F2) as F12. pose proof (on_padd _ _ F2 F3) as F23.
  match goal with |- context [Some ?t] => destruct t as [u v] eqn:E12 end.
  match goal with |- context [Some (psi ?t)] => destruct (psi t) as [s t'] eqn:E23 end.
  exists u, v, s, t'.
  assert (Ouv : on (u, v)) by (rewrite <- E12; apply (on_psi p b Hp P3 Hb), F12).
  assert (Ost : on (s, t')) by (rewrite <- E23; apply (on_psi p b Hp P3 Hb), F23).
  rewrite (add_ok u v x3 y3), (add_ok x1 y1 s t') by assumption.
  pose proof (phi_psi _ F12) as W12. rewrite E12 in W12. pose proof (phi_psi _ F23) as W23. rewrite E23 in W23. rewrite W12, W23.
  rewrite (fpadd_assoc p b Hp P3 Hd) by assumption.
  match goal with |- context [Some (psi ?t)] => destruct (psi t) as [x y] end.
  exists x, y. split; [reflexivity|]. split; [reflexivity|]. split; reflexivity.
Qed.
Lemma api_zero x y : on (x, y) -> curve_add c x y 0 0 = Some (x mod p, y mod p).
Proof.
  op. intros O. rewrite add_ok; [|exact O|exact I]. change (phi (0, 0)) with (@None (Fp p * Fp p)). rewrite padd_0_r. f_equal. apply (psi_phi p Hp).
Qed.
Lemma api_opp x y : on (x, y) -> curve_add c x y x (- y) = Some (0, 0).
Proof.
  op. intros O. assert (O' : on (x, - y)).
  { rewrite decode_opp. destruct (decode (x, y)) as [[u v]|]; [|exact I]. cbn in *. replace (- v * - v) with (v * v) by ring. exact O. }
  rewrite add_ok by assumption. rewrite (phi_opp p Hp). apply on_iff in O. rewrite (fpadd_neg p b Hp P3) by exact O. reflexivity.
Qed.
Lemma api_scalar x y k : on (x, y) -> 0 <= k ->
  curve_scalar c x y k = Nat.iter (Z.to_nat k) (fun acc => match acc with Some (u, v) => curve_add c x y u v | None => None end) (Some (0, 0)).
Proof.
  op. intros O K. rewrite (iter_ok p b Hp P3 Hb c eq_refl) by exact O. apply (curve_scalar_ok p b Hp P3 Hd c eq_refl); assumption.
Qed.
Lemma scalar_some x y k : on (x, y) -> 0 <= k -> exists u v, curve_scalar c x y k = Some (u, v) /\ 0 <= u < p /\ 0 <= v < p /\ on (u, v) /\
  phi (u, v) = zmul p Hp k (phi (x, y)).
Proof.
  op. intros O K. rewrite (curve_scalar_ok p b Hp P3 Hd c eq_refl) by assumption. apply on_iff in O.
  pose proof (on_zmul p b Hp P3 k _ O) as OZ. pose proof (psi_range p Hp P3 (zmul p Hp k (phi (x, y)))) as R.
  destruct (psi (zmul p Hp k (phi (x, y)))) as [u v] eqn:E. exists u, v. split; [reflexivity|]. cbn [fst snd] in R.
  split; [apply R|]. split; [apply R|]. rewrite <- E. split; [apply (on_psi p b Hp P3 Hb), OZ|apply phi_psi, OZ].
Qed.
Lemma api_scalar_add x y j k : on (x, y) -> 0 <= j -> 0 <= k ->
  exists x1 y1 x2 y2, curve_scalar c x y j = Some (x1, y1) /\ curve_scalar c x y k = Some (x2, y2) /\ on (x1, y1) /\ on (x2, y2) /\
    curve_scalar c x y (j + k) = curve_add c x1 y1 x2 y2.
Proof.
  op. intros O J K. destruct (scalar_some x y j O J) as (x1 & y1 & E1 & _ & _ & O1 & F1).
  destruct (scalar_some x y k O K) as (x2 & y2 & E2 & _ & _ & O2 & F2). exists x1, y1, x2, y2.
  split; [exact E1|]. split; [exact E2|]. split; [exact O1|]. split; [exact O2|]. rewrite add_ok by assumption. rewrite F1, F2.
  rewrite (curve_scalar_ok p b Hp P3 Hd c eq_refl) by (try lia; exact O). rewrite (zmul_add p b Hp P3 Hd) by (try lia; apply on_iff, O). reflexivity.
Qed.
Lemma api_scalar_mul x y j k : on (x, y) -> 0 <= j -> 0 <= k ->
  exists x1 y1, curve_scalar c x y k = Some (x1, y1) /\ curve_scalar c x y (j * k) = curve_scalar c x1 y1 j.
Proof.
  op. intros O J K. destruct (scalar_some x y k O K) as (x1 & y1 & E1 & _ & _ & O1 & F1). exists x1, y1. split; [exact E1|].
  rewrite !(curve_scalar_ok p b Hp P3 Hd c eq_refl) by (try lia; assumption). rewrite F1.
  rewrite (zmul_mul p b Hp P3 Hd) by (try lia; apply on_iff, O). reflexivity.
Qed.
Lemma api_scalar_inner x y k : on (x, y) -> bytes k -> scalar_inner c x y k = curve_scalar c x y (be_val k).
Proof.
  op. intros O B. rewrite (curve_scalar_ok p b Hp P3 Hd c eq_refl) by (try exact O; apply be_val_bound, B).
  apply (scalar_inner_ok p b Hp P3 Hd c eq_refl); assumption.
Qed.
End API.
Lemma api_on_curve c x y : 0 < cp_p c -> is_on_curve c x y = true <-> cong (cp_p c) (y * y) (x * x * x - 3 * x + cp_b c).
Proof.
  intros P. unfold is_on_curve, cong. rewrite Z.eqb_eq. replace (x * x * x - (x * 2 + x) + cp_b c) with (x * x * x - 3 * x + cp_b c) by ring.
  split; [intros E; apply mod_eq_divide; [lia|congruence]|intros D; symmetry; apply divide_mod_eq; [lia|exact D]].
Qed.
(** The sum of the specification is unique. *)
Lemma cong_sym p x y : cong p x y -> cong p y x.
Proof. unfold cong. intros H. replace (y - x) with (- (x - y)) by ring. apply Z.divide_opp_r, H. Qed.
Lemma cong_trans p x y z : cong p x y -> cong p y z -> cong p x z.
Proof. unfold cong. intros A B. replace (x - z) with ((x - y) + (y - z)) by ring. apply Z.divide_add_r; assumption. Qed.
Lemma cong_refl p x : cong p x x.
Proof. exists 0. ring. Qed.
Lemma same_sym p P Q : same_point p P Q -> same_point p Q P.
Proof. destruct P as [[? ?]|], Q as [[? ?]|]; cbn; try tauto. intros [A B]. split; apply cong_sym; assumption. Qed.
Lemma same_trans p P Q R : same_point p P Q -> same_point p Q R -> same_point p P R.
Proof. destruct P as [[? ?]|], Q as [[? ?]|], R as [[? ?]|]; cbn; try tauto. intros [A B] [C D]. split; eapply cong_trans; eassumption. Qed.
Lemma sum_unique p P Q R R' : prime p -> 3 < p -> ec_sum p P Q R -> ec_sum p P Q R' -> same_point p R R'.
Proof.
  intros Hp P3 H H'.
  assert (CC : forall l l' d x, cong p (l * d) x -> cong p (l' * d) x -> ~ cong p d 0 -> cong p l l').
  { intros l l' d x A B N. assert (D : (p | (l - l') * d)) by (replace ((l - l') * d) with (l * d - x - (l' * d - x)) by ring; apply Z.divide_sub_r; assumption).
    destruct (prime_mult p Hp _ _ D) as [E|E]; [exact E|]. exfalso. apply N. unfold cong. rewrite Z.sub_0_r. exact E. }
  assert (FIN : forall l l' x1 x2 y1 x3 y3 x3' y3', cong p l l' -> cong p x3 (l * l - x1 - x2) -> cong p y3 (l * (x1 - x3) - y1) ->
     cong p x3' (l' * l' - x1 - x2) -> cong p y3' (l' * (x1 - x3') - y1) -> cong p x3 x3' /\ cong p y3 y3').
  { intros l l' x1 x2 y1 x3 y3 x3' y3' L A B C D.
    assert (X : cong p x3 x3').
    { apply (cong_trans _ _ _ _ A). apply cong_sym in C. refine (cong_trans _ _ _ _ _ C). unfold cong.
      replace (l * l - x1 - x2 - (l' * l' - x1 - x2)) with ((l - l') * (l + l')) by ring. apply Z.divide_mul_l, L. }
    split; [exact X|]. apply (cong_trans _ _ _ _ B). apply cong_sym in D. refine (cong_trans _ _ _ _ _ D). unfold cong.
    replace (l * (x1 - x3) - y1 - (l' * (x1 - x3') - y1)) with ((l - l') * (x1 - x3) - l' * (x3 - x3')) by ring.
    apply Z.divide_sub_r; [apply Z.divide_mul_l, L|apply Z.divide_mul_r, X]. }
  assert (TWO : forall y1 y2, cong p y1 y2 -> cong p y1 (- y2) -> cong p y1 0).
  { intros y1 y2 A B. assert (D : (p | 2 * y1)) by (replace (2 * y1) with ((y1 - y2) + (y1 - - y2)) by ring; apply Z.divide_add_r; assumption).
    destruct (prime_mult p Hp _ _ D) as [E|E]; [apply Z.divide_pos_le in E; lia|]. unfold cong. rewrite Z.sub_0_r. exact E. }
  assert (N2 : forall y, ~ cong p y 0 -> ~ cong p (2 * y) 0).
  { intros y N D. unfold cong in D. rewrite Z.sub_0_r in D. destruct (prime_mult p Hp _ _ D) as [E|E]; [apply Z.divide_pos_le in E; lia|].
    apply N. unfold cong. rewrite Z.sub_0_r. exact E. }
  destruct H; inversion H'; subst;
    repeat match goal with
    | E : same_point p None ?R |- _ => match R with None => fail 1 | _ => destruct R as [[? ?]|]; [contradiction E|]; clear E end
    | E : same_point p ?R None |- _ => match R with None => fail 1 | _ => destruct R as [[? ?]|]; [contradiction E|]; clear E end
    end; try exact I; try contradiction; try (eapply same_trans; [apply same_sym; eassumption|eassumption]).
  - exfalso. match goal with N : ~ cong p y1 0 |- _ => apply N end. apply (TWO _ y2); assumption.
  - refine (FIN l l0 _ _ _ _ _ _ _ _ _ _ _ _); try eassumption. apply (CC l l0 (x2 - x1) (y2 - y1)); try assumption.
    intros D. match goal with N : ~ cong p x1 x2 |- _ => apply N end. apply cong_sym. unfold cong in *. rewrite Z.sub_0_r in D. exact D.
  - exfalso. match goal with N : ~ cong p y1 0 |- _ => apply N end. apply (TWO _ y2); assumption.
  - refine (FIN l l0 _ _ _ _ _ _ _ _ _ _ _ _); try eassumption. apply (CC l l0 (2 * y1) (3 * (x1 * x1) - 3)); try assumption. apply N2. assumption.
Qed.

(** ** Key generation *)
Lemma land_byte b m : byte b -> byte (Z.land b m).
Proof.
  intros B. assert (E : Z.land b m = Z.land b m mod 2 ^ 8).
  { rewrite <- Z.land_ones by lia. rewrite <- Z.land_assoc, (Z.land_comm m), Z.land_assoc, (Z.land_ones b) by lia.
    rewrite (Z.mod_small b) by exact B. reflexivity. }
  rewrite E. apply (Z.mod_pos_bound _ (2 ^ 8)). lia.
Qed.
Lemma be4_bytes ws : bytes (flat_map (be_bytes 4) ws).
Proof. induction ws as [|w ws IH]; [constructor|]. cbn [flat_map]. apply bytes_app. split; [apply be_bytes_bytes|exact IH]. Qed.
Lemma firstn_bytes n l : bytes l -> bytes (firstn n l).
Proof. unfold bytes. rewrite !Forall_forall. intros H x I. apply H. rewrite <- (firstn_skipn n l). apply in_or_app. left. exact I. Qed.
Lemma key_bytes_bytes n ws l : key_bytes n ws = Some l -> bytes l.
Proof.
  unfold key_bytes. pose proof (firstn_bytes ((n + 7) / 8) _ (be4_bytes ws)) as B. destruct (firstn _ _) as [|b0 [|b1 r]]; try discriminate.
  intros E. apply (f_equal (fun o => match o with Some l => l | None => [] end)) in E. subst l.
  pose proof (Forall_inv B). pose proof (Forall_inv (Forall_inv_tail B)). pose proof (Forall_inv_tail (Forall_inv_tail B)).
  constructor; [apply land_byte; assumption|]. constructor; [apply lxor_byte; [assumption|unfold byte; lia]|assumption].
Qed.
Section KEY.
Variable c : curve.
Hypothesis S : sound_curve (cp_p c) (cp_b c).
Hypothesis G : on_curve (cp_p c) (cp_b c) (decode (cp_gx c, cp_gy c)).
(** The private key is the first candidate below n. *)
Definition candidate (ws : list Z) : option Z := option_map be_val (key_bytes (bits_len (cp_n c)) ws).
Lemma keygen_iff draws k : ec_generate_key c draws = Ok k <->
  exists i ws d qx qy, nth_error draws i = Some ws /\ candidate ws = Some d /\ d < cp_n c /\
    (forall j, (j < i)%nat -> exists d', option_map candidate (nth_error draws j) = Some (Some d') /\ cp_n c <= d') /\
    curve_scalar_base c d = Some (qx, qy) /\ k = mkEpriv (mkEpub qx qy) d.
Proof.
  revert k. induction draws as [|ws draws IH]; intros k; cbn [ec_generate_key].
  - split; [discriminate|]. intros (i & ws & _ & _ & _ & H & _). destruct i; discriminate.
  - unfold candidate. destruct (key_bytes (bits_len (cp_n c)) ws) as [pk|] eqn:KB.
    2:{ split; [discriminate|]. intros (i & ws' & d & qx & qy & H & C & _ & Hj & _). exfalso. destruct i.
        - cbn in H. injection H as <-. rewrite KB in C. discriminate.
        - destruct (Hj 0%nat ltac:(lia)) as (d' & E & _). cbn in E. rewrite KB in E. discriminate. }
    pose proof (key_bytes_bytes _ _ _ KB) as B.
    rewrite (api_scalar_inner c S) by (try exact G; exact B).
    destruct (scalar_some c S _ _ (be_val pk) G (proj1 (be_val_bound _ B))) as (qx & qy & E & _).
    destruct (be_val pk <? cp_n c) eqn:L.
    + rewrite E. apply Z.ltb_lt in L. split.
      * intros K. exists 0%nat, ws, (be_val pk), qx, qy. split; [reflexivity|]. rewrite KB. split; [reflexivity|]. split; [exact L|].
        split; [intros j J; lia|]. split; [exact E|]. injection K as <-. reflexivity.
      * intros (i & ws' & d & x & y & H & C & D & Hj & F & ->). destruct i.
        -- cbn in H. injection H as <-. rewrite KB in C. cbn in C. injection C as <-. unfold curve_scalar_base in F. rewrite E in F. injection F as -> ->. reflexivity.
        -- exfalso. destruct (Hj 0%nat ltac:(lia)) as (d' & E' & L'). cbn in E'. rewrite KB in E'. cbn in E'. injection E' as <-. lia.
    + apply Z.ltb_ge in L. rewrite IH. split.
      * intros (i & ws' & d & x & y & H & C & D & Hj & F & ->). exists (Datatypes.S i), ws', d, x, y. split; [exact H|]. split; [exact C|]. split; [exact D|].
        split; [|split; [exact F|reflexivity]]. intros j J. destruct j; [exists (be_val pk); cbn; rewrite KB; split; [reflexivity|exact L]|]. apply Hj. lia.
      * intros (i & ws' & d & x & y & H & C & D & Hj & F & ->). destruct i.
        -- exfalso. cbn in H. injection H as <-. rewrite KB in C. cbn in C. injection C as <-. lia.
        -- exists i, ws', d, x, y. split; [exact H|]. split; [exact C|]. split; [exact D|]. split; [|split; [exact F|reflexivity]].
           intros j J. exact (Hj (Datatypes.S j) ltac:(lia)).
Qed.
End KEY.

(** The candidate as a number: the first bytes drawn, reduced to the length of n, with 0x42 added without carry to the second byte. *)
Lemma mask_mod b j : byte b -> (1 <= j <= 8)%nat -> Z.land b (nth (j mod 8) MASK 0) = b mod 2 ^ Z.of_nat j.
Proof.
  intros B J. rewrite <- Z.land_ones by lia. f_equal.
  do 9 (destruct j as [|j]; [try lia; reflexivity|]). lia.
Qed.
Lemma be_val_cons b l : be_val (b :: l) = b * 256 ^ Z.of_nat (length l) + be_val l.
Proof. change (b :: l) with ([b] ++ l). rewrite be_val_app. cbn [be_val fold_left]. ring. Qed.
Lemma be_val_zeros n : be_val (repeat 0 n) = 0.
Proof. induction n; [reflexivity|]. cbn [repeat]. rewrite be_val_cons, IHn. ring. Qed.
Lemma xorl_zeros l n : length l = n -> xorl l (repeat 0 n) = l.
Proof. intros <-. induction l; cbn; [reflexivity|]. rewrite Z.lxor_0_r, IHl. reflexivity. Qed.
Lemma zeros_bytes n : bytes (repeat 0 n).
Proof. apply Forall_forall. intros x I. apply repeat_spec in I. subst. unfold byte. lia. Qed.
Lemma candidate_value c ws : let bits := bits_len (cp_n c) in let len := ((bits + 7) / 8)%nat in
  (9 <= bits)%nat -> (len <= 4 * length ws)%nat ->
  candidate c ws = Some (Z.lxor (be_val (firstn len (flat_map (be_bytes 4) ws)) mod 2 ^ Z.of_nat bits) (66 * 256 ^ Z.of_nat (len - 2))).
Proof.
  intros bits len B L. unfold candidate, key_bytes. fold bits. fold len.
  assert (FL : length (flat_map (be_bytes 4) ws) = (4 * length ws)%nat).
  { clear. induction ws; [reflexivity|]. cbn [flat_map length]. rewrite app_length, be_bytes_length, IHws. lia. }
  assert (LN : length (firstn len (flat_map (be_bytes 4) ws)) = len) by (rewrite firstn_length; lia).
  assert (L2 : (2 <= len)%nat) by (apply (Nat.div_le_lower_bound (bits + 7) 8 2); lia).
  pose proof (firstn_bytes len _ (be4_bytes ws)) as BB.
  destruct (firstn len (flat_map (be_bytes 4) ws)) as [|b0 [|b1 r]]; cbn [length] in LN; try lia.
  cbn [option_map]. f_equal. pose proof (Forall_inv BB) as B0. pose proof (Forall_inv (Forall_inv_tail BB)) as B1. pose proof (Forall_inv_tail (Forall_inv_tail BB)) as Br.
  set (j := (bits - 8 * (len - 1))%nat).
  pose proof (Nat.div_mod (bits + 7) 8 ltac:(lia)) as DM. fold len in DM. pose proof (Nat.mod_upper_bound (bits + 7) 8 ltac:(lia)) as MB.
  assert (J : (1 <= j <= 8)%nat) by (unfold j; lia).
  assert (EJ : (bits mod 8 = j mod 8)%nat).
  { replace bits with (j + (len - 1) * 8)%nat by (unfold j; lia). rewrite Nat.mod_add by lia. reflexivity. }
  rewrite EJ, (mask_mod b0 j B0 J).
  replace (be_val (b0 :: b1 :: r) mod 2 ^ Z.of_nat bits) with (be_val (b0 mod 2 ^ Z.of_nat j :: b1 :: r)).
  - replace (66 * 256 ^ Z.of_nat (len - 2)) with (be_val (0 :: 66 :: repeat 0 (len - 2))).
    + rewrite be_val_lxor.
      * cbn [xorl]. rewrite Z.lxor_0_r, xorl_zeros by lia. reflexivity.
      * constructor; [|constructor; [exact B1|exact Br]]. unfold byte in *. pose proof (Z.mod_pos_bound b0 (2 ^ Z.of_nat j) ltac:(lia)).
        pose proof (Z.mod_le b0 (2 ^ Z.of_nat j) ltac:(lia) ltac:(lia)). lia.
      * constructor; [unfold byte; lia|]. constructor; [unfold byte; lia|apply zeros_bytes].
      * cbn [length]. rewrite repeat_length. lia.
    + rewrite !be_val_cons, be_val_zeros. cbn [length]. rewrite repeat_length. ring.
  - rewrite (be_val_cons b0), (be_val_cons (b0 mod 2 ^ Z.of_nat j)).
    assert (EP : 2 ^ Z.of_nat bits = 256 ^ Z.of_nat (length (b1 :: r)) * 2 ^ Z.of_nat j).
    { change 256 with (2 ^ 8). rewrite <- Z.pow_mul_r, <- Z.pow_add_r by lia. f_equal. cbn [length]. unfold j. lia. }
    pose proof (be_val_bound (b1 :: r) (Forall_inv_tail BB)) as VB. set (q := 256 ^ Z.of_nat (length (b1 :: r))) in *.
    rewrite EP. assert (Q : 0 < q) by lia. assert (P2 : 0 < 2 ^ Z.of_nat j) by lia. rewrite Z.rem_mul_r by lia.
    rewrite (Z.add_comm (b0 * q)), Z.mod_add, Z.div_add by lia. rewrite (Z.mod_small (be_val (b1 :: r))), (Z.div_small (be_val (b1 :: r))) by lia.
    rewrite Z.add_0_l. ring.
Qed.
(** Words whose bytes are those of a number. *)
Fixpoint words_of (w : nat) (x : Z) : list Z := match w with O => [] | S w => words_of w (x / 2 ^ 32) ++ [x mod 2 ^ 32] end.
Lemma words_of_length w : forall x, length (words_of w x) = w.
Proof. induction w; intros x; cbn [words_of]; [reflexivity|]. rewrite app_length, IHw. cbn. lia. Qed.
Lemma words_of_w32 w : forall x, Forall w32 (words_of w x).
Proof.
  induction w; intros x; cbn [words_of]; [constructor|]. apply Forall_app. split; [apply IHw|]. constructor; [|constructor].
  apply (Z.mod_pos_bound x (2 ^ 32)). lia.
Qed.
Lemma words_of_bytes w : forall x, flat_map (be_bytes 4) (words_of w x) = be_bytes (4 * w) x.
Proof.
  induction w; intros x; [reflexivity|]. cbn [words_of]. rewrite flat_map_app, IHw. cbn [flat_map]. rewrite app_nil_r.
  apply be_val_inj; [apply bytes_app; split; apply be_bytes_bytes|apply be_bytes_bytes|rewrite app_length, !be_bytes_length; lia|].
  rewrite be_val_app, !be_val_bytes, be_bytes_length. change (256 ^ Z.of_nat 4) with (2 ^ 32).
  replace (256 ^ Z.of_nat (4 * S w)) with (2 ^ 32 * 256 ^ Z.of_nat (4 * w)).
  - rewrite Z.mod_mod by lia. rewrite (Z.rem_mul_r x) by lia. ring.
  - change (2 ^ 32) with (256 ^ 4). rewrite <- Z.pow_add_r by lia. f_equal. lia.
Qed.
Lemma candidate_onto c d : (9 <= bits_len (cp_n c))%nat -> 0 <= d < 2 ^ Z.of_nat (bits_len (cp_n c)) ->
  exists ws, Forall w32 ws /\ length ws = (((bits_len (cp_n c) + 7) / 8 + 3) / 4)%nat /\ candidate c ws = Some d.
Proof.
  intros B D. set (bits := bits_len (cp_n c)) in *. set (len := ((bits + 7) / 8)%nat). set (w := ((len + 3) / 4)%nat).
  assert (L2 : (2 <= len)%nat) by (apply (Nat.div_le_lower_bound (bits + 7) 8 2); lia).
  pose proof (Nat.div_mod (bits + 7) 8 ltac:(lia)) as DM. fold len in DM. pose proof (Nat.mod_upper_bound (bits + 7) 8 ltac:(lia)) as MB.
  pose proof (Nat.div_mod (len + 3) 4 ltac:(lia)) as DM4. fold w in DM4. pose proof (Nat.mod_upper_bound (len + 3) 4 ltac:(lia)) as MB4.
  set (k := 66 * 256 ^ Z.of_nat (len - 2)).
  assert (K : 0 <= k < 2 ^ Z.of_nat bits).
  { unfold k. change 256 with (2 ^ 8). rewrite <- Z.pow_mul_r by lia. split; [lia|].
    apply Z.lt_le_trans with (2 ^ 7 * 2 ^ (8 * Z.of_nat (len - 2))).
    - apply Z.mul_lt_mono_pos_r; [lia|reflexivity].
    - rewrite <- Z.pow_add_r by lia. apply Z.pow_le_mono_r; lia. }
  set (v := Z.lxor d k).
  assert (V : 0 <= v < 2 ^ Z.of_nat bits).
  { assert (E : v = v mod 2 ^ Z.of_nat bits).
    { unfold v. rewrite <- Z.land_ones by lia. apply Z.bits_inj'. intros i I. rewrite Z.land_spec, Z.lxor_spec, Z.testbit_ones_nonneg by lia.
      destruct (Z.ltb_spec i (Z.of_nat bits)) as [_|G]; [rewrite andb_true_r; reflexivity|]. rewrite andb_false_r.
      assert (H : forall x, 0 <= x < 2 ^ Z.of_nat bits -> Z.testbit x i = false).
      { intros x X. destruct (Z.eq_dec x 0) as [->|]; [apply Z.bits_0|]. apply Z.bits_above_log2; [lia|].
        apply Z.lt_le_trans with (Z.of_nat bits); [apply Z.log2_lt_pow2; lia|exact G]. }
      rewrite !H by assumption. reflexivity. }
    rewrite E. apply Z.mod_pos_bound. lia. }
  exists (words_of w (v * 256 ^ Z.of_nat (4 * w - len))). split; [apply words_of_w32|]. split; [apply words_of_length|].
  rewrite candidate_value; [|exact B|rewrite words_of_length; fold bits; fold len; lia].
  fold bits. fold len. rewrite words_of_bytes. fold k. f_equal.
  assert (VL : v < 256 ^ Z.of_nat len). { apply Z.lt_le_trans with (2 ^ Z.of_nat bits); [lia|]. change 256 with (2 ^ 8). rewrite <- Z.pow_mul_r by lia. apply Z.pow_le_mono_r; lia. }
  assert (EB : be_bytes (4 * w) (v * 256 ^ Z.of_nat (4 * w - len)) = be_bytes len v ++ repeat 0 (4 * w - len)).
  { apply be_val_inj; [apply be_bytes_bytes|apply bytes_app; split; [apply be_bytes_bytes|apply zeros_bytes]|rewrite app_length, repeat_length, !be_bytes_length; lia|].
    rewrite be_val_app, !be_val_bytes, be_val_zeros, repeat_length, Z.add_0_r.
    rewrite (Z.mod_small v) by lia. apply Z.mod_small. split; [apply Z.mul_nonneg_nonneg; lia|].
    apply Z.lt_le_trans with (256 ^ Z.of_nat len * 256 ^ Z.of_nat (4 * w - len)); [apply Z.mul_lt_mono_pos_r; lia|].
    rewrite <- Z.pow_add_r by lia. apply Z.pow_le_mono_r; lia. }
  rewrite EB. rewrite <- (be_bytes_length len v) at 1. rewrite firstn_app, Nat.sub_diag, firstn_all, firstn_O, app_nil_r.
  rewrite be_val_bytes, (Z.mod_small v (256 ^ _)), Z.mod_small by lia. unfold v. rewrite Z.lxor_assoc, Z.lxor_nilpotent, Z.lxor_0_r. reflexivity.
Qed.
Lemma candidate_nonneg c ws d : candidate c ws = Some d -> 0 <= d.
Proof.
  unfold candidate. destruct (key_bytes (bits_len (cp_n c)) ws) as [l|] eqn:E; [|discriminate]. intros [= <-].
  apply be_val_bound, (key_bytes_bytes _ _ _ E).
Qed.
Lemma keygen_onto c d : sound_curve (cp_p c) (cp_b c) -> on_curve (cp_p c) (cp_b c) (decode (cp_gx c, cp_gy c)) -> (9 <= bits_len (cp_n c))%nat -> 0 <= d < cp_n c ->
  exists ws qx qy, Forall w32 ws /\ length ws = (((bits_len (cp_n c) + 7) / 8 + 3) / 4)%nat /\
    ec_generate_key c [ws] = Ok (mkEpriv (mkEpub qx qy) d) /\ curve_scalar_base c d = Some (qx, qy).
Proof.
  intros S G B D. destruct (candidate_onto c d B) as (ws & W & L & C).
  { split; [lia|]. apply Z.lt_trans with (cp_n c); [lia|apply bits_len_upper; lia]. }
  destruct (scalar_some c S _ _ d G (proj1 D)) as (qx & qy & E & _).
  exists ws, qx, qy. split; [exact W|]. split; [exact L|]. split; [|exact E]. apply (keygen_iff c S G).
  exists 0%nat, ws, d, qx, qy. split; [reflexivity|]. split; [exact C|]. split; [lia|]. split; [intros j J; lia|]. split; [exact E|reflexivity].
Qed.
