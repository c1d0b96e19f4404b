(** ECDSA: the model of ecdsa.rs against EcdsaSpec.v. *)
From Coq Require Import Znumtheory String.
From Verif Require Import Base HashModel HashSpec HashApi NumTheory RsaModel RsaProofs RsaEncModel RsaEncProofs DsaModel DsaSpec DsaProofs Words
  EcGroup Fp EllModel EllSpec EllProofs EllApi ModesModel ModesSpec ModesApi AesModel AesSpec AesKeys EcdsaModel EcdsaSpec.

(** ** The specification's sums and multiples *)
Lemma cong_add p x y x' y' : cong p x x' -> cong p y y' -> cong p (x + y) (x' + y').
Proof. unfold cong. intros A B. replace (x + y - (x' + y')) with ((x - x') + (y - y')) by ring. apply Z.divide_add_r; assumption. Qed.
Lemma cong_sub p x y x' y' : cong p x x' -> cong p y y' -> cong p (x - y) (x' - y').
Proof. unfold cong. intros A B. replace (x - y - (x' - y')) with ((x - x') - (y - y')) by ring. apply Z.divide_sub_r; assumption. Qed.
Lemma cong_mul p x y x' y' : cong p x x' -> cong p y y' -> cong p (x * y) (x' * y').
Proof.
  unfold cong. intros A B. replace (x * y - x' * y') with ((x - x') * y + x' * (y - y')) by ring.
  apply Z.divide_add_r; [apply Z.divide_mul_l, A|apply Z.divide_mul_r, B].
Qed.
Lemma cong_opp p x x' : cong p x x' -> cong p (- x) (- x').
Proof. unfold cong. intros A. replace (- x - - x') with (- (x - x')) by ring. apply Z.divide_opp_r, A. Qed.
Lemma same_refl p P : same_point p P P.
Proof. destruct P as [[? ?]|]; [split; apply cong_refl|exact I]. Qed.
Lemma sum_proper p P Q R P' Q' R' : same_point p P P' -> same_point p Q Q' -> same_point p R R' -> ec_sum p P Q R -> ec_sum p P' Q' R'.
Proof.
  intros SP SQ SR H.
  assert (CL : forall a b a' b', cong p a a' -> cong p b b' -> cong p a b -> cong p a' b').
  { intros a b a' b' A B C. apply (cong_trans _ _ a); [apply cong_sym, A|]. apply (cong_trans _ _ b); [exact C|exact B]. }
  destruct H as [Q R A|P R A|x1 y1 x2 y2 A B|l x1 y1 x2 y2 x3 y3 N A B C|l x1 y1 x2 y2 x3 y3 A A2 N B C D];
    repeat match goal with
    | E : same_point p (Some (?a, ?b)) ?R |- _ => destruct R as [[? ?]|]; [destruct E as [? ?]|contradiction E]
    | E : same_point p None ?R |- _ => match R with None => fail 1 | _ => destruct R as [[? ?]|]; [contradiction E|]; clear E end
    end.
  - apply sum_zero_l. eapply same_trans; [apply same_sym; exact SQ|]. eapply same_trans; [exact A|exact SR].
  - apply sum_zero_r. eapply same_trans; [apply same_sym; exact SP|]. eapply same_trans; [exact A|exact SR].
  - apply sum_opposite; [eapply CL; [| |exact A]; eassumption|]. eapply CL; [| |exact B]; [eassumption|apply cong_opp; eassumption].
  - apply (sum_chord p l).
    + intros X. apply N. eapply CL; [| |exact X]; apply cong_sym; eassumption.
    + eapply CL; [| |exact A]; [apply cong_mul; [apply cong_refl|apply cong_sub; eassumption]|apply cong_sub; eassumption].
    + eapply CL; [| |exact B]; [eassumption|]. apply cong_sub; [apply cong_sub; [apply cong_refl|eassumption]|eassumption].
    + eapply CL; [| |exact C]; [eassumption|]. apply cong_sub; [apply cong_mul; [apply cong_refl|apply cong_sub; eassumption]|eassumption].
  - apply (sum_tangent p l).
    + eapply CL; [| |exact A]; eassumption.
    + eapply CL; [| |exact A2]; eassumption.
    + intros X. apply N. eapply CL; [| |exact X]; [apply cong_sym; eassumption|apply cong_refl].
    + eapply CL; [| |exact B]; [apply cong_mul; [apply cong_refl|apply cong_mul; [apply cong_refl|eassumption]]|].
      apply cong_sub; [apply cong_mul; [apply cong_refl|apply cong_mul; eassumption]|apply cong_refl].
    + eapply CL; [| |exact C]; [eassumption|]. apply cong_sub; [apply cong_sub; [apply cong_refl|eassumption]|eassumption].
    + eapply CL; [| |exact D]; [eassumption|]. apply cong_sub; [apply cong_mul; [apply cong_refl|apply cong_sub; eassumption]|eassumption].
Qed.

Section Group.
Variable c : curve.
Hypothesis S : sound_curve (cp_p c) (cp_b c).
Notation p := (cp_p c). Notation b := (cp_b c). Notation n := (cp_n c).
Let Hp : prime p := proj1 S.
Let P3 : 3 < p := proj1 (proj2 S).
Let Hb : ~ cong p b 0 := proj1 (proj2 (proj2 S)).
Let Hd : ~ cong p (b * b) 4 := proj2 (proj2 (proj2 S)).
Notation on xy := (on_curve p b (decode xy)).
Notation phi := (phi p Hp). Notation psi := (psi p). Notation zmul := (zmul p Hp).
Let on_iff := on_phi p b Hp P3.
Ltac op := clearbody on_iff Hp P3 Hb Hd.

Lemma multiple_ok x y k R : on (x, y) ->
  ec_multiple p k (decode (x, y)) R <-> exists u v, curve_scalar c x y (Z.of_nat k) = Some (u, v) /\ same_point p (decode (u, v)) R.
Proof.
  intros O. revert R. induction k as [|k IH]; intros R; cbn [ec_multiple].
  - rewrite (api_scalar c S) by (try exact O; lia). cbn [Z.of_nat Z.to_nat Nat.iter nat_rect]. split.
    + intros ->. exists 0, 0. split; [reflexivity|exact I].
    + intros (u & v & E & SP). injection E as <- <-. cbn in SP. destruct R; [contradiction|reflexivity].
  - rewrite Nat2Z.inj_succ. destruct (scalar_some c S x y (Z.of_nat k) O ltac:(lia)) as (u & v & E & _ & _ & Ouv & _).
    destruct (api_add c S x y u v O Ouv) as (x3 & y3 & EA & _ & _ & _ & ES).
    assert (EK : curve_scalar c x y (Z.succ (Z.of_nat k)) = Some (x3, y3)).
    { rewrite <- EA. rewrite (api_scalar c S) in E |- * by (try exact O; lia). rewrite Z2Nat.inj_succ by lia. cbn [Nat.iter nat_rect].
      unfold Nat.iter in E. rewrite E. reflexivity. }
    split.
    + intros (R' & M & SM). apply IH in M. destruct M as (u' & v' & E' & SP). rewrite E in E'. injection E' as <- <-.
      exists x3, y3. split; [exact EK|]. apply (sum_unique p (decode (x, y)) (decode (u, v))); [exact Hp|exact P3|exact ES|].
      apply (sum_proper p (decode (x, y)) R' R); [apply same_refl|apply same_sym, SP|apply same_refl|exact SM].
    + intros (u' & v' & E' & SP). rewrite EK in E'. injection E' as <- <-. exists (decode (u, v)). split.
      * apply IH. exists u, v. split; [exact E|apply same_refl].
      * apply (sum_proper p _ _ _ _ _ _ (same_refl _ _) (same_refl _ _) SP ES).
Qed.
Lemma decode_reduced u v : 0 <= u < p -> 0 <= v < p -> on (u, v) -> phi (u, v) = None <-> (u, v) = (0, 0).
Proof.
  op. intros U V O. unfold EllProofs.phi, decode. cbn [fst snd]. destruct (Z.eqb_spec u 0), (Z.eqb_spec v 0); cbn [andb]; split; intros E; try discriminate; try reflexivity; try congruence.
Qed.
Lemma same_reduced u v u' v' : 0 <= u < p -> 0 <= v < p -> 0 <= u' < p -> 0 <= v' < p -> same_point p (decode (u, v)) (decode (u', v')) -> (u, v) = (u', v').
Proof.
  intros A B C D. assert (CE : forall a a', 0 <= a < p -> 0 <= a' < p -> cong p a a' -> a = a').
  { intros a a' X Y [k E]. assert (k = 0) by nia. subst k. lia. }
  unfold decode. cbn [fst snd]. destruct (Z.eqb_spec u 0), (Z.eqb_spec v 0), (Z.eqb_spec u' 0), (Z.eqb_spec v' 0); cbn [andb same_point]; try contradiction; try congruence;
  intros [X Y]; rewrite (CE u u'), (CE v v') by assumption; reflexivity.
Qed.

(** A point of order n. *)
Hypothesis Gn : prime n.
Section Point.
Variable P : option (Fp p * Fp p).
Hypothesis OP : @EcGroup.on (Fp p) (fadd p Hp) (fmul p Hp) (fa p Hp) (fb p b Hp) P.
Hypothesis NP : zmul n P = None.
Lemma order_mod k : 0 <= k -> zmul (k mod n) P = zmul k P.
Proof.
  op. intros K. pose proof (prime_ge_2 n Gn) as N2. pose proof (Z.mod_pos_bound k n ltac:(lia)) as R. pose proof (Z.div_pos k n K ltac:(lia)) as Q.
  rewrite (Z.div_mod k n) at 2 by lia. rewrite (zmul_add p b Hp P3 Hd) by (try exact OP; try lia; apply Z.mul_nonneg_nonneg; lia).
  rewrite (Z.mul_comm n), (zmul_mul p b Hp P3 Hd) by (try exact OP; lia). rewrite NP, (zmul_O p Hp). reflexivity.
Qed.
Lemma order_eq j k : 0 <= j -> 0 <= k -> j mod n = k mod n -> zmul j P = zmul k P.
Proof. intros J K E. rewrite <- (order_mod j), <- (order_mod k), E by assumption. reflexivity. Qed.
Lemma order_none k : P <> None -> 0 <= k -> zmul k P = None -> (n | k).
Proof.
  intros PN K E. pose proof (prime_ge_2 n Gn) as N2. destruct (Zdivide_dec n k) as [D|D]; [exact D|]. exfalso. apply PN.
  destruct (rel_prime_bezout k n) as [u v B]; [apply rel_prime_sym, prime_rel_prime; assumption|].
  pose proof (Z.mod_pos_bound u n ltac:(lia)) as U.
  assert (EE : zmul ((u mod n) * k) P = zmul 1 P).
  { apply order_eq; [apply Z.mul_nonneg_nonneg; lia|lia|]. rewrite Z.mul_mod_idemp_l by lia. replace (u * k) with (1 + (- v) * n) by lia. apply Z_mod_plus_full. }
  op. rewrite (zmul_mul p b Hp P3 Hd) in EE by (try exact OP; lia). rewrite E, (zmul_O p Hp), (zmul_1 p Hp) in EE. congruence.
Qed.
End Point.
End Group.
Lemma cong_mod n x y : 0 < n -> cong n x y <-> x mod n = y mod n.
Proof. intros N. unfold cong. split; [apply divide_mod_eq; lia|apply mod_eq_divide; lia]. Qed.
Lemma cong_1 n x : 1 < n -> cong n x 1 <-> x mod n = 1.
Proof. intros N. rewrite cong_mod by lia. rewrite (Z.mod_1_l n) by lia. reflexivity. Qed.

Section Sig.
Variable c : curve.
Notation p := (cp_p c). Notation b := (cp_b c). Notation n := (cp_n c).
Notation G := (decode (cp_gx c, cp_gy c)).
Hypothesis GR : ECDSA_group p b n G.
Let S : sound_curve p b := proj1 GR.
Let Hp : prime p := proj1 S.
Let P3 : 3 < p := proj1 (proj2 S).
Let Hb : ~ cong p b 0 := proj1 (proj2 (proj2 S)).
Let Hd : ~ cong p (b * b) 4 := proj2 (proj2 (proj2 S)).
Let OG : on_curve p b G := proj1 (proj2 GR).
Let NG : G <> None := proj1 (proj2 (proj2 GR)).
Let Gn : prime n := proj1 (proj2 (proj2 (proj2 GR))).
Let N2 : 2 < n := proj1 (proj2 (proj2 (proj2 (proj2 GR)))).
Let MG : ec_multiple p (Z.to_nat n) G None := proj2 (proj2 (proj2 (proj2 (proj2 GR)))).
Notation on xy := (on_curve p b (decode xy)).
Notation phi := (phi p Hp). Notation psi := (psi p). Notation zmul := (zmul p Hp).
Notation fpadd := (@padd (Fp p) (f1 p Hp) (fadd p Hp) (fmul p Hp) (fsub p Hp) (fopp p Hp) (fdiv p Hp) (Fp_eq_dec p) (fa p Hp)).
Notation fon := (@EcGroup.on (Fp p) (fadd p Hp) (fmul p Hp) (fa p Hp) (fb p b Hp)).
Let on_iff := on_phi p b Hp P3.
Ltac op := clearbody on_iff Hp P3 Hb Hd.

Lemma decode_none xy : decode xy = None -> xy = (0, 0).
Proof. destruct xy as [x y]. unfold decode. cbn [fst snd]. destruct (Z.eqb_spec x 0), (Z.eqb_spec y 0); cbn [andb]; congruence. Qed.
Lemma decode_some xy xy' : decode xy = Some xy' -> xy = xy'.
Proof. destruct xy as [x y]. unfold decode. destruct (_ && _); congruence. Qed.
Lemma phi_none xy : phi xy = None <-> decode xy = None.
Proof. unfold EllProofs.phi. destruct (decode xy) as [[? ?]|]; split; congruence. Qed.
(** n Q = O in the specification and in the model. *)
Lemma order_phi x y : on (x, y) -> ec_multiple p (Z.to_nat n) (decode (x, y)) None <-> zmul n (phi (x, y)) = None.
Proof.
  intros O. rewrite (multiple_ok c S x y _ None O). rewrite Z2Nat.id by lia.
  destruct (scalar_some c S x y n O ltac:(lia)) as (u & v & E & U & V & Ouv & F). rewrite E. fold Hp in F.
  assert (EQ : phi (u, v) = zmul n (phi (x, y))) by exact F. rewrite <- EQ, phi_none. split.
  - intros (u' & v' & E' & SP). injection E' as <- <-. destruct (decode (u, v)) as [[? ?]|]; [contradiction SP|reflexivity].
  - intros D. exists u, v. split; [reflexivity|]. rewrite D. exact I.
Qed.
Lemma PG_on : fon (phi (cp_gx c, cp_gy c)).
Proof. apply on_iff, OG. Qed.
Lemma PG_n : zmul n (phi (cp_gx c, cp_gy c)) = None.
Proof. apply order_phi; [exact OG|exact MG]. Qed.
Lemma PG_some : phi (cp_gx c, cp_gy c) <> None.
Proof. rewrite phi_none. exact NG. Qed.
Notation PG := (phi (cp_gx c, cp_gy c)).

(** Multiples of the base point by 0 < k < n are finite. *)
Lemma base_ok k : 0 <= k -> curve_scalar_base c k = Some (psi (zmul k PG)).
Proof. intros K. unfold curve_scalar_base. rewrite (curve_scalar_ok p b Hp P3 Hd c eq_refl) by (try exact OG; exact K). reflexivity. Qed.
Lemma base_point k : 0 < k < n -> exists x y, curve_scalar_base c k = Some (x, y) /\ 0 <= x < p /\ 0 <= y < p /\ on (x, y) /\
  decode (x, y) = Some (x, y) /\ phi (x, y) = zmul k PG.
Proof.
  intros K. destruct (scalar_some c S (cp_gx c) (cp_gy c) k OG ltac:(lia)) as (u & v & E & U & V & Ouv & F).
  exists u, v. split; [exact E|]. split; [exact U|]. split; [exact V|]. split; [exact Ouv|]. split; [|exact F].
  destruct (decode (u, v)) as [uv|] eqn:D; [apply decode_some in D; subst; reflexivity|]. exfalso.
  assert (EQ : zmul k PG = None) by (transitivity (phi (u, v)); [symmetry; exact F|apply phi_none, D]).
  apply (order_none c S Gn PG PG_on PG_n k PG_some ltac:(lia)) in EQ. apply Z.divide_pos_le in EQ; lia.
Qed.
Lemma base_inj x y x' y' : 0 <= x < p -> 0 <= x' < p -> same_point p (Some (x, y)) (Some (x', y')) -> x = x'.
Proof. intros X X' [[k E] _]. assert (k = 0) by nia. subst k. lia. Qed.
Lemma kinv_ok k : 0 < k < n -> cong n (fermat_inverse k n * k) 1.
Proof.
  intros K. apply cong_1; [lia|]. unfold fermat_inverse. rewrite powmod_ok by lia. apply fermat_inverse_ok; [exact Gn|].
  intros D. apply Z.divide_pos_le in D; lia.
Qed.
Lemma s_value d z k r s : 0 < k < n -> 0 <= s < n -> (s * k) mod n = (z + d * r) mod n <-> s = ((d * r + z) * fermat_inverse k n) mod n.
Proof.
  intros K R. pose proof (kinv_ok k K) as KI. set (ki := fermat_inverse k n) in *. clearbody ki. rewrite <- (Z.mod_small s n R) at 2. rewrite <- !cong_mod by lia. split; intros E.
  - apply (cong_trans n _ (s * (ki * k))).
    + rewrite <- (Z.mul_1_r s) at 1. apply cong_mul; [apply cong_refl|apply cong_sym, KI].
    + replace (s * (ki * k)) with (s * k * ki) by ring. replace (d * r + z) with (z + d * r) by ring. apply cong_mul; [exact E|apply cong_refl].
  - apply (cong_trans n _ ((d * r + z) * ki * k)); [apply cong_mul; [exact E|apply cong_refl]|].
    replace ((d * r + z) * ki * k) with ((z + d * r) * (ki * k)) by ring. rewrite <- (Z.mul_1_r (z + d * r)) at 2. apply cong_mul; [apply cong_refl|exact KI].
Qed.
Lemma signature_iff d z k r s : 0 < k < n ->
  ECDSA_signature p n G d z k r s <->
  exists x y, curve_scalar_base c k = Some (x, y) /\ r = x mod n /\ 0 < r /\ s = ((d * r + z) * fermat_inverse k n) mod n /\ 0 < s.
Proof.
  intros K. destruct (base_point k K) as (x & y & E & X & Y & O & DS & _).
  assert (NB : forall v, 0 <= v mod n < n) by (intros v; apply Z.mod_pos_bound; lia). split.
  - intros (x' & y' & M & X' & R & R0 & S0 & E0). apply (multiple_ok c S) in M; [|exact OG]. rewrite Z2Nat.id in M by lia.
    destruct M as (u & v & EU & SP). unfold curve_scalar_base in E. rewrite E in EU. injection EU as <- <-. rewrite DS in SP.
    pose proof (base_inj _ _ _ _ X X' SP) as <-. exists x, y. split; [exact E|]. split; [exact R|]. split; [lia|]. split; [apply s_value; [exact K|lia|exact E0]|lia].
  - intros (x' & y' & E' & R & R0 & SV & S0). rewrite E in E'. injection E' as <- <-. exists x, y. split.
    + apply (multiple_ok c S); [exact OG|]. rewrite Z2Nat.id by lia. exists x, y. split; [exact E|]. rewrite DS. apply same_refl.
    + split; [exact X|]. split; [exact R|]. pose proof (NB x). pose proof (NB ((d * r + z) * fermat_inverse k n)). split; [lia|]. split; [lia|]. apply s_value; [exact K|lia|exact SV].
Qed.

(** ** Verification *)
Section Key.
Variables qx qy : Z.
Hypothesis OQ : on (qx, qy).
Hypothesis MQ : ec_multiple p (Z.to_nat n) (decode (qx, qy)) None.
Notation PQ := (phi (qx, qy)).
Lemma PQ_on : fon PQ. Proof. apply on_iff, OQ. Qed.
Lemma PQ_n : zmul n PQ = None. Proof. apply order_phi; [exact OQ|exact MQ]. Qed.
(** No sum of multiples has y = 0. *)
Lemma sum_y u1 u2 x y : 0 <= u1 -> 0 <= u2 -> 0 <= x < p -> 0 <= y < p -> on (x, y) -> phi (x, y) = fpadd (zmul u1 PG) (zmul u2 PQ) -> decode (x, y) <> None -> y <> 0.
Proof.
  intros U1 U2 X Y O F ND Y0. subst y.
  assert (TN : zmul n (phi (x, 0)) = None).
  { rewrite F. unfold EllProofs.zmul at 1.
    pose proof (on_zmul p b Hp P3 u1 _ PG_on) as O1. pose proof (on_zmul p b Hp P3 u2 _ PQ_on) as O2.
    rewrite (smul_padd _ _ _ _ _ _ _ _ (Fp_field p Hp) _ _ _ (two_nz p Hp P3) (fdisc p b Hp P3 Hd)) by assumption.
    fold (zmul n (zmul u1 PG)). fold (zmul n (zmul u2 PQ)).
    rewrite <- !(zmul_mul p b Hp P3 Hd) by (try lia; first [exact PG_on|exact PQ_on]).
    rewrite (Z.mul_comm n u1), (Z.mul_comm n u2). rewrite !(zmul_mul p b Hp P3 Hd) by (try lia; first [exact PG_on|exact PQ_on]).
    rewrite PG_n, PQ_n, !(zmul_O p Hp). reflexivity. }
  pose proof (proj1 (on_iff _) O) as OT.
  assert (T2 : zmul 2 (phi (x, 0)) = None).
  { change 2 with (1 + 1). rewrite (zmul_add p b Hp P3 Hd) by (try lia; exact OT). rewrite (zmul_1 p Hp).
    pose proof (phi_opp p Hp x 0) as PO. change (- 0) with 0 in PO. rewrite PO at 2. apply (fpadd_neg p b Hp P3), OT. }
  assert (TS : phi (x, 0) <> None) by (rewrite phi_none; exact ND).
  apply (order_none c S Gn (phi (x, 0)) OT TN 2 TS ltac:(lia)) in T2. apply Z.divide_pos_le in T2; lia.
Qed.
Lemma accepts_iff {T} (o : ecdsa T) r s : eo_params (es_curve o) = c -> ekp_public (es_kp o) = mkEpub qx qy ->
  let z := hash_to_bigint c (es_hash o) in 0 <= z ->
  (ec_verify_inner o r s = Ok tt \/ ec_verify_inner o r s = Err VerificationFailed) /\
  (ec_verify_inner o r s = Ok tt <-> ECDSA_accepts p n G (decode (qx, qy)) z r s).
Proof.
  intros EC EQ z Z0. unfold ec_verify_inner. rewrite EC, EQ. cbn [eq_x eq_y]. fold z.
  destruct (negb (Z.sgn r =? 1)) eqn:R1; cbn [orb].
  { split; [right; reflexivity|]. split; [discriminate|]. intros (R & _). exfalso. apply negb_true_iff, Z.eqb_neq in R1. apply R1, Z.sgn_pos_iff. lia. }
  apply sgn1 in R1. destruct (negb (Z.sgn s =? 1)) eqn:S1; cbn [orb].
  { split; [right; reflexivity|]. split; [discriminate|]. intros (_ & R & _). exfalso. apply negb_true_iff, Z.eqb_neq in S1. apply S1, Z.sgn_pos_iff. lia. }
  apply sgn1 in S1. destruct (Z.leb_spec n r) as [R2|R2]; cbn [orb]; [split; [right; reflexivity|]; split; [discriminate|]; intros (R & _); lia|].
  destruct (Z.leb_spec n s) as [S2|S2]; cbn [orb]; [split; [right; reflexivity|]; split; [discriminate|]; intros (_ & R & _); lia|].
  assert (GC : Z.gcd s n = 1) by (apply prime_gcd_1; [exact Gn|intros D; apply Z.divide_pos_le in D; lia]).
  destruct (inv_mod_coprime s n ltac:(lia) GC) as (w & EW & RW & HW). unfold mod_inverse. rewrite EW.
  assert (HW1 : cong n (s * w) 1) by (apply cong_mod; [lia|]; rewrite Z.mul_comm; exact HW).
  pose proof (Z.mod_pos_bound (z * w) n ltac:(lia)) as B1. pose proof (Z.mod_pos_bound (w * r) n ltac:(lia)) as B2.
  set (u1 := (z * w) mod n) in *. set (u2 := (w * r) mod n) in *.
  destruct (scalar_some c S (cp_gx c) (cp_gy c) u1 OG ltac:(lia)) as (x1 & y1 & E1 & X1 & Y1 & O1 & F1).
  destruct (scalar_some c S qx qy u2 OQ ltac:(lia)) as (x2 & y2 & E2 & X2 & Y2 & O2 & F2).
  unfold curve_scalar_base. rewrite E1, E2. destruct (api_add c S x1 y1 x2 y2 O1 O2) as (x3 & y3 & E3 & X3 & Y3 & O3 & F3). rewrite E3.
  assert (PH : phi (x3, y3) = fpadd (zmul u1 PG) (zmul u2 PQ)).
  { pose proof (add_ok p b Hp P3 c eq_refl x1 y1 x2 y2 O1 O2) as A. rewrite E3 in A. injection A as A. rewrite A.
    change (phi (psi (fpadd (phi (x1, y1)) (phi (x2, y2)))) = fpadd (zmul u1 PG) (zmul u2 PQ)).
    assert (F1' : phi (x1, y1) = zmul u1 PG) by exact F1. assert (F2' : phi (x2, y2) = zmul u2 PQ) by exact F2. rewrite F1', F2'.
    apply (phi_psi p b Hp P3 Hb), (on_fpadd p b Hp P3); apply (on_zmul p b Hp P3); [exact PG_on|exact PQ_on]. }
  assert (ACC : ECDSA_accepts p n G (decode (qx, qy)) z r s <-> (decode (x3, y3) <> None /\ x3 mod n = r)).
  { split.
    - intros (_ & _ & w' & U & V & x & y & HW' & MU & MV & SU & RX & ER).
      assert (CW : cong n w' w).
      { apply cong_1 in HW'; [|lia]. apply (cong_trans n _ (w' * (s * w))).
        - rewrite <- (Z.mul_1_r w') at 1. apply cong_mul; [apply cong_refl|apply cong_sym, HW1].
        - replace (w' * (s * w)) with (s * w' * w) by ring. rewrite <- (Z.mul_1_l w) at 2. apply cong_mul; [exact HW'|apply cong_refl]. }
      replace ((z * w') mod n) with u1 in MU by (apply cong_mod; [lia|apply cong_mul; [apply cong_refl|apply cong_sym, CW]]).
      replace ((r * w') mod n) with u2 in MV by (apply cong_mod; [lia|rewrite (Z.mul_comm w); apply cong_mul; [apply cong_refl|apply cong_sym, CW]]).
      apply (multiple_ok c S) in MU; [|exact OG]. apply (multiple_ok c S) in MV; [|exact OQ]. rewrite Z2Nat.id in MU, MV by lia.
      destruct MU as (a1 & a2 & EA & SA). rewrite E1 in EA. injection EA as <- <-. destruct MV as (b1 & b2 & EB & SB). rewrite E2 in EB. injection EB as <- <-.
      apply same_sym in SA. apply same_sym in SB. pose proof (sum_proper p _ _ _ _ _ _ SA SB (same_refl p _) SU) as SU'.
      pose proof (sum_unique p _ _ _ _ Hp P3 F3 SU') as SP. destruct (decode (x3, y3)) as [xy|] eqn:D3; [|contradiction]. apply decode_some in D3. subst xy.
      split; [discriminate|]. rewrite (base_inj _ _ _ _ X3 RX SP). symmetry. exact ER.
    - intros [D3 ER]. split; [lia|]. split; [lia|]. exists w, (decode (x1, y1)), (decode (x2, y2)), x3, y3. split; [apply cong_1; [lia|exact HW1]|].
      rewrite (Z.mul_comm r w). fold u1. fold u2. split; [apply (multiple_ok c S); [exact OG|]; rewrite Z2Nat.id by lia; exists x1, y1; split; [exact E1|apply same_refl]|].
      split; [apply (multiple_ok c S); [exact OQ|]; rewrite Z2Nat.id by lia; exists x2, y2; split; [exact E2|apply same_refl]|].
      split; [|split; [exact X3|symmetry; exact ER]]. destruct (decode (x3, y3)) as [xy|] eqn:D4; [|contradiction D3; reflexivity]. apply decode_some in D4. subst xy. exact F3. }
  rewrite ACC.
  destruct (negb (Z.sgn x3 =? 1)) eqn:C1; cbn [orb].
  { split; [right; reflexivity|]. split; [discriminate|]. intros [_ ER]. exfalso. apply negb_true_iff, Z.eqb_neq in C1. apply C1, Z.sgn_pos_iff.
    destruct (Z.eq_dec x3 0) as [->|]; [rewrite Z.mod_0_l in ER by lia; lia|lia]. }
  destruct (negb (Z.sgn y3 =? 1)) eqn:C2; cbn [orb].
  { split; [right; reflexivity|]. split; [discriminate|]. intros [D3 ER]. exfalso. apply negb_true_iff, Z.eqb_neq in C2. apply C2, Z.sgn_pos_iff.
    pose proof (sum_y u1 u2 x3 y3 ltac:(lia) ltac:(lia) X3 Y3 O3 PH D3). lia. }
  apply sgn1 in C1. destruct (Z.eqb_spec (x3 mod n) r) as [ER|ER].
  - split; [left; reflexivity|]. split; [|reflexivity]. intros _. split; [|exact ER]. intros D. apply decode_none in D. injection D as -> ->. lia.
  - split; [right; reflexivity|]. split; [discriminate|]. intros [_ X]. contradiction.
Qed.
End Key.

(** ** A signature passes *)
Lemma multiple_order d qx qy : 0 <= d -> curve_scalar_base c d = Some (qx, qy) ->
  on (qx, qy) /\ ec_multiple p (Z.to_nat n) (decode (qx, qy)) None /\ phi (qx, qy) = zmul d PG.
Proof.
  intros D0 E. destruct (scalar_some c S (cp_gx c) (cp_gy c) d OG D0) as (u & v & E' & U & V & O & F). unfold curve_scalar_base in E. rewrite E in E'. injection E' as <- <-.
  assert (F' : phi (qx, qy) = zmul d PG) by exact F.
  split; [exact O|]. split; [|exact F']. apply order_phi; [exact O|]. rewrite F', <- (zmul_mul p b Hp P3 Hd) by (try exact PG_on; lia).
  rewrite Z.mul_comm, (zmul_mul p b Hp P3 Hd) by (try exact PG_on; lia). rewrite PG_n. apply zmul_O.
Qed.
Lemma signature_accepted d z k r s qx qy : 0 < k < n -> 0 <= d -> 0 <= z -> curve_scalar_base c d = Some (qx, qy) ->
  ECDSA_signature p n G d z k r s -> ECDSA_accepts p n G (decode (qx, qy)) z r s.
Proof.
  intros K D0 Z0 EQ SG. destruct (multiple_order d qx qy D0 EQ) as (OQ & MQ & FQ).
  pose proof SG as (_ & _ & _ & _ & _ & R0 & S0 & EK). apply signature_iff in SG; [|exact K]. destruct SG as (x & y & EB & ER & _).
  destruct (base_point k K) as (x' & y' & EB' & X & Y & O & DS & FK). rewrite EB in EB'. injection EB' as <- <-.
  assert (GC : Z.gcd s n = 1) by (apply prime_gcd_1; [exact Gn|intros D; apply Z.divide_pos_le in D; lia]).
  destruct (inv_mod_coprime s n ltac:(lia) GC) as (w & _ & RW & HW).
  assert (HW1 : cong n (s * w) 1) by (apply cong_mod; [lia|]; rewrite Z.mul_comm; exact HW).
  pose proof (Z.mod_pos_bound (z * w) n ltac:(lia)) as B1. pose proof (Z.mod_pos_bound (r * w) n ltac:(lia)) as B2.
  destruct (scalar_some c S (cp_gx c) (cp_gy c) ((z * w) mod n) OG ltac:(lia)) as (x1 & y1 & E1 & X1 & Y1 & O1 & F1).
  destruct (scalar_some c S qx qy ((r * w) mod n) OQ ltac:(lia)) as (x2 & y2 & E2 & X2 & Y2 & O2 & F2).
  destruct (api_add c S x1 y1 x2 y2 O1 O2) as (x3 & y3 & E3 & X3 & Y3 & O3 & F3).
  split; [exact R0|]. split; [exact S0|]. exists w, (decode (x1, y1)), (decode (x2, y2)), x, y.
  split; [apply cong_1; [lia|exact HW1]|].
  split; [apply (multiple_ok c S); [exact OG|]; rewrite Z2Nat.id by lia; exists x1, y1; split; [exact E1|apply same_refl]|].
  split; [apply (multiple_ok c S); [exact OQ|]; rewrite Z2Nat.id by lia; exists x2, y2; split; [exact E2|apply same_refl]|].
  split; [|split; [exact X|exact ER]]. rewrite <- DS. replace (x, y) with (x3, y3); [exact F3|].
  assert (SE : Some (x3, y3) = Some (x, y)); [|congruence]. rewrite <- E3, <- EB.
  etransitivity; [exact (add_ok p b Hp P3 c eq_refl x1 y1 x2 y2 O1 O2)|]. rewrite base_ok by lia.
  apply (f_equal (fun v => Some (psi v))).
  assert (F1' : phi (x1, y1) = zmul ((z * w) mod n) PG) by exact F1. assert (F2' : phi (x2, y2) = zmul ((r * w) mod n) (phi (qx, qy))) by exact F2.
  change (fpadd (phi (x1, y1)) (phi (x2, y2)) = zmul k PG). rewrite F1', F2', FQ.
  rewrite <- (zmul_mul p b Hp P3 Hd), <- (zmul_add p b Hp P3 Hd) by (try exact PG_on; try lia; apply Z.mul_nonneg_nonneg; lia).
  apply (order_eq c S Gn PG PG_on PG_n); [apply Z.add_nonneg_nonneg; [lia|apply Z.mul_nonneg_nonneg; lia]|lia|]. apply cong_mod; [lia|].
  apply cong_mod in EK; [|lia].
  apply (cong_trans n _ (w * (s * k))).
  - apply (cong_trans n _ (w * (z + d * r))); [|apply cong_mul; [apply cong_refl|apply cong_sym, EK]].
    replace (w * (z + d * r)) with (z * w + r * w * d) by ring. apply cong_add; [|apply cong_mul; [|apply cong_refl]]; apply cong_mod; try lia; apply Z.mod_mod; lia.
  - replace (w * (s * k)) with (s * w * k) by ring. rewrite <- (Z.mul_1_l k) at 2. apply cong_mul; [exact HW1|apply cong_refl].
Qed.
End Sig.
