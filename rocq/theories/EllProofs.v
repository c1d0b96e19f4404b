(** The arithmetic of EllModel computes the group law of EcGroup over the residues modulo p. *)
From Coq Require Import Znumtheory Field String.
From Verif Require Import Base HashModel NumTheory RsaModel RsaEncModel DsaModel DsaProofs EcGroup Fp EllModel EllSpec.

(** ** Jacobian coordinates over a field *)
Section JAC.
Context {K : Type} (k0 k1 : K) (kadd kmul ksub : K -> K -> K) (kopp : K -> K) (kdiv : K -> K -> K) (kinv : K -> K).
Hypothesis Fth : field_theory k0 k1 kadd kmul ksub kopp kdiv kinv eq.
Hypothesis Keqdec : forall x y : K, {x = y} + {x <> y}.
Add Field Kf : Fth.
Notation "0" := k0. Notation "1" := k1.
Infix "+" := kadd. Infix "*" := kmul. Infix "-" := ksub. Notation "- x" := (kopp x). Infix "/" := kdiv.
Notation "2" := (k1 + k1). Notation "3" := (k1 + k1 + k1). Notation "4" := (2 * 2). Notation "8" := (2 * 4).
Variable b : K.
Hypothesis two_nz : 2 <> 0.
Let a : K := - (3).
Let on := @on K kadd kmul a b.
Let padd := @padd K k1 kadd kmul ksub kopp kdiv Keqdec a.
Let mul_z := mul_z k0 k1 kadd kmul ksub kopp kdiv kinv Fth Keqdec.
Let mul_nz := mul_nz k0 k1 kadd kmul ksub kopp kdiv kinv Fth Keqdec.
Let opp_self := opp_self k0 k1 kadd kmul ksub kopp kdiv kinv Fth Keqdec two_nz.
Let sub_z := sub_z k0 k1 kadd kmul ksub kopp kdiv kinv Fth.
Let sub_nz := sub_nz k0 k1 kadd kmul ksub kopp kdiv kinv Fth.
Let same_x := same_x k0 k1 kadd kmul ksub kopp kdiv kinv Fth Keqdec.
Definition aff (x y z : K) : option (K * K) := if Keqdec z 0 then None else Some (x / (z * z), y / (z * z * z)).

Definition dbl_x (x y z : K) : K := let al := 3 * ((x - z * z) * (x + z * z)) in al * al - 8 * (x * (y * y)).
Definition dbl_z (x y z : K) : K := (y + z) * (y + z) - y * y - z * z.
Definition dbl_y (x y z : K) : K := let al := 3 * ((x - z * z) * (x + z * z)) in
  al * (4 * (x * (y * y)) - dbl_x x y z) - 8 * (y * y * (y * y)).
Lemma dbl_ok x y z : aff (dbl_x x y z) (dbl_y x y z) (dbl_z x y z) = padd (aff x y z) (aff x y z).
Proof.
  unfold aff. destruct (Keqdec z 0) as [->|Z].
  - destruct (Keqdec (dbl_z x y 0) 0) as [_|N]; [reflexivity|]. exfalso. apply N. unfold dbl_z. ring.
  - assert (E : dbl_z x y z = 2 * y * z) by (unfold dbl_z; ring).
    unfold padd, EcGroup.padd, slope. destruct (Keqdec (x / (z * z)) (x / (z * z))) as [_|N]; [|contradiction].
    destruct (Keqdec (dbl_z x y z) 0) as [E0|N].
    + assert (Y : y = 0).
      { rewrite E in E0. destruct (mul_z _ _ E0) as [E1|E1]; [|contradiction]. destruct (mul_z _ _ E1); [contradiction|assumption]. }
      subst y. destruct (Keqdec (0 / (z * z * z)) (- (0 / (z * z * z)))) as [_|N]; [reflexivity|]. exfalso. apply N. field. exact Z.
    + assert (Y : y <> 0) by (intros ->; apply N; rewrite E; ring).
      destruct (Keqdec (y / (z * z * z)) (- (y / (z * z * z)))) as [E1|_].
      * exfalso. apply opp_self in E1. apply Y. replace y with (y / (z * z * z) * (z * z * z)) by (field; exact Z). rewrite E1. ring.
      * rewrite E. unfold dbl_y, dbl_x, a. do 2 f_equal; field; auto.
Qed.

Definition ad_h (x1 z1 x2 z2 : K) : K := x2 * (z1 * z1) - x1 * (z2 * z2).
Definition ad_r (y1 z1 y2 z2 : K) : K := y2 * z1 * (z1 * z1) - y1 * z2 * (z2 * z2).
Definition ad_x (x1 y1 z1 x2 y2 z2 : K) : K :=
  let h := ad_h x1 z1 x2 z2 in let r := ad_r y1 z1 y2 z2 * 2 in let i := h * 2 * (h * 2) in let v := x1 * (z2 * z2) * i in
  r * r - h * i - v - v.
Definition ad_y (x1 y1 z1 x2 y2 z2 : K) : K :=
  let h := ad_h x1 z1 x2 z2 in let r := ad_r y1 z1 y2 z2 * 2 in let i := h * 2 * (h * 2) in let v := x1 * (z2 * z2) * i in
  r * (v - ad_x x1 y1 z1 x2 y2 z2) - y1 * z2 * (z2 * z2) * (h * i) * 2.
Definition ad_z (x1 z1 x2 z2 : K) : K := ((z1 + z2) * (z1 + z2) - z1 * z1 - z2 * z2) * ad_h x1 z1 x2 z2.
Lemma ad_same x1 y1 z1 x2 y2 z2 : z1 <> 0 -> z2 <> 0 -> ad_h x1 z1 x2 z2 = 0 -> ad_r y1 z1 y2 z2 = 0 -> aff x1 y1 z1 = aff x2 y2 z2.
Proof.
  intros Z1 Z2 H R. unfold aff. destruct (Keqdec z1 0); [contradiction|]. destruct (Keqdec z2 0); [contradiction|].
  apply sub_z in H. apply sub_z in R. do 2 f_equal.
  - transitivity (x1 * (z2 * z2) / (z1 * z1 * (z2 * z2))); [field; auto|]. rewrite <- H. field. auto.
  - transitivity (y1 * z2 * (z2 * z2) / (z1 * z1 * z1 * (z2 * z2 * z2))); [field; auto|]. rewrite <- R. field. auto.
Qed.
Lemma ad_ok x1 y1 z1 x2 y2 z2 : z1 <> 0 -> z2 <> 0 -> on (aff x1 y1 z1) -> on (aff x2 y2 z2) ->
  ~ (ad_h x1 z1 x2 z2 = 0 /\ ad_r y1 z1 y2 z2 = 0) ->
  aff (ad_x x1 y1 z1 x2 y2 z2) (ad_y x1 y1 z1 x2 y2 z2) (ad_z x1 z1 x2 z2) = padd (aff x1 y1 z1) (aff x2 y2 z2).
Proof.
  intros Z1 Z2 O1 O2 N. assert (E : ad_z x1 z1 x2 z2 = 2 * z1 * z2 * ad_h x1 z1 x2 z2) by (unfold ad_z; ring).
  unfold aff in *. destruct (Keqdec z1 0); [contradiction|]. destruct (Keqdec z2 0); [contradiction|].
  unfold padd, EcGroup.padd, slope.
  destruct (Keqdec (x1 / (z1 * z1)) (x2 / (z2 * z2))) as [Ex|Nx].
  - assert (H : ad_h x1 z1 x2 z2 = 0).
    { unfold ad_h. transitivity (z1 * z1 * (z2 * z2) * (x2 / (z2 * z2) - x1 / (z1 * z1))); [field; auto|]. rewrite Ex. ring. }
    destruct (Keqdec (ad_z x1 z1 x2 z2) 0) as [_|Nz]; [|exfalso; apply Nz; rewrite E, H; ring].
    destruct (Keqdec (y1 / (z1 * z1 * z1)) (- (y2 / (z2 * z2 * z2)))) as [_|Ny]; [reflexivity|].
    exfalso. apply N. split; [exact H|]. rewrite <- Ex in O2.
    destruct (same_x a b _ _ _ O1 O2) as [E1|E1]; [|contradiction].
    unfold ad_r. transitivity (z1 * z1 * z1 * (z2 * z2 * z2) * (y2 / (z2 * z2 * z2) - y1 / (z1 * z1 * z1))); [field; auto|]. rewrite E1. ring.
  - assert (H : ad_h x1 z1 x2 z2 <> 0).
    { intros H. apply Nx. apply sub_z in H. transitivity (x1 * (z2 * z2) / (z1 * z1 * (z2 * z2))); [field; auto|]. rewrite <- H. field. auto. }
    destruct (Keqdec (ad_z x1 z1 x2 z2) 0) as [Ez|_].
    { exfalso. rewrite E in Ez. destruct (mul_z _ _ Ez) as [Ez'|]; [|contradiction]. destruct (mul_z _ _ Ez') as [Ez''|]; [|contradiction].
      destruct (mul_z _ _ Ez''); contradiction. }
    rewrite E. unfold ad_y, ad_x, ad_r. unfold ad_h in *. cbv zeta. do 2 f_equal; field; repeat split; auto.
    all: try (intros X; apply H; rewrite <- X; ring).
Qed.
End JAC.

(** ** Residues *)
Section ZP.
Variables p b : Z.
Hypothesis Hp : prime p.
Hypothesis P3 : 3 < p.
Hypothesis Hb : ~ cong p b 0.
Hypothesis Hd : ~ cong p (b * b) 4.
Notation F := (Fp p). Notation oz := (of_Z p Hp). Notation tz := (to_Z p).
Declare Scope fp_scope.
Delimit Scope fp_scope with fp.
Notation "0" := (f0 p Hp) : fp_scope. Notation "1" := (f1 p Hp) : fp_scope.
Notation "x + y" := (fadd p Hp x y) : fp_scope. Notation "x * y" := (fmul p Hp x y) : fp_scope.
Notation "x - y" := (fsub p Hp x y) : fp_scope. Notation "- x" := (fopp p Hp x) : fp_scope. Notation "x / y" := (fdiv p Hp x y) : fp_scope.
Notation "2" := (f1 p Hp + f1 p Hp)%fp : fp_scope. Notation "3" := (2 + 1)%fp : fp_scope.
Add Field Ff : (Fp_field p Hp).
Definition fa : F := (- (3))%fp.
Definition fb : F := oz b.
Notation Peq := (Fp_eq_dec p).
Notation fon := (@on F (fadd p Hp) (fmul p Hp) fa fb).
Notation fpadd := (@padd F (f1 p Hp) (fadd p Hp) (fmul p Hp) (fsub p Hp) (fopp p Hp) (fdiv p Hp) Peq fa).
Notation fsmul := (@smul F (f1 p Hp) (fadd p Hp) (fmul p Hp) (fsub p Hp) (fopp p Hp) (fdiv p Hp) Peq fa).
Notation fneg := (@neg F (fopp p Hp)).
Notation faff := (aff (f0 p Hp) (fmul p Hp) (fdiv p Hp) Peq).

Lemma oz_2 : oz 2 = (2)%fp. Proof. change 2%Z with (1 + 1)%Z. rewrite of_add. reflexivity. Qed.
Lemma oz_3 : oz 3 = (3)%fp. Proof. change 3%Z with (2 + 1)%Z. rewrite of_add, oz_2. reflexivity. Qed.
Lemma oz_4 : oz 4 = (2 * 2)%fp. Proof. change 4%Z with (2 * 2)%Z. rewrite of_mul, oz_2. reflexivity. Qed.
Lemma oz_8 : oz 8 = (2 * (2 * 2))%fp. Proof. change 8%Z with (2 * 4)%Z. rewrite of_mul, oz_2, oz_4. reflexivity. Qed.
Lemma oz_cong x y : oz x = oz y <-> cong p x y.
Proof.
  rewrite of_Z_eq. unfold cong. split; [apply mod_eq_divide; lia|apply divide_mod_eq; lia].
Qed.
Lemma two_nz : (2)%fp <> 0%fp.
Proof. rewrite <- oz_2. unfold f0. rewrite oz_cong. intros D. apply Z.divide_pos_le in D; lia. Qed.
Lemma fdisc : disc (f1 p Hp) (fadd p Hp) (fmul p Hp) fa fb <> 0%fp.
Proof.
  unfold disc. intros E. apply Hd.
  assert (E' : oz (27 * (b * b - 4)) = 0%fp).
  { rewrite <- E. unfold fa, fb. rewrite of_mul, of_sub, of_mul, oz_4.
    replace (oz 27) with (3 * 3 * 3)%fp by (rewrite <- oz_3, <- !of_mul; reflexivity). ring. }
  apply of_Z_0 in E'. unfold cong. destruct (prime_mult p Hp _ _ E') as [D|D]; [|exact D].
  exfalso. assert (D3 : (p | 3)).
  { change 27 with (3 * (3 * 3))%Z in D. destruct (prime_mult p Hp _ _ D) as [D1|D1]; [exact D1|]. destruct (prime_mult p Hp _ _ D1) as [D2|D2]; exact D2. }
  apply Z.divide_pos_le in D3; lia.
Qed.
Lemma fb_nz : fb <> 0%fp.
Proof. unfold fb, f0. rewrite oz_cong. exact Hb. Qed.
Lemma fix_neg_oz v : oz (fix_neg p v) = oz v.
Proof. unfold fix_neg. destruct (Z.sgn v =? -1); [|reflexivity]. rewrite of_add, of_p. ring. Qed.
Lemma oz_0_range z : 0 <= z < p -> oz z = 0%fp -> z = 0%Z.
Proof. intros R E. unfold f0 in E. apply of_Z_eq in E. rewrite !Z.mod_small in E by lia. exact E. Qed.
Lemma sgn0 z : (Z.sgn z =? 0) = true <-> z = 0%Z.
Proof. rewrite Z.eqb_eq. apply Z.sgn_null_iff. Qed.

(** [rep J P]: the triple J stands for P. *)
Definition rep (J : Z * Z * Z) (P : option (F * F)) : Prop :=
  let '(x, y, z) := J in 0 <= z < p /\ P = faff (oz x) (oz y) (oz z).
Ltac push := rewrite ?fix_neg_oz, ?of_Z_mod, ?of_add, ?of_sub, ?of_mul, ?oz_8, ?oz_4, ?oz_2.
Lemma double_oz x y z : match double_jacobian p x y z with (x3, y3, z3) =>
  oz x3 = dbl_x (f1 p Hp) (fadd p Hp) (fmul p Hp) (fsub p Hp) (oz x) (oz y) (oz z) /\
  oz y3 = dbl_y (f1 p Hp) (fadd p Hp) (fmul p Hp) (fsub p Hp) (oz x) (oz y) (oz z) /\
  oz z3 = dbl_z (fadd p Hp) (fmul p Hp) (fsub p Hp) (oz x) (oz y) (oz z) end.
Proof.
  unfold double_jacobian. split; [|split].
  - repeat push. unfold dbl_x. ring.
  - repeat push. unfold dbl_y, dbl_x. ring.
  - repeat push. unfold dbl_z. ring.
Qed.
Lemma double_range x y z : match double_jacobian p x y z with (x3, y3, z3) => 0 <= z3 < p end.
Proof. unfold double_jacobian. apply Z.mod_pos_bound. lia. Qed.
Lemma double_rep J P : rep J P -> rep (let '(x, y, z) := J in double_jacobian p x y z) (fpadd P P).
Proof.
  destruct J as [[x y] z]. intros [R ->]. pose proof (double_oz x y z) as E. pose proof (double_range x y z) as G.
  destruct (double_jacobian p x y z) as [[x3 y3] z3]. destruct E as (E1 & E2 & E3). split; [exact G|].
  rewrite E1, E2, E3. symmetry. apply (dbl_ok _ _ _ _ _ _ _ _ (Fp_field p Hp)), two_nz.
Qed.
Lemma fix_neg_zero h : - p < h < p -> (Z.sgn (fix_neg p h) =? 0) = (h =? 0).
Proof.
  intros R. unfold fix_neg. destruct (Z.sgn h =? -1) eqn:E.
  - apply Z.eqb_eq, Z.sgn_neg_iff in E. rewrite (proj2 (Z.eqb_neq h 0)) by lia. apply Z.eqb_neq. intros X. apply Z.sgn_null_iff in X. lia.
  - destruct (h =? 0) eqn:E0; [apply Z.eqb_eq in E0; subst; reflexivity|]. apply Z.eqb_neq in E0. apply Z.eqb_neq. intros X. apply Z.sgn_null_iff in X. lia.
Qed.
Lemma sub_mod_zero x y : (x mod p - y mod p =? 0) = true <-> oz x = oz y.
Proof. rewrite Z.eqb_eq, of_Z_eq. lia. Qed.
Lemma add_rep x1 y1 z1 x2 y2 z2 P Q : rep (x1, y1, z1) P -> rep (x2, y2, z2) Q -> fon P -> fon Q ->
  rep (add_jacobian p x1 y1 z1 x2 y2 z2) (fpadd P Q).
Proof.
  intros [R1 ->] [R2 ->] O1 O2. unfold add_jacobian.
  destruct (Z.sgn z1 =? 0) eqn:S1.
  { apply sgn0 in S1. subst z1. split; [exact R2|]. unfold aff at 1. fold (f0 p Hp). destruct (Peq 0%fp 0%fp); [reflexivity|contradiction]. }
  destruct (Z.sgn z2 =? 0) eqn:S2.
  { apply sgn0 in S2. subst z2. split; [exact R1|]. unfold aff at 2. fold (f0 p Hp). destruct (Peq 0%fp 0%fp); [apply padd_0_r|contradiction]. }
  assert (Z1 : oz z1 <> 0%fp) by (intros E; apply oz_0_range in E; [subst; discriminate|exact R1]).
  assert (Z2 : oz z2 <> 0%fp) by (intros E; apply oz_0_range in E; [subst; discriminate|exact R2]).
  cbv zeta. rewrite fix_neg_zero.
  2:{ pose proof (Z.mod_pos_bound (y1 * z2 * ((z2 * z2) mod p)) p ltac:(lia)). pose proof (Z.mod_pos_bound (y2 * z1 * ((z1 * z1) mod p)) p ltac:(lia)). lia. }
  assert (EH : (Z.sgn ((x2 * ((z1 * z1) mod p)) mod p - (x1 * ((z2 * z2) mod p)) mod p) =? 0) = true <->
    ad_h (fmul p Hp) (fsub p Hp) (oz x1) (oz z1) (oz x2) (oz z2) = 0%fp).
  { rewrite sgn0, <- Z.eqb_eq, sub_mod_zero. repeat push. unfold ad_h. split; [intros ->; ring|apply (sub_z _ _ _ _ _ _ _ _ (Fp_field p Hp))]. }
  assert (ER : ((y2 * z1 * ((z1 * z1) mod p)) mod p - (y1 * z2 * ((z2 * z2) mod p)) mod p =? 0) = true <->
    ad_r (fmul p Hp) (fsub p Hp) (oz y1) (oz z1) (oz y2) (oz z2) = 0%fp).
  { rewrite sub_mod_zero. repeat push. unfold ad_r. split; [intros ->; ring|apply (sub_z _ _ _ _ _ _ _ _ (Fp_field p Hp))]. }
  match goal with |- rep (if ?c then _ else _) _ => destruct c eqn:C end.
  - apply andb_prop in C. destruct C as [C1 C2]. apply EH in C1. apply ER in C2.
    assert (S : faff (oz x1) (oz y1) (oz z1) = faff (oz x2) (oz y2) (oz z2))
      by (apply (ad_same _ _ _ _ _ _ _ _ (Fp_field p Hp)); assumption).
    rewrite <- S. apply (double_rep (x1, y1, z1)). split; [exact R1|reflexivity].
  - split; [apply Z.mod_pos_bound; lia|].
    assert (N : ~ (ad_h (fmul p Hp) (fsub p Hp) (oz x1) (oz z1) (oz x2) (oz z2) = 0%fp /\ ad_r (fmul p Hp) (fsub p Hp) (oz y1) (oz z1) (oz y2) (oz z2) = 0%fp)).
    { intros [N1 N2]. apply EH in N1. apply ER in N2. rewrite N1, N2 in C. discriminate. }
    etransitivity; [symmetry; exact (ad_ok _ _ _ _ _ _ _ _ (Fp_field p Hp) Peq fb two_nz (oz x1) (oz y1) (oz z1) (oz x2) (oz y2) (oz z2) Z1 Z2 O1 O2 N)|].
    f_equal; repeat push; [unfold ad_x, ad_h, ad_r|unfold ad_y, ad_x, ad_h, ad_r|unfold ad_z, ad_h]; ring.
Qed.

(** ** Affine points *)
Definition phi (xy : Z * Z) : option (F * F) := match decode xy with None => None | Some (x, y) => Some (oz x, oz y) end.
Definition psi (P : option (F * F)) : Z * Z := match P with None => (0, 0)%Z | Some (x, y) => (tz x, tz y) end.
Lemma on_phi xy : on_curve p b (decode xy) <-> fon (phi xy).
Proof.
  unfold phi. destruct (decode xy) as [[x y]|]; [|cbn; tauto]. unfold on_curve, on. rewrite <- oz_cong. unfold fa, fb.
  rewrite !of_add, of_sub, !of_mul, oz_3. split; [intros ->; ring|intros E; rewrite E; ring].
Qed.
Lemma origin_off : ~ fon (Some (0%fp, 0%fp)).
Proof. cbn. intros E. apply fb_nz. transitivity (0 * 0 * 0 + fa * 0 + fb)%fp; [ring|]. rewrite <- E. ring. Qed.
Lemma tz_0 x : tz x = 0%Z -> x = 0%fp.
Proof. intros E. rewrite <- (of_to p Hp x), E. reflexivity. Qed.
Lemma phi_psi P : fon P -> phi (psi P) = P.
Proof.
  destruct P as [[x y]|]; [|reflexivity]. intros O. unfold phi, psi, decode. cbn [fst snd].
  destruct ((tz x =? 0) && (tz y =? 0)) eqn:E.
  - exfalso. apply andb_prop in E. destruct E as [E1 E2]. apply Z.eqb_eq, tz_0 in E1. apply Z.eqb_eq, tz_0 in E2. subst.
    exact (origin_off O).
  - rewrite !of_to. reflexivity.
Qed.
Lemma psi_range P : 0 <= fst (psi P) < p /\ 0 <= snd (psi P) < p.
Proof. destruct P as [[x y]|]; cbn; [split; apply to_Z_range; exact Hp|lia]. Qed.
Lemma psi_phi x y : psi (phi (x, y)) = (x mod p, y mod p).
Proof.
  unfold phi, decode. cbn [fst snd]. destruct ((x =? 0) && (y =? 0)) eqn:E; [|reflexivity].
  apply andb_prop in E. destruct E as [E1 E2]. apply Z.eqb_eq in E1. apply Z.eqb_eq in E2. subst. reflexivity.
Qed.
Lemma affine_ok x y z P : rep (x, y, z) P -> affine_from_jacobian p x y z = Some (psi P).
Proof.
  intros [R ->]. unfold affine_from_jacobian, aff. destruct (Z.sgn z =? 0) eqn:S.
  - apply sgn0 in S. subst. fold (f0 p Hp). destruct (Peq 0%fp 0%fp); [reflexivity|contradiction].
  - assert (N : oz z <> 0%fp) by (intros E; apply oz_0_range in E; [subst; discriminate|exact R]).
    destruct (Peq (oz z) 0%fp); [contradiction|].
    assert (G : Z.gcd z p = 1%Z). { apply prime_gcd_1; [exact Hp|]. intros D. apply N. apply of_Z_0, D. }
    destruct (inv_mod_coprime z p ltac:(lia) G) as (v & E & Rv & Ev). unfold mod_inverse. rewrite E. cbv zeta. f_equal.
    assert (Iv : oz v = (1 / oz z)%fp).
    { apply (mul_cancel _ _ _ _ _ _ _ _ (Fp_field p Hp) _ _ (oz z) N). rewrite <- of_mul. transitivity (oz 1); [apply of_Z_eq; exact Ev|].
      fold (f1 p Hp). field. exact N. }
    unfold psi. f_equal.
    + rewrite <- (to_of p Hp). f_equal. rewrite !of_mul, Iv. field. exact N.
    + rewrite <- (to_of p Hp). f_equal. rewrite !of_mul, Iv. field. exact N.
Qed.
Lemma z_for_rep x y : rep (x, y, z_for_affine x y) (phi (x, y)).
Proof.
  unfold rep, z_for_affine, phi, decode. cbn [fst snd]. split.
  - destruct (negb (Z.sgn x =? 0) || negb (Z.sgn y =? 0)); lia.
  - replace (negb (Z.sgn x =? 0) || negb (Z.sgn y =? 0)) with (negb ((x =? 0) && (y =? 0))).
    + destruct ((x =? 0) && (y =? 0)); cbn [negb]; unfold aff; [fold (f0 p Hp); destruct (Peq 0%fp 0%fp); [reflexivity|contradiction]|].
      fold (f1 p Hp). pose proof (F_1_neq_0 (Fp_field p Hp)) as N. destruct (Peq 1%fp 0%fp); [contradiction|].
      do 2 f_equal; field; exact N.
    + destruct (Z.eqb_spec x 0) as [->|Nx], (Z.eqb_spec y 0) as [->|Ny]; try reflexivity; cbn [andb negb].
      * symmetry. apply orb_true_iff. right. apply negb_true_iff, Z.eqb_neq. intros E. apply Ny, Z.sgn_null_iff, E.
      * symmetry. apply orb_true_iff. left. apply negb_true_iff, Z.eqb_neq. intros E. apply Nx, Z.sgn_null_iff, E.
      * symmetry. apply orb_true_iff. left. apply negb_true_iff, Z.eqb_neq. intros E. apply Nx, Z.sgn_null_iff, E.
Qed.
Variable c : curve.
Hypothesis cP : cp_p c = p.
Hypothesis cB : cp_b c = b.
Lemma add_ok x1 y1 x2 y2 : on_curve p b (decode (x1, y1)) -> on_curve p b (decode (x2, y2)) ->
  curve_add c x1 y1 x2 y2 = Some (psi (fpadd (phi (x1, y1)) (phi (x2, y2)))).
Proof.
  intros O1 O2. apply on_phi in O1. apply on_phi in O2. unfold curve_add. rewrite cP.
  pose proof (add_rep _ _ _ _ _ _ _ _ (z_for_rep x1 y1) (z_for_rep x2 y2) O1 O2) as R.
  destruct (add_jacobian p x1 y1 (z_for_affine x1 y1) x2 y2 (z_for_affine x2 y2)) as [[x y] z]. apply affine_ok, R.
Qed.
Lemma double_ok x y : curve_double c x y = Some (psi (fpadd (phi (x, y)) (phi (x, y)))).
Proof.
  unfold curve_double. rewrite cP. pose proof (double_rep _ _ (z_for_rep x y)) as R. cbv beta iota in R.
  destruct (double_jacobian p x y (z_for_affine x y)) as [[x' y'] z']. apply affine_ok, R.
Qed.
Lemma on_fpadd P Q : fon P -> fon Q -> fon (fpadd P Q).
Proof. apply (on_padd _ _ _ _ _ _ _ _ (Fp_field p Hp) _ _ _ two_nz). Qed.
Definition zmul (k : Z) (P : option (F * F)) := fsmul (Z.to_nat k) P.
Lemma on_zmul k P : fon P -> fon (zmul k P).
Proof. apply (on_smul _ _ _ _ _ _ _ _ (Fp_field p Hp) _ _ _ two_nz). Qed.
Lemma zmul_add j k P : 0 <= j -> 0 <= k -> fon P -> zmul (j + k) P = fpadd (zmul j P) (zmul k P).
Proof. intros J K O. unfold zmul. rewrite Z2Nat.inj_add by lia. apply (smul_add _ _ _ _ _ _ _ _ (Fp_field p Hp) _ _ _ two_nz fdisc), O. Qed.
Lemma zmul_mul j k P : 0 <= j -> 0 <= k -> fon P -> zmul (j * k) P = zmul j (zmul k P).
Proof. intros J K O. unfold zmul. rewrite Z2Nat.inj_mul by lia. apply (smul_mul _ _ _ _ _ _ _ _ (Fp_field p Hp) _ _ _ two_nz fdisc), O. Qed.
Lemma zmul_0 P : zmul 0 P = None. Proof. reflexivity. Qed.
Lemma zmul_1 P : zmul 1 P = P. Proof. apply smul_1. Qed.
Lemma zmul_O k : zmul k None = None. Proof. apply smul_O. Qed.

(** ** Scalar multiples *)
Section SCALAR.
Variables x y : Z.
Hypothesis O : on_curve p b (decode (x, y)).
Hypothesis N0 : (x =? 0) && (y =? 0) = false.
Let P := phi (x, y).
Lemma base_rep : rep (x, y, 1%Z) P.
Proof.
  pose proof (z_for_rep x y) as R. fold P in R. replace (z_for_affine x y) with 1%Z in R; [exact R|].
  unfold z_for_affine. destruct (Z.eqb_spec x 0) as [->|Nx]; [destruct (Z.eqb_spec y 0) as [->|Ny]; [discriminate|]|].
  - replace (Z.sgn y =? 0) with false; [reflexivity|]. symmetry. apply Z.eqb_neq. intros E. apply Ny, Z.sgn_null_iff, E.
  - replace (Z.sgn x =? 0) with false; [reflexivity|]. symmetry. apply Z.eqb_neq. intros E. apply Nx, Z.sgn_null_iff, E.
Qed.
Lemma bits_rep n : forall byte J m, (n <= 8)%nat -> 0 <= byte < 256 -> 0 <= m -> rep J (zmul m P) ->
  rep (scalar_bits p x y n byte J) (zmul (m * 2 ^ Z.of_nat n + byte / 2 ^ (8 - Z.of_nat n)) P).
Proof.
  assert (OP : fon P) by (apply on_phi, O).
  induction n; intros byte J m Hn Hb8 Hm R.
  - cbn [scalar_bits]. replace (m * 2 ^ Z.of_nat 0 + byte / 2 ^ (8 - Z.of_nat 0)) with m; [exact R|].
    rewrite Z.div_small by (cbn; lia). cbn. lia.
  - cbn [scalar_bits]. destruct J as [[bx bY] bz]. pose proof (double_rep _ _ R) as D. cbv beta iota in D.
    destruct (double_jacobian p bx bY bz) as [[dx dy] dz].
    rewrite <- zmul_add in D by (try lia; exact OP).
    set (bit := byte / 128).
    assert (Bit : byte = 128 * bit + byte mod 128) by (apply Z.div_mod; lia).
    pose proof (Z.mod_pos_bound byte 128 ltac:(lia)) as Bm.
    assert (EB : (Z.land byte 128 =? 128) = (bit =? 1)).
    { change 128 with (2 ^ 7) at 1. rewrite (Z.land_comm byte), <- (Z.shiftl_1_l 7). 
      replace (Z.land (Z.shiftl 1 7) byte) with (128 * (bit mod 2)).
      - assert (bit = 0 \/ bit = 1) as [-> | ->] by lia; reflexivity.
      - apply Z.bits_inj'. intros k Hk. rewrite Z.land_spec, Z.shiftl_1_l, Z.pow2_bits_eqb by lia.
        destruct (Z.eqb_spec 7 k) as [<-|Nk].
        + rewrite andb_true_l. unfold bit. change 128 with (2 ^ 7). rewrite <- Z.bit0_mod, <- Z.shiftr_div_pow2, Z.shiftr_spec by lia.
          change (0 + 7) with 7. destruct (Z.testbit byte 7); reflexivity.
        + rewrite andb_false_l. rewrite <- Z.bit0_mod. change 128 with (2 ^ 7). rewrite Z.mul_comm, <- Z.shiftl_mul_pow2 by lia.
          destruct (Z.lt_ge_cases k 7); [apply Z.shiftl_spec_low; lia|]. rewrite Z.shiftl_spec by lia.
          destruct (Z.testbit bit 0); cbn [Z.b2z]; [apply (Z.bits_above_log2 1); cbn; lia|apply Z.bits_0]. }
    rewrite EB.
    assert (B' : (byte * 2) mod 256 = 2 * (byte mod 128)).
    { rewrite (Z.mul_comm byte 2). change 256 with (2 * 128). rewrite Zmult_mod_distr_l. reflexivity. }
    assert (EV : m * 2 ^ Z.of_nat (S n) + byte / 2 ^ (8 - Z.of_nat (S n)) =
      (2 * m + bit) * 2 ^ Z.of_nat n + ((byte * 2) mod 256) / 2 ^ (8 - Z.of_nat n)).
    { rewrite B'. replace (8 - Z.of_nat n) with (1 + (7 - Z.of_nat n)) by lia. rewrite Z.pow_add_r by lia. change (2 ^ 1) with 2.
      rewrite Z.div_mul_cancel_l by (try lia; apply Z.pow_nonzero; lia).
      replace (8 - Z.of_nat (S n)) with (7 - Z.of_nat n) by lia. rewrite Nat2Z.inj_succ, Z.pow_succ_r by lia.
      rewrite Bit at 1. replace (128 * bit) with (bit * 2 ^ Z.of_nat n * 2 ^ (7 - Z.of_nat n)).
      - rewrite Z.div_add_l by (apply Z.pow_nonzero; lia). ring.
      - rewrite <- Z.mul_assoc, <- Z.pow_add_r by lia. replace (Z.of_nat n + (7 - Z.of_nat n)) with 7 by lia. change (2 ^ 7) with 128. ring. }
    rewrite EV.
    assert (BB : bit = 0 \/ bit = 1) by lia.
    destruct BB as [B0|B1].
    + rewrite B0. cbn [Z.eqb]. apply IHn; try lia. replace (2 * m + 0) with (m + m) by lia. exact D.
    + rewrite B1. cbn [Z.eqb Pos.eqb].
      pose proof (add_rep _ _ _ _ _ _ _ _ base_rep D OP (on_zmul (m + m) P OP)) as A.
      destruct (add_jacobian p x y 1 dx dy dz) as [[ax ay] az].
      apply IHn; try lia. replace (2 * m + 1) with (1 + (m + m)) by lia. rewrite zmul_add, zmul_1 by (try lia; exact OP). exact A.
Qed.
Lemma bytes_rep l : forall J m, bytes l -> 0 <= m -> rep J (zmul m P) ->
  rep (fold_left (fun b e => scalar_bits p x y 8 e b) l J) (zmul (m * 256 ^ Z.of_nat (length l) + be_val l) P).
Proof.
  induction l as [|e l IH]; intros J m B M R.
  - cbn [fold_left length be_val]. replace (m * 256 ^ Z.of_nat 0 + 0) with m by (cbn; lia). exact R.
  - cbn [fold_left]. pose proof (Forall_inv B) as Be. pose proof (Forall_inv_tail B) as Bl. unfold byte in Be.
    pose proof (bits_rep 8 e J m ltac:(lia) Be M R) as R'. change (8 - Z.of_nat 8) with 0 in R'. rewrite Z.pow_0_r, Z.div_1_r in R'.
    change (2 ^ Z.of_nat 8) with 256 in R'. pose proof (IH _ (m * 256 + e) Bl ltac:(lia) R') as R''.
    replace (m * 256 ^ Z.of_nat (length (e :: l)) + be_val (e :: l)) with ((m * 256 + e) * 256 ^ Z.of_nat (length l) + be_val l); [exact R''|].
    change (e :: l) with ([e] ++ l). rewrite be_val_app, app_length. cbn [length be_val fold_left].
    rewrite Nat2Z.inj_add, Z.pow_add_r by lia. cbn [Z.of_nat]. change (Z.of_nat 1) with 1. rewrite Z.pow_1_r. ring.
Qed.
Lemma scalar_inner_fin k : bytes k -> scalar_inner c x y k = Some (psi (zmul (be_val k) P)).
Proof.
  intros B. unfold scalar_inner. rewrite cP.
  assert (R0 : rep (0, 0, 0)%Z (zmul 0 P)).
  { split; [lia|]. rewrite zmul_0. unfold aff. fold (f0 p Hp). destruct (Peq 0%fp 0%fp); [reflexivity|contradiction]. }
  pose proof (bytes_rep k _ 0 B ltac:(lia) R0) as R. rewrite Z.mul_0_l, Z.add_0_l in R.
  destruct (fold_left (fun b e => scalar_bits p x y 8 e b) k (0, 0, 0)%Z) as [[bx bY] bz]. apply affine_ok, R.
Qed.
End SCALAR.
(** The multiples of (0, 0), which the loop treats as a finite point, are (0, 0). *)
Definition zero_like (J : Z * Z * Z) : Prop := J = (0, 0, 1)%Z \/ snd J = 0%Z.
Lemma zero_double J : zero_like J -> snd (let '(x, y, z) := J in double_jacobian p x y z) = 0%Z.
Proof.
  destruct J as [[x y] z]. intros H. pose proof (double_oz x y z) as E. pose proof (double_range x y z) as G.
  destruct (double_jacobian p x y z) as [[x3 y3] z3]. destruct E as (_ & _ & E3). cbn [snd]. apply oz_0_range; [exact G|].
  rewrite E3. unfold dbl_z. destruct H as [H|H].
  - injection H as -> -> ->. fold (f0 p Hp) (f1 p Hp). ring.
  - cbn [snd] in H. subst z. fold (f0 p Hp). ring.
Qed.
Lemma zero_bits n : forall byte J, zero_like J -> zero_like (scalar_bits p 0 0 n byte J).
Proof.
  induction n; intros byte J H; [exact H|]. cbn [scalar_bits]. destruct J as [[x y] z]. pose proof (zero_double _ H) as D. cbv beta iota in D.
  destruct (double_jacobian p x y z) as [[dx dy] dz]. cbn [snd] in D. subst dz.
  destruct (Z.land byte 128 =? 128); [|apply IHn; right; reflexivity].
  unfold add_jacobian. cbn [Z.sgn Z.eqb]. apply IHn. left. reflexivity.
Qed.
Lemma scalar_inner_zero k : scalar_inner c 0 0 k = Some (0, 0)%Z.
Proof.
  unfold scalar_inner. rewrite cP.
  assert (H : zero_like (fold_left (fun b e => scalar_bits p 0 0 8 e b) k (0, 0, 0)%Z)).
  { assert (H0 : zero_like (0, 0, 0)%Z) by (right; reflexivity). revert H0. generalize (0, 0, 0)%Z.
    induction k as [|e k IH]; intros J H; [exact H|]. cbn [fold_left]. apply IH, zero_bits, H. }
  destruct (fold_left (fun b e => scalar_bits p 0 0 8 e b) k (0, 0, 0)%Z) as [[x y] z]. destruct H as [H|H].
  - injection H as -> -> ->. unfold affine_from_jacobian. cbn [Z.sgn Z.eqb].
    assert (G : Z.gcd 1 p = 1%Z) by (apply Z.gcd_1_l). destruct (inv_mod_coprime 1 p ltac:(lia) G) as (v & E & _). unfold mod_inverse. rewrite E.
    cbv zeta. rewrite !Z.mul_0_l, Z.mod_0_l by lia. reflexivity.
  - cbn [snd] in H. subst z. reflexivity.
Qed.
Lemma scalar_inner_ok x y k : on_curve p b (decode (x, y)) -> bytes k -> scalar_inner c x y k = Some (psi (zmul (be_val k) (phi (x, y)))).
Proof.
  intros O B. destruct ((x =? 0) && (y =? 0)) eqn:E; [|apply scalar_inner_fin; assumption].
  apply andb_prop in E. destruct E as [E1 E2]. apply Z.eqb_eq in E1. apply Z.eqb_eq in E2. subst x y.
  rewrite scalar_inner_zero. change (phi (0, 0)%Z) with (@None (F * F)). rewrite zmul_O. reflexivity.
Qed.
Lemma decode_psi P : fon P -> decode (psi P) = match P with None => None | Some (x, y) => Some (tz x, tz y) end.
Proof.
  intros O. destruct P as [[x y]|]; [|reflexivity]. unfold psi, decode. cbn [fst snd].
  destruct ((tz x =? 0) && (tz y =? 0)) eqn:E; [|reflexivity]. exfalso.
  apply andb_prop in E. destruct E as [E1 E2]. apply Z.eqb_eq, tz_0 in E1. apply Z.eqb_eq, tz_0 in E2. subst x y. exact (origin_off O).
Qed.
Lemma on_psi P : fon P -> on_curve p b (decode (psi P)).
Proof. intros O. apply on_phi. rewrite phi_psi by exact O. exact O. Qed.
Lemma cong_tz u z : tz u = z mod p -> cong p z (tz u).
Proof. intros E. apply oz_cong. apply of_Z_eq. rewrite E, Z.mod_mod by lia. reflexivity. Qed.
Lemma cong_oz (x y : Z) : oz x = oz y -> cong p x y.
Proof. apply oz_cong. Qed.
Lemma same_self xy : fon (phi xy) -> same_point p (decode xy) (decode (psi (phi xy))).
Proof.
  intros O. rewrite (decode_psi _ O). unfold phi. destruct (decode xy) as [[x y]|]; [|exact I]. cbn. split; apply cong_oz; rewrite !of_Z_mod; reflexivity.
Qed.
Lemma tz_oz u : oz (tz u) = u. Proof. apply of_to. Qed.
Lemma sum_ok P Q : fon (phi P) -> fon (phi Q) -> ec_sum p (decode P) (decode Q) (decode (psi (fpadd (phi P) (phi Q)))).
Proof.
  intros OP OQ. pose proof (on_fpadd _ _ OP OQ) as OS.
  destruct (decode P) as [[x1 y1]|] eqn:DP.
  2:{ assert (E : phi P = None) by (unfold phi; rewrite DP; reflexivity). rewrite E. apply sum_zero_l, same_self, OQ. }
  destruct (decode Q) as [[x2 y2]|] eqn:DQ.
  2:{ assert (E : phi Q = None) by (unfold phi; rewrite DQ; reflexivity). rewrite E, padd_0_r. rewrite <- DP. apply sum_zero_r, same_self, OP. }
  assert (EP : phi P = Some (oz x1, oz y1)) by (unfold phi; rewrite DP; reflexivity).
  assert (EQ : phi Q = Some (oz x2, oz y2)) by (unfold phi; rewrite DQ; reflexivity).
  rewrite EP, EQ in *. rewrite (decode_psi _ OS). clear OS.
  unfold padd, slope. destruct (Peq (oz x1) (oz x2)) as [Ex|Nx].
  - destruct (Peq (oz y1) (- oz y2)%fp) as [Ey|Ny].
    + apply sum_opposite; apply cong_oz; [exact Ex|]. rewrite of_opp. exact Ey.
    + assert (Sy : oz y1 = oz y2).
      { rewrite <- Ex in OQ. destruct (same_x _ _ _ _ _ _ _ _ (Fp_field p Hp) Peq _ _ _ _ _ OP OQ) as [E|E]; [exact E|contradiction]. }
      assert (Zy : oz y1 <> 0%fp) by (intros E; apply Ny; rewrite <- Sy, E; ring).
      assert (Nd : (2 * oz y1)%fp <> 0%fp) by (apply (mul_nz _ _ _ _ _ _ _ _ (Fp_field p Hp) Peq); [exact two_nz|exact Zy]).
      set (l := ((1 + 1 + 1) * (oz x1 * oz x1) + fa)%fp). set (lam := (l / (2 * oz y1))%fp).
      apply (sum_tangent p (tz lam)); try (apply cong_oz; repeat rewrite ?of_add, ?of_sub, ?of_mul, ?tz_oz, ?oz_2, ?oz_3; try assumption; try reflexivity).
      * intros E. apply Zy. apply oz_cong in E. exact E.
      * unfold lam. transitivity l; [field; split; [exact Zy|exact two_nz]|]. unfold l, fa. ring.
  - assert (Nd : (oz x2 - oz x1)%fp <> 0%fp) by (apply (sub_nz _ _ _ _ _ _ _ _ (Fp_field p Hp)), Nx).
    set (lam := ((oz y2 - oz y1) / (oz x2 - oz x1))%fp).
    apply (sum_chord p (tz lam)); try (apply cong_oz; repeat rewrite ?of_add, ?of_sub, ?of_mul, ?tz_oz; try reflexivity).
    * intros E. apply Nx. apply oz_cong, E.
    * unfold lam. field. exact Nd.
Qed.
Lemma curve_scalar_ok x y k : on_curve p b (decode (x, y)) -> 0 <= k -> curve_scalar c x y k = Some (psi (zmul k (phi (x, y)))).
Proof.
  intros O K. unfold curve_scalar. rewrite scalar_inner_ok; [|exact O|apply be_bytes_bytes].
  rewrite be_val_to_be_bytes by exact K. reflexivity.
Qed.
Lemma is_on_curve_iff x y : is_on_curve c x y = true <-> cong p (y * y) (x * x * x - 3 * x + b).
Proof.
  unfold is_on_curve. rewrite cP, cB, Z.eqb_eq, <- oz_cong, of_Z_eq.
  replace (x * x * x - (x * 2 + x) + b) with (x * x * x - 3 * x + b) by ring. split; intros ->; reflexivity.
Qed.
Lemma fpadd_comm P Q : fon P -> fon Q -> fpadd P Q = fpadd Q P.
Proof. apply (padd_comm _ _ _ _ _ _ _ _ (Fp_field p Hp) _ _ _ two_nz). Qed.
Lemma fpadd_assoc P Q R : fon P -> fon Q -> fon R -> fpadd (fpadd P Q) R = fpadd P (fpadd Q R).
Proof. apply (padd_assoc _ _ _ _ _ _ _ _ (Fp_field p Hp) _ _ _ two_nz fdisc). Qed.
Lemma fpadd_neg P : fon P -> fpadd P (fneg P) = None.
Proof. apply (padd_neg_r _ _ _ _ _ _ _ _ (Fp_field p Hp) _ _ _ two_nz). Qed.
Lemma decode_opp x y : decode (x, (- y)%Z) = match decode (x, y) with None => None | Some (x, y) => Some (x, (- y)%Z) end.
Proof.
  unfold decode. cbn [fst snd]. replace (- y =? 0) with (y =? 0). 2:{ destruct (Z.eqb_spec y 0), (Z.eqb_spec (- y) 0); lia. }
  destruct ((x =? 0) && (y =? 0)); reflexivity.
Qed.
Lemma phi_opp x y : phi (x, (- y)%Z) = fneg (phi (x, y)).
Proof.
  unfold phi. rewrite decode_opp. destruct (decode (x, y)) as [[u v]|]; [|reflexivity]. cbn. rewrite of_opp. reflexivity.
Qed.
(** Repeated addition. *)
Lemma iter_ok x y k : on_curve p b (decode (x, y)) ->
  Nat.iter k (fun acc => match acc with Some (u, v) => curve_add c x y u v | None => None end) (Some (0, 0)%Z) = Some (psi (fsmul k (phi (x, y)))).
Proof.
  intros O. assert (OP : fon (phi (x, y))) by (apply on_phi, O).
  assert (OS : forall k, fon (fsmul k (phi (x, y)))) by (intros j; apply (on_smul _ _ _ _ _ _ _ _ (Fp_field p Hp) _ _ _ two_nz), OP).
  induction k; [reflexivity|]. cbn [Nat.iter nat_rect]. change (nat_rect (fun _ => option (Z * Z)) ?z (fun _ => ?f) k) with (Nat.iter k f z). 
  rewrite IHk. destruct (psi (fsmul k (phi (x, y)))) as [u v] eqn:E. rewrite add_ok; [|exact O|rewrite <- E; apply on_psi, OS].
  rewrite <- E, phi_psi by apply OS. reflexivity.
Qed.
End ZP.
