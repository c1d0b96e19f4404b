(** The routines of P256Model.v as operations of the field of residues modulo p. *)
From Coq Require Import Znumtheory Field.
From Verif Require Import Base Words HashModel NumTheory RsaModel RsaEncModel DsaProofs EcGroup Fp EllModel EllSpec EllProofs P224Model P224Field LimbTac P224Large P256Model P256Spec P256Limbs P256Ops P256Conv P256Digits P256Table.
Local Open Scope Z_scope.

Section FIELD.
Variables p b : Z.
Hypothesis EP : p = P256.
Hypothesis Hp : prime p.
Notation F := (Fp p). Notation oz := (of_Z p Hp).
Add Field Ff256 : (Fp_field p Hp).
Declare Scope f256_scope. Delimit Scope f256_scope with f.
Notation "0" := (f0 p Hp) : f256_scope. Notation "1" := (f1 p Hp) : f256_scope.
Notation "x + y" := (fadd p Hp x y) : f256_scope. Notation "x * y" := (fmul p Hp x y) : f256_scope.
Notation "x - y" := (fsub p Hp x y) : f256_scope. Notation "- x" := (fopp p Hp x) : f256_scope. Notation "x / y" := (fdiv p Hp x y) : f256_scope.
Notation "2" := (f1 p Hp + f1 p Hp)%f : f256_scope. Notation "3" := (2 + 1)%f : f256_scope.
Lemma P3 : 3 < p. Proof. rewrite EP. reflexivity. Qed.
Lemma ozc x y : cong P256 x y -> oz x = oz y.
Proof. intros C. apply (oz_cong p Hp P3). rewrite EP. exact C. Qed.
Lemma czo x y : oz x = oz y -> cong P256 x y.
Proof. intros C. apply (oz_cong p Hp P3) in C. rewrite EP in C. exact C. Qed.
(** The Montgomery factor. *)
Definition rr : F := oz (2 ^ 257).
Lemma rr_nz : rr <> 0%f.
Proof.
  intros E. apply czo in E. destruct E as [k K]. assert (M : (2 ^ 257) mod P256 = 0) by (replace (2 ^ 257) with (k * P256) by lia; apply Z.mod_mul; discriminate).
  vm_compute in M. discriminate M.
Qed.
Lemma cancel_rr u v : (u * rr = v * rr)%f -> u = v.
Proof. intros H. replace u with ((u * rr) / rr)%f by (field; exact rr_nz). rewrite H. field. exact rr_nz. Qed.
(** The limbs [a] stand for the residue [u]. *)
Definition R (a : list Z) (u : F) : Prop := element a /\ oz (val256 a) = (u * rr)%f.
Lemma R_eq a u v : u = v -> R a u -> R a v. Proof. intros ->. auto. Qed.
Lemma R_fun a u v : R a u -> R a v -> u = v.
Proof. intros [_ A] [_ B]. apply cancel_rr. congruence. Qed.
Lemma R_stands a x : R a (oz x) <-> element a /\ stands256 a x.
Proof.
  unfold R, stands256. split; intros [E H]; (split; [exact E|]).
  - apply czo. rewrite H, of_mul. reflexivity.
  - rewrite (ozc _ _ H), of_mul. reflexivity.
Qed.
Lemma f_mul a c u v : R a u -> R c v -> exists m, p256_mul false a c = Some m /\ R m (u * v)%f.
Proof.
  intros [A HA] [C HC]. destruct (mul_ok a c A C) as (m & E & M & V). exists m. split; [exact E|]. split; [exact M|].
  apply ozc in V. rewrite !of_mul, HA, HC in V. fold rr in V. apply cancel_rr. rewrite V. ring.
Qed.
Lemma f_square a u : R a u -> exists m, p256_square false a = Some m /\ R m (u * u)%f.
Proof.
  intros [A HA]. destruct (square_ok a A) as (m & E & M & V). exists m. split; [exact E|]. split; [exact M|].
  apply ozc in V. rewrite !of_mul, HA in V. fold rr in V. apply cancel_rr. rewrite V. ring.
Qed.
Lemma f_sum a c u v : R a u -> R c v -> R (p256_sum a c) (u + v)%f.
Proof. intros [A HA] [C HC]. destruct (sum_ok a c A C) as [M V]. split; [exact M|]. rewrite (ozc _ _ V), of_add, HA, HC. ring. Qed.
Lemma f_diff a c u v : R a u -> R c v -> R (p256_diff a c) (u - v)%f.
Proof. intros [A HA] [C HC]. destruct (diff_ok a c A C) as [M V]. split; [exact M|]. rewrite (ozc _ _ V), of_sub, HA, HC. ring. Qed.
Lemma f_s3 a u : R a u -> R (p256_scalar3 a) (3 * u)%f.
Proof. intros [A HA]. destruct (scalar3_ok a A) as [M V]. split; [exact M|]. rewrite (ozc _ _ V), of_mul, HA. change 3%Z with (1 + 1 + 1)%Z. rewrite !of_add. fold (f1 p Hp). ring. Qed.
Lemma f_s4 a u : R a u -> R (p256_scalar4 a) (2 * 2 * u)%f.
Proof. intros [A HA]. destruct (scalar4_ok a A) as [M V]. split; [exact M|]. rewrite (ozc _ _ V), of_mul, HA. change 4%Z with ((1 + 1) * (1 + 1))%Z. rewrite !of_mul, !of_add. fold (f1 p Hp). ring. Qed.
Lemma f_s8 a u : R a u -> R (p256_scalar8 a) (2 * (2 * 2) * u)%f.
Proof. intros [A HA]. destruct (scalar8_ok a A) as [M V]. split; [exact M|]. rewrite (ozc _ _ V), of_mul, HA. change 8%Z with ((1 + 1) * ((1 + 1) * (1 + 1)))%Z. rewrite !of_mul, !of_add. fold (f1 p Hp). ring. Qed.

(** One step of a chain of operations. *)
Ltac fresh_limbs e := let x := fresh "r" in set (x := e) in *; clearbody x.
Ltac fstep := match goal with
  | |- context [p256_sum ?a ?c] => is_var a; is_var c; match goal with Ha : R a _ |- _ => match goal with Hc : R c _ |- _ =>
      let H := fresh "H" in pose proof (f_sum a c _ _ Ha Hc) as H; fresh_limbs (p256_sum a c) end end
  | |- context [p256_diff ?a ?c] => is_var a; is_var c; match goal with Ha : R a _ |- _ => match goal with Hc : R c _ |- _ =>
      let H := fresh "H" in pose proof (f_diff a c _ _ Ha Hc) as H; fresh_limbs (p256_diff a c) end end
  | |- context [p256_scalar3 ?a] => is_var a; match goal with Ha : R a _ |- _ => let H := fresh "H" in pose proof (f_s3 a _ Ha) as H; fresh_limbs (p256_scalar3 a) end
  | |- context [p256_scalar4 ?a] => is_var a; match goal with Ha : R a _ |- _ => let H := fresh "H" in pose proof (f_s4 a _ Ha) as H; fresh_limbs (p256_scalar4 a) end
  | |- context [p256_scalar8 ?a] => is_var a; match goal with Ha : R a _ |- _ => let H := fresh "H" in pose proof (f_s8 a _ Ha) as H; fresh_limbs (p256_scalar8 a) end
  | |- context [p256_mul false ?a ?c] => is_var a; is_var c; match goal with Ha : R a _ |- _ => match goal with Hc : R c _ |- _ =>
      let m := fresh "m" in let E := fresh "E" in let H := fresh "H" in destruct (f_mul a c _ _ Ha Hc) as (m & E & H); rewrite E; clear E; cbv beta iota end end
  | |- context [p256_square false ?a] => is_var a; match goal with Ha : R a _ |- _ =>
      let m := fresh "m" in let E := fresh "E" in let H := fresh "H" in destruct (f_square a _ Ha) as (m & E & H); rewrite E; clear E; cbv beta iota end
  end.
Ltac value := match goal with H : R ?a _ |- R ?a _ => refine (R_eq a _ _ _ H) end.

(** Inversion. *)
Notation fpow := (fpow p Hp).
Definition Pw (u : F) (a : list Z) (e : Z) : Prop := 0 <= e /\ R a (fpow u e).
Lemma pw_mul u a c d e : Pw u a d -> Pw u c e -> exists m, p256_mul false a c = Some m /\ Pw u m (d + e).
Proof. intros [D A] [E C]. destruct (f_mul _ _ _ _ A C) as (m & EM & M). exists m. split; [exact EM|]. split; [lia|]. rewrite <- fpow_add by assumption. exact M. Qed.
Lemma pw_square u a d : Pw u a d -> exists m, p256_square false a = Some m /\ Pw u m (d + d).
Proof. intros [D A]. destruct (f_square _ _ A) as (m & EM & M). exists m. split; [exact EM|]. split; [lia|]. rewrite <- fpow_add by assumption. exact M. Qed.
Lemma pw_iter u n : forall a d, Pw u a d -> exists m, squares false n a = Some m /\ Pw u m (d * 2 ^ Z.of_nat n).
Proof.
  induction n as [|n IH]; intros a d A; cbn [squares].
  - exists a. split; [reflexivity|]. replace (d * 2 ^ Z.of_nat 0) with d by (cbn; lia). exact A.
  - destruct (pw_square u a d A) as (m & -> & M). destruct (IH m _ M) as (m' & -> & M'). exists m'. split; [reflexivity|].
    replace (d * 2 ^ Z.of_nat (S n)) with ((d + d) * 2 ^ Z.of_nat n); [exact M'|]. rewrite Nat2Z.inj_succ, Z.pow_succ_r by lia. ring.
Qed.
Ltac pstep := match goal with
  | |- context [match squares false ?n ?a with _ => _ end] => is_var a; match goal with H : Pw ?u a ?d |- _ =>
      let m := fresh "m" in let E := fresh "E" in let H' := fresh "H" in destruct (pw_iter u n a d H) as (m & E & H'); rewrite E; clear E; cbv beta iota;
      let e := eval vm_compute in (d * 2 ^ Z.of_nat n) in replace (d * 2 ^ Z.of_nat n) with e in H' by (vm_compute; reflexivity) end
  | |- context [p256_square false ?a] => is_var a; match goal with H : Pw ?u a ?d |- _ =>
      let m := fresh "m" in let E := fresh "E" in let H' := fresh "H" in destruct (pw_square u a d H) as (m & E & H'); rewrite E; clear E; cbv beta iota;
      let e := eval vm_compute in (d + d) in replace (d + d) with e in H' by (vm_compute; reflexivity) end
  | |- context [p256_mul false ?a ?c] => is_var a; is_var c; match goal with H : Pw ?u a ?d |- _ => match goal with K : Pw u c ?d' |- _ =>
      let m := fresh "m" in let E := fresh "E" in let H' := fresh "H" in destruct (pw_mul u a c d d' H K) as (m & E & H'); rewrite E; clear E; cbv beta iota;
      let e := eval vm_compute in (d + d') in replace (d + d') with e in H' by (vm_compute; reflexivity) end end
  end.
Lemma f_invert a u : R a u -> exists m, p256_invert false a = Some m /\ R m (finv p Hp u).
Proof.
  intros A. assert (P1 : Pw u a 1) by (split; [lia|rewrite fpow_1; exact A]). clear A.
  unfold p256_invert. cbv zeta. repeat pstep.
  match goal with H : Pw u ?r ?e |- exists m, Some ?r = Some m /\ _ => exists r; split; [reflexivity|]; destruct H as [_ H]; refine (R_eq r _ _ _ H); unfold finv, P224Field.fpow; replace (p - 2) with e by (rewrite EP; vm_compute; reflexivity); reflexivity end.
Qed.

(** ** Points *)
Notation Peq := (Fp_eq_dec p).
Notation fon := (@on F (fadd p Hp) (fmul p Hp) (fa p Hp) (fb p b Hp)).
Notation fpadd := (@padd F (f1 p Hp) (fadd p Hp) (fmul p Hp) (fsub p Hp) (fopp p Hp) (fdiv p Hp) Peq (fa p Hp)).
Notation faff := (aff (f0 p Hp) (fmul p Hp) (fdiv p Hp) Peq).
Notation dx := (dbl_x (f1 p Hp) (fadd p Hp) (fmul p Hp) (fsub p Hp)).
Notation dy := (dbl_y (f1 p Hp) (fadd p Hp) (fmul p Hp) (fsub p Hp)).
Notation dz := (dbl_z (fadd p Hp) (fmul p Hp) (fsub p Hp)).
Notation ax := (ad_x (f1 p Hp) (fadd p Hp) (fmul p Hp) (fsub p Hp)).
Notation ay := (ad_y (f1 p Hp) (fadd p Hp) (fmul p Hp) (fsub p Hp)).
Notation az := (ad_z (fadd p Hp) (fmul p Hp) (fsub p Hp)).
Definition three (J : jac) (X Y Z : F) : Prop := let '(x, y, z) := J in R x X /\ R y Y /\ R z Z.
Definition reps (J : jac) (P : option (F * F)) : Prop := exists X Y Z, three J X Y Z /\ P = faff X Y Z.
Lemma double_three J X Y Z : three J X Y Z -> exists J', p256_point_double false J = Some J' /\ three J' (dx X Y Z) (dy X Y Z) (dz X Y Z).
Proof.
  destruct J as [[x y] z]. intros (HX & HY & HZ). unfold p256_point_double. cbv zeta. repeat fstep.
  eexists. split; [reflexivity|]. split; [|split]; value; unfold dbl_y, dbl_x, dbl_z; ring.
Qed.
Lemma mixed_three J x2 y2 X Y Z X2 Y2 : three J X Y Z -> R x2 X2 -> R y2 Y2 ->
  exists J', p256_point_add_mixed false J x2 y2 = Some J' /\ three J' (ax X Y Z X2 Y2 1%f) (ay X Y Z X2 Y2 1%f) (az X Z X2 1%f).
Proof.
  destruct J as [[x y] z]. intros (HX & HY & HZ) HX2 HY2. unfold p256_point_add_mixed. cbv zeta. repeat fstep.
  eexists. split; [reflexivity|]. split; [|split]; value; unfold ad_y, ad_x, ad_z, ad_h, ad_r; ring.
Qed.
Lemma add_three J J2 X Y Z X2 Y2 Z2 : three J X Y Z -> three J2 X2 Y2 Z2 ->
  exists J', p256_point_add false J J2 = Some J' /\ three J' (ax X Y Z X2 Y2 Z2) (ay X Y Z X2 Y2 Z2) (az X Z X2 Z2).
Proof.
  destruct J as [[x y] z]. destruct J2 as [[x2 y2] z2]. intros (HX & HY & HZ) (HX2 & HY2 & HZ2). unfold p256_point_add. cbv zeta. repeat fstep.
  eexists. split; [reflexivity|]. split; [|split]; value; unfold ad_y, ad_x, ad_z, ad_h, ad_r; ring.
Qed.
Lemma aff_zero X Y Z : Z = 0%f -> faff X Y Z = None.
Proof. intros ->. unfold aff. destruct (Peq 0%f 0%f); [reflexivity|contradiction]. Qed.
Lemma aff_nz X Y Z : faff X Y Z <> None -> Z <> 0%f.
Proof. intros H E. apply H, aff_zero, E. Qed.
Lemma one_nz : 1%f <> 0%f.
Proof. assert (P := P3). unfold f1, f0. rewrite of_Z_eq, Z.mod_0_l, Z.mod_1_l by lia. discriminate. Qed.
Lemma aff_one X Y : faff X Y 1%f = Some (X, Y).
Proof. unfold aff. destruct (Peq 1%f 0%f) as [E|_]; [destruct (one_nz E)|]. do 2 f_equal; field; exact one_nz. Qed.
Lemma double_reps J P : reps J P -> exists J', p256_point_double false J = Some J' /\ reps J' (fpadd P P).
Proof.
  intros (X & Y & Z & H & ->). destruct (double_three J X Y Z H) as (J' & E & H'). exists J'. split; [exact E|].
  exists (dx X Y Z), (dy X Y Z), (dz X Y Z). split; [exact H'|]. symmetry. apply (dbl_ok _ _ _ _ _ _ _ _ (Fp_field p Hp)), (EllProofs.two_nz p Hp P3).
Qed.
Lemma ad_reps X Y Z X2 Y2 Z2 : faff X Y Z <> None -> faff X2 Y2 Z2 <> None -> faff X Y Z <> faff X2 Y2 Z2 -> fon (faff X Y Z) -> fon (faff X2 Y2 Z2) ->
  fpadd (faff X Y Z) (faff X2 Y2 Z2) = faff (ax X Y Z X2 Y2 Z2) (ay X Y Z X2 Y2 Z2) (az X Z X2 Z2).
Proof.
  intros N1 N2 N O1 O2. symmetry. apply aff_nz in N1, N2. apply (ad_ok _ _ _ _ _ _ _ _ (Fp_field p Hp) Peq (fb p b Hp) (EllProofs.two_nz p Hp P3)); try assumption.
  intros [A1 A2]. apply N. apply (ad_same _ _ _ _ _ _ _ _ (Fp_field p Hp)); assumption.
Qed.
Lemma mixed_reps J P x2 y2 X2 Y2 : reps J P -> R x2 X2 -> R y2 Y2 -> P <> None -> P <> Some (X2, Y2) -> fon P -> fon (Some (X2, Y2)) ->
  exists J', p256_point_add_mixed false J x2 y2 = Some J' /\ reps J' (fpadd P (Some (X2, Y2))).
Proof.
  intros (X & Y & Z & H & ->) HX HY N1 N O1 O2. destruct (mixed_three J x2 y2 X Y Z X2 Y2 H HX HY) as (J' & E & H'). exists J'. split; [exact E|].
  eexists _, _, _. split; [exact H'|]. rewrite <- (aff_one X2 Y2) in *. apply ad_reps; try assumption. rewrite aff_one. discriminate.
Qed.
Lemma add_reps J J2 P Q : reps J P -> reps J2 Q -> P <> None -> Q <> None -> P <> Q -> fon P -> fon Q ->
  exists J', p256_point_add false J J2 = Some J' /\ reps J' (fpadd P Q).
Proof.
  intros (X & Y & Z & H & ->) (X2 & Y2 & Z2 & H2 & ->) N1 N2 N O1 O2. destruct (add_three J J2 X Y Z X2 Y2 Z2 H H2) as (J' & E & H'). exists J'. split; [exact E|].
  eexists _, _, _. split; [exact H'|]. apply ad_reps; assumption.
Qed.

(** Back to numbers. *)
Lemma finv_0 : finv p Hp 0%f = 0%f.
Proof.
  unfold finv, f0. rewrite to_of. assert (E : 0 < p - 2) by (assert (H := P3); lia). rewrite Z.mod_0_l by (assert (H := P3); lia). rewrite Z.pow_0_l by exact E. reflexivity.
Qed.
Lemma to_bigint_R a u : R a u -> p256_to_bigint a = to_Z p u.
Proof.
  intros H. rewrite <- (of_to p Hp u) in H. apply R_stands in H. destruct H as [[L _] S]. rewrite (to_bigint_ok a _ L S). rewrite <- EP. apply to_Z_mod.
Qed.
Notation psi := (psi p).
Lemma to_Z_0 : to_Z p 0%f = 0%Z. Proof. unfold f0. rewrite to_of. apply Z.mod_0_l. assert (H := P3). lia. Qed.
Lemma affine_three J X Y Z : three J X Y Z -> p256_to_affine false J = Some (psi (faff X Y Z)).
Proof.
  destruct J as [[x y] z]. intros (HX & HY & HZ). unfold p256_to_affine, p256_point_to_affine.
  destruct (f_invert z Z HZ) as (zi & -> & HI). repeat fstep.
  rewrite (to_bigint_R m0 _ ltac:(eassumption)), (to_bigint_R m2 _ ltac:(eassumption)).
  unfold aff. destruct (Peq Z 0%f) as [->|N]; cbn [EllProofs.psi].
  - rewrite finv_0. do 2 f_equal; rewrite <- to_Z_0; f_equal; ring.
  - do 2 f_equal; f_equal; field; exact N.
Qed.
Lemma affine_reps J P : reps J P -> p256_to_affine false J = Some (psi P).
Proof. intros (X & Y & Z & H & ->). apply affine_three, H. Qed.

(** ** Selections by masks *)
Definition words (a : list Z) : Prop := length a = 9%nat /\ Forall (fun x => 0 <= x < M32) a.
Lemma element_words a : element a -> words a.
Proof.
  intros A. destruct (element_9 a A) as (a0 & a1 & a2 & a3 & a4 & a5 & a6 & a7 & a8 & -> & A1 & A2). split; [reflexivity|]. split_bounds. unfold M32. repeat (apply Forall_cons; [lia|]). constructor.
Qed.
Lemma R_words a u : R a u -> words a. Proof. intros [A _]. apply element_words, A. Qed.
Lemma copy0 a c : length a = length c -> p256_copy a c 0 = a.
Proof.
  unfold p256_copy, zip_with. revert c. induction a as [|x a IH]; intros [|y c] L; try discriminate L; [reflexivity|]. cbn [combine map fst snd].
  rewrite Z.land_0_l, Z.lxor_0_r, IH; [reflexivity|]. injection L. auto.
Qed.
Lemma copy1 a c : length a = length c -> Forall (fun x => 0 <= x < M32) a -> Forall (fun x => 0 <= x < M32) c -> p256_copy a c (M32 - 1) = c.
Proof.
  unfold p256_copy, zip_with. revert c. induction a as [|x a IH]; intros [|y c] L A C; try discriminate L; [reflexivity|]. cbn [combine map fst snd].
  apply Forall_cons_iff in A, C. rewrite IH; [|injection L; auto|apply A|apply C]. f_equal. change (M32 - 1) with (Z.ones 32). rewrite Z.land_comm, Z.land_ones by lia.
  rewrite Z.mod_small by (exact (lxor_range 32 y x ltac:(lia) (proj1 C) (proj1 A))). rewrite (Z.lxor_comm y x), <- Z.lxor_assoc, Z.lxor_nilpotent, Z.lxor_0_l. reflexivity.
Qed.
Definition words3 (J : jac) : Prop := let '(x, y, z) := J in words x /\ words y /\ words z.
Lemma three_words J X Y Z : three J X Y Z -> words3 J.
Proof. destruct J as [[x y] z]. intros (A & B & C). split; [|split]; eapply R_words; eassumption. Qed.
Lemma point0 J K : words3 J -> words3 K -> copy_point J K 0 = J.
Proof. destruct J as [[x y] z], K as [[x2 y2] z2]. intros ([A _] & [B _] & [C _]) ([A' _] & [B' _] & [C' _]). unfold copy_point. rewrite !copy0 by congruence. reflexivity. Qed.
Lemma point1 J K : words3 J -> words3 K -> copy_point J K (M32 - 1) = K.
Proof. destruct J as [[x y] z], K as [[x2 y2] z2]. intros ([A A1] & [B B1] & [C C1]) ([A' A2] & [B' B2] & [C' C2]). unfold copy_point. rewrite !copy1 by (assumption || congruence). reflexivity. Qed.
Lemma nz_of index : 0 <= index < 2 ^ 31 -> nz_mask index = if index =? 0 then 0 else M32 - 1.
Proof.
  intros I. destruct (Z.eqb_spec index 0) as [->|N]; [reflexivity|]. apply nz_mask_1. lia.
Qed.
Lemma window_all out q t index : words3 out -> words3 q -> words3 t -> 0 <= index < 2 ^ 31 -> window_copy out q t index (M32 - 1) = (q, if index =? 0 then M32 - 1 else 0).
Proof.
  intros O Q T I. unfold window_copy. cbv zeta. rewrite point1 by assumption. rewrite nz_of by exact I.
  destruct (index =? 0); [change (Z.land 0 (not32 (M32 - 1))) with 0|change (Z.land (M32 - 1) (not32 (M32 - 1))) with 0]; rewrite point0 by assumption; reflexivity.
Qed.
Lemma window_none out q t index : words3 out -> words3 q -> words3 t -> 0 <= index < 2 ^ 31 -> window_copy out q t index 0 = (if index =? 0 then out else t, 0).
Proof.
  intros O Q T I. unfold window_copy. cbv zeta. rewrite point0 by assumption. rewrite nz_of by exact I.
  destruct (index =? 0); [change (Z.land 0 (not32 0)) with 0; rewrite point0 by assumption; reflexivity|change (Z.land (M32 - 1) (not32 0)) with (M32 - 1); rewrite point1 by assumption; reflexivity].
Qed.
Lemma or0 a c : length a = length c -> zip_with (fun x t => Z.lor x (Z.land t 0)) a c = a.
Proof.
  unfold zip_with. revert c. induction a as [|x a IH]; intros [|y c] L; try discriminate L; [reflexivity|]. cbn [combine map fst snd].
  rewrite Z.land_0_r, Z.lor_0_r, IH; [reflexivity|]. injection L. auto.
Qed.
Lemma or1 c : words c -> zip_with (fun x t => Z.lor x (Z.land t (M32 - 1))) fz c = c.
Proof.
  intros [L F]. unfold fz. rewrite <- L. clear L. unfold zip_with. induction c as [|y c IH]; [reflexivity|]. apply Forall_cons_iff in F. cbn [length repeat combine map fst snd].
  rewrite IH by apply F. f_equal. change (M32 - 1) with (Z.ones 32). rewrite Z.land_ones by lia. rewrite Z.mod_small by apply F. reflexivity.
Qed.
Lemma fz_words : words fz. Proof. split; [reflexivity|]. unfold fz, M32. cbn [repeat]. repeat (apply Forall_cons; [lia|]). constructor. Qed.
Lemma jmask i index : (1 <= i <= 15)%nat -> (index <= 15)%nat -> jacobian_mask (Z.of_nat i) (Z.of_nat index) = if Nat.eqb i index then M32 - 1 else 0.
Proof.
  intros Hi Hj. assert (G : forallb (fun i => forallb (fun j => jacobian_mask (Z.of_nat i) (Z.of_nat j) =? if Nat.eqb i j then M32 - 1 else 0) (seq 0 16)) (seq 1 15) = true) by (vm_compute; reflexivity).
  rewrite forallb_forall in G. specialize (G i ltac:(apply in_seq; lia)). rewrite forallb_forall in G. specialize (G index ltac:(apply in_seq; lia)). apply Z.eqb_eq, G.
Qed.
Notation entry i t := (@nth jac i t (fz, fz, fz)).
Definition sel_step (table : list jac) (index : Z) (q : jac) (i : nat) : jac :=
  let mask := jacobian_mask (Z.of_nat i) index in
  let '(x, y, z) := q in let '(tx, ty, tz) := entry i table in
  (zip_with (fun x t => Z.lor x (Z.land t mask)) x tx, zip_with (fun x t => Z.lor x (Z.land t mask)) y ty,
   zip_with (fun x t => Z.lor x (Z.land t mask)) z tz).
Lemma sel_skip table index l : (forall i, words3 (entry i table)) -> (index <= 15)%nat -> Forall (fun i => 1 <= i <= 15 /\ i <> index)%nat l ->
  forall q, words3 q -> fold_left (sel_step table (Z.of_nat index)) l q = q.
Proof.
  intros T I F. induction F as [|i l [B N] F IH]; intros q W; [reflexivity|]. cbn [fold_left].
  assert (E : sel_step table (Z.of_nat index) q i = q).
  { unfold sel_step. rewrite jmask by assumption. apply Nat.eqb_neq in N. rewrite N. cbv iota zeta. destruct q as [[x y] z]. pose proof (T i) as W2. destruct (entry i table) as [[tx ty] tz].
    destruct W as ([L1 _] & [L2 _] & [L3 _]), W2 as ([K1 _] & [K2 _] & [K3 _]).
    rewrite !or0 by congruence. reflexivity. }
  rewrite E. apply IH, W.
Qed.
Lemma fz3 : words3 (fz, fz, fz). Proof. split; [|split]; exact fz_words. Qed.
Lemma select_jacobian_ok table index : (forall i, words3 (entry i table)) -> (index <= 15)%nat ->
  p256_select_jacobian table (Z.of_nat index) = match index with O => (fz, fz, fz) | _ => entry index table end.
Proof.
  intros T I. change (p256_select_jacobian table (Z.of_nat index)) with (fold_left (sel_step table (Z.of_nat index)) (seq 1 15) (fz, fz, fz)).
  destruct index as [|k].
  - apply sel_skip; [exact T|lia| |exact fz3]. apply Forall_forall. intros i Hi. apply in_seq in Hi. lia.
  - set (index := S k) in *. assert (K : index = S k) by reflexivity. clearbody index.
    replace (seq 1 15) with (seq 1 (index - 1) ++ index :: seq (index + 1) (15 - index)).
    2:{ replace 15%nat with ((index - 1) + S (15 - index))%nat at 2 by lia. rewrite seq_app. f_equal. cbn [seq]. f_equal; [lia|]. f_equal. lia. }
    rewrite fold_left_app. cbn [fold_left]. rewrite (sel_skip table index (seq 1 (index - 1))); [|exact T|lia|apply Forall_forall; intros i Hi; apply in_seq in Hi; lia|exact fz3].
    assert (E : sel_step table (Z.of_nat index) (fz, fz, fz) index = entry index table).
    { unfold sel_step. rewrite jmask by lia. rewrite Nat.eqb_refl. cbv iota zeta. pose proof (T index) as W2. destruct (entry index table) as [[tx ty] tz]. destruct W2 as (W1 & W2 & W3). rewrite !or1 by assumption. reflexivity. }
    rewrite E. apply sel_skip; [exact T|lia| |apply T]. apply Forall_forall. intros i Hi. apply in_seq in Hi. lia.
Qed.

(** ** The window multiplication *)
Hypothesis Hd : ~ cong p (b * b) 4.
Notation zmul := (zmul p Hp).
Lemma fz_R : R fz 0%f.
Proof. split; [apply element_of; unfold fz; cbn [repeat]; repeat (apply Forall_cons; [lia|]); constructor|]. change (val256 fz) with 0%Z. fold (f0 p Hp). ring. Qed.
Lemma one_R : R P256_ONE 1%f.
Proof.
  split; [apply element_of; repeat (apply Forall_cons; [lia|]); constructor|]. transitivity rr; [|ring]. unfold rr. apply ozc. exists (-2). vm_compute. reflexivity.
Qed.
(** [J] has Z = 0. *)
Definition flat (J : jac) : Prop := exists X Y, three J X Y 0%f.
Lemma flat_fz : flat (fz, fz, fz).
Proof. exists 0%f, 0%f. split; [|split]; exact fz_R. Qed.
Lemma flat_double J : flat J -> exists J', p256_point_double false J = Some J' /\ flat J'.
Proof.
  intros (X & Y & H). destruct (double_three _ _ _ _ H) as (J' & E & H'). exists J'. split; [exact E|]. exists (dx X Y 0%f), (dy X Y 0%f).
  replace (dz X Y 0%f) with 0%f in H'; [exact H'|]. unfold dbl_z. ring.
Qed.
Lemma flat_words J : flat J -> words3 J. Proof. intros (X & Y & H). exact (three_words _ _ _ _ H). Qed.
Lemma reps_words J P : reps J P -> words3 J. Proof. intros (X & Y & Z & H & _). exact (three_words _ _ _ _ H). Qed.
Lemma add_total J K : (exists X Y Z, three J X Y Z) -> (exists X Y Z, three K X Y Z) -> exists J', p256_point_add false J K = Some J' /\ words3 J'.
Proof. intros (X & Y & Z & H) (X2 & Y2 & Z2 & H2). destruct (add_three _ _ _ _ _ _ _ _ H H2) as (J' & E & H'). exists J'. split; [exact E|exact (three_words _ _ _ _ H')]. Qed.
Lemma flat_any J : flat J -> exists X Y Z, three J X Y Z. Proof. intros (X & Y & H). exists X, Y, 0%f. exact H. Qed.
Lemma reps_any J P : reps J P -> exists X Y Z, three J X Y Z. Proof. intros (X & Y & Z & H & _). exists X, Y, Z. exact H. Qed.

(** [J] is converted to (0, 0). *)
Definition none (J : jac) : Prop := exists X Y Z, three J X Y Z /\ (Z = 0%f \/ X = 0%f /\ Y = 0%f).
Lemma flat_none J : flat J -> none J. Proof. intros (X & Y & H). exists X, Y, 0%f. split; [exact H|]. left. reflexivity. Qed.
Lemma none_double J : none J -> exists J', p256_point_double false J = Some J' /\ none J'.
Proof. intros (x & y & z & H & C). destruct (double_three _ _ _ _ H) as (J' & E & H'). exists J'. split; [exact E|]. eexists _, _, _. split; [exact H'|]. left. unfold dbl_z. destruct C as [-> |[-> ->]]; ring. Qed.
Lemma none_any J : none J -> exists X Y Z, three J X Y Z. Proof. intros (X & Y & Z & H & _). exists X, Y, Z. exact H. Qed.
Lemma none_words J : none J -> words3 J. Proof. intros (X & Y & Z & H & _). exact (three_words _ _ _ _ H). Qed.
Lemma none_affine J : none J -> p256_to_affine false J = Some (0, 0).
Proof.
  intros (X & Y & Z & H & C). rewrite (affine_three _ _ _ _ H). unfold aff. destruct (Peq Z 0%f) as [E|N]; [reflexivity|]. destruct C as [C|[-> ->]]; [contradiction|].
  cbn [EllProofs.psi]. do 2 f_equal; rewrite <- to_Z_0; f_equal; field; exact N.
Qed.

Section ORDER.
Variable P : option (F * F).
Variable n : Z.
Hypothesis OP : fon P.
Hypothesis NP : zmul n P = None.
Hypothesis SP : forall k, 0 < k < n -> zmul k P <> None.
Lemma zmul_inj i j : 0 <= i -> i < j -> j < n -> zmul i P <> zmul j P.
Proof.
  intros I IJ J E. apply (SP (n - j + i) ltac:(lia)). rewrite (zmul_add p b Hp P3 Hd) by (assumption || lia). rewrite E, <- (zmul_add p b Hp P3 Hd) by (assumption || lia).
  replace (n - j + j) with n by lia. exact NP.
Qed.
Lemma zmul_neq i j : 0 <= i < n -> 0 <= j < n -> i <> j -> zmul i P <> zmul j P.
Proof. intros I J N. destruct (Z_lt_le_dec i j); [apply zmul_inj; lia|]. intros E. symmetry in E. revert E. apply zmul_inj; lia. Qed.
(** The state of both loops after the multiple [m]: a mask that says whether [m] is still 0, and the multiple. *)
Definition state (s : jac * Z) (m : Z) : Prop := (m = 0 /\ snd s = M32 - 1 /\ none (fst s)) \/ (0 < m /\ snd s = 0 /\ reps (fst s) (zmul m P)).
Lemma state_words s m : state s m -> words3 (fst s).
Proof. clear NP SP n. intros [(_ & _ & H)|(_ & _ & H)]; [apply none_words, H|exact (reps_words _ _ H)]. Qed.
Lemma state_any s m : state s m -> exists X Y Z, three (fst s) X Y Z.
Proof. clear NP SP n. intros [(_ & _ & H)|(_ & _ & H)]; [apply none_any, H|exact (reps_any _ _ H)]. Qed.
Lemma state_affine s m : state s m -> p256_to_affine false (fst s) = Some (psi (zmul m P)).
Proof. clear NP SP n. intros [(-> & _ & H)|(_ & _ & H)]; [rewrite none_affine by exact H; reflexivity|apply affine_reps, H]. Qed.
Lemma state_double out nm m : state (out, nm) m -> exists out', p256_point_double false out = Some out' /\ state (out', nm) (2 * m).
Proof. clear NP SP n.
  intros [(M & N & H)|(M & N & H)]; cbn [fst snd] in *.
  - destruct (none_double _ H) as (o & E & H'). exists o. split; [exact E|]. left. split; [lia|]. auto.
  - destruct (double_reps _ _ H) as (o & E & H'). exists o. split; [exact E|]. right. split; [lia|]. split; [exact N|]. cbn [fst]. rewrite <- (zmul_add p b Hp P3 Hd) in H' by (assumption || lia).
    replace (2 * m) with (m + m) by lia. exact H'.
Qed.
(** The selection of the next state, from the selected multiple [q] of [P] and the sum [t]. *)
Lemma state_copy out nm m q t index d : state (out, nm) m -> 0 <= index < 2 ^ 31 -> 0 <= d -> words3 t -> (index = 0 /\ d = 0 /\ words3 q \/ 0 < index /\ 0 < d /\ reps q (zmul d P)) ->
  (m = 0 -> index = 0 -> none q) -> (0 < m -> 0 < index -> reps t (zmul (m + d) P)) -> state (window_copy out q t index nm) (m + d).
Proof. clear NP SP n.
  intros S I D T Q Q0 TT. pose proof (state_words _ _ S) as WO. cbn [fst] in WO.
  assert (WQ : words3 q) by (destruct Q as [(_ & _ & Q)|(_ & _ & Q)]; [exact Q|exact (reps_words _ _ Q)]).
  destruct S as [(M & N & H)|(M & N & H)]; cbn [fst snd] in *; subst nm.
  - subst m. rewrite window_all by assumption. destruct Q as [(-> & -> & _)|(I0 & D0 & Q)].
    + left. split; [reflexivity|]. split; [reflexivity|]. apply Q0; reflexivity.
    + right. rewrite Z.add_0_l. split; [exact D0|]. cbn [fst snd]. destruct (Z.eqb_spec index 0); [lia|]. auto.
  - rewrite window_none by assumption. right. split; [lia|]. cbn [fst snd]. split; [reflexivity|]. destruct Q as [(-> & -> & _)|(I0 & D0 & Q)].
    + rewrite Z.add_0_r. exact H.
    + destruct (Z.eqb_spec index 0); [lia|]. apply TT; assumption.
Qed.
End ORDER.

Section WINDOW.
Variables x0 y0 : list Z.
Variables X Y : F.
Variable n : Z.
Hypothesis RX : R x0 X.
Hypothesis RY : R y0 Y.
Let P : option (F * F) := Some (X, Y).
Hypothesis OP : fon P.
Hypothesis N16 : 16 < n.
Hypothesis NP : zmul n P = None.
Hypothesis SP : forall k, 0 < k < n -> zmul k P <> None.
Definition good (t : list jac) (i : nat) : Prop := length t = i /\ entry 0 t = (fz, fz, fz) /\ forall j, (1 <= j < i)%nat -> reps (entry j t) (zmul (Z.of_nat j) P).
Lemma precomp_ok t i : good t (2 * i) -> (1 <= i <= 7)%nat -> exists t', precomp_step false x0 y0 (Some t) (2 * i) = Some t' /\ good t' (2 * S i).
Proof.
  intros (L & Z0 & G) I. unfold precomp_step. replace (2 * i / 2)%nat with i by (rewrite Nat.mul_comm, Nat.div_mul; lia).
  destruct (double_reps _ _ (G i ltac:(lia))) as (d & E & HD). change (@nth jac i t (fz, fz, fz)) with (nth i t (fz, fz, fz)) in E. rewrite E.
  rewrite <- (zmul_add p b Hp P3 Hd) in HD by (assumption || lia). replace (Z.of_nat i + Z.of_nat i) with (Z.of_nat (2 * i)) in HD by lia.
  destruct (mixed_reps d _ x0 y0 X Y HD RX RY) as (a & EA & HA).
  { apply SP. lia. } { change (Some (X, Y)) with P. rewrite <- (zmul_1 p Hp P). apply (zmul_neq P n OP NP SP); lia. } { apply (on_zmul p b Hp P3), OP. } { exact OP. }
  rewrite EA. exists (t ++ [d; a]). split; [reflexivity|]. split; [rewrite app_length; cbn [length]; lia|]. split; [rewrite app_nth1 by lia; exact Z0|].
  intros j J. destruct (Nat.lt_ge_cases j (2 * i)) as [C|C]; [rewrite app_nth1 by lia; apply G; lia|]. rewrite app_nth2 by lia. rewrite L.
  assert (D : j = (2 * i)%nat \/ j = S (2 * i)) by lia. destruct D as [-> | ->].
  - rewrite Nat.sub_diag. exact HD.
  - replace (S (2 * i) - 2 * i)%nat with 1%nat by lia. cbn [nth]. rewrite Nat2Z.inj_succ. unfold Z.succ. rewrite (zmul_add p b Hp P3 Hd) by (assumption || lia). rewrite zmul_1. exact HA.
Qed.
Lemma precomp_good : exists t, precomp false x0 y0 = Some t /\ good t 16.
Proof.
  assert (G1 : good [(fz, fz, fz); (x0, y0, P256_ONE)] (2 * 1)).
  { split; [reflexivity|]. split; [reflexivity|]. intros j J. assert (j = 1%nat) as -> by lia. cbn [nth]. change (Z.of_nat 1) with 1. rewrite zmul_1. exists X, Y, 1%f.
    split; [split; [exact RX|split; [exact RY|exact one_R]]|symmetry; apply aff_one]. }
  assert (L : forall i, (i <= 7)%nat -> exists t, fold_left (precomp_step false x0 y0) (map (fun i => 2 * i)%nat (seq 1 i)) (Some [(fz, fz, fz); (x0, y0, P256_ONE)]) = Some t /\ good t (2 * S i)).
  { induction i as [|i IH]; intros I; [exists [(fz, fz, fz); (x0, y0, P256_ONE)]; split; [reflexivity|exact G1]|]. destruct (IH ltac:(lia)) as (t & E & G). rewrite seq_S, map_app, fold_left_app, E. cbn [map fold_left].
    exact (precomp_ok t (S i) G ltac:(lia)). }
  exact (L 7%nat (Nat.le_refl _)).
Qed.
Lemma good_words t : good t 16 -> forall i, words3 (entry i t).
Proof.
  intros (L & Z0 & G) i. destruct i as [|i]; [rewrite Z0; exact fz3|]. destruct (Nat.lt_ge_cases (S i) 16) as [C|C]; [exact (reps_words _ _ (G (S i) ltac:(lia)))|].
  rewrite nth_overflow by lia. exact fz3.
Qed.
(** The four bits read in round [i]. *)
Definition digit (scalar : list Z) (i : nat) : Z := let index := scalar.[31 - i / 2] in if Nat.odd i then Z.land index 15 else shr index 4.
Lemma window_ok t scalar out nm i m d : good t 16 -> digit scalar i = Z.of_nat d -> (d <= 15)%nat -> state P (out, nm) m -> (i = 0%nat -> m = 0) -> 16 * m + Z.of_nat d < n ->
  exists s, window_round false t scalar (Some (out, nm)) i = Some s /\ state P s (16 * m + Z.of_nat d).
Proof.
  intros G D D15 S I0 B. assert (GW := good_words t G). unfold window_round.
  assert (DBL : exists o, (if Nat.eqb i 0 then Some out else let? out := p256_point_double false out in let? out := p256_point_double false out in let? out := p256_point_double false out in p256_point_double false out) = Some o /\ state P (o, nm) (16 * m)).
  { destruct (Nat.eqb_spec i 0) as [E|E].
    - rewrite (I0 E) in *. exists out. split; [reflexivity|exact S].
    - destruct (state_double P OP _ _ _ S) as (o1 & -> & S1). destruct (state_double P OP _ _ _ S1) as (o2 & -> & S2). destruct (state_double P OP _ _ _ S2) as (o3 & -> & S3). destruct (state_double P OP _ _ _ S3) as (o4 & -> & S4).
      exists o4. split; [reflexivity|]. replace (16 * m) with (2 * (2 * (2 * (2 * m)))) by lia. exact S4. }
  destruct DBL as (o & -> & SO). fold (digit scalar i). rewrite D. clear D S. pose proof (select_jacobian_ok t d GW D15) as EQ.
  assert (M0 : 0 <= m) by (destruct SO as [(? & _)|(? & _)]; lia).
  set (q := p256_select_jacobian t (Z.of_nat d)) in *.
  assert (Q : (d = 0%nat /\ flat q) \/ (1 <= d)%nat /\ reps q (zmul (Z.of_nat d) P)).
  { rewrite EQ. destruct d as [|d]; [left; split; [reflexivity|exact flat_fz]|right]. split; [lia|]. apply G. lia. }
  clearbody q. clear EQ. cbv zeta.
  assert (QA : exists X Y Z, three q X Y Z) by (destruct Q as [[_ Q]|[_ Q]]; [apply flat_any, Q|exact (reps_any _ _ Q)]).
  destruct (add_total o q (state_any P _ _ SO) QA) as (w & EW & WW). rewrite EW. eexists. split; [reflexivity|].
  apply (state_copy P); [exact SO|lia|lia|exact WW| | |].
  - destruct Q as [[-> Q]|[L Q]]; [left|right]; [split; [reflexivity|split; [reflexivity|apply flat_words, Q]]|split; [lia|split; [lia|exact Q]]].
  - intros _ E. destruct Q as [[_ Q]|[L Q]]; [apply flat_none, Q|lia].
  - intros M D0. destruct Q as [[-> _]|[L Q]]; [lia|]. destruct SO as [(Z0 & _)|(_ & _ & SO)]; [lia|]. cbn [fst] in SO.
    destruct (add_reps o q _ _ SO Q) as (w' & EW' & HW).
    { apply SP. lia. } { apply SP. lia. } { apply (zmul_neq P n OP NP SP); lia. } { apply (on_zmul p b Hp P3), OP. } { apply (on_zmul p b Hp P3), OP. }
    rewrite EW in EW'. assert (w = w') as <- by congruence. rewrite (zmul_add p b Hp P3 Hd) by (assumption || lia). exact HW.
Qed.
Lemma window_loop t scalar k : good t 16 -> 0 <= k < n -> (forall i, (i < 64)%nat -> digit scalar i = (k / 2 ^ (252 - 4 * Z.of_nat i)) mod 16) -> k < 2 ^ 256 ->
  forall i, (i <= 64)%nat -> exists s, fold_left (window_round false t scalar) (seq 0 i) (Some ((fz, fz, fz), M32 - 1)) = Some s /\ state P s (k / 2 ^ (256 - 4 * Z.of_nat i)).
Proof.
  intros G K DG KB. induction i as [|i IH]; intros L.
  - cbn [seq fold_left]. eexists. split; [reflexivity|]. left. cbn [fst snd]. split; [apply Z.div_small; change (256 - 4 * Z.of_nat 0) with 256; lia|]. split; [reflexivity|apply flat_none, flat_fz].
  - destruct (IH ltac:(lia)) as (s & E & ST0). rewrite seq_S, fold_left_app, E. cbn [fold_left Nat.add]. destruct s as [out nm].
    assert (MB : 0 <= digit scalar i < 16) by (rewrite DG by lia; apply Z.mod_pos_bound; lia).
    assert (ST : 16 * (k / 2 ^ (256 - 4 * Z.of_nat i)) + digit scalar i = k / 2 ^ (256 - 4 * Z.of_nat (S i))).
    { rewrite DG by lia. replace (256 - 4 * Z.of_nat (S i)) with (252 - 4 * Z.of_nat i) by lia. replace (256 - 4 * Z.of_nat i) with ((252 - 4 * Z.of_nat i) + 4) by lia.
      rewrite Z.pow_add_r by lia. assert (W := Z.pow_pos_nonneg 2 (252 - 4 * Z.of_nat i) ltac:(lia) ltac:(lia)). rewrite <- Z.div_div by lia. change (2 ^ 4) with 16.
      assert (D := Z.div_mod (k / 2 ^ (252 - 4 * Z.of_nat i)) 16 ltac:(lia)). lia. }
    assert (LE : k / 2 ^ (256 - 4 * Z.of_nat (S i)) <= k).
    { apply Z.div_le_upper_bound; [apply Z.pow_pos_nonneg; lia|]. assert (W := Z.pow_pos_nonneg 2 (256 - 4 * Z.of_nat (S i)) ltac:(lia) ltac:(lia)).
      generalize dependent (2 ^ (256 - 4 * Z.of_nat (S i))). intros w _ W. clear - K W. nia. }
    rewrite <- ST in *. set (m := k / 2 ^ (256 - 4 * Z.of_nat i)) in *.
    assert (M0 : i = 0%nat -> m = 0) by (intros ->; apply Z.div_small; change (256 - 4 * Z.of_nat 0) with 256; lia). clearbody m. clear ST.
    destruct (Z_of_nat_complete (digit scalar i) ltac:(lia)) as [d ED]. rewrite ED in *. apply window_ok; try assumption; lia.
Qed.
Lemma scalar_mult_ok scalar k : 0 <= k < n -> (forall i, (i < 64)%nat -> digit scalar i = (k / 2 ^ (252 - 4 * Z.of_nat i)) mod 16) -> k < 2 ^ 256 ->
  exists J, p256_scalar_mult false x0 y0 scalar = Some J /\ p256_to_affine false J = Some (psi (zmul k P)).
Proof.
  intros K DG KB. unfold p256_scalar_mult. destruct precomp_good as (t & -> & G). destruct (window_loop t scalar k G K DG KB 64 ltac:(lia)) as ([out nm] & -> & S).
  exists out. split; [reflexivity|]. change (256 - 4 * Z.of_nat 64) with 0 in S. rewrite Z.pow_0_r, Z.div_1_r in S. exact (state_affine P _ _ S).
Qed.
End WINDOW.

(** Any property of points kept by the operations holds of the result. *)
Section KEPT.
Variables x0 y0 : list Z.
Variable K : jac -> Prop.
Hypothesis K_any : forall J, K J -> exists X Y Z, three J X Y Z.
Hypothesis K_zero : K (fz, fz, fz).
Hypothesis K_one : K (x0, y0, P256_ONE).
Hypothesis K_double : forall J, K J -> exists J', p256_point_double false J = Some J' /\ K J'.
Hypothesis K_mixed : forall J, K J -> exists J', p256_point_add_mixed false J x0 y0 = Some J' /\ K J'.
Hypothesis K_add : forall J J2, K J -> K J2 -> exists J', p256_point_add false J J2 = Some J' /\ K J'.
Lemma K_words J : K J -> words3 J. Proof. intros H. destruct (K_any J H) as (X & Y & Z & T). exact (three_words _ _ _ _ T). Qed.
Lemma precomp_kept : exists t, precomp false x0 y0 = Some t /\ forall i, K (entry i t).
Proof.
  assert (L : forall l t, (forall i, K (entry i t)) -> exists t', fold_left (precomp_step false x0 y0) l (Some t) = Some t' /\ forall i, K (entry i t')).
  { induction l as [|n l IH]; intros t T; [exists t; split; [reflexivity|exact T]|]. cbn [fold_left]. unfold precomp_step at 2.
    destruct (K_double _ (T (n / 2)%nat)) as (d & E & D). change (@nth jac (n / 2) t (fz, fz, fz)) with (nth (n / 2) t (fz, fz, fz)) in E. rewrite E.
    destruct (K_mixed d D) as (a & EA & A). rewrite EA. apply IH. intros i. destruct (Nat.lt_ge_cases i (length t)) as [C|C]; [rewrite app_nth1 by lia; apply T|].
    rewrite app_nth2 by lia. destruct (i - length t)%nat as [|[|j]]; [exact D|exact A|]. cbn [nth]. destruct j; exact K_zero. }
  apply L. intros [|[|i]]; [exact K_zero|exact K_one|]. cbn [nth]. destruct i; exact K_zero.
Qed.
Lemma window_kept t scalar : (forall i, K (entry i t)) -> bytes scalar -> forall l out nm, K out -> nm = 0%Z \/ nm = (M32 - 1)%Z ->
  exists out' nm', fold_left (window_round false t scalar) l (Some (out, nm)) = Some (out', nm') /\ K out'.
Proof.
  intros T B. induction l as [|i l IH]; intros out nm O N; [exists out, nm; split; [reflexivity|exact O]|]. cbn [fold_left]. unfold window_round at 2.
  assert (DBL : exists o, (if Nat.eqb i 0 then Some out else let? out := p256_point_double false out in let? out := p256_point_double false out in let? out := p256_point_double false out in p256_point_double false out) = Some o /\ K o).
  { destruct (Nat.eqb i 0); [exists out; split; [reflexivity|exact O]|].
    destruct (K_double _ O) as (o1 & -> & O1). destruct (K_double _ O1) as (o2 & -> & O2). destruct (K_double _ O2) as (o3 & -> & O3). exact (K_double _ O3). }
  destruct DBL as (o & -> & KO). fold (digit scalar i).
  assert (DB : 0 <= digit scalar i < 16).
  { assert (BB : 0 <= scalar.[31 - i / 2] < 256).
    { destruct (Nat.lt_ge_cases (31 - i / 2) (length scalar)) as [C|C]; [|rewrite nth_overflow by exact C; lia]. pose proof (proj1 (Forall_forall _ _) B (scalar.[31 - i / 2]) (nth_In _ _ C)) as H. exact H. }
    unfold digit. cbv zeta. destruct (Nat.odd i).
    - change 15 with (Z.ones 4). rewrite Z.land_ones by lia. apply Z.mod_pos_bound. lia.
    - unfold shr. rewrite Z.shiftr_div_pow2 by lia. change (2 ^ 4) with 16. split; [apply Z.div_pos; lia|apply Z.div_lt_upper_bound; lia]. }
  destruct (Z_of_nat_complete (digit scalar i) ltac:(lia)) as [d ED]. rewrite ED in *.
  pose proof (select_jacobian_ok t d (fun i => K_words _ (T i)) ltac:(lia)) as EQ. set (q := p256_select_jacobian t (Z.of_nat d)) in *.
  assert (Q : K q) by (rewrite EQ; destruct d; [exact K_zero|apply T]). clearbody q. clear EQ.
  destruct (K_add o q KO Q) as (w & EW & W). cbv zeta. rewrite EW.
  destruct N as [-> | ->]; [rewrite window_none by (try apply K_words; assumption || lia)|rewrite window_all by (try apply K_words; assumption || lia)]; apply IH.
  - destruct (Z.of_nat d =? 0); assumption. - left. reflexivity. - exact Q. - destruct (Z.of_nat d =? 0); [right|left]; reflexivity.
Qed.
Lemma mult_kept scalar : bytes scalar -> exists J, p256_scalar_mult false x0 y0 scalar = Some J /\ K J.
Proof.
  intros B. unfold p256_scalar_mult. destruct precomp_kept as (t & -> & T). destruct (window_kept t scalar T B (seq 0 64) (fz, fz, fz) (M32 - 1) K_zero (or_intror eq_refl)) as (out & nm & E & O).
  exists out. split; [exact (f_equal (fun o : option (jac * Z) => match o with Some (out, _) => Some out | None => None end) E)|exact O].
Qed.
End KEPT.
(** So multiplication never fails ... *)
Definition any (J : jac) : Prop := exists X Y Z, three J X Y Z.
Lemma mult_total x0 y0 X Y scalar : R x0 X -> R y0 Y -> bytes scalar -> exists J, p256_scalar_mult false x0 y0 scalar = Some J /\ any J.
Proof.
  intros RX RY B. apply (mult_kept x0 y0 any); [intros J H; exact H|apply flat_any, flat_fz| | | | |exact B].
  - exists X, Y, 1%f. split; [exact RX|]. split; [exact RY|exact one_R].
  - intros J (x & y & z & H). destruct (double_three _ _ _ _ H) as (J' & E & H'). exists J'. split; [exact E|]. eexists _, _, _. exact H'.
  - intros J (x & y & z & H). destruct (mixed_three _ _ _ _ _ _ _ _ H RX RY) as (J' & E & H'). exists J'. split; [exact E|]. eexists _, _, _. exact H'.
  - intros J J2 (x & y & z & H) (x2 & y2 & z2 & H2). destruct (add_three _ _ _ _ _ _ _ _ H H2) as (J' & E & H'). exists J'. split; [exact E|]. eexists _, _, _. exact H'.
Qed.
(** ... and multiples of (0, 0) are (0, 0). *)
Lemma mult_none x0 y0 scalar : R x0 0%f -> R y0 0%f -> bytes scalar -> exists J, p256_scalar_mult false x0 y0 scalar = Some J /\ none J.
Proof.
  intros RX RY B. apply (mult_kept x0 y0 none); [intros J (x & y & z & H & _); exists x, y, z; exact H| | | | | |exact B].
  - destruct flat_fz as (x & y & H). exists x, y, 0%f. split; [exact H|]. left. reflexivity.
  - exists 0%f, 0%f, 1%f. split; [split; [exact RX|]; split; [exact RY|exact one_R]|]. right. split; reflexivity.
  - intros J (x & y & z & H & C). destruct (double_three _ _ _ _ H) as (J' & E & H'). exists J'. split; [exact E|]. eexists _, _, _. split; [exact H'|]. left. unfold dbl_z. destruct C as [-> |[-> ->]]; ring.
  - intros J (x & y & z & H & C). destruct (mixed_three _ _ _ _ _ _ _ _ H RX RY) as (J' & E & H'). exists J'. split; [exact E|]. eexists _, _, _. split; [exact H'|]. left. unfold ad_z, ad_h. destruct C as [-> |[-> ->]]; ring.
  - intros J J2 (x & y & z & H & C) (x2 & y2 & z2 & H2 & C2). destruct (add_three _ _ _ _ _ _ _ _ H H2) as (J' & E & H'). exists J'. split; [exact E|]. eexists _, _, _. split; [exact H'|]. left. unfold ad_z, ad_h.
    destruct C as [-> |[-> ->]]; [ring|]. destruct C2 as [-> |[-> ->]]; ring.
Qed.

(** ** The comb multiplication *)
Lemma small_checked_element a : small_check a = true -> element a.
Proof.
  intros H. unfold small_check in H. destruct a as [|a0 [|a1 [|a2 [|a3 [|a4 [|a5 [|a6 [|a7 [|a8 [|a9 r]]]]]]]]]]; try discriminate H. apply andb_prop in H. destruct H as [H1 H2].
  cbn [forallb] in H1, H2. rewrite !Bool.andb_true_iff, !Z.leb_le, !Z.ltb_lt in H1. rewrite !Bool.andb_true_iff, !Z.leb_le, !Z.ltb_lt in H2.
  destruct H1 as (? & ? & ? & ? & ? & _). destruct H2 as (? & ? & ? & ? & _). apply small_element; [reflexivity|]. cbn [small negb]. repeat split; lia.
Qed.
Lemma element_R a : element a -> R a (oz (p256_to_bigint a)).
Proof.
  intros E. assert (H : R a (oz (val256 a) / rr)%f) by (split; [exact E|field; exact rr_nz]). rewrite (to_bigint_R _ _ H), of_to. exact H.
Qed.
Lemma tab_R o i : (o <= 1)%nat -> (1 <= i <= 15)%nat -> R (fst (tab o i)) (oz (tx o i)) /\ R (snd (tab o i)) (oz (ty o i)).
Proof.
  intros O I. pose proof (proj1 (forallb_forall _ _) small_checked (o, i)) as C. cbn [fst snd] in C.
  assert (IN : In (o, i) (list_prod [0; 1]%nat (seq 1 15))) by (apply in_prod; [destruct o as [|[|o]]; cbn; lia|apply in_seq; lia]).
  specialize (C IN). apply andb_prop in C. split; apply element_R, small_checked_element, C.
Qed.
Lemma list_beq_eq a c : list_beq a c = true -> a = c.
Proof.
  unfold list_beq. intros H. apply andb_prop in H. destruct H as [L H]. apply Nat.eqb_eq in L. revert c L H. induction a as [|x a IH]; intros [|y c] L H; try discriminate L; [reflexivity|].
  cbn [combine forallb fst snd] in H. apply andb_prop in H. destruct H as [H1 H2]. apply Z.eqb_eq in H1. f_equal; [exact H1|]. apply IH; [injection L; auto|exact H2].
Qed.
Lemma pair_beq_eq s t : pair_beq s t = true -> s = t.
Proof. destruct s as [x y], t as [x' y']. unfold pair_beq. cbn [fst snd]. intros H. apply andb_prop in H. destruct H as [H1 H2]. apply list_beq_eq in H1, H2. congruence. Qed.
Lemma select_affine_ok o i : (o <= 1)%nat -> (i <= 15)%nat -> p256_select_affine (skipn (270 * o) P256_PRECOMPUTED) (Z.of_nat i) = if (i =? 0)%nat then (fz, fz) else tab o i.
Proof.
  intros O I. pose proof (proj1 (forallb_forall _ _) select_checked (o, i)) as C.
  assert (IN : In (o, i) (list_prod [0; 1]%nat (seq 0 16))) by (apply in_prod; [destruct o as [|[|o]]; cbn; lia|apply in_seq; lia]).
  exact (pair_beq_eq _ _ (C IN)).
Qed.
Lemma index_ok e0 e1 e2 e3 : 0 <= e0 < 2 -> 0 <= e1 < 2 -> 0 <= e2 < 2 -> 0 <= e3 < 2 -> exists i, (i <= 15)%nat /\
  Z.lor (Z.lor (Z.lor e0 (shl32 e1 1)) (shl32 e2 2)) (shl32 e3 3) = Z.of_nat i /\ (forall o, comb o i = 2 ^ (32 * Z.of_nat o) * (e0 + 2 ^ 64 * e1 + 2 ^ 128 * e2 + 2 ^ 192 * e3)) /\ (i = 0%nat -> e0 = 0 /\ e1 = 0 /\ e2 = 0 /\ e3 = 0).
Proof.
  intros B0 B1 B2 B3. exists (Z.to_nat (e0 + 2 * e1 + 4 * e2 + 8 * e3)). split; [lia|]. split; [|split].
  - assert (A0 : e0 = 0 \/ e0 = 1) by lia. assert (A1 : e1 = 0 \/ e1 = 1) by lia. assert (A2 : e2 = 0 \/ e2 = 1) by lia. assert (A3 : e3 = 0 \/ e3 = 1) by lia.
    destruct A0 as [-> | ->], A1 as [-> | ->], A2 as [-> | ->], A3 as [-> | ->]; reflexivity.
  - intros o. unfold comb. cbv zeta. f_equal.
    assert (A0 : e0 = 0 \/ e0 = 1) by lia. assert (A1 : e1 = 0 \/ e1 = 1) by lia. assert (A2 : e2 = 0 \/ e2 = 1) by lia. assert (A3 : e3 = 0 \/ e3 = 1) by lia.
    destruct A0 as [-> | ->], A1 as [-> | ->], A2 as [-> | ->], A3 as [-> | ->]; reflexivity.
  - lia.
Qed.
Lemma base_digits k o i : 0 <= k -> (o <= 1)%nat -> (i < 32)%nat -> let bt := 31 - Z.of_nat i + 32 * Z.of_nat o in let scalar := p256_get_scalar k in exists x, (x <= 15)%nat /\
  Z.lor (Z.lor (Z.lor (p256_get_bit scalar bt) (shl32 (p256_get_bit scalar (bt + 64)) 1)) (shl32 (p256_get_bit scalar (bt + 128)) 2)) (shl32 (p256_get_bit scalar (bt + 192)) 3) = Z.of_nat x /\
  D (reduced k) (Z.of_nat o) (Z.of_nat i) = comb o x /\ (x = 0%nat -> D (reduced k) (Z.of_nat o) (Z.of_nat i) = 0) /\ (x <> 0%nat -> 0 < D (reduced k) (Z.of_nat o) (Z.of_nat i)).
Proof. clear.
  intros K O I bt scalar. unfold scalar. rewrite !scalar_bit by (unfold bt; lia).
  destruct (index_ok ((reduced k / 2 ^ bt) mod 2) ((reduced k / 2 ^ (bt + 64)) mod 2) ((reduced k / 2 ^ (bt + 128)) mod 2) ((reduced k / 2 ^ (bt + 192)) mod 2)) as (x & X & EX & C & X0); try (apply Z.mod_pos_bound; lia).
  exists x. split; [exact X|]. split; [exact EX|].
  assert (ED : D (reduced k) (Z.of_nat o) (Z.of_nat i) = comb o x).
  { rewrite C. unfold D, edig. destruct o as [|[|o]]; [| |lia]; cbn [map hor]; change (0 mod 2) with 0; change (1 mod 2) with 1; change (2 mod 2) with 0; change (3 mod 2) with 1; change (4 mod 2) with 0; change (5 mod 2) with 1; change (6 mod 2) with 0; change (7 mod 2) with 1;
    change (Z.of_nat 0) with 0; change (Z.of_nat 1) with 1; cbn [Z.eqb Pos.eqb]; unfold bt.
    - replace (32 * 0 + 31 - Z.of_nat i) with (31 - Z.of_nat i + 32 * Z.of_nat 0) by lia. replace (32 * 2 + 31 - Z.of_nat i) with (31 - Z.of_nat i + 32 * Z.of_nat 0 + 64) by lia.
      replace (32 * 4 + 31 - Z.of_nat i) with (31 - Z.of_nat i + 32 * Z.of_nat 0 + 128) by lia. replace (32 * 6 + 31 - Z.of_nat i) with (31 - Z.of_nat i + 32 * Z.of_nat 0 + 192) by lia.
      generalize ((reduced k / 2 ^ (31 - Z.of_nat i + 32 * Z.of_nat 0)) mod 2), ((reduced k / 2 ^ (31 - Z.of_nat i + 32 * Z.of_nat 0 + 64)) mod 2), ((reduced k / 2 ^ (31 - Z.of_nat i + 32 * Z.of_nat 0 + 128)) mod 2), ((reduced k / 2 ^ (31 - Z.of_nat i + 32 * Z.of_nat 0 + 192)) mod 2).
      clear. intros u v w z. change (2 ^ 64) with (2 ^ 32 * 2 ^ 32). change (2 ^ 128) with (2 ^ 32 * 2 ^ 32 * 2 ^ 32 * 2 ^ 32). change (2 ^ 192) with (2 ^ 32 * 2 ^ 32 * 2 ^ 32 * 2 ^ 32 * 2 ^ 32 * 2 ^ 32). change (2 ^ (32 * 0)) with 1. generalize (2 ^ 32). intros q. ring.
    - replace (32 * 1 + 31 - Z.of_nat i) with (31 - Z.of_nat i + 32 * Z.of_nat 1) by lia. replace (32 * 3 + 31 - Z.of_nat i) with (31 - Z.of_nat i + 32 * Z.of_nat 1 + 64) by lia.
      replace (32 * 5 + 31 - Z.of_nat i) with (31 - Z.of_nat i + 32 * Z.of_nat 1 + 128) by lia. replace (32 * 7 + 31 - Z.of_nat i) with (31 - Z.of_nat i + 32 * Z.of_nat 1 + 192) by lia.
      generalize ((reduced k / 2 ^ (31 - Z.of_nat i + 32 * Z.of_nat 1)) mod 2), ((reduced k / 2 ^ (31 - Z.of_nat i + 32 * Z.of_nat 1 + 64)) mod 2), ((reduced k / 2 ^ (31 - Z.of_nat i + 32 * Z.of_nat 1 + 128)) mod 2), ((reduced k / 2 ^ (31 - Z.of_nat i + 32 * Z.of_nat 1 + 192)) mod 2).
      clear. intros u v w z. change (2 ^ 64) with (2 ^ 32 * 2 ^ 32). change (2 ^ 128) with (2 ^ 32 * 2 ^ 32 * 2 ^ 32 * 2 ^ 32). change (2 ^ 192) with (2 ^ 32 * 2 ^ 32 * 2 ^ 32 * 2 ^ 32 * 2 ^ 32 * 2 ^ 32). change (2 ^ (32 * 1)) with (2 ^ 32). generalize (2 ^ 32). intros q. ring. }
  split; [exact ED|]. split.
  - intros ->. rewrite ED. destruct (X0 eq_refl) as (Y0 & Y1 & Y2 & Y3). rewrite C, Y0, Y1, Y2, Y3. apply Z.mul_0_r.
  - intros NX. assert (NN := D_nonneg (reduced k) (Z.of_nat o) (Z.of_nat i)). assert (D (reduced k) (Z.of_nat o) (Z.of_nat i) <> 0); [|lia]. rewrite ED. clear - X NX O.
    destruct x as [|[|[|[|[|[|[|[|[|[|[|[|[|[|[|[|x]]]]]]]]]]]]]]]]; try lia; destruct o as [|[|o]]; try lia; vm_compute; discriminate.
Qed.
Section BASE.
Variable n : Z.
Notation G := (phi p Hp (cp_gx p256, cp_gy p256)).
Hypothesis EB : b = cp_b p256.
Hypothesis OG : on_curve p b (decode (cp_gx p256, cp_gy p256)).
Hypothesis NP : zmul n G = None.
Hypothesis SP : forall k, 0 < k < n -> zmul k G <> None.
Lemma OG' : fon G. Proof. apply (on_phi p b Hp P3), OG. Qed.
Lemma base_add scalar bt o i out nm m d : state G (out, nm) m -> (o <= 1)%nat -> (i <= 15)%nat ->
  Z.lor (Z.lor (Z.lor (p256_get_bit scalar bt) (shl32 (p256_get_bit scalar (bt + 64)) 1)) (shl32 (p256_get_bit scalar (bt + 128)) 2)) (shl32 (p256_get_bit scalar (bt + 192)) 3) = Z.of_nat i ->
  d = comb o i -> (i = 0%nat -> d = 0) -> (i <> 0%nat -> 0 < d) -> m + d < n -> (0 < m -> m <> d) ->
  exists s, base_step false scalar bt (270 * o) (out, nm) = Some s /\ state G s (m + d).
Proof.
  intros S O I EI ED D0 D1 B NE. unfold base_step. cbv zeta. rewrite EI, select_affine_ok by assumption.
  assert (M0 : 0 <= m) by (destruct S as [(? & _)|(? & _)]; lia). destruct (state_any G _ _ S) as (X & Y & Z & T). cbn [fst] in T.
  destruct (Nat.eqb_spec i 0) as [E|E].
  - rewrite (D0 E) in *. subst i. destruct (mixed_three out fz fz _ _ _ _ _ T fz_R fz_R) as (t & ET & HT). rewrite ET. eexists. split; [reflexivity|].
    assert (N : none (fz, fz, P256_ONE)) by (exists 0%f, 0%f, 1%f; split; [split; [exact fz_R|split; [exact fz_R|exact one_R]]|right; split; reflexivity]).
    apply (state_copy G); [exact S|lia|lia|exact (three_words _ _ _ _ HT)|left; split; [reflexivity|split; [reflexivity|apply none_words, N]]|intros _ _; exact N|lia].
  - assert (TM : is_mult p Hp o i).
    { apply (table_ok p b); [rewrite EP; vm_compute; reflexivity|exact Hd|exact OG|exact O|lia]. }
    destruct (tab_R o i O ltac:(lia)) as [RX RY]. unfold is_mult in TM. rewrite <- ED in TM. clear ED. destruct (tab o i) as [px py]. cbn [fst snd] in RX, RY.
    destruct (mixed_three out px py _ _ _ _ _ T RX RY) as (t & ET & HT). rewrite ET. eexists. split; [reflexivity|].
    assert (Q : reps (px, py, P256_ONE) (zmul d G)).
    { rewrite <- TM. exists (oz (tx o i)), (oz (ty o i)), 1%f. split; [split; [exact RX|split; [exact RY|exact one_R]]|symmetry; apply aff_one]. }
    specialize (D1 E). apply (state_copy G); [exact S|lia|lia|exact (three_words _ _ _ _ HT)|right; split; [lia|split; [exact D1|exact Q]]|lia|].
    intros M _. destruct S as [(Z0 & _)|(_ & _ & S)]; [lia|]. cbn [fst] in S.
    destruct (mixed_reps out _ px py _ _ S RX RY) as (t' & ET' & HT').
    { apply SP. lia. } { rewrite TM. apply (zmul_neq G n OG' NP SP); lia. } { apply (on_zmul p b Hp P3), OG'. } { rewrite TM. apply (on_zmul p b Hp P3), OG'. }
    rewrite ET in ET'. assert (t = t') as <- by congruence. rewrite (zmul_add p b Hp P3 Hd) by (exact OG' || lia). rewrite <- TM. exact HT'.
Qed.
Lemma base_loop k : 0 <= k -> reduced k < n -> forall i, (i <= 32)%nat ->
  exists s, fold_left (base_round false (p256_get_scalar k)) (seq 0 i) (Some ((fz, fz, fz), M32 - 1)) = Some s /\ state G s (V (reduced k) (Z.of_nat i)).
Proof.
  intros K KN. assert (RB := reduced_bound k K). assert (R256 : 0 <= reduced k < 2 ^ 256) by (assert (N := n_256); lia). clear RB. induction i as [|i IH]; intros I.
  - cbn [seq fold_left]. eexists. split; [reflexivity|]. left. cbn [fst snd]. split; [apply V_0|]. split; [reflexivity|apply flat_none, flat_fz].
  - destruct (IH ltac:(lia)) as ([out nm] & E & ST). rewrite seq_S, fold_left_app, E. cbn [fold_left Nat.add]. unfold base_round.
    assert (DBL : exists o, (if Nat.eqb i 0 then Some out else p256_point_double false out) = Some o /\ state G (o, nm) (2 * V (reduced k) (Z.of_nat i))).
    { destruct (Nat.eqb_spec i 0) as [E0|E0]; [|apply (state_double G OG'), ST]. exists out. split; [reflexivity|]. subst i. rewrite V_0 in *. exact ST. }
    destruct DBL as (o & -> & SO). clear ST E IH.
    assert (VI : V (reduced k) (Z.of_nat (S i)) = 2 * V (reduced k) (Z.of_nat i) + D (reduced k) 0 (Z.of_nat i) + D (reduced k) 1 (Z.of_nat i)).
    { rewrite Nat2Z.inj_succ. unfold Z.succ. apply V_step. lia. }
    assert (VL := V_le (reduced k) R256 (Z.of_nat (S i)) ltac:(lia)). rewrite VI in *. clear VI.
    assert (V0 := V_nonneg (reduced k) (Z.of_nat i) ltac:(lia)). assert (N0 := comb_neq0 (reduced k) R256 (Z.of_nat i) ltac:(lia)). assert (N1 := comb_neq1 (reduced k) (Z.of_nat i) ltac:(lia)).
    assert (DN0 := D_nonneg (reduced k) 0 (Z.of_nat i)). assert (DN1 := D_nonneg (reduced k) 1 (Z.of_nat i)).
    destruct (base_digits k 0 i K ltac:(lia) ltac:(lia)) as (x0 & X0 & EX0 & C0 & A0 & B0). destruct (base_digits k 1 i K ltac:(lia) ltac:(lia)) as (x1 & X1 & EX1 & C1 & A1 & B1).
    change (Z.of_nat 0) with 0 in C0, A0, B0. change (Z.of_nat 1) with 1 in C1, A1, B1.
    replace (31 - Z.of_nat i + 32 * Z.of_nat 0) with (31 - Z.of_nat i) in EX0 by lia. replace (31 - Z.of_nat i + 32 * Z.of_nat 1) with (31 - Z.of_nat i + 32) in EX1 by lia.
    destruct (base_add _ _ 0 x0 o nm _ _ SO ltac:(lia) X0 EX0 C0 A0 B0 ltac:(lia) ltac:(intros; apply N0; lia)) as ([o' nm'] & E' & S'). change (270 * 0)%nat with 0%nat in E'. rewrite E'.
    destruct (base_add _ _ 1 x1 o' nm' _ _ S' ltac:(lia) X1 EX1 C1 A1 B1 ltac:(lia) ltac:(intros; apply N1; lia)) as (s2 & E2 & S2). change (270 * 1)%nat with 270%nat in E2. rewrite E2.
    exists s2. split; [reflexivity|exact S2].
Qed.
Lemma base_mult_ok k : 0 <= k -> reduced k < n -> c256_scalar_base false k = Some (psi (zmul (reduced k) G)).
Proof.
  intros K KN. assert (RB := reduced_bound k K). assert (R256 : 0 <= reduced k < 2 ^ 256) by (assert (N := n_256); lia).
  unfold c256_scalar_base, p256_scalar_base_mult. destruct (base_loop k K KN 32 ltac:(lia)) as ([out nm] & -> & S). change (Z.of_nat 32) with 32 in S. rewrite (V_32 (reduced k) R256) in S.
  exact (state_affine G _ _ S).
Qed.
End BASE.
End FIELD.
