(** The precomputed table of P-256: every entry is the stated multiple of the base point. *)
From Coq Require Import Uint63 Znumtheory Field.
From Verif Require Import Base Words NumTheory EcGroup Fp EllModel EllSpec EllProofs Mont MontPow MontEc CurveOrders P224Model P256Model.
Local Open Scope Z_scope.

(** [e * (gx, gy) = (hx, hy)], and the sum of two points with distinct abscissae. *)
Definition mult_check (M : mont) (gx gy : Z) (e : positive) (hx hy : Z) : bool :=
  match (lx <-- to_mont M gx ;; ly <-- to_mont M gy ;; one <-- to_mont M 1 ;; mx <-- to_mont M hx ;; my <-- to_mont M hy ;;
         J <-- jmul M lx ly one e ;;
         (let '(x, y, z) := J in
          zz <-- mmul M z z ;; zzz <-- mmul M z zz ;; xx <-- mmul M mx zz ;; yy <-- mmul M my zzz ;; dx <-- msub M x xx ;; dy <-- msub M y yy ;;
          vx <-- of_mont M dx ;; vy <-- of_mont M dy ;; vz <-- of_mont M z ;; Some (vx, vy, vz))) with
  | Some (vx, vy, vz) => (vx =? 0) && (vy =? 0) && negb (vz =? 0)
  | None => false
  end.
Definition add_check (p x1 y1 x2 y2 x3 y3 : Z) : bool :=
  negb ((x2 - x1) mod p =? 0) && (((x2 - x1) * (x2 - x1) * (x3 + x1 + x2) - (y2 - y1) * (y2 - y1)) mod p =? 0) &&
  (((x2 - x1) * (y3 + y1) - (y2 - y1) * (x1 - x3)) mod p =? 0).

Section Mult.
Variables (M : mont) (b : Z).
Hypothesis OK : mont_ok M = true.
Notation p := (mo_n M).
Hypothesis Hp : prime p.
Hypothesis P3 : 3 < p.
Hypothesis Hd : ~ cong p (b * b) 4.
Notation F := (Fp p). Notation oz := (of_Z p Hp).
Add Field Ff3 : (Fp_field p Hp).
Declare Scope fr_scope. Delimit Scope fr_scope with fr.
Notation "0" := (f0 p Hp) : fr_scope. Notation "1" := (f1 p Hp) : fr_scope.
Notation "x + y" := (fadd p Hp x y) : fr_scope. Notation "x * y" := (fmul p Hp x y) : fr_scope.
Notation "x - y" := (fsub p Hp x y) : fr_scope. Notation "- x" := (fopp p Hp x) : fr_scope. Notation "x / y" := (fdiv p Hp x y) : fr_scope.
Notation Peq := (Fp_eq_dec p).
Notation fpadd := (@padd F (f1 p Hp) (fadd p Hp) (fmul p Hp) (fsub p Hp) (fopp p Hp) (fdiv p Hp) Peq (fa p Hp)).
Notation faff := (aff (f0 p Hp) (fmul p Hp) (fdiv p Hp) Peq).
Ltac carry3 := match goal with
  | E : mmul M ?a ?a = Some ?r, A : fden M Hp ?a _ |- _ => pose proof (fden_mul M OK Hp a a r _ _ E A A); clear E
  | E : mmul M ?a ?c = Some ?r, A : fden M Hp ?a _, C : fden M Hp ?c _ |- _ => pose proof (fden_mul M OK Hp a c r _ _ E A C); clear E
  | E : msub M ?a ?c = Some ?r, A : fden M Hp ?a _, C : fden M Hp ?c _ |- _ => pose proof (fden_sub M OK Hp a c r _ _ E A C); clear E
  end.
Lemma mult_ok gx gy e hx hy : on_curve p b (decode (gx, gy)) -> decode (gx, gy) <> None -> mult_check M gx gy e hx hy = true ->
  zmul p Hp (Zpos e) (phi p Hp (gx, gy)) = Some (oz hx, oz hy).
Proof.
  intros ON NZ. unfold mult_check.
  destruct (to_mont M gx) as [lx|] eqn:LX; [|discriminate]. cbn [obind]. destruct (to_mont M gy) as [ly|] eqn:LY; [|discriminate]. cbn [obind].
  destruct (to_mont M 1) as [one|] eqn:L1; [|discriminate]. cbn [obind].
  destruct (to_mont M hx) as [mx|] eqn:MX; [|discriminate]. cbn [obind]. destruct (to_mont M hy) as [my|] eqn:MY; [|discriminate]. cbn [obind].
  destruct (jmul M lx ly one e) as [[[x y] z]|] eqn:EJ; [|discriminate]. cbn [obind].
  apply (fden_to M OK Hp) in LX, LY, L1, MX, MY.
  destruct (jmul_ok M b OK Hp P3 Hd gx gy ON NZ lx ly one LX LY L1 e _ EJ) as (fx & fy & fz & (DX & DY & DZ) & H).
  destruct (mmul M z z) as [zz|] eqn:E1; [|discriminate]. cbn [obind]. destruct (mmul M z zz) as [zzz|] eqn:E2; [|discriminate]. cbn [obind].
  destruct (mmul M mx zz) as [xx|] eqn:E3; [|discriminate]. cbn [obind]. destruct (mmul M my zzz) as [yy|] eqn:E4; [|discriminate]. cbn [obind].
  destruct (msub M x xx) as [ddx|] eqn:E5; [|discriminate]. cbn [obind]. destruct (msub M y yy) as [ddy|] eqn:E6; [|discriminate]. cbn [obind].
  clear EJ. repeat carry3.
  destruct (of_mont M ddx) as [vx|] eqn:V1; [|discriminate]. cbn [obind]. destruct (of_mont M ddy) as [vy|] eqn:V2; [|discriminate]. cbn [obind].
  destruct (of_mont M z) as [vz|] eqn:V3; [|discriminate]. cbn [obind].
  intro C. apply Bool.andb_true_iff in C. destruct C as [C C3]. apply Bool.andb_true_iff in C. destruct C as [C1 C2].
  apply (fden_of M OK Hp P3 ddx _ vx ltac:(eassumption) V1) in C1. apply (fden_of M OK Hp P3 ddy _ vy ltac:(eassumption) V2) in C2.
  assert (fz <> 0%fr) as ZN.
  { intro Z0. apply (fden_of M OK Hp P3 z fz vz DZ V3) in Z0. rewrite Z0 in C3. discriminate. }
  apply sub_zero in C1, C2. rewrite <- (H ZN). unfold aff. destruct (Peq fz 0%fr); [contradiction|]. rewrite C1, C2. do 2 f_equal; field; exact ZN.
Qed.
Lemma oz_zero z : z mod p = 0 <-> oz z = 0%fr.
Proof. unfold f0. rewrite of_Z_eq, Z.mod_0_l by lia. tauto. Qed.
Lemma add_checked x1 y1 x2 y2 x3 y3 : add_check p x1 y1 x2 y2 x3 y3 = true -> fpadd (Some (oz x1, oz y1)) (Some (oz x2, oz y2)) = Some (oz x3, oz y3).
Proof.
  unfold add_check. intros C. apply andb_prop in C. destruct C as [C C3]. apply andb_prop in C. destruct C as [C1 C2].
  apply Z.eqb_eq, oz_zero in C2, C3. assert (D : (oz x2 - oz x1)%fr <> 0%fr).
  { intros E. rewrite <- of_sub in E. apply oz_zero in E. rewrite E in C1. discriminate C1. }
  clear C1. rewrite !of_sub, !of_mul, !of_add, !of_sub in C2. rewrite !of_sub, !of_mul, !of_add, !of_sub in C3.
  assert (N : oz x1 <> oz x2) by (intros E; apply D; rewrite E; ring).
  set (a1 := oz x1) in *. set (a2 := oz x2) in *. set (a3 := oz x3) in *. set (b1 := oz y1) in *. set (b2 := oz y2) in *. set (b3 := oz y3) in *. clearbody a1 a2 a3 b1 b2 b3.
  unfold padd, slope. destruct (Peq a1 a2) as [E|_]; [contradiction|]. set (l := ((b2 - b1) / (a2 - a1))%fr).
  assert (L : (l * (a2 - a1) = b2 - b1)%fr) by (unfold l; field; exact D).
  assert (X : (l * l - a1 - a2 = a3)%fr).
  { transitivity (((b2 - b1) * (b2 - b1)) / ((a2 - a1) * (a2 - a1)) - a1 - a2)%fr; [unfold l; field; exact D|].
    apply sub_zero in C2. rewrite <- C2. field. exact D. }
  cbv zeta. rewrite X. do 2 f_equal. apply sub_zero in C3. transitivity (((b2 - b1) * (a1 - a3)) / (a2 - a1) - b1)%fr; [unfold l; field; exact D|]. rewrite <- C3. field. exact D.
Qed.
End Mult.

(** The entry [i] of table [o], as limbs and as coordinates. *)
Definition tab (o i : nat) : list Z * list Z := let t := skipn (270 * o + 18 * (i - 1)) P256_PRECOMPUTED in (firstn 9 t, firstn 9 (skipn 9 t)).
Definition tx (o i : nat) : Z := p256_to_bigint (fst (tab o i)).
Definition ty (o i : nat) : Z := p256_to_bigint (snd (tab o i)).
Definition list_beq (a b : list Z) : bool := (length a =? length b)%nat && forallb (fun xy => fst xy =? snd xy) (combine a b).
Definition pair_beq (s t : list Z * list Z) : bool := list_beq (fst s) (fst t) && list_beq (snd s) (snd t).
Definition select_check (oi : nat * nat) : bool :=
  pair_beq (p256_select_affine (skipn (270 * fst oi) P256_PRECOMPUTED) (Z.of_nat (snd oi))) (if (snd oi =? 0)%nat then (fz, fz) else tab (fst oi) (snd oi)).
Lemma select_checked : forallb select_check (list_prod [0; 1]%nat (seq 0 16)) = true.
Proof. vm_compute. reflexivity. Qed.
Definition limbs_check (a : list Z) : bool := (length a =? 9)%nat && forallb (fun x => (0 <=? x) && (x <? 2 ^ 28)) a.
Definition small_check (a : list Z) : bool := match a with
  | [a0; a1; a2; a3; a4; a5; a6; a7; a8] => forallb (fun x => (0 <=? x) && (x <? 2 ^ 29)) [a0; a2; a4; a6; a8] && forallb (fun x => (0 <=? x) && (x <? 2 ^ 28)) [a1; a3; a5; a7]
  | _ => false
  end.
Lemma small_checked : forallb (fun oi => small_check (fst (tab (fst oi) (snd oi))) && small_check (snd (tab (fst oi) (snd oi)))) (list_prod [0; 1]%nat (seq 1 15)) = true.
Proof. vm_compute. reflexivity. Qed.
Definition two32 : positive := 4294967296.
Definition chain_check (o i o' i' : nat) : bool := mult_check mont_p256 (tx o i) (ty o i) two32 (tx o' i') (ty o' i').
Lemma chain_checked : (chain_check 0 1 1 1 = true /\ chain_check 1 1 0 2 = true /\ chain_check 0 2 1 2 = true /\ chain_check 1 2 0 4 = true) /\
  chain_check 0 4 1 4 = true /\ chain_check 1 4 0 8 = true /\ chain_check 0 8 1 8 = true.
Proof. refine (conj (conj _ (conj _ (conj _ _))) (conj _ (conj _ _))); vm_compute; reflexivity. Qed.
Definition sum_check (o i l : nat) : bool := add_check (cp_p p256) (tx o l) (ty o l) (tx o (i - l)) (ty o (i - l)) (tx o i) (ty o i).
Lemma base_checked : tx 0 1 = cp_gx p256 /\ ty 0 1 = cp_gy p256.
Proof. split; vm_compute; reflexivity. Qed.

(** The multiple of the base point in entry [i] of table [o]. *)
Definition comb (o i : nat) : Z :=
  let i := Z.of_nat i in 2 ^ (32 * Z.of_nat o) * (i mod 2 + 2 ^ 64 * ((i / 2) mod 2) + 2 ^ 128 * ((i / 4) mod 2) + 2 ^ 192 * ((i / 8) mod 2)).
Section TABLE.
Variables p b : Z.
Hypothesis EP : p = mo_n mont_p256.
Hypothesis EB : b = cp_b p256.
Hypothesis Hp : prime p.
Hypothesis Hd : ~ cong p (b * b) 4.
Notation oz := (of_Z p Hp).
Notation G := (phi p Hp (cp_gx p256, cp_gy p256)).
Hypothesis OG : on_curve p b (decode (cp_gx p256, cp_gy p256)).
Definition is_mult (o i : nat) : Prop := Some (oz (tx o i), oz (ty o i)) = zmul p Hp (comb o i) G.
Lemma P3' : 3 < p. Proof. rewrite EP. reflexivity. Qed.
Lemma mult_is e x y x' y' : on_curve p b (decode (x, y)) -> decode (x, y) <> None -> mult_check mont_p256 x y e x' y' = true -> zmul p Hp (Zpos e) (phi p Hp (x, y)) = Some (oz x', oz y').
Proof. clear OG. revert Hp Hd. rewrite EP. intros Hp' Hd' O N C. apply (mult_ok mont_p256 b (proj1 mont_p256_ok) Hp' ltac:(reflexivity) Hd'); assumption. Qed.
Notation fpadd := (@padd (Fp p) (f1 p Hp) (fadd p Hp) (fmul p Hp) (fsub p Hp) (fopp p Hp) (fdiv p Hp) (Fp_eq_dec p) (fa p Hp)).
Lemma add_is x1 y1 x2 y2 x3 y3 : add_check (cp_p p256) x1 y1 x2 y2 x3 y3 = true -> fpadd (Some (oz x1, oz y1)) (Some (oz x2, oz y2)) = Some (oz x3, oz y3).
Proof. clear OG Hd. revert Hp. rewrite EP. intros Hp' C. apply (add_checked mont_p256 (proj1 mont_p256_ok) Hp' ltac:(reflexivity)). rewrite (proj2 mont_p256_ok). exact C. Qed.
Notation fon := (@on (Fp p) (fadd p Hp) (fmul p Hp) (fa p Hp) (fb p b Hp)).
Lemma G_fon : fon G. Proof. apply (on_phi p b Hp P3'), OG. Qed.
Definition tx_check (o i : nat) : bool := negb (tx o i =? 0).
Lemma chain_gen e m m' x y x' y' : Some (oz x, oz y) = zmul p Hp m G -> mult_check mont_p256 x y e x' y' = true -> m' = Zpos e * m -> 0 <= m -> negb (x =? 0) = true -> Some (oz x', oz y') = zmul p Hp m' G.
Proof.
  intros I C E N Z. assert (FO : fon (Some (oz x, oz y))) by (rewrite I; apply (on_zmul p b Hp P3'), G_fon).
  assert (DE : decode (x, y) = Some (x, y)) by (unfold decode; cbn [fst snd]; apply negb_true_iff in Z; rewrite Z; reflexivity).
  assert (PH : phi p Hp (x, y) = Some (oz x, oz y)) by (unfold phi; rewrite DE; reflexivity).
  assert (O : on_curve p b (decode (x, y))) by (apply (on_phi p b Hp P3'); rewrite PH; exact FO).
  assert (N' : decode (x, y) <> None) by (rewrite DE; discriminate).
  rewrite E, (zmul_mul p b Hp P3' Hd) by (exact N || lia || exact G_fon). rewrite <- I, <- PH. symmetry. exact (mult_is e x y x' y' O N' C).
Qed.
Lemma chain_is o i o' i' : is_mult o i -> chain_check o i o' i' = true -> comb o' i' = Zpos two32 * comb o i -> 0 <= comb o i -> tx_check o i = true -> is_mult o' i'.
Proof. exact (chain_gen two32 (comb o i) (comb o' i') (tx o i) (ty o i) (tx o' i') (ty o' i')). Qed.
Lemma sum_gen m1 m2 m3 x1 y1 x2 y2 x3 y3 : Some (oz x1, oz y1) = zmul p Hp m1 G -> Some (oz x2, oz y2) = zmul p Hp m2 G -> add_check (cp_p p256) x1 y1 x2 y2 x3 y3 = true ->
  m3 = m1 + m2 -> 0 <= m1 -> 0 <= m2 -> Some (oz x3, oz y3) = zmul p Hp m3 G.
Proof.
  intros I1 I2 C E N1 N2. rewrite E, (zmul_add p b Hp P3' Hd) by (assumption || exact G_fon). rewrite <- I1, <- I2. symmetry. exact (add_is x1 y1 x2 y2 x3 y3 C).
Qed.
Lemma sum_is o i l : is_mult o l -> is_mult o (i - l) -> sum_check o i l = true -> comb o i = comb o l + comb o (i - l) -> 0 <= comb o l -> 0 <= comb o (i - l) -> is_mult o i.
Proof. exact (sum_gen (comb o l) (comb o (i - l)) (comb o i) (tx o l) (ty o l) (tx o (i - l)) (ty o (i - l)) (tx o i) (ty o i)). Qed.
Lemma cases15 (Q : nat -> Prop) : Q 1%nat -> Q 2%nat -> Q 3%nat -> Q 4%nat -> Q 5%nat -> Q 6%nat -> Q 7%nat -> Q 8%nat -> Q 9%nat -> Q 10%nat -> Q 11%nat -> Q 12%nat -> Q 13%nat -> Q 14%nat -> Q 15%nat ->
  forall i, (1 <= i <= 15)%nat -> Q i.
Proof.
  intros Q1 Q2 Q3 Q4 Q5 Q6 Q7 Q8 Q9 Q10 Q11 Q12 Q13 Q14 Q15 i I.
  destruct i as [|[|[|[|[|[|[|[|[|[|[|[|[|[|[|[|i]]]]]]]]]]]]]]]]; [lia|assumption..|lia].
Qed.
Lemma table_0 : is_mult 0 1 -> is_mult 0 2 -> is_mult 0 4 -> is_mult 0 8 -> forall i, (1 <= i <= 15)%nat -> is_mult 0 i.
Proof.
  intros M1 M2 M4 M8.
  assert (S : sum_check 0 3 1 = true) by (vm_compute; reflexivity). assert (E : comb 0 3 = comb 0 1 + comb 0 (3 - 1)) by (vm_compute; reflexivity).
  assert (N1 : 0 <= comb 0 1) by (vm_compute; discriminate). assert (N2 : 0 <= comb 0 (3 - 1)) by (vm_compute; discriminate).
  pose proof (sum_is 0 3 1 M1 M2 S E N1 N2) as M3. clear S E N1 N2.
  assert (S : sum_check 0 5 1 = true) by (vm_compute; reflexivity). assert (E : comb 0 5 = comb 0 1 + comb 0 (5 - 1)) by (vm_compute; reflexivity).
  assert (N1 : 0 <= comb 0 1) by (vm_compute; discriminate). assert (N2 : 0 <= comb 0 (5 - 1)) by (vm_compute; discriminate).
  pose proof (sum_is 0 5 1 M1 M4 S E N1 N2) as M5. clear S E N1 N2.
  assert (S : sum_check 0 6 2 = true) by (vm_compute; reflexivity). assert (E : comb 0 6 = comb 0 2 + comb 0 (6 - 2)) by (vm_compute; reflexivity).
  assert (N1 : 0 <= comb 0 2) by (vm_compute; discriminate). assert (N2 : 0 <= comb 0 (6 - 2)) by (vm_compute; discriminate).
  pose proof (sum_is 0 6 2 M2 M4 S E N1 N2) as M6. clear S E N1 N2.
  assert (S : sum_check 0 7 1 = true) by (vm_compute; reflexivity). assert (E : comb 0 7 = comb 0 1 + comb 0 (7 - 1)) by (vm_compute; reflexivity).
  assert (N1 : 0 <= comb 0 1) by (vm_compute; discriminate). assert (N2 : 0 <= comb 0 (7 - 1)) by (vm_compute; discriminate).
  pose proof (sum_is 0 7 1 M1 M6 S E N1 N2) as M7. clear S E N1 N2.
  assert (S : sum_check 0 9 1 = true) by (vm_compute; reflexivity). assert (E : comb 0 9 = comb 0 1 + comb 0 (9 - 1)) by (vm_compute; reflexivity).
  assert (N1 : 0 <= comb 0 1) by (vm_compute; discriminate). assert (N2 : 0 <= comb 0 (9 - 1)) by (vm_compute; discriminate).
  pose proof (sum_is 0 9 1 M1 M8 S E N1 N2) as M9. clear S E N1 N2.
  assert (S : sum_check 0 10 2 = true) by (vm_compute; reflexivity). assert (E : comb 0 10 = comb 0 2 + comb 0 (10 - 2)) by (vm_compute; reflexivity).
  assert (N1 : 0 <= comb 0 2) by (vm_compute; discriminate). assert (N2 : 0 <= comb 0 (10 - 2)) by (vm_compute; discriminate).
  pose proof (sum_is 0 10 2 M2 M8 S E N1 N2) as M10. clear S E N1 N2.
  assert (S : sum_check 0 11 1 = true) by (vm_compute; reflexivity). assert (E : comb 0 11 = comb 0 1 + comb 0 (11 - 1)) by (vm_compute; reflexivity).
  assert (N1 : 0 <= comb 0 1) by (vm_compute; discriminate). assert (N2 : 0 <= comb 0 (11 - 1)) by (vm_compute; discriminate).
  pose proof (sum_is 0 11 1 M1 M10 S E N1 N2) as M11. clear S E N1 N2.
  assert (S : sum_check 0 12 4 = true) by (vm_compute; reflexivity). assert (E : comb 0 12 = comb 0 4 + comb 0 (12 - 4)) by (vm_compute; reflexivity).
  assert (N1 : 0 <= comb 0 4) by (vm_compute; discriminate). assert (N2 : 0 <= comb 0 (12 - 4)) by (vm_compute; discriminate).
  pose proof (sum_is 0 12 4 M4 M8 S E N1 N2) as M12. clear S E N1 N2.
  assert (S : sum_check 0 13 1 = true) by (vm_compute; reflexivity). assert (E : comb 0 13 = comb 0 1 + comb 0 (13 - 1)) by (vm_compute; reflexivity).
  assert (N1 : 0 <= comb 0 1) by (vm_compute; discriminate). assert (N2 : 0 <= comb 0 (13 - 1)) by (vm_compute; discriminate).
  pose proof (sum_is 0 13 1 M1 M12 S E N1 N2) as M13. clear S E N1 N2.
  assert (S : sum_check 0 14 2 = true) by (vm_compute; reflexivity). assert (E : comb 0 14 = comb 0 2 + comb 0 (14 - 2)) by (vm_compute; reflexivity).
  assert (N1 : 0 <= comb 0 2) by (vm_compute; discriminate). assert (N2 : 0 <= comb 0 (14 - 2)) by (vm_compute; discriminate).
  pose proof (sum_is 0 14 2 M2 M12 S E N1 N2) as M14. clear S E N1 N2.
  assert (S : sum_check 0 15 1 = true) by (vm_compute; reflexivity). assert (E : comb 0 15 = comb 0 1 + comb 0 (15 - 1)) by (vm_compute; reflexivity).
  assert (N1 : 0 <= comb 0 1) by (vm_compute; discriminate). assert (N2 : 0 <= comb 0 (15 - 1)) by (vm_compute; discriminate).
  pose proof (sum_is 0 15 1 M1 M14 S E N1 N2) as M15. clear S E N1 N2.
  exact (cases15 (is_mult 0) M1 M2 M3 M4 M5 M6 M7 M8 M9 M10 M11 M12 M13 M14 M15).
Qed.
Lemma table_1 : is_mult 1 1 -> is_mult 1 2 -> is_mult 1 4 -> is_mult 1 8 -> forall i, (1 <= i <= 15)%nat -> is_mult 1 i.
Proof.
  intros M1 M2 M4 M8.
  assert (S : sum_check 1 3 1 = true) by (vm_compute; reflexivity). assert (E : comb 1 3 = comb 1 1 + comb 1 (3 - 1)) by (vm_compute; reflexivity).
  assert (N1 : 0 <= comb 1 1) by (vm_compute; discriminate). assert (N2 : 0 <= comb 1 (3 - 1)) by (vm_compute; discriminate).
  pose proof (sum_is 1 3 1 M1 M2 S E N1 N2) as M3. clear S E N1 N2.
  assert (S : sum_check 1 5 1 = true) by (vm_compute; reflexivity). assert (E : comb 1 5 = comb 1 1 + comb 1 (5 - 1)) by (vm_compute; reflexivity).
  assert (N1 : 0 <= comb 1 1) by (vm_compute; discriminate). assert (N2 : 0 <= comb 1 (5 - 1)) by (vm_compute; discriminate).
  pose proof (sum_is 1 5 1 M1 M4 S E N1 N2) as M5. clear S E N1 N2.
  assert (S : sum_check 1 6 2 = true) by (vm_compute; reflexivity). assert (E : comb 1 6 = comb 1 2 + comb 1 (6 - 2)) by (vm_compute; reflexivity).
  assert (N1 : 0 <= comb 1 2) by (vm_compute; discriminate). assert (N2 : 0 <= comb 1 (6 - 2)) by (vm_compute; discriminate).
  pose proof (sum_is 1 6 2 M2 M4 S E N1 N2) as M6. clear S E N1 N2.
  assert (S : sum_check 1 7 1 = true) by (vm_compute; reflexivity). assert (E : comb 1 7 = comb 1 1 + comb 1 (7 - 1)) by (vm_compute; reflexivity).
  assert (N1 : 0 <= comb 1 1) by (vm_compute; discriminate). assert (N2 : 0 <= comb 1 (7 - 1)) by (vm_compute; discriminate).
  pose proof (sum_is 1 7 1 M1 M6 S E N1 N2) as M7. clear S E N1 N2.
  assert (S : sum_check 1 9 1 = true) by (vm_compute; reflexivity). assert (E : comb 1 9 = comb 1 1 + comb 1 (9 - 1)) by (vm_compute; reflexivity).
  assert (N1 : 0 <= comb 1 1) by (vm_compute; discriminate). assert (N2 : 0 <= comb 1 (9 - 1)) by (vm_compute; discriminate).
  pose proof (sum_is 1 9 1 M1 M8 S E N1 N2) as M9. clear S E N1 N2.
  assert (S : sum_check 1 10 2 = true) by (vm_compute; reflexivity). assert (E : comb 1 10 = comb 1 2 + comb 1 (10 - 2)) by (vm_compute; reflexivity).
  assert (N1 : 0 <= comb 1 2) by (vm_compute; discriminate). assert (N2 : 0 <= comb 1 (10 - 2)) by (vm_compute; discriminate).
  pose proof (sum_is 1 10 2 M2 M8 S E N1 N2) as M10. clear S E N1 N2.
  assert (S : sum_check 1 11 1 = true) by (vm_compute; reflexivity). assert (E : comb 1 11 = comb 1 1 + comb 1 (11 - 1)) by (vm_compute; reflexivity).
  assert (N1 : 0 <= comb 1 1) by (vm_compute; discriminate). assert (N2 : 0 <= comb 1 (11 - 1)) by (vm_compute; discriminate).
  pose proof (sum_is 1 11 1 M1 M10 S E N1 N2) as M11. clear S E N1 N2.
  assert (S : sum_check 1 12 4 = true) by (vm_compute; reflexivity). assert (E : comb 1 12 = comb 1 4 + comb 1 (12 - 4)) by (vm_compute; reflexivity).
  assert (N1 : 0 <= comb 1 4) by (vm_compute; discriminate). assert (N2 : 0 <= comb 1 (12 - 4)) by (vm_compute; discriminate).
  pose proof (sum_is 1 12 4 M4 M8 S E N1 N2) as M12. clear S E N1 N2.
  assert (S : sum_check 1 13 1 = true) by (vm_compute; reflexivity). assert (E : comb 1 13 = comb 1 1 + comb 1 (13 - 1)) by (vm_compute; reflexivity).
  assert (N1 : 0 <= comb 1 1) by (vm_compute; discriminate). assert (N2 : 0 <= comb 1 (13 - 1)) by (vm_compute; discriminate).
  pose proof (sum_is 1 13 1 M1 M12 S E N1 N2) as M13. clear S E N1 N2.
  assert (S : sum_check 1 14 2 = true) by (vm_compute; reflexivity). assert (E : comb 1 14 = comb 1 2 + comb 1 (14 - 2)) by (vm_compute; reflexivity).
  assert (N1 : 0 <= comb 1 2) by (vm_compute; discriminate). assert (N2 : 0 <= comb 1 (14 - 2)) by (vm_compute; discriminate).
  pose proof (sum_is 1 14 2 M2 M12 S E N1 N2) as M14. clear S E N1 N2.
  assert (S : sum_check 1 15 1 = true) by (vm_compute; reflexivity). assert (E : comb 1 15 = comb 1 1 + comb 1 (15 - 1)) by (vm_compute; reflexivity).
  assert (N1 : 0 <= comb 1 1) by (vm_compute; discriminate). assert (N2 : 0 <= comb 1 (15 - 1)) by (vm_compute; discriminate).
  pose proof (sum_is 1 15 1 M1 M14 S E N1 N2) as M15. clear S E N1 N2.
  exact (cases15 (is_mult 1) M1 M2 M3 M4 M5 M6 M7 M8 M9 M10 M11 M12 M13 M14 M15).
Qed.
Lemma base_is : is_mult 0 1.
Proof. unfold is_mult. change (comb 0 1) with 1. rewrite zmul_1. destruct base_checked as [-> ->]. reflexivity. Qed.
Lemma table_ok o i : (o <= 1)%nat -> (1 <= i <= 15)%nat -> is_mult o i.
Proof.
  destruct chain_checked as ((C1 & C2 & C3 & C4) & C5 & C6 & C7).
  pose proof base_is as B01.
  assert (E : comb 1 1 = Zpos two32 * comb 0 1) by (vm_compute; reflexivity). assert (N : 0 <= comb 0 1) by (vm_compute; discriminate). assert (T : tx_check 0 1 = true) by (vm_compute; reflexivity).
  pose proof (chain_is 0 1 1 1 B01 C1 E N T) as B11. clear C1 E N T.
  assert (E : comb 0 2 = Zpos two32 * comb 1 1) by (vm_compute; reflexivity). assert (N : 0 <= comb 1 1) by (vm_compute; discriminate). assert (T : tx_check 1 1 = true) by (vm_compute; reflexivity).
  pose proof (chain_is 1 1 0 2 B11 C2 E N T) as B02. clear C2 E N T.
  assert (E : comb 1 2 = Zpos two32 * comb 0 2) by (vm_compute; reflexivity). assert (N : 0 <= comb 0 2) by (vm_compute; discriminate). assert (T : tx_check 0 2 = true) by (vm_compute; reflexivity).
  pose proof (chain_is 0 2 1 2 B02 C3 E N T) as B12. clear C3 E N T.
  assert (E : comb 0 4 = Zpos two32 * comb 1 2) by (vm_compute; reflexivity). assert (N : 0 <= comb 1 2) by (vm_compute; discriminate). assert (T : tx_check 1 2 = true) by (vm_compute; reflexivity).
  pose proof (chain_is 1 2 0 4 B12 C4 E N T) as B04. clear C4 E N T.
  assert (E : comb 1 4 = Zpos two32 * comb 0 4) by (vm_compute; reflexivity). assert (N : 0 <= comb 0 4) by (vm_compute; discriminate). assert (T : tx_check 0 4 = true) by (vm_compute; reflexivity).
  pose proof (chain_is 0 4 1 4 B04 C5 E N T) as B14. clear C5 E N T.
  assert (E : comb 0 8 = Zpos two32 * comb 1 4) by (vm_compute; reflexivity). assert (N : 0 <= comb 1 4) by (vm_compute; discriminate). assert (T : tx_check 1 4 = true) by (vm_compute; reflexivity).
  pose proof (chain_is 1 4 0 8 B14 C6 E N T) as B08. clear C6 E N T.
  assert (E : comb 1 8 = Zpos two32 * comb 0 8) by (vm_compute; reflexivity). assert (N : 0 <= comb 0 8) by (vm_compute; discriminate). assert (T : tx_check 0 8 = true) by (vm_compute; reflexivity).
  pose proof (chain_is 0 8 1 8 B08 C7 E N T) as B18. clear C7 E N T.
  intros O. assert (E : o = 0%nat \/ o = 1%nat) by (clear - O; lia). destruct E as [-> | ->].
  - exact (table_0 B01 B02 B04 B08 i).
  - exact (table_1 B11 B12 B14 B18 i).
Qed.
End TABLE.
