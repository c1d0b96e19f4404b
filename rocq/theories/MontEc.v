(** Multiples of a point, evaluated with the arithmetic of Mont.v: a way to see that n * G is infinity. *)
From Coq Require Import Uint63 Znumtheory Field.
From Verif Require Import Base NumTheory EcGroup Fp EllModel EllSpec EllProofs Mont MontPow.
Local Open Scope Z_scope.
Notation "x <-- e ;; k" := (obind e (fun x => k)) (at level 61, e at next level, right associativity).

Section Compute.
Variable M : mont.
Notation mul := (mmul M). Notation add := (madd M). Notation sub := (msub M).
Definition tw (a : list int) : option (list int) := add a a.
Definition jac : Type := (list int * list int * list int)%type.
Definition jdbl (one : list int) (J : jac) : option jac :=
  let '(x, y, z) := J in
  delta <-- mul z z ;; gamma <-- mul y y ;; beta <-- mul x gamma ;;
  a1 <-- sub x delta ;; a2 <-- add x delta ;; a3 <-- mul a1 a2 ;; a4 <-- tw a3 ;; al <-- add a4 a3 ;;
  b2 <-- tw beta ;; b4 <-- tw b2 ;; b8 <-- tw b4 ;;
  al2 <-- mul al al ;; x0 <-- sub al2 b8 ;; x3 <-- mul x0 one ;;
  yz <-- mul y z ;; z3 <-- tw yz ;;
  g2 <-- mul gamma gamma ;; g4 <-- tw g2 ;; g8 <-- tw g4 ;; g16 <-- tw g8 ;;
  c1 <-- sub b4 x3 ;; c2 <-- mul al c1 ;; y0 <-- sub c2 g16 ;; y3 <-- mul y0 one ;;
  Some (x3, y3, z3).
(** J + (gx, gy), where the two points differ *)
Definition jadd (one gx gy : list int) (J : jac) : option jac :=
  let '(x, y, z) := J in
  zz <-- mul z z ;; u2 <-- mul gx zz ;; h <-- sub u2 x ;;
  zzz <-- mul z zz ;; s2 <-- mul gy zzz ;; r <-- sub s2 y ;; rr <-- tw r ;;
  h2 <-- tw h ;; i <-- mul h2 h2 ;; j <-- mul h i ;; v <-- mul x i ;;
  v2 <-- tw v ;; r2 <-- mul rr rr ;; t <-- sub r2 j ;; x0 <-- sub t v2 ;; x3 <-- mul x0 one ;;
  w <-- sub v x3 ;; t1 <-- mul rr w ;; t2 <-- mul y j ;; t3 <-- tw t2 ;; y0 <-- sub t1 t3 ;; y3 <-- mul y0 one ;;
  z3 <-- mul z h2 ;;
  Some (x3, y3, z3).
Fixpoint jmul (gx gy one : list int) (e : positive) : option jac :=
  match e with
  | xH => Some (gx, gy, one)
  | xO e => J <-- jmul gx gy one e ;; jdbl one J
  | xI e => J <-- jmul gx gy one e ;; K <-- jdbl one J ;; jadd one gx gy K
  end.
(** (n - 1) G = - G *)
Definition order_check (gx gy n : Z) : bool :=
  match n - 1 with
  | Zpos e =>
      match (lx <-- to_mont M gx ;; ly <-- to_mont M gy ;; one <-- to_mont M 1 ;;
             J <-- jmul lx ly one e ;;
             (let '(x, y, z) := J in
              zz <-- mul z z ;; zzz <-- mul z zz ;; xx <-- mul lx zz ;; yy <-- mul ly zzz ;; dx <-- sub x xx ;; dy <-- add y yy ;;
              vx <-- of_mont M dx ;; vy <-- of_mont M dy ;; vz <-- of_mont M z ;; Some (vx, vy, vz))) with
      | Some (vx, vy, vz) => (vx =? 0) && (vy =? 0) && negb (vz =? 0)
      | None => false
      end
  | _ => false
  end.
End Compute.

Section Order.
Variables (M : mont) (b : Z).
Hypothesis OK : mont_ok M = true.
Notation p := (mo_n M).
Hypothesis Hp : prime p.
Hypothesis P3 : 3 < p.
Hypothesis Hb : ~ cong p b 0.
Hypothesis Hd : ~ cong p (b * b) 4.
Notation F := (Fp p). Notation oz := (of_Z p Hp).
Add Field Ff2 : (Fp_field p Hp).
Declare Scope fq_scope. Delimit Scope fq_scope with fq.
Notation "0" := (f0 p Hp) : fq_scope. Notation "1" := (f1 p Hp) : fq_scope.
Notation "x + y" := (fadd p Hp x y) : fq_scope. Notation "x * y" := (fmul p Hp x y) : fq_scope.
Notation "x - y" := (fsub p Hp x y) : fq_scope. Notation "- x" := (fopp p Hp x) : fq_scope. Notation "x / y" := (fdiv p Hp x y) : fq_scope.
Notation Peq := (Fp_eq_dec p).
Notation fon := (@on F (fadd p Hp) (fmul p Hp) (fa p Hp) (fb p b Hp)).
Notation fpadd := (@padd F (f1 p Hp) (fadd p Hp) (fmul p Hp) (fsub p Hp) (fopp p Hp) (fdiv p Hp) Peq (fa p Hp)).
Notation faff := (aff (f0 p Hp) (fmul p Hp) (fdiv p Hp) Peq).
Definition fden (l : list int) (u : F) : Prop := exists z, den M l z /\ oz z = u.
Lemma fden_mul a c r x y : mmul M a c = Some r -> fden a x -> fden c y -> fden r (x * y)%fq.
Proof. intros E (u & A & <-) (v & C & <-). exists (u * v). split; [eapply den_mul; eassumption|apply of_mul]. Qed.
Lemma fden_add a c r x y : madd M a c = Some r -> fden a x -> fden c y -> fden r (x + y)%fq.
Proof. intros E (u & A & <-) (v & C & <-). exists (u + v). split; [eapply den_add; eassumption|apply of_add]. Qed.
Lemma fden_sub a c r x y : msub M a c = Some r -> fden a x -> fden c y -> fden r (x - y)%fq.
Proof. intros E (u & A & <-) (v & C & <-). exists (u - v). split; [eapply den_sub; eassumption|apply of_sub]. Qed.
Lemma fden_tw a r x : tw M a = Some r -> fden a x -> fden r (x + x)%fq.
Proof. intros E A. exact (fden_add a a r x x E A A). Qed.
Lemma fden_eq l u v : u = v -> fden l u -> fden l v.
Proof. intros ->. auto. Qed.
Definition jden (J : jac) (x y z : F) : Prop := let '(lx, ly, lz) := J in fden lx x /\ fden ly y /\ fden lz z.

Ltac step := match goal with
  | H : obind ?e _ = Some _ |- _ => let E := fresh "E" in destruct e eqn:E; [cbn [obind] in H|discriminate H]
  end.
Ltac carry := match goal with
  | E : mmul M ?a ?a = Some ?r, A : fden ?a _ |- _ => pose proof (fden_mul a a r _ _ E A A); clear E
  | E : mmul M ?a ?c = Some ?r, A : fden ?a _, C : fden ?c _ |- _ => pose proof (fden_mul a c r _ _ E A C); clear E
  | E : madd M ?a ?c = Some ?r, A : fden ?a _, C : fden ?c _ |- _ => pose proof (fden_add a c r _ _ E A C); clear E
  | E : msub M ?a ?c = Some ?r, A : fden ?a _, C : fden ?c _ |- _ => pose proof (fden_sub a c r _ _ E A C); clear E
  | E : tw M ?a = Some ?r, A : fden ?a _ |- _ => pose proof (fden_tw a r _ E A); clear E
  end.
Notation dx := (dbl_x (f1 p Hp) (fadd p Hp) (fmul p Hp) (fsub p Hp)).
Notation dy := (dbl_y (f1 p Hp) (fadd p Hp) (fmul p Hp) (fsub p Hp)).
Notation dz := (dbl_z (fadd p Hp) (fmul p Hp) (fsub p Hp)).
Lemma jdbl_ok one J K x y z : fden one 1%fq -> jden J x y z -> jdbl M one J = Some K -> jden K (dx x y z) (dy x y z) (dz x y z).
Proof.
  destruct J as [[lx ly] lz]. intros D1 (X & Y & Z) E. unfold jdbl in E. repeat step. injection E as <-. repeat carry.
  split; [|split]; (eapply fden_eq; [|eassumption]); unfold dbl_y, dbl_x, dbl_z; ring.
Qed.
Notation ax := (ad_x (f1 p Hp) (fadd p Hp) (fmul p Hp) (fsub p Hp)).
Notation ay := (ad_y (f1 p Hp) (fadd p Hp) (fmul p Hp) (fsub p Hp)).
Notation az := (ad_z (fadd p Hp) (fmul p Hp) (fsub p Hp)).
Lemma jadd_ok one gx gy u v J K x y z : fden one 1%fq -> fden gx u -> fden gy v -> jden J x y z -> jadd M one gx gy J = Some K ->
  jden K (ax x y z u v 1%fq) (ay x y z u v 1%fq) (az x z u 1%fq).
Proof.
  destruct J as [[lx ly] lz]. intros D1 U V (X & Y & Z) E. unfold jadd in E. repeat step. injection E as <-. repeat carry.
  split; [|split]; (eapply fden_eq; [|eassumption]); unfold ad_y, ad_x, ad_z, ad_r, ad_h; ring.
Qed.

Variables gx gy : Z.
Hypothesis ON : on_curve p b (decode (gx, gy)).
Hypothesis NZ : decode (gx, gy) <> None.
Let P := phi p Hp (gx, gy).
Lemma P_val : P = Some (oz gx, oz gy).
Proof. unfold P, phi. destruct (decode (gx, gy)) as [[x y]|] eqn:D; [|contradiction]. unfold decode in D. destruct (_ && _)%bool; [discriminate|]. injection D as -> ->. reflexivity. Qed.
Lemma P_on : fon P. Proof. apply (on_phi p b Hp P3). exact ON. Qed.
Lemma one_nz : 1%fq <> 0%fq.
Proof. unfold f1, f0. rewrite of_Z_eq, Z.mod_0_l, Z.mod_1_l by lia. discriminate. Qed.
Lemma P_aff : faff (oz gx) (oz gy) 1%fq = P.
Proof. rewrite P_val. unfold aff. destruct (Peq 1%fq 0%fq) as [E|_]; [destruct (one_nz E)|]. do 2 f_equal; field; exact one_nz. Qed.
Lemma mul_zero_l x y : x = 0%fq -> (x * y = 0)%fq. Proof. intros ->. ring. Qed.
Lemma mul_zero_r x y : y = 0%fq -> (x * y = 0)%fq. Proof. intros ->. ring. Qed.

Lemma jmul_ok lx ly one : fden lx (oz gx) -> fden ly (oz gy) -> fden one 1%fq ->
  forall e J, jmul M lx ly one e = Some J -> exists x y z, jden J x y z /\ (z <> 0%fq -> faff x y z = zmul p Hp (Zpos e) P).
Proof.
  intros DX DY D1.
  assert (DB : forall e J K, jdbl M one J = Some K -> (exists x y z, jden J x y z /\ (z <> 0%fq -> faff x y z = zmul p Hp (Zpos e) P)) ->
    exists x y z, jden K x y z /\ (z <> 0%fq -> faff x y z = zmul p Hp (Zpos e~0) P)).
  { intros e J K E (x & y & z & D & H). exists (dx x y z), (dy x y z), (dz x y z). split; [exact (jdbl_ok one J K x y z D1 D E)|].
    intro N. assert (z <> 0%fq) as ZN.
    { intro Z0. apply N. unfold dbl_z. rewrite Z0. ring. }
    pose proof (dbl_ok (f0 p Hp) (f1 p Hp) (fadd p Hp) (fmul p Hp) (fsub p Hp) (fopp p Hp) (fdiv p Hp) (finv p Hp) (Fp_field p Hp) Peq (EllProofs.two_nz p Hp P3) x y z) as DD.
    etransitivity; [exact DD|]. rewrite (H ZN). rewrite Pos2Z.inj_xO. replace (2 * Zpos e) with (Zpos e + Zpos e) by lia.
    symmetry. exact (zmul_add p b Hp P3 Hd (Zpos e) (Zpos e) P ltac:(lia) ltac:(lia) P_on). }
  induction e as [e IH|e IH|]; intros J E; cbn [jmul] in E.
  - destruct (jmul M lx ly one e) as [J1|] eqn:E1; [|discriminate]. cbn [obind] in E.
    destruct (jdbl M one J1) as [K|] eqn:E2; [|discriminate]. cbn [obind] in E.
    destruct (DB e J1 K E2 (IH J1 eq_refl)) as (x & y & z & D & H).
    exists (ax x y z (oz gx) (oz gy) 1%fq), (ay x y z (oz gx) (oz gy) 1%fq), (az x z (oz gx) 1%fq).
    split; [exact (jadd_ok one lx ly _ _ K J x y z D1 DX DY D E)|]. intro N.
    assert (z <> 0%fq) as ZN.
    { intro Z0. apply N. unfold ad_z. apply mul_zero_l. rewrite Z0. ring. }
    assert (ad_h (fmul p Hp) (fsub p Hp) x z (oz gx) 1%fq <> 0%fq) as HN.
    { intro Z0. apply N. unfold ad_z. apply mul_zero_r. exact Z0. }
    specialize (H ZN).
    pose proof (ad_ok (f0 p Hp) (f1 p Hp) (fadd p Hp) (fmul p Hp) (fsub p Hp) (fopp p Hp) (fdiv p Hp) (finv p Hp) (Fp_field p Hp) Peq (fb p b Hp)
      (EllProofs.two_nz p Hp P3) x y z (oz gx) (oz gy) 1%fq ZN one_nz) as AD.
    etransitivity; [apply AD|].
    + rewrite H. exact (on_zmul p b Hp P3 (Zpos e~0) P P_on).
    + rewrite P_aff. exact P_on.
    + intros [H0 _]. exact (HN H0).
    + rewrite H, P_aff. rewrite (Pos2Z.inj_xI e). rewrite (Pos2Z.inj_xO e).
      etransitivity; [|symmetry; exact (zmul_add p b Hp P3 Hd (2 * Zpos e) 1 P ltac:(lia) ltac:(lia) P_on)].
      rewrite zmul_1. reflexivity.
  - destruct (jmul M lx ly one e) as [J1|] eqn:E1; [|discriminate]. cbn [obind] in E. exact (DB e J1 J E (IH J1 eq_refl)).
  - injection E as <-. exists (oz gx), (oz gy), 1%fq. split; [split; [|split]; assumption|]. intros _. rewrite zmul_1. exact P_aff.
Qed.
Lemma fden_to z l : to_mont M z = Some l -> fden l (oz z).
Proof. intro E. exists z. split; [apply (to_mont_ok M OK); exact E|reflexivity]. Qed.
Lemma fden_of l u v : fden l u -> of_mont M l = Some v -> (v =? 0) = true <-> u = 0%fq.
Proof.
  intros (z & D & <-) E. rewrite (of_mont_ok M OK l z v D E). rewrite Z.eqb_eq. unfold f0. rewrite of_Z_eq, Z.mod_0_l by lia. tauto.
Qed.
Lemma sub_zero x y : (x - y = 0)%fq -> x = y. Proof. intro H. replace x with ((x - y) + y)%fq by ring. rewrite H. ring. Qed.
Lemma add_zero x y : (x + y = 0)%fq -> x = (- y)%fq. Proof. intro H. replace x with ((x + y) - y)%fq by ring. rewrite H. ring. Qed.
Theorem order_ok n : order_check M gx gy n = true -> zmul p Hp n P = None.
Proof.
  unfold order_check. destruct (n - 1) as [|e|e] eqn:En; try discriminate.
  destruct (to_mont M gx) as [lx|] eqn:LX; [|discriminate]. cbn [obind]. destruct (to_mont M gy) as [ly|] eqn:LY; [|discriminate]. cbn [obind].
  destruct (to_mont M 1) as [one|] eqn:L1; [|discriminate]. cbn [obind].
  destruct (jmul M lx ly one e) as [[[x y] z]|] eqn:EJ; [|discriminate]. cbn [obind].
  apply fden_to in LX, LY, L1.
  destruct (jmul_ok lx ly one LX LY L1 e _ EJ) as (fx & fy & fz & (DX & DY & DZ) & H).
  destruct (mmul M z z) as [zz|] eqn:E1; [|discriminate]. cbn [obind]. destruct (mmul M z zz) as [zzz|] eqn:E2; [|discriminate]. cbn [obind].
  destruct (mmul M lx zz) as [xx|] eqn:E3; [|discriminate]. cbn [obind]. destruct (mmul M ly zzz) as [yy|] eqn:E4; [|discriminate]. cbn [obind].
  destruct (msub M x xx) as [ddx|] eqn:E5; [|discriminate]. cbn [obind]. destruct (madd M y yy) as [ddy|] eqn:E6; [|discriminate]. cbn [obind].
  repeat carry.
  destruct (of_mont M ddx) as [vx|] eqn:V1; [|discriminate]. cbn [obind]. destruct (of_mont M ddy) as [vy|] eqn:V2; [|discriminate]. cbn [obind].
  destruct (of_mont M z) as [vz|] eqn:V3; [|discriminate]. cbn [obind].
  intro C. apply Bool.andb_true_iff in C. destruct C as [C C3]. apply Bool.andb_true_iff in C. destruct C as [C1 C2].
  apply (fden_of ddx _ vx ltac:(eassumption) V1) in C1. apply (fden_of ddy _ vy ltac:(eassumption) V2) in C2.
  assert (fz <> 0%fq) as ZN.
  { intro Z0. apply (fden_of z fz vz DZ V3) in Z0. rewrite Z0 in C3. discriminate. }
  apply sub_zero in C1. apply add_zero in C2.
  assert (faff fx fy fz = @neg F (fopp p Hp) P) as EQ.
  { rewrite P_val. unfold aff. destruct (Peq fz 0%fq); [contradiction|]. rewrite C1, C2. cbn [neg]. do 2 f_equal; field; exact ZN. }
  replace n with (1 + Zpos e) by lia.
  etransitivity; [exact (zmul_add p b Hp P3 Hd 1 (Zpos e) P ltac:(lia) ltac:(lia) P_on)|].
  rewrite zmul_1, <- (H ZN), EQ. exact (fpadd_neg p b Hp P3 P P_on).
Qed.
End Order.

(** What the check says of the model. *)
Theorem order_checked M c : mont_ok M = true -> mo_n M = cp_p c -> sound_curve (cp_p c) (cp_b c) ->
  on_curve (cp_p c) (cp_b c) (decode (cp_gx c, cp_gy c)) -> decode (cp_gx c, cp_gy c) <> None -> 0 <= cp_n c ->
  order_check M (cp_gx c) (cp_gy c) (cp_n c) = true -> curve_scalar_base c (cp_n c) = Some (0, 0).
Proof.
  intros OK EP (Hp & P3 & Hb & Hd) ON NZ N0 C. rewrite <- EP in *.
  pose proof (order_ok M (cp_b c) OK Hp P3 Hd (cp_gx c) (cp_gy c) ON NZ (cp_n c) C) as Z0.
  unfold curve_scalar_base. rewrite (curve_scalar_ok (mo_n M) (cp_b c) Hp P3 Hd c (eq_sym EP) _ _ _ ON N0). rewrite Z0. reflexivity.
Qed.
