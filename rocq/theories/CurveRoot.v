(** A way to see that x^3 - 3x + b has no root modulo p: with A = x^p modulo the cubic, A - x is invertible modulo it, while a
    root would be a common root of both (Fermat).  Evaluated with the arithmetic of Mont.v; nothing here models the code. *)
From Coq Require Import Uint63 Znumtheory Field.
From Verif Require Import Base NumTheory EcGroup Fp EllModel EllSpec EllProofs Mont MontPow MontEc.
Local Open Scope Z_scope.

Section Compute.
Variable M : mont.
Variables one bl : list int.
Notation mul := (mmul M). Notation add := (madd M). Notation sub := (msub M).
Definition tri : Type := (list int * list int * list int)%type.
(** c0 + c1 x + c2 x^2 + c3 x^3 + c4 x^4 modulo x^3 - 3x + b *)
Definition fold3 (c0 c1 c2 c3 c4 : list int) : option tri :=
  b3 <-- mul bl c3 ;; d0 <-- sub c0 b3 ;;
  t2 <-- add c3 c3 ;; t3 <-- add t2 c3 ;; e1 <-- add c1 t3 ;; b4 <-- mul bl c4 ;; d1 <-- sub e1 b4 ;;
  u2 <-- add c4 c4 ;; u3 <-- add u2 c4 ;; d2 <-- add c2 u3 ;;
  r0 <-- mul d0 one ;; r1 <-- mul d1 one ;; r2 <-- mul d2 one ;;
  Some (r0, r1, r2).
Definition tmul (A B : tri) : option tri :=
  let '(a0, a1, a2) := A in let '(b0, b1, b2) := B in
  m00 <-- mul a0 b0 ;; m01 <-- mul a0 b1 ;; m10 <-- mul a1 b0 ;; m02 <-- mul a0 b2 ;; m11 <-- mul a1 b1 ;; m20 <-- mul a2 b0 ;;
  m12 <-- mul a1 b2 ;; m21 <-- mul a2 b1 ;; m22 <-- mul a2 b2 ;;
  c1 <-- add m01 m10 ;; c2' <-- add m02 m11 ;; c2 <-- add c2' m20 ;; c3 <-- add m12 m21 ;;
  fold3 m00 c1 c2 c3 m22.
Definition tsqr (A : tri) : option tri :=
  let '(a0, a1, a2) := A in
  m00 <-- mul a0 a0 ;; m01 <-- mul a0 a1 ;; m02 <-- mul a0 a2 ;; m11 <-- mul a1 a1 ;; m12 <-- mul a1 a2 ;; m22 <-- mul a2 a2 ;;
  c1 <-- add m01 m01 ;; c2' <-- add m02 m02 ;; c2 <-- add c2' m11 ;; c3 <-- add m12 m12 ;;
  fold3 m00 c1 c2 c3 m22.
Definition tshift (zero : list int) (A : tri) : option tri :=
  let '(a0, a1, a2) := A in
  t <-- mul bl a2 ;; d <-- sub zero t ;; d0 <-- mul d one ;; t2 <-- add a2 a2 ;; t3 <-- add t2 a2 ;; e <-- add a0 t3 ;; d1 <-- mul e one ;;
  Some (d0, d1, a1).
Fixpoint tpow (zero : list int) (e : positive) : option tri :=
  match e with
  | xH => Some (zero, one, zero)
  | xO e => A <-- tpow zero e ;; tsqr A
  | xI e => A <-- tpow zero e ;; B <-- tsqr A ;; tshift zero B
  end.
End Compute.
Definition root_check (M : mont) (b u0 u1 u2 : Z) : bool :=
  match mo_n M with
  | Zpos e =>
      match (zero <-- to_mont M 0 ;; one <-- to_mont M 1 ;; bl <-- to_mont M b ;; v0 <-- to_mont M u0 ;; v1 <-- to_mont M u1 ;; v2 <-- to_mont M u2 ;;
             A <-- tpow M one bl zero e ;;
             (let '(a0, a1, a2) := A in
              a1' <-- msub M a1 one ;; R <-- tmul M one bl (a0, a1', a2) (v0, v1, v2) ;;
              (let '(r0, r1, r2) := R in r0' <-- msub M r0 one ;; w0 <-- of_mont M r0' ;; w1 <-- of_mont M r1 ;; w2 <-- of_mont M r2 ;; Some (w0, w1, w2)))) with
      | Some (w0, w1, w2) => (w0 =? 0) && (w1 =? 0) && (w2 =? 0)
      | None => false
      end
  | _ => false
  end.

Section Root.
Variables (M : mont) (b : Z).
Hypothesis OK : mont_ok M = true.
Notation p := (mo_n M).
Hypothesis Hp : prime p.
Hypothesis P3 : 3 < p.
Notation F := (Fp p). Notation oz := (of_Z p Hp).
Add Field Ffr : (Fp_field p Hp).
Declare Scope fr_scope. Delimit Scope fr_scope with fr.
Notation "0" := (f0 p Hp) : fr_scope. Notation "1" := (f1 p Hp) : fr_scope.
Notation "x + y" := (fadd p Hp x y) : fr_scope. Notation "x * y" := (fmul p Hp x y) : fr_scope.
Notation "x - y" := (fsub p Hp x y) : fr_scope. Notation "- x" := (fopp p Hp x) : fr_scope.
Notation fden := (fden M Hp).
Variable r : F.
Hypothesis ROOT : (r * r * r + fa p Hp * r + fb p b Hp)%fr = 0%fr.
Lemma cube : (r * r * r)%fr = ((1 + 1 + 1) * r - fb p b Hp)%fr.
Proof.
  assert (H : (r * r * r)%fr = ((r * r * r + fa p Hp * r + fb p b Hp) - fa p Hp * r - fb p b Hp)%fr) by ring.
  rewrite H, ROOT. unfold fa. ring.
Qed.
Definition tden (A : tri) (v : F) : Prop := let '(l0, l1, l2) := A in exists x0 x1 x2, fden l0 x0 /\ fden l1 x1 /\ fden l2 x2 /\ v = (x0 + x1 * r + x2 * (r * r))%fr.
Ltac step := match goal with
  | H : obind ?e _ = Some _ |- _ => let E := fresh "E" in destruct e eqn:E; [cbn [obind] in H|discriminate H]
  end.
Ltac carry := match goal with
  | E : mmul M ?a ?a = Some ?r, A : fden ?a _ |- _ => pose proof (fden_mul M OK Hp a a r _ _ E A A); clear E
  | E : mmul M ?a ?c = Some ?r, A : fden ?a _, C : fden ?c _ |- _ => pose proof (fden_mul M OK Hp a c r _ _ E A C); clear E
  | E : madd M ?a ?a = Some ?r, A : fden ?a _ |- _ => pose proof (fden_add M OK Hp a a r _ _ E A A); clear E
  | E : madd M ?a ?c = Some ?r, A : fden ?a _, C : fden ?c _ |- _ => pose proof (fden_add M OK Hp a c r _ _ E A C); clear E
  | E : msub M ?a ?c = Some ?r, A : fden ?a _, C : fden ?c _ |- _ => pose proof (fden_sub M OK Hp a c r _ _ E A C); clear E
  end.
Variables one bl zero : list int.
Hypothesis D1 : fden one 1%fr.
Hypothesis D0 : fden zero 0%fr.
Hypothesis Db : fden bl (fb p b Hp).
Lemma fold3_ok c0 c1 c2 c3 c4 x0 x1 x2 x3 x4 R : fden c0 x0 -> fden c1 x1 -> fden c2 x2 -> fden c3 x3 -> fden c4 x4 -> fold3 M one bl c0 c1 c2 c3 c4 = Some R ->
  tden R (x0 + x1 * r + x2 * (r * r) + x3 * (r * r * r) + x4 * (r * (r * r * r)))%fr.
Proof.
  intros H0 H1 H2 H3 H4 E. unfold fold3 in E. repeat step. injection E as <-. repeat carry. do 3 eexists. split; [eassumption|]. split; [eassumption|]. split; [eassumption|].
  rewrite cube. ring.
Qed.
Lemma tden_eq A x y : y = x -> tden A x -> tden A y.
Proof. intros ->. auto. Qed.
Lemma tmul_ok A B R x y : tden A x -> tden B y -> tmul M one bl A B = Some R -> tden R (x * y)%fr.
Proof.
  destruct A as [[a0 a1] a2], B as [[b0 b1] b2]. intros (x0 & x1 & x2 & A0 & A1 & A2 & ->) (y0 & y1 & y2 & B0 & B1 & B2 & ->) E. unfold tmul in E. repeat step. repeat carry.
  eapply tden_eq; [|refine (fold3_ok _ _ _ _ _ _ _ _ _ _ R _ _ _ _ _ E); eassumption]. ring.
Qed.
Lemma tsqr_ok A R x : tden A x -> tsqr M one bl A = Some R -> tden R (x * x)%fr.
Proof.
  destruct A as [[a0 a1] a2]. intros (x0 & x1 & x2 & A0 & A1 & A2 & ->) E. unfold tsqr in E. repeat step. repeat carry.
  eapply tden_eq; [|refine (fold3_ok _ _ _ _ _ _ _ _ _ _ R _ _ _ _ _ E); eassumption]. ring.
Qed.
Lemma tshift_ok A R x : tden A x -> tshift M one bl zero A = Some R -> tden R (x * r)%fr.
Proof.
  destruct A as [[a0 a1] a2]. intros (x0 & x1 & x2 & A0 & A1 & A2 & ->) E. unfold tshift in E. repeat step. injection E as <-. repeat carry.
  do 3 eexists. split; [eassumption|]. split; [eassumption|]. split; [eassumption|].
  transitivity (x0 * r + x1 * (r * r) + x2 * (r * r * r))%fr; [ring|]. rewrite cube. ring.
Qed.
Lemma tpow_ok : forall e A, tpow M one bl zero e = Some A -> tden A (oz (to_Z p r ^ Zpos e)).
Proof.
  induction e as [e IH|e IH|]; intros A E; cbn [tpow] in E.
  - destruct (tpow M one bl zero e) as [B|] eqn:E1; [|discriminate]. cbn [obind] in E. destruct (tsqr M one bl B) as [C|] eqn:E2; [|discriminate]. cbn [obind] in E.
    eapply tden_eq; [|eapply tshift_ok; [eapply tsqr_ok; [apply (IH B eq_refl)|exact E2]|exact E]].
    rewrite Pos2Z.inj_xI. replace (2 * Zpos e + 1) with (Zpos e + Zpos e + 1) by lia. rewrite !Z.pow_add_r, Z.pow_1_r, !of_mul, of_to by lia. reflexivity.
  - destruct (tpow M one bl zero e) as [B|] eqn:E1; [|discriminate]. cbn [obind] in E.
    eapply tden_eq; [|eapply tsqr_ok; [apply (IH B eq_refl)|exact E]].
    rewrite Pos2Z.inj_xO. replace (2 * Zpos e) with (Zpos e + Zpos e) by lia. rewrite !Z.pow_add_r, of_mul by lia. reflexivity.
  - injection E as <-. exists 0%fr, 1%fr, 0%fr. repeat (split; [assumption|]). rewrite Z.pow_1_r, of_to. ring.
Qed.
Lemma finish x0 x1 x2 w y0 y1 y2 : r = (x0 + x1 * r + x2 * (r * r))%fr -> ((x0 + (x1 - 1) * r + x2 * (r * r)) * w = y0 + y1 * r + y2 * (r * r))%fr ->
  (y0 - 1 = 0)%fr -> y1 = 0%fr -> y2 = 0%fr -> False.
Proof.
  intros R E Y0 -> ->. apply (one_nz M OK Hp P3). replace 1%fr with (y0 + 0 * r + 0 * (r * r) - (y0 - 1))%fr by ring. rewrite Y0, <- E.
  replace (x0 + (x1 - 1) * r + x2 * (r * r))%fr with ((x0 + x1 * r + x2 * (r * r)) - r)%fr by ring. rewrite <- R. ring.
Qed.
End Root.
Lemma fermat_all p z : prime p -> z ^ p mod p = z mod p.
Proof.
  intros Hp. assert (P2 := prime_ge_2 p Hp). replace p with (1 + (p - 1)) at 1 by lia. rewrite Z.pow_add_r, Z.pow_1_r by lia.
  destruct (Z.eq_dec (z mod p) 0) as [E|E].
  - rewrite Z.mul_mod, E, Z.mul_0_l by lia. apply Z.mod_0_l. lia.
  - rewrite Z.mul_mod, (fermat p z Hp), Z.mul_1_r, Z.mod_mod by (lia || (intros D; apply E, Z.mod_divide; [lia|exact D])). reflexivity.
Qed.
Theorem no_root M b u0 u1 u2 (Hp : prime (mo_n M)) : mont_ok M = true -> 3 < mo_n M -> root_check M b u0 u1 u2 = true ->
  forall r : Fp (mo_n M), fadd (mo_n M) Hp (fadd (mo_n M) Hp (fmul (mo_n M) Hp (fmul (mo_n M) Hp r r) r) (fmul (mo_n M) Hp (fa (mo_n M) Hp) r)) (fb (mo_n M) b Hp) <> f0 (mo_n M) Hp.
Proof.
  intros OK P3 C r ROOT. set (p := mo_n M) in *. unfold root_check in C. fold p in C. remember p as q eqn:EQ in C at 1. destruct q as [|e|e]; try discriminate.
  destruct (to_mont M 0) as [zero|] eqn:L0; [|discriminate]. cbn [obind] in C. destruct (to_mont M 1) as [one|] eqn:L1; [|discriminate]. cbn [obind] in C.
  destruct (to_mont M b) as [bl|] eqn:Lb; [|discriminate]. cbn [obind] in C. destruct (to_mont M u0) as [v0|] eqn:U0; [|discriminate]. cbn [obind] in C.
  destruct (to_mont M u1) as [v1|] eqn:U1; [|discriminate]. cbn [obind] in C. destruct (to_mont M u2) as [v2|] eqn:U2; [|discriminate]. cbn [obind] in C.
  destruct (tpow M one bl zero e) as [[[a0 a1] a2]|] eqn:EP; [|discriminate]. cbn [obind] in C. destruct (msub M a1 one) as [a1'|] eqn:ES; [|discriminate]. cbn [obind] in C.
  destruct (tmul M one bl (a0, a1', a2) (v0, v1, v2)) as [[[r0 r1] r2]|] eqn:ER; [|discriminate]. cbn [obind] in C. destruct (msub M r0 one) as [r0'|] eqn:E0; [|discriminate]. cbn [obind] in C.
  destruct (of_mont M r0') as [w0|] eqn:W0; [|discriminate]. cbn [obind] in C. destruct (of_mont M r1) as [w1|] eqn:W1; [|discriminate]. cbn [obind] in C.
  destruct (of_mont M r2) as [w2|] eqn:W2; [|discriminate]. cbn [obind] in C. apply Bool.andb_true_iff in C. destruct C as [C C2]. apply Bool.andb_true_iff in C. destruct C as [C0 C1].
  apply (fden_to M OK Hp) in L0, L1, Lb, U0, U1, U2.
  destruct (tpow_ok M b OK Hp r ROOT one bl zero L1 L0 Lb e _ EP) as (x0 & x1 & x2 & X0 & X1 & X2 & EX).
  assert (EF : of_Z p Hp (to_Z p r ^ Z.pos e) = r) by (rewrite EQ; transitivity (of_Z p Hp (to_Z p r)); [apply of_Z_eq, fermat_all, Hp|apply of_to]).
  fold p in EX. rewrite EF in EX.
  pose proof (fden_sub M OK Hp _ _ _ _ _ ES X1 L1) as X1'.
  pose proof (tmul_ok M b OK Hp r ROOT one bl L1 Lb (a0, a1', a2) (v0, v1, v2) _ _ _ (ex_intro _ _ (ex_intro _ _ (ex_intro _ _ (conj X0 (conj X1' (conj X2 eq_refl))))))
    (ex_intro _ _ (ex_intro _ _ (ex_intro _ _ (conj U0 (conj U1 (conj U2 eq_refl)))))) ER) as (y0 & y1 & y2 & Y0 & Y1 & Y2 & EY).
  pose proof (fden_sub M OK Hp _ _ _ _ _ E0 Y0 L1) as Y0'.
  apply (fden_of M OK Hp P3 _ _ _ Y0' W0) in C0. apply (fden_of M OK Hp P3 _ _ _ Y1 W1) in C1. apply (fden_of M OK Hp P3 _ _ _ Y2 W2) in C2.
  exact (finish M OK Hp P3 r _ _ _ _ _ _ _ EX EY C0 C1 C2).
Qed.
