(** Counting points: a subgroup of more than a third of 2p + 1 elements, and no point of order 2, leave no other points. *)
From Coq Require Import Znumtheory Field.
From Verif Require Import Base NumTheory EcGroup Fp EllModel EllSpec EllProofs.
Local Open Scope Z_scope.

Lemma NoDup_map_on {A B} (f : A -> B) l : NoDup l -> (forall x y, In x l -> In y l -> f x = f y -> x = y) -> NoDup (map f l).
Proof.
  intros N. induction N as [|x l X N IH]; intros H; cbn [map]; [constructor|]. constructor.
  - intros I. apply in_map_iff in I. destruct I as (y & E & I). apply X. rewrite (H x y (or_introl eq_refl) (or_intror I) (eq_sym E)). exact I.
  - apply IH. intros a c A' C. apply H; right; assumption.
Qed.

Section COUNT.
Variables p b : Z.
Hypothesis Hp : prime p.
Hypothesis P3 : 3 < p.
Hypothesis Hd : ~ cong p (b * b) 4.
Notation F := (Fp p). Notation oz := (of_Z p Hp). Notation tz := (to_Z p).
Add Field Fcount : (Fp_field p Hp).
Declare Scope fcn_scope. Delimit Scope fcn_scope with fc.
Notation "0" := (f0 p Hp) : fcn_scope. Notation "1" := (f1 p Hp) : fcn_scope.
Notation "x + y" := (fadd p Hp x y) : fcn_scope. Notation "x * y" := (fmul p Hp x y) : fcn_scope.
Notation "x - y" := (fsub p Hp x y) : fcn_scope. Notation "- x" := (fopp p Hp x) : fcn_scope.
Notation Peq := (Fp_eq_dec p).
Notation fon := (@on F (fadd p Hp) (fmul p Hp) (fa p Hp) (fb p b Hp)).
Notation fpadd := (@padd F (f1 p Hp) (fadd p Hp) (fmul p Hp) (fsub p Hp) (fopp p Hp) (fdiv p Hp) Peq (fa p Hp)).
Notation fneg := (@neg F (fopp p Hp)).
Notation zmul := (zmul p Hp).
Lemma p_odd : p mod 2 = 1.
Proof.
  destruct (Z.eq_dec (p mod 2) 0) as [E|E]; [|assert (B := Z.mod_pos_bound p 2 ltac:(lia)); lia]. exfalso. apply Z.mod_divide in E; [|lia].
  apply prime_divisors in E; [lia|exact Hp].
Qed.
Lemma tz_inj (x y : F) : tz x = tz y -> x = y.
Proof. intros E. rewrite <- (of_to p Hp x), <- (of_to p Hp y), E. reflexivity. Qed.
(** A number below 2p + 1 for each point of the curve. *)
Definition code (P : option (F * F)) : Z := match P with None => 0 | Some (x, y) => 1 + 2 * tz x + (tz y) mod 2 end.
Lemma code_range P : 0 <= code P < 2 * p + 1.
Proof. destruct P as [[x y]|]; cbn [code]; [|lia]. assert (X := to_Z_range p Hp x). assert (Y := Z.mod_pos_bound (tz y) 2 ltac:(lia)). lia. Qed.
Lemma square_eq (y z : F) : (y * y = z * z)%fc -> y = z \/ y = (- z)%fc.
Proof.
  intros E. destruct (Peq (y - z)%fc 0%fc) as [D|D]; [left; replace y with ((y - z) + z)%fc by ring; rewrite D; ring|right].
  assert (M : ((y - z) * (y + z) = 0)%fc) by (replace ((y - z) * (y + z))%fc with (y * y - z * z)%fc by ring; rewrite E; ring).
  replace y with ((y + z) - z)%fc by ring. replace (y + z)%fc with (((y - z) * (y + z)) * (finv p Hp (y - z)))%fc by (field; exact D). rewrite M. ring.
Qed.
Lemma code_inj P Q : fon P -> fon Q -> code P = code Q -> P = Q.
Proof.
  destruct P as [[x y]|], Q as [[x' y']|]; intros O1 O2 E; cbn [code] in E.
  - assert (X := to_Z_range p Hp x). assert (Y := to_Z_range p Hp y). assert (X' := to_Z_range p Hp x'). assert (Y' := to_Z_range p Hp y').
    assert (M := Z.mod_pos_bound (tz y) 2 ltac:(lia)). assert (M' := Z.mod_pos_bound (tz y') 2 ltac:(lia)).
    assert (EX : tz x = tz x') by lia. assert (EY : (tz y) mod 2 = (tz y') mod 2) by lia. apply tz_inj in EX. subst x'. cbn [on] in O1, O2.
    destruct (square_eq y y') as [->|N]; [congruence|reflexivity|]. f_equal. f_equal. apply tz_inj.
    assert (T : tz y = (- tz y') mod p) by (rewrite N, <- (of_to p Hp y') at 1; rewrite <- of_opp, to_of; reflexivity).
    destruct (Z.eq_dec (tz y') 0) as [Z0|Z0]; [rewrite T, Z0; apply Z.mod_0_l; lia|].
    assert (T' : tz y = p - tz y') by (rewrite T; symmetry; apply Z.mod_unique with (q := -1); lia).
    assert (O := p_odd). exfalso. rewrite T' in EY. assert (D1 := Z.div_mod (p - tz y') 2 ltac:(lia)). assert (D2 := Z.div_mod (tz y') 2 ltac:(lia)). assert (D3 := Z.div_mod p 2 ltac:(lia)). lia.
  - assert (X := to_Z_range p Hp x). assert (M := Z.mod_pos_bound (tz y) 2 ltac:(lia)). lia.
  - assert (X := to_Z_range p Hp x'). assert (M := Z.mod_pos_bound (tz y') 2 ltac:(lia)). lia.
  - reflexivity.
Qed.

Variable G : option (F * F).
Variable n : Z.
Hypothesis OG : fon G.
Hypothesis NG : zmul n G = None.
Hypothesis SG : forall k, 0 < k < n -> zmul k G <> None.
Hypothesis BIG : 2 * p + 1 < 3 * n.
Hypothesis NOROOT : forall x : F, (x * x * x + fa p Hp * x + fb p b Hp)%fc <> 0%fc.
Definition inH (Q : option (F * F)) : Prop := exists j, 0 <= j /\ Q = zmul j G.
Lemma zmul_neq' i j : 0 <= i < n -> 0 <= j < n -> zmul i G = zmul j G -> i = j.
Proof.
  assert (H : forall i j, 0 <= i -> i < j -> j < n -> zmul i G <> zmul j G).
  { intros i' j' I IJ J E. apply (SG (n - j' + i') ltac:(lia)). rewrite (zmul_add p b Hp P3 Hd) by (assumption || lia). rewrite E, <- (zmul_add p b Hp P3 Hd) by (assumption || lia).
    replace (n - j' + j') with n by lia. exact NG. }
  intros I J E. destruct (Z.lt_trichotomy i j) as [L|[L|L]]; [|exact L|]; exfalso; [apply (H i j)|apply (H j i)]; try lia; [exact E|symmetry; exact E].
Qed.
Lemma cancel_l A X Y : fon A -> fon X -> fon Y -> fpadd A X = fpadd A Y -> X = Y.
Proof.
  intros OA OX OY E. assert (ON : fon (fneg A)) by (apply (on_neg _ _ _ _ _ _ _ _ (Fp_field p Hp)), OA).
  assert (H : forall Z, fon Z -> fpadd (fneg A) (fpadd A Z) = Z).
  { intros Z OZ. rewrite <- (fpadd_assoc p b Hp P3 Hd) by assumption. rewrite (fpadd_comm p b Hp P3 (fneg A) A) by assumption. rewrite (fpadd_neg p b Hp P3) by exact OA. reflexivity. }
  rewrite <- (H X OX), <- (H Y OY), E. reflexivity.
Qed.
Lemma dup_or (g : nat -> Z) : forall l, NoDup l -> NoDup (map g l) \/ exists i j, In i l /\ In j l /\ i <> j /\ g i = g j.
Proof.
  induction l as [|x l IH]; intros ND; [left; constructor|]. inversion ND as [|? ? NI ND']; subst.
  destruct (IH ND') as [H|(i & j & I & J & NE & E)]; [|right; exists i, j; cbn; auto].
  destruct (in_dec Z.eq_dec (g x) (map g l)) as [H'|H'].
  - apply in_map_iff in H'. destruct H' as (y & E & Y). right. exists y, x. cbn. repeat split; auto. congruence.
  - left. constructor; assumption.
Qed.
Section Q.
Variable Q : option (F * F).
Hypothesis OQ : fon Q.
Notation oz_ := (fun k P H => on_zmul p b Hp P3 k P H).
Lemma coset a a' j j' : 0 <= a -> a <= a' -> 0 <= j < n -> 0 <= j' < n -> fpadd (zmul a Q) (zmul j G) = fpadd (zmul a' Q) (zmul j' G) -> zmul (a' - a) Q = zmul (j + n - j') G /\ (a = a' -> j = j').
Proof.
  intros A AA J J' E. assert (O1 : forall k, fon (zmul k Q)) by (intros k; apply (on_zmul p b Hp P3), OQ). assert (O2 : forall k, fon (zmul k G)) by (intros k; apply (on_zmul p b Hp P3), OG).
  replace a' with (a + (a' - a)) in E by lia. rewrite (zmul_add p b Hp P3 Hd) in E by (assumption || lia). rewrite (fpadd_assoc p b Hp P3 Hd) in E by auto.
  apply cancel_l in E; [|auto|auto|apply (on_fpadd p b Hp P3); auto]. split.
  - replace (j + n - j') with (j + (n - j')) by lia. rewrite (zmul_add p b Hp P3 Hd) by (assumption || lia). rewrite E, (fpadd_assoc p b Hp P3 Hd) by auto.
    rewrite <- (zmul_add p b Hp P3 Hd) by (assumption || lia). replace (j' + (n - j')) with n by lia. rewrite NG. symmetry. apply padd_0_r.
  - intros <-. rewrite Z.sub_diag, zmul_0, padd_0_l in E. apply zmul_neq'; assumption.
Qed.
Lemma index_two : inH Q \/ inH (zmul 2 Q).
Proof.
  assert (N0 : 0 < n) by lia.
  set (N := Z.to_nat (3 * n)). set (f := fun i : nat => fpadd (zmul (Z.of_nat i / n) Q) (zmul (Z.of_nat i mod n) G)).
  assert (OF : forall i, fon (f i)) by (intros i; apply (on_fpadd p b Hp P3); apply (on_zmul p b Hp P3); assumption).
  (* two equal codes *)
  assert (DUP : exists i j, (i < N)%nat /\ (j < N)%nat /\ i <> j /\ f i = f j).
  { destruct (dup_or (fun i => code (f i)) (seq 0 N) (seq_NoDup _ _)) as [ND|(i & j & I & J & NE & E)].
    - exfalso. pose proof (NoDup_incl_length ND (l' := map Z.of_nat (seq 0 (Z.to_nat (2 * p + 1))))) as L. rewrite !map_length, !seq_length in L.
      assert (LE : (N <= Z.to_nat (2 * p + 1))%nat); [|unfold N in LE; lia]. apply L. intros c C. apply in_map_iff in C. destruct C as (i & <- & _).
      apply in_map_iff. assert (R := code_range (f i)). exists (Z.to_nat (code (f i))). split; [apply Z2Nat.id; lia|]. apply in_seq. lia.
    - exists i, j. apply in_seq in I, J. repeat split; try lia. apply code_inj; auto. }
  destruct DUP as (i & j & I & J & NE & E). unfold N in I, J.
  assert (S : forall i j : nat, (i < Z.to_nat (3 * n))%nat -> (j < Z.to_nat (3 * n))%nat -> i <> j -> f i = f j -> Z.of_nat i / n <= Z.of_nat j / n -> inH Q \/ inH (zmul 2 Q)).
  { clear i j I J NE E. intros i j I J NE E L. unfold f in E.
    assert (MI := Z.mod_pos_bound (Z.of_nat i) n N0). assert (MJ := Z.mod_pos_bound (Z.of_nat j) n N0). assert (DI := Z.div_mod (Z.of_nat i) n ltac:(lia)). assert (DJ := Z.div_mod (Z.of_nat j) n ltac:(lia)).
    assert (PI := Z.div_pos (Z.of_nat i) n ltac:(lia) N0). assert (UJ : Z.of_nat j / n < 3) by (apply Z.div_lt_upper_bound; lia).
    destruct (coset _ _ _ _ PI L MI MJ E) as [H1 H2]. set (a := Z.of_nat i / n) in *. set (a' := Z.of_nat j / n) in *. clearbody a a'.
    assert (C : a' - a = 0 \/ a' - a = 1 \/ a' - a = 2) by lia. destruct C as [C|[C|C]]; rewrite C in H1.
    - exfalso. apply NE. assert (a = a') as <- by lia. specialize (H2 eq_refl). lia.
    - left. rewrite zmul_1 in H1. eexists. split; [|exact H1]. lia.
    - right. eexists. split; [|exact H1]. lia. }
  destruct (Z.le_ge_cases (Z.of_nat i / n) (Z.of_nat j / n)) as [L|L]; [apply (S i j)|apply (S j i)]; auto.
Qed.
Lemma kill_H P : inH P -> zmul n P = None.
Proof.
  intros (j & J & ->). rewrite <- (zmul_mul p b Hp P3 Hd) by (assumption || lia). rewrite Z.mul_comm, (zmul_mul p b Hp P3 Hd) by (assumption || lia). rewrite NG. apply zmul_O.
Qed.
Lemma no_order_two T : fon T -> fpadd T T = None -> T = None.
Proof.
  destruct T as [[x y]|]; [|reflexivity]. intros O E. exfalso. cbn [padd] in E. destruct (Peq x x) as [_|N]; [|contradiction]. destruct (Peq y (fopp p Hp y)) as [Y|Y]; [|discriminate].
  assert (Y0 : y = 0%fc).
  { assert (D : (y * (1 + 1) = 0)%fc) by (replace (y * (1 + 1))%fc with (y + y)%fc by ring; rewrite Y at 1; ring).
    replace y with ((y * (1 + 1)) * finv p Hp (1 + 1))%fc by (field; apply (two_nz p Hp P3)). rewrite D. ring. }
  cbn [on] in O. apply (NOROOT x). rewrite <- O, Y0. ring.
Qed.
(** Every point of the curve is annihilated by n. *)
Theorem annihilated : zmul n Q = None.
Proof.
  destruct index_two as [H|H]; [apply kill_H, H|]. apply no_order_two; [apply (on_zmul p b Hp P3), OQ|].
  rewrite <- (zmul_add p b Hp P3 Hd) by (assumption || lia). replace (n + n) with (n * 2) by lia. rewrite (zmul_mul p b Hp P3 Hd) by (assumption || lia). apply kill_H, H.
Qed.
(** When n is odd every point is one of the n multiples of G. *)
Theorem generated : n mod 2 = 1 -> exists j, 0 <= j < n /\ Q = zmul j G.
Proof.
  intros ODD. assert (H : inH Q).
  { destruct index_two as [H|(j & J & E)]; [exact H|]. assert (D := Z.div_mod n 2 ltac:(lia)). rewrite ODD in D. set (h := n / 2) in *.
    exists ((h + 1) * j). split; [nia|]. rewrite (zmul_mul p b Hp P3 Hd) by (assumption || lia). rewrite <- E, <- (zmul_mul p b Hp P3 Hd) by (assumption || lia).
    replace ((h + 1) * 2) with (n + 1) by lia. rewrite (zmul_add p b Hp P3 Hd) by (assumption || lia). rewrite annihilated, zmul_1. reflexivity. }
  destruct H as (j & J & ->). assert (N0 : 0 < n) by lia. exists (j mod n). split; [apply Z.mod_pos_bound, N0|].
  rewrite (Z.div_mod j n) at 1 by lia. assert (D := Z.div_pos j n J N0). assert (M := Z.mod_pos_bound j n N0).
  rewrite (zmul_add p b Hp P3 Hd) by (try exact OG; try lia; apply Z.mul_nonneg_nonneg; lia). rewrite Z.mul_comm, (zmul_mul p b Hp P3 Hd) by (try exact OG; lia). rewrite NG, zmul_O. reflexivity.
Qed.
End Q.
End COUNT.
