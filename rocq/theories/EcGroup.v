(** The group of points of a curve y^2 = x^3 + a x + b over a field whose characteristic is not 2, with 4a^3 + 27b^2 <> 0.
    Mathematics only: nothing here depends on the model.  Associativity is proved through the factorisation
    x^3 + ax + b - (l x + m)^2 = (x - x1)(x - x2)(x - x3) of a line that meets the curve in three points. *)
From Coq Require Import Ring Field Setoid Lia.

Section EC.
Context {K : Type} (k0 k1 : K) (kadd kmul ksub : K -> K -> K) (kopp : K -> K) (kdiv : K -> K -> K) (kinv : K -> K).
Hypothesis Fth : field_theory k0 k1 kadd kmul ksub kopp kdiv kinv eq.
Hypothesis Keqdec : forall x y : K, {x = y} + {x <> y}.
Add Field Kf : Fth.
Notation "0" := k0. Notation "1" := k1.
Infix "+" := kadd. Infix "*" := kmul. Infix "-" := ksub. Notation "- x" := (kopp x). Infix "/" := kdiv.
Notation "2" := (k1 + k1). Notation "3" := (k1 + k1 + k1). Notation "4" := (2 * 2).

Variables a b : K.
Definition disc : K := 4 * (a * a * a) + 3 * 3 * 3 * (b * b).
Hypothesis two_nz : 2 <> 0.
Hypothesis nonsing : disc <> 0.

Definition point := option (K * K).
Definition on (P : point) : Prop := match P with None => True | Some (x, y) => y * y = x * x * x + a * x + b end.
Definition neg (P : point) : point := match P with None => None | Some (x, y) => Some (x, - y) end.
(** The slope of the chord, or of the tangent at equal abscissae. *)
Definition slope (x1 y1 x2 y2 : K) : K :=
  if Keqdec x1 x2 then (3 * (x1 * x1) + a) / (2 * y1) else (y2 - y1) / (x2 - x1).
Definition padd (P Q : point) : point :=
  match P, Q with
  | None, _ => Q
  | _, None => P
  | Some (x1, y1), Some (x2, y2) =>
      if Keqdec x1 x2 then
        if Keqdec y1 (- y2) then None
        else let l := slope x1 y1 x2 y2 in let x3 := l * l - x1 - x2 in Some (x3, l * (x1 - x3) - y1)
      else let l := slope x1 y1 x2 y2 in let x3 := l * l - x1 - x2 in Some (x3, l * (x1 - x3) - y1)
  end.

(** ** Field facts *)
Lemma sub_nz x y : x <> y -> y - x <> 0.
Proof. intros H E. apply H. replace y with (x + (y - x)) by ring. rewrite E. ring. Qed.
Lemma sub_z x y : x - y = 0 -> x = y.
Proof. intros E. replace x with (y + (x - y)) by ring. rewrite E. ring. Qed.
Lemma mul_cancel x y z : z <> 0 -> x * z = y * z -> x = y.
Proof. intros H E. replace x with (x * z / z) by (field; exact H). rewrite E. field. exact H. Qed.
Lemma mul_z x y : x * y = 0 -> x = 0 \/ y = 0.
Proof.
  intros E. destruct (Keqdec x 0) as [H|H]; [left; exact H|right].
  apply (mul_cancel y 0 x H). rewrite <- (Radd_0_l (F_R Fth) (y * x)). replace (y * x) with (x * y) by ring. rewrite E. ring.
Qed.
Lemma mul_nz x y : x <> 0 -> y <> 0 -> x * y <> 0.
Proof. intros H1 H2 E. destruct (mul_z _ _ E); contradiction. Qed.
Lemma div_mul x y : y <> 0 -> x / y * y = x.
Proof. intros. field. assumption. Qed.
Lemma div_eq x y z : y <> 0 -> x = z * y -> x / y = z.
Proof. intros H ->. field. exact H. Qed.
Lemma opp_self y : y = - y -> y = 0.
Proof. intros E. destruct (mul_z 2 y) as [H|H]; [replace (2 * y) with (y + y) by ring; rewrite E at 1; ring|contradiction|exact H]. Qed.

(** ** Lines *)
(** Points are never singular. *)
Lemma nonsingular x : 0 = x * x * x + a * x + b -> 3 * (x * x) + a <> 0.
Proof.
  intros E H. apply nonsing. unfold disc.
  assert (Ha : a = - (3 * (x * x))) by (apply sub_z; rewrite <- H; ring).
  assert (Hb : b = 2 * (x * x * x)).
  { apply sub_z. transitivity ((x * x * x + a * x + b) - x * (3 * (x * x) + a)); [ring|]. rewrite <- E, H. ring. }
  rewrite Hb, Ha. ring.
Qed.
(** Two points with the same abscissa are equal or opposite. *)
Lemma same_x x y1 y2 : on (Some (x, y1)) -> on (Some (x, y2)) -> y1 = y2 \/ y1 = - y2.
Proof.
  cbn. intros H1 H2. destruct (mul_z (y1 - y2) (y1 + y2)) as [E|E].
  - transitivity (y1 * y1 - y2 * y2); [ring|]. rewrite H1, H2. ring.
  - left. apply sub_z, E.
  - right. apply sub_z. rewrite <- E. ring.
Qed.
(** The line through two points that are not opposite, and its third intersection. *)
Definition line (l m x1 x2 x3 : K) : Prop :=
  x1 + x2 + x3 = l * l /\ x1 * x2 + x1 * x3 + x2 * x3 = a - 2 * l * m /\ x1 * x2 * x3 = m * m - b.
Lemma line_root l m x1 x2 x3 x : line l m x1 x2 x3 ->
  x * x * x + a * x + b - (l * x + m) * (l * x + m) = (x - x1) * (x - x2) * (x - x3).
Proof.
  intros (A & B & C).
  transitivity (x * x * x - (x1 + x2 + x3) * (x * x) + (x1 * x2 + x1 * x3 + x2 * x3) * x - x1 * x2 * x3); [|ring].
  rewrite A, B, C. ring.
Qed.
Lemma line_deriv l m x1 x2 x3 x : line l m x1 x2 x3 ->
  3 * (x * x) + a - 2 * (l * x + m) * l = (x - x1) * (x - x2) + (x - x1) * (x - x3) + (x - x2) * (x - x3).
Proof.
  intros (A & B & C).
  transitivity (3 * (x * x) - 2 * (x1 + x2 + x3) * x + (x1 * x2 + x1 * x3 + x2 * x3)); [|ring].
  rewrite A, B. ring.
Qed.
Lemma slope_chord x1 y1 x2 y2 : x1 <> x2 -> slope x1 y1 x2 y2 * (x2 - x1) = y2 - y1.
Proof. intros H. unfold slope. destruct (Keqdec x1 x2); [contradiction|]. apply div_mul, sub_nz, H. Qed.
Lemma slope_tangent x y y' : y <> 0 -> slope x y x y' * (2 * y) = 3 * (x * x) + a.
Proof. intros H. unfold slope. destruct (Keqdec x x); [|contradiction]. apply div_mul, mul_nz; assumption. Qed.
Lemma not_opp_same x y1 y2 : on (Some (x, y1)) -> on (Some (x, y2)) -> y1 <> - y2 -> y1 = y2 /\ y1 <> 0.
Proof.
  intros H1 H2 N. destruct (same_x x y1 y2 H1 H2) as [E|E]; [|contradiction]. split; [exact E|].
  intros Z. apply N. rewrite <- E, Z. ring.
Qed.
Lemma line_of x1 y1 x2 y2 : on (Some (x1, y1)) -> on (Some (x2, y2)) -> (x1 <> x2 \/ y1 <> - y2) ->
  let l := slope x1 y1 x2 y2 in let m := y1 - l * x1 in
  line l m x1 x2 (l * l - x1 - x2) /\ y2 = l * x2 + m.
Proof.
  intros H1 H2 N l m. destruct (Keqdec x1 x2) as [E|D].
  - subst x2. destruct N as [N|N]; [contradiction|]. destruct (not_opp_same _ _ _ H1 H2 N) as [E Z]. subst y2.
    assert (L : l * (2 * y1) = 3 * (x1 * x1) + a) by (apply slope_tangent, Z). cbn in H1.
    clearbody l.
    assert (Ha : a = l * (2 * y1) - 3 * (x1 * x1)) by (rewrite L; ring).
    assert (Hb : b = y1 * y1 - x1 * x1 * x1 - a * x1) by (rewrite H1; ring).
    split; [|unfold m; ring]. unfold line, m. split; [ring|]. split.
    + rewrite Ha. ring.
    + rewrite Hb, Ha. ring.
  - assert (L : l * (x2 - x1) = y2 - y1) by (apply slope_chord, D).
    clearbody l.
    assert (Y : y2 = y1 + l * (x2 - x1)) by (rewrite L; ring).
    cbn in H1, H2. split; [|unfold m; rewrite Y; ring].
    (* the chord equation: a and b from the two curve equations *)
    assert (Hs : (x2 - x1) * (x1 * x1 + x1 * x2 + x2 * x2 + a - l * (y1 + y2)) = 0).
    { transitivity ((x2 * x2 * x2 + a * x2 + b) - (x1 * x1 * x1 + a * x1 + b) - (l * (x2 - x1)) * (y1 + y2)); [ring|].
      rewrite <- H1, <- H2, L. ring. }
    apply mul_z in Hs. destruct Hs as [Hs|Hs]; [exfalso; exact (sub_nz _ _ D Hs)|].
    assert (Ha : a = l * (y1 + y2) - (x1 * x1 + x1 * x2 + x2 * x2)) by (apply sub_z; rewrite <- Hs; ring).
    assert (Hb : b = y1 * y1 - x1 * x1 * x1 - a * x1) by (rewrite H1; ring).
    unfold line, m. split; [ring|]. split.
    + rewrite Ha, Y. ring.
    + rewrite Hb, Ha, Y. ring.
Qed.

(** ** The group law *)
Lemma neg_neg P : neg (neg P) = P.
Proof. destruct P as [[x y]|]; cbn; [|reflexivity]. do 2 f_equal. ring. Qed.
Lemma on_neg P : on P -> on (neg P).
Proof. destruct P as [[x y]|]; cbn; [|auto]. intros <-. ring. Qed.
Lemma padd_0_l P : padd None P = P.
Proof. reflexivity. Qed.
Lemma padd_0_r P : padd P None = P.
Proof. destruct P as [[x y]|]; reflexivity. Qed.

(** What [padd] returns for two finite points. *)
Inductive sum_case (x1 y1 x2 y2 : K) : point -> Prop :=
| sc_opp : x1 = x2 -> y1 = - y2 -> sum_case x1 y1 x2 y2 None
| sc_line l m x3 : (x1 <> x2 \/ y1 <> - y2) -> line l m x1 x2 x3 -> y1 = l * x1 + m -> y2 = l * x2 + m ->
    sum_case x1 y1 x2 y2 (Some (x3, - (l * x3 + m))).
Lemma padd_case x1 y1 x2 y2 : on (Some (x1, y1)) -> on (Some (x2, y2)) -> sum_case x1 y1 x2 y2 (padd (Some (x1, y1)) (Some (x2, y2))).
Proof.
  intros H1 H2. unfold padd.
  assert (G : (x1 <> x2 \/ y1 <> - y2) -> sum_case x1 y1 x2 y2
    (Some (slope x1 y1 x2 y2 * slope x1 y1 x2 y2 - x1 - x2,
           slope x1 y1 x2 y2 * (x1 - (slope x1 y1 x2 y2 * slope x1 y1 x2 y2 - x1 - x2)) - y1))).
  { intros N. destruct (line_of _ _ _ _ H1 H2 N) as [L Y]. set (l := slope x1 y1 x2 y2) in *. clearbody l.
    replace (l * (x1 - (l * l - x1 - x2)) - y1) with (- (l * (l * l - x1 - x2) + (y1 - l * x1))) by ring.
    apply sc_line; [exact N|exact L|ring|exact Y]. }
  destruct (Keqdec x1 x2) as [E|D]; [destruct (Keqdec y1 (- y2)) as [E'|D']|].
  - apply sc_opp; assumption.
  - apply G. right. exact D'.
  - apply G. left. exact D.
Qed.
(** A line through the two points determines the sum. *)
Lemma line_on l m x1 x2 x3 : line l m x1 x2 x3 -> on (Some (x1, l * x1 + m)) /\ on (Some (x2, l * x2 + m)) /\ on (Some (x3, l * x3 + m)).
Proof.
  intros L. cbn. pose proof (line_root l m x1 x2 x3 x1 L) as A. pose proof (line_root l m x1 x2 x3 x2 L) as B.
  pose proof (line_root l m x1 x2 x3 x3 L) as C.
  split; [|split]; symmetry; apply sub_z.
  - rewrite A. ring.
  - rewrite B. ring.
  - rewrite C. ring.
Qed.
Lemma line_padd l m x1 x2 x3 : line l m x1 x2 x3 -> (x1 <> x2 \/ l * x1 + m <> - (l * x2 + m)) ->
  padd (Some (x1, l * x1 + m)) (Some (x2, l * x2 + m)) = Some (x3, - (l * x3 + m)).
Proof.
  intros L N. destruct (line_on _ _ _ _ _ L) as (O1 & O2 & _).
  destruct (padd_case _ _ _ _ O1 O2) as [E1 E2|l' m' x3' _ L' Y1 Y2].
  { exfalso. destruct N; contradiction. }
  assert (El : l' = l).
  { destruct (Keqdec x1 x2) as [E|D].
    - subst x2. destruct N as [N|N]; [contradiction|].
      assert (Z : l * x1 + m <> 0) by (intros Z; apply N; rewrite Z; ring).
      pose proof (line_deriv _ _ _ _ _ x1 L) as A. pose proof (line_deriv _ _ _ _ _ x1 L') as B.
      apply (mul_cancel _ _ (2 * (l * x1 + m))); [apply mul_nz; assumption|].
      transitivity (3 * (x1 * x1) + a).
      + apply sub_z. rewrite Y1. replace (l' * (2 * (l' * x1 + m')) - (3 * (x1 * x1) + a)) with (- (3 * (x1 * x1) + a - 2 * (l' * x1 + m') * l')) by ring.
        rewrite B. ring.
      + symmetry. apply sub_z. replace (l * (2 * (l * x1 + m)) - (3 * (x1 * x1) + a)) with (- (3 * (x1 * x1) + a - 2 * (l * x1 + m) * l)) by ring.
        rewrite A. ring.
    - apply (mul_cancel _ _ (x2 - x1)); [apply sub_nz, D|].
      transitivity ((l' * x2 + m') - (l' * x1 + m')); [ring|]. rewrite <- Y1, <- Y2. ring. }
  subst l'. assert (Em : m' = m) by (apply sub_z; transitivity ((l * x1 + m') - (l * x1 + m)); [ring|rewrite <- Y1; ring]).
  subst m'. assert (Ex : x3' = x3).
  { destruct L as (A & _), L' as (B & _). apply sub_z. transitivity ((x1 + x2 + x3') - (x1 + x2 + x3)); [ring|]. rewrite A, B. ring. }
  subst x3'. reflexivity.
Qed.
Lemma on_padd P Q : on P -> on Q -> on (padd P Q).
Proof.
  destruct P as [[x1 y1]|], Q as [[x2 y2]|]; try (cbn; tauto).
  intros H1 H2. destruct (padd_case _ _ _ _ H1 H2) as [|l m x3 _ L _ _]; [exact I|].
  destruct (line_on _ _ _ _ _ L) as (_ & _ & O). apply (on_neg (Some (x3, l * x3 + m))), O.
Qed.
Lemma line_sym l m x1 x2 x3 : line l m x1 x2 x3 -> line l m x2 x1 x3.
Proof. intros (A & B & C). unfold line. rewrite <- A, <- B, <- C. split; [ring|split; ring]. Qed.
Lemma line_neg l m x1 x2 x3 : line l m x1 x2 x3 -> line (- l) (- m) x3 x2 x1.
Proof. intros (A & B & C). unfold line. split; [transitivity (x1 + x2 + x3); [ring|rewrite A; ring]|].
  split; [transitivity (x1 * x2 + x1 * x3 + x2 * x3); [ring|rewrite B; ring]|transitivity (x1 * x2 * x3); [ring|rewrite C; ring]]. Qed.
Lemma opp_swap y z : y = - z -> z = - y.
Proof. intros ->. ring. Qed.
Lemma padd_comm P Q : on P -> on Q -> padd P Q = padd Q P.
Proof.
  destruct P as [[x1 y1]|], Q as [[x2 y2]|]; try reflexivity.
  intros H1 H2. destruct (padd_case _ _ _ _ H1 H2) as [E1 E2|l m x3 N L Y1 Y2].
  - destruct (padd_case _ _ _ _ H2 H1) as [_ _|l m x3 N L Y1 Y2]; [reflexivity|].
    destruct N as [N|N]; exfalso; apply N; [symmetry; exact E1|apply opp_swap; exact E2].
  - symmetry. rewrite Y1, Y2. apply line_padd; [apply line_sym, L|].
    rewrite <- Y1, <- Y2. destruct N as [N|N]; [left; intros E; apply N; symmetry; exact E|right; intros E; apply N, opp_swap, E].
Qed.
Lemma padd_neg_r P : on P -> padd P (neg P) = None.
Proof.
  destruct P as [[x y]|]; [|reflexivity]. intros H. cbn [neg]. destruct (padd_case x y x (- y) H) as [|l m x3 N L Y1 Y2].
  - exact (on_neg (Some (x, y)) H).
  - reflexivity.
  - destruct N as [N|N]; exfalso; apply N; [reflexivity|ring].
Qed.
(** Cancellation. *)
Lemma padd_cancel P Q : on P -> on Q -> padd (padd P Q) (neg Q) = P.
Proof.
  intros HP HQ. destruct Q as [[x2 y2]|]; [|cbn; rewrite !padd_0_r; reflexivity].
  destruct P as [[x1 y1]|]; [|rewrite padd_0_l; apply padd_neg_r, HQ].
  destruct (padd_case _ _ _ _ HP HQ) as [E1 E2|l m x3 N L Y1 Y2].
  - rewrite padd_0_l. cbn. rewrite E1, E2. reflexivity.
  - cbn [neg]. rewrite Y2.
    replace (- (l * x2 + m)) with ((- l) * x2 + - m) by ring. replace (- (l * x3 + m)) with ((- l) * x3 + - m) by ring.
    rewrite (line_padd (- l) (- m) x3 x2 x1 (line_neg _ _ _ _ _ L)).
    + f_equal. f_equal. rewrite Y1. ring.
    + destruct (Keqdec x3 x2) as [E|D]; [right|left; exact D]. subst x3. intros E.
      assert (Z : y2 = 0). { apply opp_self. rewrite Y2. transitivity (- (- l * x2 + - m)); [ring|]. rewrite <- E. ring. }
      rewrite Z in HQ. cbn in HQ. replace (0 * 0) with 0 in HQ by ring. apply (nonsingular x2 HQ).
      pose proof (line_deriv _ _ _ _ _ x2 L) as A. rewrite <- Y2, Z in A.
      transitivity (3 * (x2 * x2) + a - 2 * 0 * l); [ring|]. rewrite A. ring.
Qed.
Lemma padd_cancel_r P Q : on P -> on Q -> padd (padd P (neg Q)) Q = P.
Proof. intros HP HQ. rewrite <- (neg_neg Q) at 2. apply padd_cancel; [exact HP|apply on_neg, HQ]. Qed.
Lemma padd_none P Q : on P -> on Q -> padd P Q = None -> P = neg Q.
Proof. intros HP HQ E. rewrite <- (padd_cancel P Q HP HQ), E. reflexivity. Qed.

Lemma neg_padd A B : on A -> on B -> neg (padd A B) = padd (neg A) (neg B).
Proof.
  revert A B. intros [[u1 v1]|] [[u2 v2]|] HA HB; try reflexivity.
    destruct (padd_case _ _ _ _ HA HB) as [E1 E2|l m u3 N L V1 V2].
    - cbn [neg]. destruct (padd_case u1 (- v1) u2 (- v2)) as [_ _|l m u3 [N|N] _ _ _]; [exact (on_neg _ HA)|exact (on_neg _ HB)|reflexivity| |]; exfalso; apply N; [exact E1|rewrite E2; ring].
    - cbn [neg]. assert (L' : line (- l) (- m) u1 u2 u3) by (apply line_neg in L; destruct L as (A & B & C); unfold line; split; [rewrite <- A; ring|split; [rewrite <- B; ring|rewrite <- C; ring]]).
      rewrite V1, V2. replace (- (l * u1 + m)) with (- l * u1 + - m) by ring. replace (- (l * u2 + m)) with (- l * u2 + - m) by ring.
      rewrite (line_padd _ _ _ _ _ L').
      + do 2 f_equal. ring.
      + destruct N as [N|N]; [left; exact N|right]. intros E'. apply N. rewrite V1, V2.
        transitivity (- (- l * u1 + - m)); [ring|]. rewrite E'. ring. 
Qed.

(** The coefficient that ties the two ways of adding three points together. *)
Lemma slopes x1 y1 x2 x3 y3 xs xt X l1 m1 l2 m2 l3 m3 c :
  x1 <> x3 -> line l1 m1 x1 x2 xs -> y1 = l1 * x1 + m1 ->
  line l2 m2 x2 x3 xt -> y3 = l2 * x3 + m2 -> l1 * x2 + m1 = l2 * x2 + m2 ->
  c * (x3 - x1) = l2 - l1 -> (xs = x3 -> - (l1 * xs + m1) <> - y3) ->
  line l3 m3 xs x3 X -> - (l1 * xs + m1) = l3 * xs + m3 -> y3 = l3 * x3 + m3 ->
  c * (l1 + l3) = 1.
Proof.
  intros D L1 Y1 L2 Y3 Y2 Hc N L3 Ys Y3'.
  assert (D' : x3 - x1 <> 0) by (apply sub_nz, D).
  assert (Hm : m2 = l1 * x2 + m1 - l2 * x2) by (rewrite Y2; ring).
  assert (Hl : l2 = l1 + c * (x3 - x1)) by (rewrite Hc; ring).
  assert (Hy : y3 = l1 * x3 + m1 + c * (x3 - x1) * (x3 - x2)) by (rewrite Y3, Hm, Hl; ring).
  assert (O3 : on (Some (x3, y3))) by (rewrite Y3; apply (line_on _ _ _ _ _ L2)).
  (* c * (y3 + L1 x3) = x3 - xs *)
  assert (A : c * (y3 + (l1 * x3 + m1)) = x3 - xs).
  { pose proof (line_root _ _ _ _ _ x3 L1) as R. cbn in O3. rewrite <- O3 in R.
    destruct (Keqdec x2 x3) as [E|D2].
    - subst x2. pose proof (line_deriv _ _ _ _ _ x3 L1) as R1. pose proof (line_deriv _ _ _ _ _ x3 L2) as R2.
      rewrite <- Y3 in R2.
      assert (Hy' : y3 = l1 * x3 + m1) by (rewrite Hy; ring). rewrite <- Hy' in R1 |- *.
      apply (mul_cancel _ _ (x3 - x1) D').
      transitivity (c * (x3 - x1) * (2 * y3)); [ring|]. rewrite Hc.
      transitivity ((3 * (x3 * x3) + a - 2 * y3 * l1) - (3 * (x3 * x3) + a - 2 * y3 * l2)); [ring|]. rewrite R1, R2. ring.
    - apply (mul_cancel _ _ ((x3 - x1) * (x3 - x2))); [apply mul_nz; [exact D'|apply sub_nz, D2]|].
      transitivity ((c * (x3 - x1) * (x3 - x2)) * (y3 + (l1 * x3 + m1))); [ring|].
      replace (c * (x3 - x1) * (x3 - x2)) with (y3 - (l1 * x3 + m1)) by (rewrite Hy; ring).
      transitivity (y3 * y3 - (l1 * x3 + m1) * (l1 * x3 + m1)); [ring|]. rewrite R. ring. }
  destruct (Keqdec xs x3) as [E|D3].
  - subst xs. specialize (N eq_refl).
    assert (Ey : y3 = - (l1 * x3 + m1)) by (rewrite Y3', <- Ys; reflexivity).
    assert (Z : y3 <> 0). { intros Z. apply N. rewrite <- Ey, Z. ring. }
    pose proof (line_deriv _ _ _ _ _ x3 L1) as R1. pose proof (line_deriv _ _ _ _ _ x3 L3) as R3. rewrite <- Y3' in R3.
    apply (mul_cancel _ _ (2 * y3)); [apply mul_nz; assumption|].
    assert (B : (l1 + l3) * (2 * y3) = (x3 - x1) * (x3 - x2)).
    { transitivity ((3 * (x3 * x3) + a - 2 * (l1 * x3 + m1) * l1) - (3 * (x3 * x3) + a - 2 * y3 * l3)).
      - replace (l1 * x3 + m1) with (- y3) by (rewrite Ey; ring). ring.
      - rewrite R1, R3. ring. }
    transitivity (c * ((l1 + l3) * (2 * y3))); [ring|]. rewrite B.
    transitivity (y3 - (l1 * x3 + m1)); [rewrite Hy; ring|]. replace (l1 * x3 + m1) with (- y3) by (rewrite Ey; ring). ring.
  - apply (mul_cancel _ _ (x3 - xs)); [apply sub_nz, D3|].
    transitivity (c * (y3 + (l1 * x3 + m1))); [|rewrite A; ring].
    transitivity (c * ((l1 * x3 + m1) - (l1 * xs + m1) + ((l3 * x3 + m3) - (l3 * xs + m3)))); [ring|].
    rewrite <- Y3', <- Ys. ring.
Qed.
Lemma not_opp_impl (x1 y1 x2 y2 : K) : (x1 <> x2 \/ y1 <> - y2) -> x1 = x2 -> y1 <> - y2.
Proof. intros [N|N] E; [contradiction|exact N]. Qed.
Lemma assoc_generic x1 y1 x2 y2 x3 y3 : on (Some (x1, y1)) -> on (Some (x2, y2)) -> on (Some (x3, y3)) -> x1 <> x3 ->
  padd (Some (x1, y1)) (Some (x2, y2)) <> None -> padd (Some (x2, y2)) (Some (x3, y3)) <> None ->
  padd (padd (Some (x1, y1)) (Some (x2, y2))) (Some (x3, y3)) <> None ->
  padd (Some (x1, y1)) (padd (Some (x2, y2)) (Some (x3, y3))) <> None ->
  padd (padd (Some (x1, y1)) (Some (x2, y2))) (Some (x3, y3)) = padd (Some (x1, y1)) (padd (Some (x2, y2)) (Some (x3, y3))).
Proof.
  intros H1 H2 H3 D NS NT NL NR.
  rewrite (padd_comm (Some (x1, y1)) (padd (Some (x2, y2)) (Some (x3, y3)))) in NR |- * by (try apply on_padd; assumption).
  pose proof (on_padd _ _ H1 H2) as OS. pose proof (on_padd _ _ H2 H3) as OT.
  destruct (padd_case _ _ _ _ H1 H2) as [_ _|l1 m1 xs _ L1 Y1 Y2]; [contradiction|].
  destruct (padd_case _ _ _ _ H2 H3) as [_ _|l2 m2 xt _ L2 Y2' Y3]; [contradiction|].
  destruct (padd_case _ _ _ _ OS H3) as [_ _|l3 m3 X N3 L3 Ys Y3']; [contradiction|].
  destruct (padd_case _ _ _ _ OT H1) as [_ _|l4 m4 X' N4 L4 Yt Y1']; [contradiction|].
  clear NS NT NL NR OS OT.
  assert (D' : x3 - x1 <> 0) by (apply sub_nz, D).
  assert (D'' : x1 - x3 <> 0) by (apply sub_nz; intros E; apply D; symmetry; exact E).
  set (c := (l2 - l1) / (x3 - x1)).
  assert (Hc : c * (x3 - x1) = l2 - l1) by (apply div_mul, D'). clearbody c.
  assert (S1 : c * (l1 + l3) = 1).
  { apply (slopes x1 y1 x2 x3 y3 xs xt X l1 m1 l2 m2 l3 m3 c); try assumption; [rewrite <- Y2, <- Y2'; reflexivity|].
    apply not_opp_impl, N3. }
  assert (S2 : c * (l2 + l4) = 1).
  { apply (slopes x3 y3 x2 x1 y1 xt xs X' l2 m2 l1 m1 l4 m4 c); try assumption.
    - intros E; apply D; symmetry; exact E.
    - apply line_sym, L2.
    - apply line_sym, L1.
    - rewrite <- Y2, <- Y2'. reflexivity.
    - transitivity (- (c * (x3 - x1))); [ring|]. rewrite Hc. ring.
    - apply not_opp_impl, N4. }
  assert (Zc : c <> 0). { intros Z. apply (F_1_neq_0 Fth). rewrite <- S1, Z. ring. }
  assert (E3 : l3 = 1 / c - l1). { apply (mul_cancel _ _ c Zc). transitivity (c * (l1 + l3) - l1 * c); [ring|]. rewrite S1. field. exact Zc. }
  assert (E4 : l4 = 1 / c - l2). { apply (mul_cancel _ _ c Zc). transitivity (c * (l2 + l4) - l2 * c); [ring|]. rewrite S2. field. exact Zc. }
  assert (E2 : l2 = l1 + c * (x3 - x1)) by (rewrite Hc; ring).
  assert (Es : xs = l1 * l1 - x1 - x2) by (destruct L1 as (A & _); rewrite <- A; ring).
  assert (Et : xt = l2 * l2 - x2 - x3) by (destruct L2 as (A & _); rewrite <- A; ring).
  assert (EX : X = l3 * l3 - xs - x3) by (destruct L3 as (A & _); rewrite <- A; ring).
  assert (EX' : X' = l4 * l4 - xt - x1) by (destruct L4 as (A & _); rewrite <- A; ring).
  assert (Em3 : m3 = y3 - l3 * x3) by (rewrite Y3'; ring).
  assert (Em4 : m4 = y1 - l4 * x1) by (rewrite Y1'; ring).
  assert (Em2 : m2 = l1 * x2 + m1 - l2 * x2) by (rewrite <- Y2, Y2'; ring).
  assert (XX : X = X'). { rewrite EX, EX', E3, E4, Es, Et, E2. field. exact Zc. }
  rewrite <- XX. do 2 f_equal.
  rewrite Em3, Em4, Y3, Y1, Em2, EX, E3, E4, Es, E2. field. exact Zc.
Qed.
Lemma neg_inj P Q : neg P = neg Q -> P = Q.
Proof. intros E. rewrite <- (neg_neg P), E. apply neg_neg. Qed.
Theorem padd_assoc P Q R : on P -> on Q -> on R -> padd (padd P Q) R = padd P (padd Q R).
Proof.
  intros HP HQ HR.
  destruct P as [[x1 y1]|]; [|reflexivity]. destruct R as [[x3 y3]|]; [|rewrite !padd_0_r; reflexivity].
  destruct Q as [[x2 y2]|]; [|rewrite padd_0_r; reflexivity].
  set (P := Some (x1, y1)) in *. set (Q := Some (x2, y2)) in *. set (R := Some (x3, y3)) in *.
  assert (Dp : forall A B : point, {A = B} + {A <> B}).
  { intros [[u v]|] [[u' v']|]; try (right; discriminate); [|left; reflexivity].
    destruct (Keqdec u u') as [->|N]; [|right; intros E; apply N; congruence].
    destruct (Keqdec v v') as [->|N]; [left; reflexivity|right; intros E; apply N; congruence]. }
  (* P = -Q *)
  destruct (Dp (padd P Q) None) as [E|NS].
  { rewrite E, padd_0_l. rewrite (padd_none P Q HP HQ E). rewrite (padd_comm (neg Q)); [|apply on_neg, HQ|apply on_padd; assumption].
    rewrite (padd_comm Q R) by assumption. symmetry. apply padd_cancel; assumption. }
  destruct (Dp (padd Q R) None) as [E|NT].
  { rewrite E, padd_0_r. rewrite (padd_none Q R HQ HR E). apply padd_cancel_r; assumption. }
  destruct (Dp P R) as [E|NPR].
  { rewrite <- E. rewrite (padd_comm Q P) by assumption. apply padd_comm; [apply on_padd|]; assumption. }
  destruct (Dp P (neg R)) as [E|NPR'].
  { rewrite E. rewrite (padd_comm (neg R) Q) by (try apply on_neg; assumption). rewrite padd_cancel_r by assumption.
    rewrite (padd_comm (neg R)) by (try apply on_neg; try apply on_padd; assumption). symmetry. apply padd_cancel; assumption. }
  assert (D : x1 <> x3).
  { intros E. unfold P, R in *. subst x3. destruct (same_x _ _ _ HP HR) as [E|E]; [apply NPR|apply NPR']; rewrite E; reflexivity. }
  (* S + R = O iff P + T = O *)
  destruct (Dp (padd (padd P Q) R) None) as [E|NL].
  { rewrite E. apply padd_none in E; [|apply on_padd; assumption|assumption].
    assert (EQ : padd Q R = neg P).
    { rewrite <- (neg_neg R), <- E.
      assert (X : padd (padd Q P) (neg (padd Q P)) = None) by (apply padd_neg_r, on_padd; assumption).
      (* Q = S - P, so Q + R = Q - S *)
      rewrite (padd_comm Q (neg (padd P Q))) by (try apply on_neg; try apply on_padd; assumption).
      apply neg_inj. rewrite neg_neg.
      rewrite neg_padd by (try apply on_neg; try apply on_padd; assumption). rewrite neg_neg. apply padd_cancel; assumption. }
    rewrite EQ. symmetry. apply padd_neg_r, HP. }
  destruct (Dp (padd P (padd Q R)) None) as [E|NR].
  { exfalso. apply NL. apply padd_none in E; [|assumption|apply on_padd; assumption].
    (* P = -(Q+R), so S = P + Q = -R *)
    assert (ES : padd P Q = neg R).
    { rewrite E. rewrite (padd_comm Q R) by assumption.
      apply neg_inj. rewrite neg_neg.
      rewrite neg_padd by (try apply on_neg; try apply on_padd; assumption). rewrite neg_neg. apply padd_cancel; assumption. }
    rewrite ES. rewrite padd_comm by (try apply on_neg; assumption). apply padd_neg_r, HR. }
  apply assoc_generic; assumption.
Qed.

(** ** Multiples *)
Fixpoint smul (k : nat) (P : point) : point := match k with O => None | S k => padd P (smul k P) end.
Lemma on_smul k P : on P -> on (smul k P).
Proof. intros H. induction k; cbn [smul]; [exact I|apply on_padd; assumption]. Qed.
Lemma smul_1 P : smul 1 P = P.
Proof. cbn [smul]. apply padd_0_r. Qed.
Lemma smul_O k : smul k None = None.
Proof. induction k; cbn [smul]; [reflexivity|]. rewrite IHk. reflexivity. Qed.
Lemma smul_add j k P : on P -> smul (j + k) P = padd (smul j P) (smul k P).
Proof.
  intros H. induction j; cbn [smul Nat.add]; [reflexivity|]. rewrite IHj. symmetry.
  apply padd_assoc; try apply on_smul; assumption.
Qed.
Lemma smul_padd k P Q : on P -> on Q -> smul k (padd P Q) = padd (smul k P) (smul k Q).
Proof.
  intros HP HQ. induction k; cbn [smul]; [reflexivity|]. rewrite IHk.
  pose proof (on_smul k P HP). pose proof (on_smul k Q HQ).
  rewrite !padd_assoc by (try apply on_padd; assumption). f_equal.
  rewrite <- (padd_assoc Q), (padd_comm Q (smul k P)), padd_assoc by assumption. reflexivity.
Qed.
Lemma smul_mul j k P : on P -> smul (j * k) P = smul j (smul k P).
Proof.
  intros H. induction j; cbn [smul Nat.mul]; [reflexivity|]. rewrite smul_add, IHj by assumption. reflexivity.
Qed.
Lemma smul_double k P : on P -> smul (2 * k) P = padd (smul k P) (smul k P).
Proof. intros H. replace (2 * k)%nat with (k + k)%nat by lia. apply smul_add, H. Qed.
Lemma smul_neg k P : on P -> smul k (neg P) = neg (smul k P).
Proof.
  intros H. induction k; cbn [smul]; [reflexivity|]. rewrite IHk, neg_padd; [reflexivity|exact H|apply on_smul, H].
Qed.
(** Multiples only depend on the residue modulo an annihilating number. *)
Lemma smul_period n j q P : on P -> smul n P = None -> smul (q * n + j) P = smul j P.
Proof.
  intros H E. rewrite smul_add, smul_mul, E, smul_O by exact H. reflexivity.
Qed.
End EC.
