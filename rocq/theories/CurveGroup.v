(** The theorems of CurveCount.v for the curves of the code. *)
From Coq Require Import Znumtheory Uint63.
From Verif Require Import Base NumTheory EcGroup Fp EllModel EllSpec EllProofs EllApi EcdsaSpec EcdsaGroup Mont MontEc CurveOrders CurveCount CurveRoot CurveRoots.
Local Open Scope Z_scope.

Lemma no_root_of (c : curve) (Hp : prime (cp_p c)) : In c [p224; p256; p384; p521] ->
  forall r : Fp (cp_p c), fadd (cp_p c) Hp (fadd (cp_p c) Hp (fmul (cp_p c) Hp (fmul (cp_p c) Hp r r) r) (fmul (cp_p c) Hp (fa (cp_p c) Hp) r)) (fb (cp_p c) (cp_b c) Hp) <> f0 (cp_p c) Hp.
Proof.
  assert (H : forall M u0 u1 u2, mont_ok M = true -> mo_n M = cp_p c -> 3 < cp_p c -> root_check M (cp_b c) u0 u1 u2 = true ->
    forall r : Fp (cp_p c), fadd (cp_p c) Hp (fadd (cp_p c) Hp (fmul (cp_p c) Hp (fmul (cp_p c) Hp r r) r) (fmul (cp_p c) Hp (fa (cp_p c) Hp) r)) (fb (cp_p c) (cp_b c) Hp) <> f0 (cp_p c) Hp).
  { intros M u0 u1 u2 OK E. revert Hp. rewrite <- E. intros Hp P3 C. exact (no_root M (cp_b c) u0 u1 u2 Hp OK P3 C). }
  intros [E|[E|[E|[E|[]]]]]; subst c.
  - exact (H _ _ _ _ (proj1 mont_p224_ok) (proj2 mont_p224_ok) ltac:(reflexivity) root_p224).
  - exact (H _ _ _ _ (proj1 mont_p256_ok) (proj2 mont_p256_ok) ltac:(reflexivity) root_p256).
  - exact (H _ _ _ _ (proj1 mont_p384_ok) (proj2 mont_p384_ok) ltac:(reflexivity) root_p384).
  - exact (H _ _ _ _ (proj1 mont_p521_ok) (proj2 mont_p521_ok) ltac:(reflexivity) root_p521).
Qed.

Section GROUP.
Variable c : curve.
Hypothesis IN : In c [p224; p256; p384; p521].
Notation p := (cp_p c). Notation b := (cp_b c). Notation n := (cp_n c).
Hypothesis GR : ECDSA_group p b n (decode (cp_gx c, cp_gy c)).
Let S : sound_curve p b := proj1 GR.
Let Hp : prime p := proj1 S.
Let P3 : 3 < p := proj1 (proj2 S).
Let Hd : ~ cong p (b * b) 4 := proj2 (proj2 (proj2 S)).
Let Gn : prime n := proj1 (proj2 (proj2 (proj2 GR))).
Notation PG := (phi p Hp (cp_gx c, cp_gy c)).
Lemma big : 2 * p + 1 < 3 * n.
Proof. destruct IN as [<-|[<-|[<-|[<-|[]]]]]; reflexivity. Qed.
Lemma small k : 0 < k < n -> zmul p Hp k PG <> None.
Proof.
  intros K E. apply (order_none c S Gn PG (PG_on c GR) (PG_n c GR)) in E; [|exact (PG_some c GR)|lia]. apply Z.divide_pos_le in E; lia.
Qed.
Lemma phi_killed x y : on_curve p b (decode (x, y)) -> zmul p Hp n (phi p Hp (x, y)) = None.
Proof.
  intros O. exact (annihilated p b Hp P3 Hd PG n (PG_on c GR) (PG_n c GR) small big (no_root_of c Hp IN) _ (proj1 (on_phi p b Hp P3 (x, y)) O)).
Qed.
Lemma killed x y : on_curve p b (decode (x, y)) -> ec_multiple p (Z.to_nat n) (decode (x, y)) None.
Proof. intros O. apply (order_phi c GR x y O). exact (phi_killed x y O). Qed.
Lemma multiple_of_base x y : on_curve p b (decode (x, y)) -> exists k, 0 <= k < n /\ phi p Hp (x, y) = zmul p Hp k PG.
Proof.
  intros O. apply (generated p b Hp P3 Hd PG n (PG_on c GR) (PG_n c GR) small big (no_root_of c Hp IN) _ (proj1 (on_phi p b Hp P3 (x, y)) O)).
  destruct IN as [<-|[<-|[<-|[<-|[]]]]]; reflexivity.
Qed.
(** A point given by any pair of integers on the curve. *)
Lemma decode_on P : on_curve p b P -> exists x y, P = decode (x, y).
Proof.
  destruct P as [[x y]|]; intros O; [|exists 0, 0; reflexivity]. exists x, y. unfold decode. cbn [fst snd].
  destruct (Z.eqb_spec x 0) as [->|]; cbn [andb]; [|reflexivity]. destruct (Z.eqb_spec y 0) as [->|]; [|reflexivity]. exfalso.
  pose proof (proj1 (proj2 (proj2 S))) as Hb. apply Hb. cbn [on_curve] in O. unfold cong in *. destruct O as [k E]. exists (- k). lia.
Qed.
Lemma killed_all P : on_curve p b P -> ec_multiple p (Z.to_nat n) P None.
Proof. intros O. destruct (decode_on P O) as (x & y & ->). exact (killed x y O). Qed.
Lemma base_all x y : on_curve p b (decode (x, y)) -> exists k, 0 <= k < n /\ curve_scalar_base c k = Some (x mod p, y mod p) /\
  ec_multiple p (Z.to_nat k) (decode (cp_gx c, cp_gy c)) (decode (x, y)).
Proof.
  intros O. destruct (multiple_of_base x y O) as (k & K & E). exists k. split; [exact K|].
  assert (EB : curve_scalar_base c k = Some (x mod p, y mod p)) by (rewrite (base_ok c GR k) by lia; f_equal; rewrite <- (psi_phi p Hp); f_equal; symmetry; exact E).
  split; [exact EB|]. apply (multiple_ok c S); [exact (proj1 (proj2 GR))|]. exists (x mod p), (y mod p). rewrite Z2Nat.id by lia. split; [exact EB|].
  assert (N0 : p <> 0) by lia. unfold decode. cbn [fst snd].
  assert (CM : forall z, cong p (z mod p) z) by (intros z; exists (- (z / p)); rewrite (Z.div_mod z p N0) at 2; ring).
  assert (Z0 : forall u v, (u mod p =? 0) && (v mod p =? 0) = true -> on_curve p b (Some (u, v)) -> False).
  { intros u v H O'. apply andb_prop in H. destruct H as [U V]. apply Z.eqb_eq in U, V. apply Z.mod_divide in U, V; [|exact N0|exact N0]. pose proof (proj1 (proj2 (proj2 S))) as Hb. apply Hb. cbn [on_curve] in O'.
    unfold cong in *. destruct O' as [l L], U as [i U], V as [j V]. exists (j * v - i * (u * u) + 3 * i - l). rewrite Z.sub_0_r. rewrite U, V in L |- *. nia. }
  destruct ((x =? 0) && (y =? 0)) eqn:D.
  - apply andb_prop in D. destruct D as [X Y]. apply Z.eqb_eq in X, Y. subst. rewrite !Z.mod_0_l by exact N0. cbn. exact I.
  - unfold decode in O. cbn [fst snd] in O. rewrite D in O. destruct ((x mod p =? 0) && (y mod p =? 0)) eqn:D'; [destruct (Z0 x y D' O)|]. split; apply CM.
Qed.
Lemma scalar_n x y : on_curve p b (decode (x, y)) -> curve_scalar c x y n = Some (0, 0).
Proof.
  intros O. pose proof (prime_ge_2 n Gn). rewrite (curve_scalar_ok p b Hp P3 Hd c eq_refl x y n O) by lia. rewrite (phi_killed x y O). reflexivity.
Qed.
Lemma scalar_mod x y k : on_curve p b (decode (x, y)) -> 0 <= k -> curve_scalar c x y k = curve_scalar c x y (k mod n).
Proof.
  intros O K. pose proof (prime_ge_2 n Gn). assert (M := Z.mod_pos_bound k n ltac:(lia)). rewrite !(curve_scalar_ok p b Hp P3 Hd c eq_refl x y) by (exact O || lia).
  do 2 f_equal. symmetry. exact (order_mod c S Gn _ (proj1 (on_phi p b Hp P3 (x, y)) O) (phi_killed x y O) k K).
Qed.
Lemma point_some x y : is_on_curve c x y = true -> decode (x, y) = Some (x, y) /\ on_curve p b (decode (x, y)).
Proof.
  intros H. apply (is_on_curve_iff p b Hp P3 c eq_refl eq_refl) in H. assert (D : decode (x, y) = Some (x, y)).
  { unfold decode. cbn [fst snd]. destruct (Z.eqb_spec x 0) as [->|]; cbn [andb]; [|reflexivity]. destruct (Z.eqb_spec y 0) as [->|]; [|reflexivity]. exfalso.
    apply (proj1 (proj2 (proj2 S))). destruct H as [k E]. exists (- k). lia. }
  split; [exact D|]. rewrite D. exact H.
Qed.
Lemma exact_order x y k : is_on_curve c x y = true -> 0 < k < n ->
  exists x' y', curve_scalar c x y k = Some (x', y') /\ (x', y') <> (0, 0) /\ 0 <= x' < p /\ 0 <= y' < p /\ is_on_curve c x' y' = true.
Proof.
  intros H K. destruct (point_some x y H) as [D O]. assert (FO := proj1 (on_phi p b Hp P3 (x, y)) O).
  destruct (scalar_some c S x y k O ltac:(lia)) as (u & v & E & U & V & Ouv & F). exists u, v. split; [exact E|].
  assert (N : phi p Hp (u, v) <> None).
  { intros N. unfold Hp in N. rewrite N in F. symmetry in F. apply (order_none c S Gn _ FO (phi_killed x y O)) in F; [apply Z.divide_pos_le in F; lia| |lia].
    unfold phi. rewrite D. discriminate. }
  assert (D' : decode (u, v) = Some (u, v)) by (unfold phi in N; destruct (decode (u, v)) as [q|] eqn:DE; [rewrite (decode_some _ _ DE) at 1; reflexivity|contradiction]).
  split; [intros E'; rewrite E' in D'; discriminate|]. split; [exact U|]. split; [exact V|]. rewrite D' in Ouv. apply (is_on_curve_iff p b Hp P3 c eq_refl eq_refl). exact Ouv.
Qed.
Lemma private_key x y : is_on_curve c x y = true -> 0 <= x < p -> 0 <= y < p ->
  exists d, 1 <= d <= n - 1 /\ curve_scalar_base c d = Some (x, y) /\ forall d', 0 <= d' < n -> curve_scalar_base c d' = Some (x, y) -> d' = d.
Proof.
  intros H X Y. destruct (point_some x y H) as [D O]. destruct (base_all x y O) as (d & R & E & _). rewrite !Z.mod_small in E by assumption.
  assert (FO := PG_on c GR). assert (U : forall d', 0 <= d' < n -> curve_scalar_base c d' = Some (x, y) -> phi p Hp (x, y) = zmul p Hp d' PG).
  { intros d' R' E'. rewrite (base_ok c GR d') in E' by lia. injection E' as E'. unfold Hp. rewrite <- E'. apply (phi_psi p b Hp P3 (proj1 (proj2 (proj2 S)))). apply (on_zmul p b Hp P3). exact FO. }
  exists d. split; [|split; [exact E|]].
  - assert (d <> 0); [|lia]. intros ->. specialize (U 0 ltac:(lia) E). rewrite zmul_0 in U. unfold phi in U. rewrite D in U. discriminate.
  - intros d' R' E'. apply (zmul_neq' p b Hp P3 Hd PG n FO (PG_n c GR) small); try assumption. rewrite <- (U d R E), <- (U d' R' E'). reflexivity.
Qed.
End GROUP.
