(** Keccak-p is a bijection, the byte interface of [permutation], and sponges at all accepted rates. *)
From Coq Require FinFun.
From Verif Require Import Base KeccakModel KeccakSpec KeccakProofs SpongeProofs Sha3Proofs.

(** ** Injectivity of the step mappings *)
Definition TP (w n : nat) (C : nat -> nat -> bool) : nat -> nat -> bool :=
  fun x z => xorb (C x z) (xorb (C ((x + 4 * n) mod 5)%nat z) (C ((x + n) mod 5)%nat ((z + n * (w - 1)) mod w)%nat)).
Definition ceq (w : nat) (C D : nat -> nat -> bool) : Prop := forall x z, (x < 5)%nat -> (z < w)%nat -> C x z = D x z.
Lemma TP_ext w n C D : ceq w C D -> ceq w (TP w n C) (TP w n D).
Proof.
  intros H x z Hx Hz. unfold TP. rewrite !H; auto; try (apply Nat.mod_upper_bound; lia).
Qed.
Lemma modadd5 a b : ((a mod 5 + b) mod 5 = (a + b) mod 5)%nat.
Proof. apply Nat.add_mod_idemp_l. lia. Qed.
Lemma TP_double w n C : (0 < w)%nat -> ceq w (TP w n (TP w n C)) (TP w (2 * n) C).
Proof.
  intros Hw x z Hx Hz. unfold TP. rewrite !modadd5.
  rewrite (Nat.add_mod_idemp_l (z + n * (w - 1)) (n * (w - 1)) w) by lia.
  replace (x + 4 * n + 4 * n)%nat with (x + 4 * (2 * n))%nat by lia.
  replace (x + 4 * n + n)%nat with (x + n * 5)%nat by lia.
  replace (x + n + 4 * n)%nat with (x + n * 5)%nat by lia.
  replace (x + n + n)%nat with (x + 2 * n)%nat by lia.
  replace (z + n * (w - 1) + n * (w - 1))%nat with (z + 2 * n * (w - 1))%nat by lia.
  rewrite Nat.mod_add, (Nat.mod_small x 5) by lia.
  destruct (C x z), (C ((x + 4 * n) mod 5)%nat z), (C ((x + n) mod 5)%nat ((z + n * (w - 1)) mod w)%nat), (C x ((z + n * (w - 1)) mod w)%nat),
    (C ((x + 4 * (2 * n)) mod 5)%nat z), (C ((x + 2 * n) mod 5)%nat ((z + 2 * n * (w - 1)) mod w)%nat); reflexivity.
Qed.
Lemma TP_pow w C D : (0 < w)%nat -> ceq w (TP w 1 C) (TP w 1 D) -> forall k, ceq w (TP w (2 ^ k) C) (TP w (2 ^ k) D).
Proof.
  intros Hw H k. induction k as [|k IH]; [exact H|]. intros x z Hx Hz. rewrite Nat.pow_succ_r'.
  rewrite <- (TP_double w (2 ^ k) C Hw x z Hx Hz), <- (TP_double w (2 ^ k) D Hw x z Hx Hz). apply TP_ext; auto.
Qed.
Lemma five (p q : nat -> bool) s : (s mod 5 <> 0)%nat ->
  (forall x, (x < 5)%nat -> xorb (p x) (xorb (p ((x + 4 * s) mod 5)%nat) (p ((x + s) mod 5)%nat)) =
                            xorb (q x) (xorb (q ((x + 4 * s) mod 5)%nat) (q ((x + s) mod 5)%nat))) ->
  forall x, (x < 5)%nat -> p x = q x.
Proof.
  intros Hs H.
  assert (H' : forall x, (x < 5)%nat -> xorb (xorb (p x) (q x)) (xorb (xorb (p ((x + 4 * (s mod 5)) mod 5)%nat) (q ((x + 4 * (s mod 5)) mod 5)%nat))
            (xorb (p ((x + s mod 5) mod 5)%nat) (q ((x + s mod 5) mod 5)%nat))) = false).
  { intros x Hx. specialize (H x Hx).
    replace ((x + 4 * (s mod 5)) mod 5)%nat with ((x + 4 * s) mod 5)%nat
      by (rewrite (Nat.div_mod s 5) at 1 by lia; replace (x + 4 * (5 * (s / 5) + s mod 5))%nat with (x + 4 * (s mod 5) + (4 * (s / 5)) * 5)%nat by lia; apply Nat.mod_add; lia).
    replace ((x + s mod 5) mod 5)%nat with ((x + s) mod 5)%nat by (symmetry; apply Nat.add_mod_idemp_r; lia).
    revert H. destruct (p x), (q x), (p ((x + 4 * s) mod 5)%nat), (q ((x + 4 * s) mod 5)%nat), (p ((x + s) mod 5)%nat), (q ((x + s) mod 5)%nat); cbn; congruence. }
  assert (Hm := Nat.mod_upper_bound s 5 ltac:(lia)). set (r := (s mod 5)%nat) in *. clearbody r. clear H.
  assert (R : (r = 1 \/ r = 2 \/ r = 3 \/ r = 4)%nat) by (clear H'; lia).
  assert (Z : forall x, (x < 5)%nat -> xorb (p x) (q x) = false).
  { set (d := fun x => xorb (p x) (q x)) in *.
    assert (H0 := H' 0%nat (proj1 (Nat.ltb_lt 0 5) eq_refl)). assert (H1 := H' 1%nat (proj1 (Nat.ltb_lt 1 5) eq_refl)). assert (H2 := H' 2%nat (proj1 (Nat.ltb_lt 2 5) eq_refl)).
    assert (H3 := H' 3%nat (proj1 (Nat.ltb_lt 3 5) eq_refl)). assert (H4 := H' 4%nat (proj1 (Nat.ltb_lt 4 5) eq_refl)). clear H'.
    repeat match goal with H : context [xorb (p ?a) (q ?a)] |- _ => change (xorb (p a) (q a)) with (d a) in H end.
    
    assert (G : forall d0 d1 d2 d3 d4 : bool, d 0%nat = d0 -> d 1%nat = d1 -> d 2%nat = d2 -> d 3%nat = d3 -> d 4%nat = d4 ->
       d0 = false /\ d1 = false /\ d2 = false /\ d3 = false /\ d4 = false).
    { intros d0 d1 d2 d3 d4 E0 E1 E2 E3 E4.
      destruct R as [->|[->|[->| ->]]]; cbn [plus mult Nat.modulo Nat.divmod fst snd Nat.sub] in H0, H1, H2, H3, H4;
        rewrite E0, E1, E2, E3, E4 in *;
        destruct d0, d1, d2, d3, d4; cbn in H0, H1, H2, H3, H4; try discriminate; auto. }
    destruct (G _ _ _ _ _ eq_refl eq_refl eq_refl eq_refl eq_refl) as (G0 & G1 & G2 & G3 & G4).
    intros x Hx. change (d x = false). do 5 (destruct x as [|x]; [assumption|]). exfalso; clear - Hx; lia. }
  intros x Hx. specialize (Z x Hx). destruct (p x), (q x); cbn in Z; congruence.
Qed.
Lemma pow2_mod5 l : ((2 ^ l) mod 5 <> 0)%nat.
Proof.
  assert (E : forall l, ((2 ^ l) mod 5 = 1 \/ (2 ^ l) mod 5 = 2 \/ (2 ^ l) mod 5 = 3 \/ (2 ^ l) mod 5 = 4)%nat).
  { induction l0 as [|n IH]; [cbn; auto|]. rewrite Nat.pow_succ_r', <- Nat.mul_mod_idemp_r by lia.
    destruct IH as [->|[->|[->| ->]]]; cbn; auto. }
  destruct (E l) as [->|[->|[->| ->]]]; discriminate.
Qed.
Lemma TP_inj l C D : ceq (2 ^ l) (TP (2 ^ l) 1 C) (TP (2 ^ l) 1 D) -> ceq (2 ^ l) C D.
Proof.
  intros H. assert (Hw : (0 < 2 ^ l)%nat) by (apply Nat.neq_0_lt_0, Nat.pow_nonzero; lia).
  pose proof (TP_pow _ C D Hw H l) as P. intros x z Hx Hz. set (w := (2 ^ l)%nat) in *.
  apply (five (fun x => C x z) (fun x => D x z) w); [apply pow2_mod5| |exact Hx].
  intros x' Hx'. specialize (P x' z Hx' Hz). unfold TP in P.
  replace ((z + w * (w - 1)) mod w)%nat with z in P; [exact P|]. rewrite (Nat.mul_comm w), Nat.mod_add, Nat.mod_small by lia. reflexivity.
Qed.
Lemma THETA_parity w A x z : TH_C (THETA w A) x z = TP w 1 (TH_C A) x z.
Proof.
  unfold TP. replace (4 * 1)%nat with 4%nat by lia. rewrite Nat.mul_1_l. fold (TH_D w A x z). unfold TH_C at 1, THETA.
  change (xorb (TH_C A ((x + 4) mod 5)%nat z) (TH_C A ((x + 1) mod 5)%nat ((z + (w - 1)) mod w)%nat)) with (TH_D w A x z).
  unfold TH_C at 1. destruct (TH_D w A x z), (A x 0%nat z), (A x 1%nat z), (A x 2%nat z), (A x 3%nat z), (A x 4%nat z); reflexivity.
Qed.
Lemma THETA_inj l A B : aeq (2 ^ l) (THETA (2 ^ l) A) (THETA (2 ^ l) B) -> aeq (2 ^ l) A B.
Proof.
  intros H. assert (Hw : (0 < 2 ^ l)%nat) by (apply Nat.neq_0_lt_0, Nat.pow_nonzero; lia). set (w := (2 ^ l)%nat) in *.
  assert (P : ceq w (TH_C A) (TH_C B)).
  { apply TP_inj. intros x z Hx Hz. fold w. rewrite <- !THETA_parity. apply (TH_C_ext w); auto. }
  intros x y z Hx Hy Hz. pose proof (H x y z Hx Hy Hz) as E. unfold THETA in E.
  assert (D : TH_D w A x z = TH_D w B x z).
  { unfold TH_D. rewrite !P; auto using m5. apply Nat.mod_upper_bound. lia. }
  rewrite D in E. destruct (A x y z), (B x y z), (TH_D w B x z); cbn in E; congruence.
Qed.
Lemma RHO_inj w A B : (0 < w)%nat -> aeq w (RHO w A) (RHO w B) -> aeq w A B.
Proof.
  intros Hw H x y z Hx Hy Hz.
  pose proof (Z.mod_pos_bound (Z.of_nat z + RHO_off x y) (Z.of_nat w) ltac:(lia)) as Q.
  pose proof (H x y (Z.to_nat ((Z.of_nat z + RHO_off x y) mod Z.of_nat w)) Hx Hy ltac:(lia)) as E. unfold RHO in E.
  rewrite Z2Nat.id in E by lia. rewrite Zminus_mod_idemp_l in E.
  replace (Z.of_nat z + RHO_off x y - RHO_off x y) with (Z.of_nat z) in E by lia. rewrite Z.mod_small, Nat2Z.id in E by lia. exact E.
Qed.
Lemma PI_inj w A B : aeq w (PI A) (PI B) -> aeq w A B.
Proof.
  intros H x y z Hx Hy Hz. pose proof (H y ((2 * x + 3 * y) mod 5)%nat z Hy (m5 _) Hz) as E. unfold PI in E.
  replace ((y + 3 * ((2 * x + 3 * y) mod 5)) mod 5)%nat with x in E; [exact E|].
  do 5 (destruct x as [|x]; [do 5 (destruct y as [|y]; [reflexivity|]); lia|]). lia.
Qed.
Lemma chi_row (a b : nat -> bool) :
  (forall x, (x < 5)%nat -> xorb (a x) (negb (a ((x + 1) mod 5)%nat) && a ((x + 2) mod 5)%nat) = xorb (b x) (negb (b ((x + 1) mod 5)%nat) && b ((x + 2) mod 5)%nat)) ->
  forall x, (x < 5)%nat -> a x = b x.
Proof.
  intros H. assert (H0 := H 0%nat (proj1 (Nat.ltb_lt 0 5) eq_refl)). assert (H1 := H 1%nat (proj1 (Nat.ltb_lt 1 5) eq_refl)). assert (H2 := H 2%nat (proj1 (Nat.ltb_lt 2 5) eq_refl)).
  assert (H3 := H 3%nat (proj1 (Nat.ltb_lt 3 5) eq_refl)). assert (H4 := H 4%nat (proj1 (Nat.ltb_lt 4 5) eq_refl)). clear H.
  cbn [plus Nat.modulo Nat.divmod fst snd Nat.sub] in H0, H1, H2, H3, H4.
  assert (G : a 0%nat = b 0%nat /\ a 1%nat = b 1%nat /\ a 2%nat = b 2%nat /\ a 3%nat = b 3%nat /\ a 4%nat = b 4%nat).
  { destruct (a 0%nat), (a 1%nat), (a 2%nat), (a 3%nat), (a 4%nat); cbn [xorb negb andb] in H0, H1, H2, H3, H4;
    destruct (b 0%nat), (b 1%nat); cbn [xorb negb andb] in H0, H1, H2, H3, H4; try discriminate;
    destruct (b 2%nat), (b 3%nat), (b 4%nat); cbn in H0, H1, H2, H3, H4; try discriminate; auto. }
  destruct G as (G0 & G1 & G2 & G3 & G4). intros x Hx. do 5 (destruct x as [|x]; [assumption|]). exfalso; clear - Hx; lia.
Qed.
Lemma CHI_inj w A B : aeq w (CHI A) (CHI B) -> aeq w A B.
Proof.
  intros H x y z Hx Hy Hz. apply (chi_row (fun x => A x y z) (fun x => B x y z)); [|exact Hx].
  intros x' Hx'. exact (H x' y z Hx' Hy Hz).
Qed.
Lemma IOTA_inj w l ir A B : aeq w (IOTA l ir A) (IOTA l ir B) -> aeq w A B.
Proof.
  intros H x y z Hx Hy Hz. pose proof (H x y z Hx Hy Hz) as E. unfold IOTA in E.
  destruct ((x =? 0)%nat && (y =? 0)%nat); [|exact E]. destruct (A x y z), (B x y z), (RC_lane l ir z); cbn in E; congruence.
Qed.
Lemma RND_inj l ir A B : aeq (2 ^ l) (RND l ir A) (RND l ir B) -> aeq (2 ^ l) A B.
Proof.
  intros H. apply THETA_inj, (RHO_inj (2 ^ l)); [apply Nat.neq_0_lt_0, Nat.pow_nonzero; lia|]. apply PI_inj, CHI_inj. eapply IOTA_inj. exact H.
Qed.
Lemma rounds_inj l (g : nat -> Z) is : forall A B,
  aeq (2 ^ l) (fold_left (fun A i => RND l (g i) A) is A) (fold_left (fun A i => RND l (g i) A) is B) -> aeq (2 ^ l) A B.
Proof.
  induction is as [|i is IH]; intros A B H; [exact H|]. cbn [fold_left] in H. apply IH in H. eapply RND_inj. exact H.
Qed.
Lemma KECCAK_p_inj l nr S S' : length S = (25 * 2 ^ l)%nat -> length S' = (25 * 2 ^ l)%nat -> KECCAK_p l nr S = KECCAK_p l nr S' -> S = S'.
Proof.
  intros L L' E. assert (Hw : (0 < 2 ^ l)%nat) by (apply Nat.neq_0_lt_0, Nat.pow_nonzero; lia). unfold KECCAK_p in E. cbv zeta in E.
  set (A := fold_left _ _ (to_array (2 ^ l) S)) in E. set (B := fold_left _ _ (to_array (2 ^ l) S')) in E.
  assert (Q : aeq (2 ^ l) A B).
  { eapply aeq_trans; [apply aeq_sym, (to_array_string _ A Hw)|]. rewrite E. apply to_array_string, Hw. }
  unfold A, B in Q. apply (rounds_inj l (fun i => 12 + 2 * Z.of_nat l - Z.of_nat nr + Z.of_nat i)) in Q.
  rewrite <- (to_string_array (2 ^ l) S Hw L), <- (to_string_array (2 ^ l) S' Hw L'). apply to_string_ext; auto.
Qed.
(** All strings of a length, to pass from injective to bijective. *)
Fixpoint all_strings (n : nat) : list (list bool) :=
  match n with O => [[]] | S n => map (cons false) (all_strings n) ++ map (cons true) (all_strings n) end.
Lemma all_strings_in n s : In s (all_strings n) <-> length s = n.
Proof.
  revert s; induction n as [|n IH]; intros s; cbn [all_strings].
  - split; [intros [<-|[]]; reflexivity|]. destruct s; [left; reflexivity|discriminate].
  - rewrite in_app_iff, !in_map_iff. split.
    + intros [(x & <- & H)|(x & <- & H)]; apply IH in H; cbn; lia.
    + destruct s as [|[] s]; intros H; try discriminate; injection H as H; apply IH in H; [right|left]; exists s; auto.
Qed.
Lemma all_strings_nodup n : NoDup (all_strings n).
Proof.
  induction n as [|n IH]; cbn [all_strings]; [constructor; [intros []|constructor]|].
  assert (M : forall c, NoDup (map (cons c) (all_strings n))).
  { intros c. apply FinFun.Injective_map_NoDup; [|exact IH]. intros a b E. congruence. }
  assert (A : forall (l1 l2 : list (list bool)), NoDup l1 -> NoDup l2 -> (forall x, In x l1 -> ~ In x l2) -> NoDup (l1 ++ l2)).
  { induction l1 as [|a l1 IHl]; intros l2 N1 N2 D; [exact N2|]. inversion N1 as [|? ? Ha N1']. subst. cbn [app]. constructor.
    - rewrite in_app_iff. intros [Q|Q]; [apply Ha, Q|]. apply (D a); [left; reflexivity|exact Q].
    - apply IHl; auto. intros x Hx. apply D. right. exact Hx. }
  apply A; auto. intros x Hx Hy. apply in_map_iff in Hx. apply in_map_iff in Hy. destruct Hx as (a & <- & _). destruct Hy as (b & E & _). discriminate E.
Qed.
Lemma inj_bij n (f : list bool -> list bool) : (forall s, length s = n -> length (f s) = n) ->
  (forall s s', length s = n -> length s' = n -> f s = f s' -> s = s') -> forall t, length t = n -> exists s, length s = n /\ f s = t.
Proof.
  intros Hl Hi t Ht.
  assert (N : NoDup (map f (all_strings n))).
  { assert (K : forall l, NoDup l -> (forall s, In s l -> length s = n) -> NoDup (map f l)).
    { induction l as [|a l IH]; intros Nd Fl; [constructor|]. inversion Nd as [|? ? Ha Nd']. subst. cbn [map]. constructor.
      - intros Q. apply in_map_iff in Q. destruct Q as (x & E & Hx). apply Hi in E; [subst; auto|apply Fl; right; exact Hx|apply Fl; left; reflexivity].
      - apply IH; auto. intros s Hs. apply Fl. right. exact Hs. }
    apply K; [apply all_strings_nodup|]. intros s Hs. apply all_strings_in, Hs. }
  assert (I : incl (all_strings n) (map f (all_strings n))).
  { apply NoDup_length_incl; [exact N|rewrite map_length; lia|]. intros x Hx. apply in_map_iff in Hx. destruct Hx as (s & <- & Hs).
    apply all_strings_in, Hl, all_strings_in, Hs. }
  pose proof (I t (proj2 (all_strings_in n t) Ht)) as Q. apply in_map_iff in Q. destruct Q as (s & E & Hs). exists s. split; [apply all_strings_in, Hs|exact E].
Qed.
Lemma KECCAK_p_bij l nr T : length T = (25 * 2 ^ l)%nat ->
  exists S, (length S = (25 * 2 ^ l)%nat /\ KECCAK_p l nr S = T) /\ forall S', length S' = (25 * 2 ^ l)%nat /\ KECCAK_p l nr S' = T -> S' = S.
Proof.
  intros HT. destruct (inj_bij (25 * 2 ^ l) (KECCAK_p l nr)) with (t := T) as (S & L & E); auto.
  - intros s _. apply KECCAK_p_length.
  - intros s s' L L'. apply KECCAK_p_inj; auto.
  - exists S. split; [auto|]. intros S' [L' E']. apply (KECCAK_p_inj l nr); auto. congruence.
Qed.

(** ** The byte interface of [permutation] *)
Lemma map_flat {A B C} (f : B -> C) (g : A -> list B) l : map f (flat_map g l) = flat_map (fun x => map f (g x)) l.
Proof. induction l as [|a l IH]; [reflexivity|]. cbn [flat_map]. rewrite map_app, IH. reflexivity. Qed.
Lemma rev_h2b m : rev (h2b m) = flat_map (fun e => rev (map (fun i => Z.testbit e (Z.of_nat i)) (seq 0 8))) (rev m).
Proof.
  induction m as [|e m IH]; [reflexivity|]. change (h2b (e :: m)) with (map (fun i => Z.testbit e (Z.of_nat i)) (seq 0 8) ++ h2b m).
  rewrite rev_app_distr, IH. cbn [rev]. rewrite flat_map_app. cbn [flat_map]. rewrite app_nil_r. reflexivity.
Qed.
Lemma rev_h2b_nth m i : (i < 8 * length m)%nat -> nth i (rev (h2b m)) false = Z.testbit (nth (length m - i / 8 - 1) m 0) (Z.of_nat (7 - i mod 8)).
Proof.
  intros H. rewrite rev_nth by (rewrite h2b_length; lia). rewrite h2b_length, h2b_nth.
  pose proof (Nat.div_mod i 8 ltac:(lia)) as D. pose proof (Nat.mod_upper_bound i 8 ltac:(lia)) as M.
  set (q := (i / 8)%nat) in *. set (r := (i mod 8)%nat) in *. clearbody q r.
  replace (8 * length m - S i)%nat with (7 - r + (length m - q - 1) * 8)%nat by lia.
  rewrite Nat.div_add, Nat.mod_add by lia. rewrite Nat.div_small, Nat.mod_small by lia. reflexivity.
Qed.
Lemma ab_from_slice data w : (0 < w)%nat -> (25 * w <= 8 * length data)%nat ->
  to_string w (ab (cvt_from_slice data w)) = firstn (25 * w) (rev (h2b data)).
Proof.
  intros Hw HL. rewrite to_string_map by auto.
  apply nth_ext with (d := false) (d' := false).
  - rewrite map_length, seq_length, firstn_length_le; [reflexivity|]. rewrite rev_length, h2b_length. exact HL.
  - intros i Hi. rewrite map_length, seq_length in Hi. rewrite nth_map_seq by auto.
    destruct (idx_ranges w i Hw Hi) as (R1 & R2 & R3 & R4). unfold idx_arr, ab, cvt_from_slice. rewrite sget_tab3 by auto. cbv zeta. rewrite R4.
    assert (N : forall (l : list bool) n i, (i < n)%nat -> nth i (firstn n l) false = nth i l false).
    { induction l as [|c l IH]; intros [|n] [|j] H; cbn [firstn nth]; try lia; auto. apply IH. lia. }
    rewrite N, rev_h2b_nth by lia. rewrite <- Z.bit0_odd, Z.land_spec, Z.shiftr_spec, Z.add_0_l by lia. change (Z.testbit 1 0) with true. apply andb_true_r.
Qed.
Lemma cell_land1 v : cell (Z.land v 1).
Proof. change 1 with (Z.ones 1). rewrite Z.land_ones by lia. unfold cell. pose proof (Z.mod_pos_bound v (2 ^ 1) ltac:(lia)). change (2 ^ 1) with 2 in *. lia. Qed.
Lemma from_slice_wf data w : wf w (cvt_from_slice data w).
Proof. unfold cvt_from_slice. apply wf_tab3. intros. apply cell_land1. Qed.
Definition perm_spec (l nr : nat) (data : list Z) : list Z := b2h (KECCAK_p l nr (firstn (25 * 2 ^ l) (rev (h2b data)))).
Lemma permutation_ok k data : kwf k -> k_b k = (25 * k_w k)%nat -> (k_nr k <= 12 + 2 * k_l k)%nat ->
  ((k_b k + 7) / 8 <= length data)%nat ->
  exists k', permutation k data = (k', Ok (perm_spec (k_l k) (k_nr k) data)) /\ kwf k' /\ kparams k k'.
Proof.
  intros W Eb Hnr HL. unfold permutation. destruct (Nat.ltb_spec (length data) ((k_b k + 7) / 8)) as [X|_]; [lia|]. cbv zeta.
  destruct (kwf_put_out k (cvt_from_slice data (k_w k)) W (from_slice_wf _ _)) as [W1 P1].
  set (k1 := k_put_out k (cvt_from_slice data (k_w k))) in *.
  assert (I1 : k_in k1 = cvt_from_slice data (k_w k)) by apply k_in_put_out.
  destruct P1 as (Pb & Pw & Pl & Pn).
  destruct (perm_ok k1 W1 ltac:(rewrite Pn, Pl; exact Hnr)) as (E & W2 & P2).
  destruct (kwf_flip (permutation_inner k1) W2) as [W3 P3].
  exists (k_flip (permutation_inner k1)). split; [|split; [exact W3|]].
  - f_equal. f_equal. assert (Hw := kw_pos k W).
    destruct P2 as (Qb & Qw & Ql & Qn).
    rewrite (finish_cells _ (k_in (permutation_inner k1))); [|rewrite Qw, Pw; exact Hw|apply kwf_in, W2].
    rewrite cvt_to_slice_ok. change (to_string (k_w (permutation_inner k1)) (ab (k_in (permutation_inner k1)))) with (str (permutation_inner k1)).
    rewrite E, Pl, Pn. unfold perm_spec, str. rewrite I1, Pw. f_equal. f_equal.
    assert (Ew : k_w k = (2 ^ k_l k)%nat) by apply W.
    rewrite ab_from_slice; [rewrite Ew; reflexivity|exact Hw|]. pose proof (Nat.div_mod (k_b k + 7) 8 ltac:(lia)). pose proof (Nat.mod_upper_bound (k_b k + 7) 8 ltac:(lia)). lia.
  - destruct P2 as (? & ? & ? & ?), P3 as (? & ? & ? & ?). repeat split; congruence.
Qed.
Lemma keccak_new_ok b nr k : keccak_new b nr = Ok k -> exists l, (l <= 6)%nat /\ b = (25 * 2 ^ l)%nat /\ kwf k /\ k_b k = b /\ k_w k = (2 ^ l)%nat /\ k_l k = l /\ k_nr k = nr.
Proof.
  unfold keccak_new. destruct (existsb (Nat.eqb b) KECCAK_WIDTHS) eqn:E; [|discriminate]. intros H. cbv zeta in H. assert (H' := f_equal (fun r => match r with Ok v => v | _ => k end) H). cbv beta iota in H'. subst k. clear H.
  apply existsb_exists in E. destruct E as (x & Hx & E). apply Nat.eqb_eq in E. subst x.
  cbn [KECCAK_WIDTHS In] in Hx.
  assert (G : forall l, (l <= 6)%nat -> (b / 25 = 2 ^ l)%nat -> b = (25 * 2 ^ l)%nat -> trailing_zeros 64 (b / 25) = l ->
    exists l, (l <= 6)%nat /\ b = (25 * 2 ^ l)%nat /\ kwf (mkKeccak b (b / 25) (trailing_zeros 64 (b / 25)) nr (zero_arr (b / 25)) (zero_arr (b / 25)) false) /\
      b = b /\ (b / 25 = 2 ^ l)%nat /\ trailing_zeros 64 (b / 25) = l /\ nr = nr).
  { intros l Hl E1 E2 E3. exists l. repeat split; auto; cbn [k_l k_w k_buf0 k_buf1]; rewrite ?E3; auto; try lia; apply wf_tab3; intros; exact cell_0. }
  cbn [k_b k_w k_l k_nr].
  repeat (destruct Hx as [Hx|Hx]; [first [apply (G 0%nat); subst b; first [lia|reflexivity]|apply (G 1%nat); subst b; first [lia|reflexivity]
    |apply (G 2%nat); subst b; first [lia|reflexivity]|apply (G 3%nat); subst b; first [lia|reflexivity]|apply (G 4%nat); subst b; first [lia|reflexivity]
    |apply (G 5%nat); subst b; first [lia|reflexivity]|apply (G 6%nat); subst b; first [lia|reflexivity]]|]). destruct Hx.
Qed.
(** Any sequence of calls on one object. *)
Fixpoint perm_run (k : keccak) (ds : list (list Z)) : list (res (list Z)) :=
  match ds with [] => [] | d :: ds => let '(k', r) := permutation k d in r :: perm_run k' ds end.
Lemma perm_run_ok l nr ds : (nr <= 12 + 2 * l)%nat -> forall k, kwf k -> k_b k = (25 * 2 ^ l)%nat -> k_w k = (2 ^ l)%nat -> k_l k = l -> k_nr k = nr ->
  perm_run k ds = map (fun d => if (length d <? (25 * 2 ^ l + 7) / 8)%nat then Err InvalidParameter else Ok (perm_spec l nr d)) ds.
Proof.
  intros Hnr. induction ds as [|d ds IH]; intros k W Eb Ew El En; [reflexivity|]. cbn [perm_run map].
  destruct (Nat.ltb_spec (length d) ((25 * 2 ^ l + 7) / 8)) as [X|X].
  - unfold permutation. rewrite Eb. destruct (Nat.ltb_spec (length d) ((25 * 2 ^ l + 7) / 8)) as [_|Y]; [|lia]. rewrite IH by auto. reflexivity.
  - destruct (permutation_ok k d W) as (k' & E & W' & (P1 & P2 & P3 & P4)); [rewrite Eb, Ew; reflexivity|rewrite En, El; exact Hnr|rewrite Eb; exact X|].
    rewrite E, El, En. rewrite IH; auto; congruence.
Qed.

(** ** Sponges at every accepted rate *)
Fixpoint sponge_run (s : sponge) (cs : list (list Z * nat * nat)) : res (list (list Z)) :=
  match cs with
  | [] => Ok []
  | (data, n, want) :: cs =>
      match sponge_call s data n want with
      | Ok (s', d) => match sponge_run s' cs with Ok ds => Ok (d :: ds) | Err e => Err e | Panic => Panic end
      | Err e => Err e
      | Panic => Panic
      end
  end.
Lemma sponge_run_ok l nr rate cs : (nr <= 12 + 2 * l)%nat -> (0 < rate <= 25 * 2 ^ l)%nat -> Forall (fun '(data, n, _) => (n <= 8 * length data)%nat) cs ->
  forall s, sp_rate s = rate -> kwf (sp_k s) -> k_b (sp_k s) = (25 * 2 ^ l)%nat -> k_w (sp_k s) = (2 ^ l)%nat -> k_l (sp_k s) = l -> k_nr (sp_k s) = nr ->
  sponge_run s cs = Ok (map (fun '(data, n, want) => b2h (SPONGE (KECCAK_p l nr) (25 * 2 ^ l) rate (firstn n (h2b data)) want)) cs).
Proof.
  intros Hnr Hr. induction 1 as [|[[data n] want] cs Hn F IH]; intros s Er W Eb Ew El En; [reflexivity|]. cbn [sponge_run map].
  unfold sponge_call. destruct (Nat.leb_spec n (8 * length data)) as [_|X]; [|lia].
  unfold write_to_buf, clear_buf. cbn [sp_rate sp_k sp_buf app]. rewrite flat_byte_bits, firstn_map.
  destruct (sponge_ok (sp_k s) rate W ltac:(rewrite Eb, Ew; reflexivity) ltac:(rewrite En, El; exact Hnr) ltac:(rewrite Eb; exact Hr) (firstn n (h2b data)) want)
    as (sp & E & R1 & R2 & (P1 & P2 & P3 & P4)).
  rewrite Er, E, El, En, Eb. rewrite IH; auto; congruence.
Qed.
Lemma sponge_rate0 s want : sp_rate s = 0%nat -> sponge_buf s want = Panic.
Proof. intros E. unfold sponge_buf. rewrite E. reflexivity. Qed.
Lemma tab3_ext w f g : (forall x y z, (x < 5)%nat -> (y < 5)%nat -> (z < w)%nat -> f x y z = g x y z) -> tab3 w f = tab3 w g.
Proof.
  intros H. unfold tab3, tab2. apply map_ext_in. intros x Hx. apply map_ext_in. intros y Hy. apply map_ext_in. intros z Hz.
  apply in_seq in Hx. apply in_seq in Hy. apply in_seq in Hz. apply H; lia.
Qed.
Lemma absorb_agree w rate b1 b2 s : (forall i, (i < 25 * w)%nat -> nth i b1 0 = nth i b2 0) -> absorb w rate b1 s = absorb w rate b2 s.
Proof.
  intros H. unfold absorb. apply tab3_ext. intros x y z Hx Hy Hz. cbv zeta. destruct (rate <=? w * (5 * y + x) + z)%nat; [reflexivity|].
  rewrite H; [reflexivity|]. nia.
Qed.
Lemma kw_put_out k s : k_w (k_put_out k s) = k_w k.
Proof. unfold k_put_out. destruct (k_flag k); reflexivity. Qed.
Lemma kw_put_in k s : k_w (k_put_in k s) = k_w k.
Proof. unfold k_put_in. destruct (k_flag k); reflexivity. Qed.
Lemma nth_skipn {A} (l : list A) n i d : nth i (skipn n l) d = nth (n + i) l d.
Proof. revert n i; induction l as [|c l IH]; intros [|n] i; cbn [skipn nth plus]; auto. destruct i; reflexivity. Qed.
Lemma sponge_blind k rate M1 M2 want : (25 * k_w k < rate)%nat -> length M1 = length M2 ->
  (forall i, (i mod rate < 25 * k_w k)%nat -> nth i M1 0 = nth i M2 0) ->
  exists s1 s2 d, sponge_buf (mkSponge rate k M1) want = Ok (s1, d) /\ sponge_buf (mkSponge rate k M2) want = Ok (s2, d).
Proof.
  intros Hr HL H. unfold sponge_buf. cbn [sp_rate sp_k sp_buf]. destruct (Nat.eqb_spec rate 0) as [X|_]; [lia|]. cbv zeta. rewrite <- HL.
  set (tail := [1] ++ repeat 0 (minus_rem_euclid 0 (length M1 + 2) rate) ++ [1]).
  replace (length (M2 ++ tail)) with (length (M1 ++ tail)) by (rewrite !app_length, HL; reflexivity).
  set (n := (length (M1 ++ tail) / rate)%nat).
  assert (T : forall i, (i mod rate < 25 * k_w k)%nat -> nth i (M1 ++ tail) 0 = nth i (M2 ++ tail) 0).
  { intros i Hi. destruct (Nat.lt_ge_cases i (length M1)) as [L|L].
    - rewrite !app_nth1 by lia. apply H, Hi.
    - rewrite !app_nth2 by lia. rewrite HL. reflexivity. }
  assert (Ab : forall i s, absorb (k_w k) rate (skipn (i * rate) (M1 ++ tail)) s = absorb (k_w k) rate (skipn (i * rate) (M2 ++ tail)) s).
  { intros i s. apply absorb_agree. intros j Hj. rewrite !nth_skipn. apply T. rewrite Nat.add_comm, Nat.mod_add by lia. rewrite Nat.mod_small by lia. exact Hj. }
  assert (E : forall is k0, fold_left (fun k0 i => permutation_inner (k_put_out k0 (absorb (k_w k) rate (skipn (i * rate) (M1 ++ tail)) (k_in k0)))) is k0 =
                            fold_left (fun k0 i => permutation_inner (k_put_out k0 (absorb (k_w k) rate (skipn (i * rate) (M2 ++ tail)) (k_in k0)))) is k0).
  { induction is as [|i is IH]; intros k0; [reflexivity|]. cbn [fold_left]. rewrite Ab. apply IH. }
  rewrite E. destruct (squeeze (S want) rate want [] (fold_left (fun k0 i => permutation_inner (k_put_out k0 (absorb (k_w k) rate (skipn (i * rate) (M2 ++ tail)) (k_in k0)))) (seq 0 n)
    (k_put_out k (zero_arr (k_w k))))) as [k' results]. eexists. eexists. eexists. split; reflexivity.
Qed.
(** One bit beyond the width is ignored. *)
Definition coll0 (b : nat) : list Z := repeat 0 (b / 8 + 1).
Definition coll1 (b : nat) : list Z := repeat 0 (b / 8) ++ [2 ^ Z.of_nat (b mod 8)].
Lemma coll_bits b i : nth i (h2b (coll0 b)) false = false /\ nth i (h2b (coll1 b)) false = (i =? b)%nat.
Proof.
  pose proof (Nat.div_mod b 8 ltac:(lia)) as D. pose proof (Nat.mod_upper_bound b 8 ltac:(lia)) as M.
  pose proof (Nat.div_mod i 8 ltac:(lia)) as Di. pose proof (Nat.mod_upper_bound i 8 ltac:(lia)) as Mi.
  rewrite !h2b_nth. unfold coll0, coll1. split.
  - assert (N : nth (i / 8) (repeat 0 (b / 8 + 1)) 0 = 0) by (generalize (b / 8 + 1)%nat; generalize (i / 8)%nat; intros a c; revert a; induction c as [|c IH]; intros [|a]; cbn [repeat nth]; auto).
    rewrite N. apply Z.testbit_0_l.
  - destruct (Nat.lt_ge_cases (i / 8) (b / 8)) as [L|L].
    + rewrite app_nth1 by (rewrite repeat_length; exact L).
      assert (N : nth (i / 8) (repeat 0 (b / 8)) 0 = 0) by (generalize (b / 8)%nat; generalize (i / 8)%nat; intros a c; revert a; induction c as [|c IH]; intros [|a]; cbn [repeat nth]; auto).
      rewrite N, Z.testbit_0_l. symmetry. apply Nat.eqb_neq. intros ->. lia.
    + rewrite app_nth2 by (rewrite repeat_length; exact L). rewrite repeat_length. destruct (Nat.eq_dec (i / 8) (b / 8)) as [E|E].
      * rewrite E, Nat.sub_diag. cbn [nth]. rewrite Z.pow2_bits_eqb by lia. destruct (Nat.eqb_spec i b) as [->|X]; [apply Z.eqb_refl|].
        apply Z.eqb_neq. lia.
      * rewrite nth_overflow by (cbn [length]; lia). rewrite Z.testbit_0_l. symmetry. apply Nat.eqb_neq. intros ->. lia.
Qed.
Lemma coll_len b : (length (coll0 b) = b / 8 + 1 /\ length (coll1 b) = b / 8 + 1)%nat.
Proof. unfold coll0, coll1. rewrite app_length, !repeat_length. cbn [length]. lia. Qed.
Lemma coll_bytes b : bytes (coll0 b) /\ bytes (coll1 b).
Proof.
  assert (R : forall n, bytes (repeat 0 n)) by (intros n; apply Forall_forall; intros x Hx; apply repeat_spec in Hx; subst; unfold byte; lia).
  split; [apply R|]. apply Forall_app. split; [apply R|]. constructor; [|constructor]. unfold byte.
  pose proof (Nat.mod_upper_bound b 8 ltac:(lia)). split; [apply Z.pow_nonneg; lia|]. change 256 with (2 ^ 8). apply Z.pow_lt_mono_r; lia.
Qed.
Lemma coll_neq b : coll0 b <> coll1 b.
Proof. intros E. destruct (coll_bits b b) as [A B]. rewrite E in A. rewrite A, Nat.eqb_refl in B. discriminate. Qed.
Lemma nth_firstn_b (l : list bool) n i : (i < n)%nat -> nth i (firstn n l) false = nth i l false.
Proof. revert n i; induction l as [|c l IH]; intros [|n] [|j] H; cbn [firstn nth]; try lia; auto. apply IH. lia. Qed.
Lemma coll_sponge b rate s want : (b < rate)%nat -> sp_rate s = rate -> (25 * k_w (sp_k s) = b)%nat ->
  exists s1 s2 d, sponge_call s (coll0 b) (b + 1) want = Ok (s1, d) /\ sponge_call s (coll1 b) (b + 1) want = Ok (s2, d).
Proof.
  intros Hr Er Ew. unfold sponge_call. destruct (coll_len b) as [L0 L1]. rewrite L0, L1.
  pose proof (Nat.div_mod b 8 ltac:(lia)) as D. pose proof (Nat.mod_upper_bound b 8 ltac:(lia)) as M.
  destruct (Nat.leb_spec (b + 1) (8 * (b / 8 + 1))) as [_|X]; [|lia]. unfold write_to_buf, clear_buf. cbn [sp_rate sp_k sp_buf app].
  rewrite !flat_byte_bits, !firstn_map, Er. apply sponge_blind; [lia| |].
  - rewrite !map_length, !firstn_length, !h2b_length, L0, L1. reflexivity.
  - intros i Hi. rewrite Ew in Hi. change 0 with (Z.b2z false). rewrite !map_nth. f_equal.
    destruct (Nat.lt_ge_cases i (b + 1)) as [Hb|Hb].
    + rewrite !nth_firstn_b by auto. destruct (coll_bits b i) as [-> ->]. symmetry. apply Nat.eqb_neq. intros ->.
      rewrite Nat.mod_small in Hi by lia. lia.
    + rewrite !nth_overflow; [reflexivity| |]; rewrite firstn_length; lia.
Qed.
