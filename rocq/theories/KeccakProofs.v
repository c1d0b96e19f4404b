(** The Keccak step mappings, permutation and sponge of the code are those of FIPS 202. *)
From Verif Require Import Base KeccakModel KeccakSpec.

(** ** Arrays *)
Lemma nth_map_seq {A} (f : nat -> A) n i d : (i < n)%nat -> nth i (map f (seq 0 n)) d = f i.
Proof. intros H. rewrite (nth_indep _ _ (f 0%nat)) by (rewrite map_length, seq_length; exact H). rewrite map_nth, seq_nth by exact H. reflexivity. Qed.
Lemma tab2_get {A} n w (f : nat -> nat -> A) x z d : (x < n)%nat -> (z < w)%nat -> nth z (nth x (tab2 n w f) []) d = f x z.
Proof. intros Hx Hz. unfold tab2. rewrite nth_map_seq by exact Hx. apply nth_map_seq. exact Hz. Qed.
Lemma sget_tab3 w f x y z : (x < 5)%nat -> (y < 5)%nat -> (z < w)%nat -> sget (tab3 w f) x y z = f x y z.
Proof. intros Hx Hy Hz. unfold sget, tab3. rewrite nth_map_seq by exact Hx. apply tab2_get; assumption. Qed.
Definition cell (c : Z) : Prop := c = 0 \/ c = 1.
Definition wf (w : nat) (s : sarr) : Prop :=
  length s = 5%nat /\ Forall (fun sh => length sh = 5%nat /\ Forall (fun lane => length lane = w /\ Forall cell lane) sh) s.
Lemma sget_cell w s x y z : wf w s -> cell (sget s x y z).
Proof.
  intros [L F]. unfold sget. destruct (Nat.lt_ge_cases x 5) as [Hx|Hx]; [|rewrite (nth_overflow s) by lia; destruct y; destruct z; left; reflexivity].
  rewrite Forall_forall in F. destruct (F (nth x s []) ltac:(apply nth_In; lia)) as [L2 F2].
  destruct (Nat.lt_ge_cases y 5) as [Hy|Hy]; [|rewrite (nth_overflow (nth x s [])) by lia; destruct z; left; reflexivity].
  rewrite Forall_forall in F2. destruct (F2 (nth y (nth x s []) []) ltac:(apply nth_In; lia)) as [L3 F3].
  destruct (Nat.lt_ge_cases z w) as [Hz|Hz]; [|rewrite nth_overflow by lia; left; reflexivity].
  rewrite Forall_forall in F3. apply F3, nth_In. lia.
Qed.
Lemma wf_tab3 w f : (forall x y z, cell (f x y z)) -> wf w (tab3 w f).
Proof.
  intros H. unfold wf, tab3, tab2. rewrite map_length, seq_length. split; [reflexivity|].
  apply Forall_map, Forall_forall. intros x _. rewrite map_length, seq_length. split; [reflexivity|].
  apply Forall_map, Forall_forall. intros y _. rewrite map_length, seq_length. split; [reflexivity|].
  apply Forall_map, Forall_forall. intros z _. apply H.
Qed.
Lemma cell_lxor a b : cell a -> cell b -> cell (Z.lxor a b).
Proof. intros [->| ->] [->| ->]; unfold cell; cbn; auto. Qed.
Lemma cell_land a b : cell a -> cell b -> cell (Z.land a b).
Proof. intros [->| ->] [->| ->]; unfold cell; cbn; auto. Qed.
Lemma cell_0 : cell 0. Proof. left; reflexivity. Qed.
Lemma cell_1 : cell 1. Proof. right; reflexivity. Qed.
Lemma cell_b2z b : cell (Z.b2z b).
Proof. destruct b; [right|left]; reflexivity. Qed.
Lemma cell_odd c : cell c -> c = Z.b2z (Z.odd c).
Proof. intros [->| ->]; reflexivity. Qed.
Lemma nth_cell l i : Forall cell l -> cell (nth i l 0).
Proof.
  intros F. destruct (Nat.lt_ge_cases i (length l)) as [H|H]; [|rewrite nth_overflow by lia; left; reflexivity].
  rewrite Forall_forall in F. apply F, nth_In, H.
Qed.
Lemma odd_lxor a b : Z.odd (Z.lxor a b) = xorb (Z.odd a) (Z.odd b).
Proof. rewrite <- !Z.bit0_odd. apply Z.lxor_spec. Qed.
Lemma odd_land a b : Z.odd (Z.land a b) = andb (Z.odd a) (Z.odd b).
Proof. rewrite <- !Z.bit0_odd. apply Z.land_spec. Qed.

Definition ab (s : sarr) : barr := fun x y z => Z.odd (sget s x y z).
Definition aeq (w : nat) (A B : barr) : Prop := forall x y z, (x < 5)%nat -> (y < 5)%nat -> (z < w)%nat -> A x y z = B x y z.
Lemma aeq_refl w A : aeq w A A. Proof. intros x y z _ _ _. reflexivity. Qed.
Lemma aeq_trans w A B C : aeq w A B -> aeq w B C -> aeq w A C.
Proof. intros H1 H2 x y z Hx Hy Hz. rewrite H1, H2; auto. Qed.
Lemma aeq_sym w A B : aeq w A B -> aeq w B A.
Proof. intros H x y z Hx Hy Hz. symmetry. apply H; auto. Qed.
Lemma m5 x : (x mod 5 < 5)%nat. Proof. apply Nat.mod_upper_bound. lia. Qed.
Lemma zmw w a : (0 < w)%nat -> (Z.to_nat (a mod Z.of_nat w) < w)%nat.
Proof. intros H. pose proof (Z.mod_pos_bound a (Z.of_nat w) ltac:(lia)). lia. Qed.

(** ** theta *)
Lemma TH_C_ext w A B : aeq w A B -> forall x z, (x < 5)%nat -> (z < w)%nat -> TH_C A x z = TH_C B x z.
Proof. intros H x z Hx Hz. unfold TH_C. rewrite !H by lia. reflexivity. Qed.
Lemma TH_D_ext w A B : aeq w A B -> forall x z, (x < 5)%nat -> (z < w)%nat -> TH_D w A x z = TH_D w B x z.
Proof.
  intros H x z Hx Hz. unfold TH_D. rewrite !(TH_C_ext w A B H); auto using m5. apply Nat.mod_upper_bound. lia.
Qed.
Lemma THETA_ext w A B : aeq w A B -> aeq w (THETA w A) (THETA w B).
Proof. intros H x y z Hx Hy Hz. unfold THETA. rewrite (TH_D_ext w A B H), H by auto. reflexivity. Qed.
Lemma theta_ok w s : aeq w (ab (theta w s)) (THETA w (ab s)).
Proof.
  intros x y z Hx Hy Hz. unfold ab at 1, theta. rewrite sget_tab3 by auto. rewrite odd_lxor. unfold THETA. f_equal.
  rewrite tab2_get by auto. rewrite odd_lxor. unfold TH_D.
  assert (C : forall x z, (x < 5)%nat -> (z < w)%nat -> Z.odd (nth z (nth x (tab2 5 w (fun x0 z0 => Z.lxor
     (Z.lxor (Z.lxor (Z.lxor (sget s x0 0 z0) (sget s x0 1 z0)) (sget s x0 2 z0)) (sget s x0 3 z0)) (sget s x0 4 z0))) []) 0) = TH_C (ab s) x z).
  { intros x0 z0 H1 H2. rewrite tab2_get by auto. rewrite !odd_lxor. unfold TH_C, ab. rewrite !xorb_assoc_reverse. reflexivity. }
  f_equal.
  - rewrite C; auto; [f_equal|].
    + destruct x as [|[|[|[|[|x]]]]]; try reflexivity; lia.
    + destruct x as [|[|[|[|[|x]]]]]; cbn; lia.
  - rewrite C; auto using m5.
    + f_equal. destruct (Nat.ltb_spec z 1).
      * assert (z = 0)%nat by lia. subst z. rewrite Nat.add_0_l, Nat.mod_small by lia. reflexivity.
      * replace (z + (w - 1))%nat with (z - 1 + 1 * w)%nat by lia. rewrite Nat.mod_add by lia. reflexivity.
    + destruct (Nat.ltb_spec z 1); [lia|]. apply Nat.mod_upper_bound. lia.
Qed.
Lemma theta_wf w s : wf w s -> wf w (theta w s).
Proof.
  intros H. unfold theta. apply wf_tab3. intros x y z. apply cell_lxor; [apply (sget_cell w); exact H|].
  assert (T : forall n (f : nat -> nat -> Z), (forall x z, cell (f x z)) -> forall x z, cell (nth z (nth x (tab2 n w f) []) 0)).
  { intros n f Hf x0 z0. destruct (Nat.lt_ge_cases x0 n) as [Hx|Hx].
    - destruct (Nat.lt_ge_cases z0 w) as [Hz|Hz]; [rewrite tab2_get by auto; apply Hf|].
      unfold tab2. rewrite nth_map_seq by auto. rewrite nth_overflow by (rewrite map_length, seq_length; lia). exact cell_0.
    - rewrite (nth_overflow (tab2 n w f)) by (unfold tab2; rewrite map_length, seq_length; lia). destruct z0; exact cell_0. }
  apply T. intros. apply cell_lxor; apply T; intros; repeat apply cell_lxor; apply (sget_cell w); exact H.
Qed.

(** ** rho *)
Lemma mre_spec z o w : (0 < w)%nat -> minus_rem_euclid z o w = Z.to_nat ((Z.of_nat z - Z.of_nat o) mod Z.of_nat w).
Proof.
  intros H. unfold minus_rem_euclid. destruct (Nat.ltb_spec z o) as [L|L].
  - destruct (Nat.ltb_spec 0 ((o - z) mod w)) as [G|G].
    + replace (Z.of_nat z - Z.of_nat o) with (- Z.of_nat (o - z)) by lia.
      rewrite Z.mod_opp_l_nz by (try lia; rewrite <- Nat2Z.inj_mod; lia). rewrite <- Nat2Z.inj_mod. lia.
    + replace (Z.of_nat z - Z.of_nat o) with (- Z.of_nat (o - z)) by lia.
      rewrite Z.mod_opp_l_z by (try lia; rewrite <- Nat2Z.inj_mod; lia). reflexivity.
  - rewrite <- Nat2Z.inj_sub, <- Nat2Z.inj_mod, Nat2Z.id by lia. reflexivity.
Qed.
(** The walk visits each lane but (0,0) once; [L x y t] stands for the lane written at time [t]. *)
Definition rho_stepG (L : nat -> nat -> nat -> list Z) (st : nat * nat * sarr) (t : nat) : nat * nat * sarr :=
  let '(x, y, out) := st in (y, ((2 * x + 3 * y) mod 5)%nat, set_lane out x y (L x y t)).
(** The time at which lane [x][y] is written. *)
Definition rho_time : list (list nat) :=
  [[0; 7; 1; 13; 19]; [0; 23; 3; 8; 10]; [18; 2; 17; 4; 21]; [6; 9; 16; 5; 14]; [12; 22; 20; 15; 11]]%nat.
Lemma rho_fold L0 L out : length out = 5%nat -> Forall (fun sh => length sh = 5%nat) out ->
  snd (fold_left (rho_stepG L) (seq 0 24) (1%nat, 0%nat, set_lane out 0 0 L0)) =
  map (fun x => map (fun y => if (x =? 0)%nat && (y =? 0)%nat then L0 else L x y (nth y (nth x rho_time []) 0%nat)) (seq 0 5)) (seq 0 5).
Proof.
  intros Lo F.
  destruct out as [|o0 [|o1 [|o2 [|o3 [|o4 [|o5 out]]]]]]; try discriminate Lo.
  do 5 (apply Forall_cons_iff in F; destruct F as [? F]).
  assert (D5 : forall o : list (list Z), length o = 5%nat -> exists a b c d e, o = [a; b; c; d; e]).
  { intros o Ho. destruct o as [|a [|b [|c [|d [|e [|f o]]]]]]; try discriminate Ho. eauto 6. }
  repeat match goal with H : length ?o = 5%nat |- _ => destruct (D5 o H) as (? & ? & ? & ? & ? & ->); clear H end.
  cbv. reflexivity.
Qed.
Lemma rho_eq w a out : wf w out -> rho w a out =
  map (fun x => map (fun y => if (x =? 0)%nat && (y =? 0)%nat then map (fun z => sget a 0 0 z) (seq 0 w)
    else (fun t => map (fun z => sget a x y (minus_rem_euclid z ((t + 1) * (t + 2) / 2) w)) (seq 0 w)) (nth y (nth x rho_time []) 0%nat)) (seq 0 5)) (seq 0 5).
Proof.
  intros [L F].
  assert (F' : Forall (fun sh => length sh = 5%nat) out) by (eapply Forall_impl; [|exact F]; cbn; intros ? [? _]; assumption).
  exact (rho_fold (map (fun z => sget a 0 0 z) (seq 0 w))
    (fun x y t => map (fun z => sget a x y (minus_rem_euclid z ((t + 1) * (t + 2) / 2) w)) (seq 0 w)) out L F').
Qed.
Lemma rho_get w a out x y z : (0 < w)%nat -> wf w out -> (x < 5)%nat -> (y < 5)%nat -> (z < w)%nat ->
  sget (rho w a out) x y z = sget a x y (Z.to_nat ((Z.of_nat z - RHO_off x y) mod Z.of_nat w)).
Proof.
  intros Hw Ho Hx Hy Hz. rewrite rho_eq by exact Ho. unfold sget at 1.
  rewrite nth_map_seq by auto. rewrite nth_map_seq by auto. cbv beta.
  assert (G : forall xx yy, (xx < 5)%nat -> (yy < 5)%nat -> (xx =? 0)%nat && (yy =? 0)%nat = false ->
     Z.of_nat ((nth yy (nth xx rho_time []) 0%nat + 1) * (nth yy (nth xx rho_time []) 0%nat + 2) / 2) = RHO_off xx yy).
  { intros xx yy H1 H2. destruct xx as [|[|[|[|[|xx]]]]]; [..|lia]; (destruct yy as [|[|[|[|[|yy]]]]]; [..|lia]);
      first [discriminate|intros _; vm_compute; reflexivity]. }
  destruct ((x =? 0)%nat && (y =? 0)%nat) eqn:E.
  - apply andb_true_iff in E as [E1 E2]. apply Nat.eqb_eq in E1, E2. subst x y. rewrite nth_map_seq by auto.
    change (RHO_off 0 0) with 0. rewrite Z.sub_0_r, Z.mod_small, Nat2Z.id by lia. reflexivity.
  - rewrite nth_map_seq by auto. rewrite mre_spec, G by auto. reflexivity.
Qed.
Lemma rho_ok w a out : (0 < w)%nat -> wf w out -> aeq w (ab (rho w a out)) (RHO w (ab a)).
Proof. intros Hw Ho x y z Hx Hy Hz. unfold ab at 1. rewrite rho_get by auto. reflexivity. Qed.
Lemma RHO_ext w A B : (0 < w)%nat -> aeq w A B -> aeq w (RHO w A) (RHO w B).
Proof. intros Hw H x y z Hx Hy Hz. unfold RHO. apply H; auto. apply zmw. exact Hw. Qed.
Lemma rho_wf w a out : wf w a -> wf w out -> wf w (rho w a out).
Proof.
  intros Ha Ho. rewrite rho_eq by exact Ho.
  unfold wf. rewrite map_length, seq_length. split; [reflexivity|].
  apply Forall_map, Forall_forall. intros x _. rewrite map_length, seq_length. split; [reflexivity|].
  apply Forall_map, Forall_forall. intros y _.
  destruct ((x =? 0)%nat && (y =? 0)%nat); rewrite map_length, seq_length; (split; [reflexivity|]);
    apply Forall_map, Forall_forall; intros z _; apply (sget_cell w); exact Ha.
Qed.

(** ** pi and chi *)
Lemma pi_ok w a : aeq w (ab (pi w a)) (PI (ab a)).
Proof. intros x y z Hx Hy Hz. unfold ab at 1, pi. rewrite sget_tab3 by auto. reflexivity. Qed.
Lemma PI_ext w A B : aeq w A B -> aeq w (PI A) (PI B).
Proof. intros H x y z Hx Hy Hz. unfold PI. apply H; auto using m5. Qed.
Lemma pi_wf w a : wf w a -> wf w (pi w a).
Proof. intros H. apply wf_tab3. intros. apply (sget_cell w). exact H. Qed.
Lemma chi_ok w a : aeq w (ab (chi w a)) (CHI (ab a)).
Proof.
  intros x y z Hx Hy Hz. unfold ab at 1, chi. rewrite sget_tab3 by auto. rewrite odd_lxor, odd_land, odd_lxor.
  unfold CHI, ab. change (Z.odd 1) with true. rewrite xorb_true_r. reflexivity.
Qed.
Lemma CHI_ext w A B : aeq w A B -> aeq w (CHI A) (CHI B).
Proof. intros H x y z Hx Hy Hz. unfold CHI. rewrite !H by auto using m5. reflexivity. Qed.
Lemma chi_wf w a : wf w a -> wf w (chi w a).
Proof.
  intros H. apply wf_tab3. intros. apply cell_lxor; [apply (sget_cell w); exact H|]. apply cell_land; [apply cell_lxor; [|exact cell_1]|]; apply (sget_cell w); exact H.
Qed.

(** ** iota *)
Lemma set_nth_length {A} (l : list A) i v : (i < length l)%nat -> length (set_nth l i v) = length l.
Proof. intros H. unfold set_nth. rewrite app_length, firstn_length_le by lia. cbn [length]. rewrite skipn_length. lia. Qed.
Lemma set_nth_nth {A} (l : list A) i v j d : (i < length l)%nat -> nth j (set_nth l i v) d = if (j =? i)%nat then v else nth j l d.
Proof.
  intros H. unfold set_nth. destruct (Nat.eqb_spec j i) as [->|N].
  - rewrite app_nth2 by (rewrite firstn_length_le; lia). rewrite firstn_length_le, Nat.sub_diag by lia. reflexivity.
  - destruct (Nat.lt_ge_cases j i) as [Q|Q].
    + rewrite app_nth1 by (rewrite firstn_length_le; lia). rewrite <- (firstn_skipn i l) at 2. rewrite app_nth1 by (rewrite firstn_length_le; lia). reflexivity.
    + rewrite app_nth2 by (rewrite firstn_length_le; lia). rewrite firstn_length_le by lia.
      destruct (j - i)%nat as [|k] eqn:E; [lia|]. cbn [nth]. rewrite <- (firstn_skipn (S i) l) at 2.
      rewrite app_nth2 by (rewrite firstn_length_le; lia). rewrite firstn_length_le by lia. f_equal. lia.
Qed.
Lemma set_nth_Forall {A} (P : A -> Prop) l i v : Forall P l -> P v -> Forall P (set_nth l i v).
Proof.
  intros F Pv. unfold set_nth. apply Forall_app. split; [|constructor; [exact Pv|]].
  - rewrite <- (firstn_skipn i l) in F. apply Forall_app in F. apply F.
  - rewrite <- (firstn_skipn (S i) l) in F. apply Forall_app in F. apply F.
Qed.
Lemma rc_table : forallb (fun t => let z := Z.of_nat t in rc z =? Z.b2z (RC_bit z)) (seq 0 255) = true.
Proof. vm_compute. reflexivity. Qed.
Lemma rc_ok t : 0 <= t < 2 ^ 32 -> rc t = Z.b2z (RC_bit t).
Proof.
  intros H. assert (E : rc t = rc (t mod 255)).
  { unfold rc. pose proof (Z.mod_pos_bound t 255 ltac:(lia)). rewrite !(proj2 (Z.leb_le 0 _)) by lia.
    change 4294967295 with (Z.ones 32). rewrite !Z.land_ones by lia. rewrite !(Z.mod_small _ (2 ^ 32)) by lia.
    rewrite Z.mod_mod by lia. reflexivity. }
  assert (E2 : RC_bit t = RC_bit (t mod 255)) by (unfold RC_bit; rewrite Z.mod_mod by lia; reflexivity).
  rewrite E, E2. pose proof (Z.mod_pos_bound t 255 ltac:(lia)) as B.
  pose proof rc_table as T. rewrite forallb_forall in T. specialize (T (Z.to_nat (t mod 255))). cbv beta zeta in T.
  rewrite Z2Nat.id in T by lia. apply Z.eqb_eq, T. apply in_seq. lia.
Qed.
(** For negative round positions the code mirrors the index instead of reducing it. *)
Lemma rc_negative t : - 2 ^ 32 <= t < 0 -> rc t = rc (- (t + 1)).
Proof.
  intros H. unfold rc. rewrite (proj2 (Z.leb_gt 0 t)) by lia. rewrite (proj2 (Z.leb_le 0 (- (t + 1)))) by lia.
  change 4294967295 with (Z.ones 32). rewrite !Z.land_ones by lia. rewrite (Z.mod_small (- (t + 1))) by lia.
  assert (E : (t mod 2 ^ 32) mod 255 = (t + 1) mod 255).
  { replace (t mod 2 ^ 32) with (t + 1 * 2 ^ 32) by (apply Z.mod_unique_pos with (q := -1); lia).
    replace (t + 1 * 2 ^ 32) with (t + 1 + 16843009 * 255) by lia. apply Z.mod_add. lia. }
  rewrite E. pose proof (Z.mod_pos_bound (t + 1) 255 ltac:(lia)) as B.
  destruct (Nat.ltb_spec 0 (Z.to_nat ((t + 1) mod 255))) as [Q|Q].
  - rewrite (Z.mod_opp_l_nz (t + 1)) by lia. replace (Z.to_nat (255 - (t + 1) mod 255)) with (255 - Z.to_nat ((t + 1) mod 255))%nat by lia. reflexivity.
  - rewrite (Z.mod_opp_l_z (t + 1)) by lia. reflexivity.
Qed.
Definition rcs_of (v : nat -> Z) (n : nat) : list Z := fold_left (fun rcs j => set_nth rcs (2 ^ j - 1) (v j)) (seq 0 n) (repeat 0 64).
Lemma pow2_lt j : (j < 7 -> 2 ^ j - 1 < 64)%nat.
Proof. intros H. do 7 (destruct j as [|j]; [cbn; lia|]). lia. Qed.
Lemma rcs_length v n : (n <= 7)%nat -> length (rcs_of v n) = 64%nat.
Proof.
  induction n as [|n IH]; intros H; [reflexivity|]. unfold rcs_of in *. rewrite seq_S, fold_left_app. cbn [fold_left plus].
  rewrite set_nth_length; [apply IH; lia|]. rewrite IH by lia. apply pow2_lt. lia.
Qed.
Lemma rcs_get v n z : (n <= 7)%nat -> Z.odd (nth z (rcs_of v n) 0) = existsb (fun j => (z =? 2 ^ j - 1)%nat && Z.odd (v j)) (seq 0 n).
Proof.
  induction n as [|n IH]; intros H.
  - unfold rcs_of. cbn [seq fold_left existsb]. destruct (nth_in_or_default z (repeat 0 64) 0) as [I|I]; [apply repeat_spec in I|]; rewrite I; reflexivity.
  - rewrite seq_S, existsb_app. cbn [existsb plus]. rewrite orb_false_r.
    assert (E : rcs_of v (S n) = set_nth (rcs_of v n) (2 ^ n - 1) (v n)) by (unfold rcs_of; rewrite seq_S, fold_left_app; reflexivity).
    rewrite E, set_nth_nth by (rewrite rcs_length by lia; apply pow2_lt; lia).
    destruct (Nat.eqb_spec z (2 ^ n - 1)) as [->|N]; cbn [andb]; [|rewrite orb_false_r; apply IH; lia].
    replace (existsb _ (seq 0 n)) with false; [reflexivity|]. symmetry. apply not_true_iff_false. intros X.
    apply existsb_exists in X as (j & I & X). apply in_seq in I. apply andb_true_iff in X as [X _]. apply Nat.eqb_eq in X.
    assert (2 ^ j < 2 ^ n)%nat by (apply Nat.pow_lt_mono_r; lia). assert (1 <= 2 ^ j)%nat by (apply Nat.le_succ_l, Nat.neq_0_lt_0, Nat.pow_nonzero; lia). lia.
Qed.
Lemma rcs_cell v n : (forall j, cell (v j)) -> Forall cell (rcs_of v n).
Proof.
  intros V. induction n as [|n IH]; [apply Forall_forall; intros x I; apply repeat_spec in I; rewrite I; exact cell_0|].
  unfold rcs_of in *. rewrite seq_S, fold_left_app. cbn [fold_left]. apply set_nth_Forall; auto.
Qed.
Lemma set_lane_get s x y lane a b c : length s = 5%nat -> Forall (fun sh => length sh = 5%nat) s -> (x < 5)%nat -> (y < 5)%nat ->
  sget (set_lane s x y lane) a b c = if (a =? x)%nat && (b =? y)%nat then nth c lane 0 else sget s a b c.
Proof.
  intros L F Hx Hy. unfold sget, set_lane. rewrite set_nth_nth by lia. destruct (Nat.eqb_spec a x) as [->|N]; cbn [andb]; [|reflexivity].
  rewrite set_nth_nth. { destruct (Nat.eqb_spec b y) as [->|N]; reflexivity. }
  rewrite Forall_forall in F. rewrite (F (nth x s [])); [exact Hy|]. apply nth_In. lia.
Qed.
Lemma iota_get w l ir a x y z : wf w a -> (l <= 6)%nat -> (z < w)%nat ->
  sget (iota w l ir a) x y z = if (x =? 0)%nat && (y =? 0)%nat then Z.lxor (sget a 0 0 z) (nth z (rcs_of (fun j => rc (Z.of_nat j + 7 * ir)) (l + 1)) 0) else sget a x y z.
Proof.
  intros [L F] Hl Hz. unfold iota. rewrite set_lane_get; try lia.
  - destruct ((x =? 0)%nat && (y =? 0)%nat); [|reflexivity]. rewrite nth_map_seq by auto. reflexivity.
  - eapply Forall_impl; [|exact F]. cbn. intros ? [? _]. assumption.
Qed.
Lemma iota_ok w l ir a : wf w a -> (l <= 6)%nat -> 0 <= ir < 2 ^ 28 -> aeq w (ab (iota w l ir a)) (IOTA l ir (ab a)).
Proof.
  intros Ha Hl Hir x y z Hx Hy Hz. unfold ab at 1. rewrite iota_get by auto. unfold IOTA, ab.
  destruct ((x =? 0)%nat && (y =? 0)%nat) eqn:E; [|reflexivity]. apply andb_true_iff in E as [E1 E2]. apply Nat.eqb_eq in E1, E2. subst.
  rewrite odd_lxor. f_equal. rewrite rcs_get by lia. unfold RC_lane.
  assert (X : forall n, (n <= 7)%nat -> existsb (fun j => (z =? 2 ^ j - 1)%nat && Z.odd (rc (Z.of_nat j + 7 * ir))) (seq 0 n) = existsb (fun j => (z =? 2 ^ j - 1)%nat && RC_bit (Z.of_nat j + 7 * ir)) (seq 0 n)).
  { induction n as [|n IH]; intros Hn; [reflexivity|]. rewrite seq_S, !existsb_app, IH by lia. cbn [existsb plus]. rewrite rc_ok by lia.
    destruct (RC_bit (Z.of_nat n + 7 * ir)); reflexivity. }
  apply X. lia.
Qed.
Lemma rc_cell t : cell (rc t).
Proof.
  unfold rc. destruct (_ =? 0)%nat; [exact cell_1|]. apply nth_cell.
  assert (F : Forall cell (set_nth (repeat 0 262) 7 1)) by (apply set_nth_Forall; [apply Forall_forall; intros x I; apply repeat_spec in I; rewrite I; exact cell_0|exact cell_1]).
  revert F. generalize (set_nth (repeat 0 262) 7 1) as r. generalize (seq 8 (if 0 <=? t then Z.to_nat (Z.land t 4294967295 mod 255) else
       if (0 <? Z.to_nat (Z.land t 4294967295 mod 255))%nat then (255 - Z.to_nat (Z.land t 4294967295 mod 255))%nat else 0%nat)) as is.
  induction is as [|i is IH]; intros r F; cbn [fold_left]; [exact F|]. apply IH. unfold rc_step.
  assert (X : forall j r, Forall cell r -> Forall cell (set_nth r (i - j) (Z.lxor (nth (i - j) r 0) (nth (i - 8) r 0)))).
  { intros j r' F'. apply set_nth_Forall; [exact F'|]. apply cell_lxor; apply nth_cell; exact F'. }
  apply X, X, X, X, F.
Qed.
Lemma iota_wf w l ir a : wf w a -> (l <= 6)%nat -> wf w (iota w l ir a).
Proof.
  intros Ha Hl. destruct Ha as [L F]. unfold iota, set_lane, wf. rewrite set_nth_length by lia. split; [exact L|].
  apply set_nth_Forall; [exact F|]. assert (F0 := F). rewrite Forall_forall in F0. destruct (F0 (nth 0 a []) ltac:(apply nth_In; lia)) as [L2 F2].
  rewrite set_nth_length by lia. split; [exact L2|]. apply set_nth_Forall; [exact F2|]. rewrite map_length, seq_length. split; [reflexivity|].
  apply Forall_map, Forall_forall. intros z _. apply cell_lxor; [apply (sget_cell w); split; assumption|]. apply nth_cell. apply (rcs_cell _ (l + 1)). intros j. apply rc_cell.
Qed.
Lemma IOTA_ext w l ir A B : aeq w A B -> aeq w (IOTA l ir A) (IOTA l ir B).
Proof. intros H x y z Hx Hy Hz. unfold IOTA. rewrite H by auto. reflexivity. Qed.
