(** The routines of P224Model.v as operations of the field of residues modulo p. *)
From Coq Require Import Znumtheory Field.
From Verif Require Import Base Words HashModel NumTheory RsaModel RsaEncModel DsaProofs EcGroup Fp EllModel EllSpec EllProofs P224Model P224Spec LimbTac P224Large P224Reduce P224Conv.
Local Open Scope Z_scope.

(** ** Without reference to a field: limbs and integers *)
Definition below (B : Z) (a : list Z) : Prop := length a = 8%nat /\ Forall (fun x => 0 <= x <= B) a.
Definition tight (a : list Z) : Prop := exists x l, a = x :: l /\ 0 <= x <= 2 ^ 28 - 1 /\ length l = 7%nat /\ Forall (fun x => 0 <= x <= 2 ^ 29 - 2) l.
Ltac eight_of a := match goal with L : length a = 8%nat |- _ =>
  do 8 (let x := fresh "x" in destruct a as [|x a]; [discriminate L|]); destruct a; [|discriminate L]; clear L end.
Lemma below_le B C a : B <= C -> below B a -> below C a.
Proof. intros L [E F]. split; [exact E|]. eapply Forall_impl; [|exact F]. cbn. lia. Qed.
Lemma tight_below a : tight a -> below (2 ^ 29 - 2) a.
Proof. intros (x & l & -> & X & L & F). split; [cbn; lia|]. constructor; [lia|exact F]. Qed.
Lemma below_limbs B a : below (B - 1) a <-> limbs_below B a.
Proof. unfold below, limbs_below. split; intros [L F]; (split; [exact L|]); (eapply Forall_impl; [|exact F]); cbn; lia. Qed.

Local Notation q := (2 ^ 224 - 2 ^ 96 + 1).
Lemma large_tight t0 t1 t2 t3 t4 t5 t6 t7 t8 t9 t10 t11 t12 t13 t14 :
  let t := [t0; t1; t2; t3; t4; t5; t6; t7; t8; t9; t10; t11; t12; t13; t14] in
  Forall (fun x => 0 <= x <= 2 ^ 62 - 1) t -> tight (p224_reduce_large t) /\ cong q (val28 (p224_reduce_large t)) (val28 t) /\ 2 ^ 96 - 1 <= val28 (p224_reduce_large t).
Proof.
  intros t F. subst t. destruct (reduce_large_8 _ _ _ _ _ _ _ _ _ _ _ _ _ _ _ F) as (o0 & o1 & o2 & o3 & o4 & o5 & o6 & o7 & -> & B0 & B & C & O4).
  split; [|split; [exact C|cbn [val28]; lia]]. exists o0, [o1; o2; o3; o4; o5; o6; o7]. split; [reflexivity|]. split; [exact B0|]. split; [reflexivity|].
  destruct B as (B1 & B2 & B3 & B4 & B5 & B6 & B7). repeat constructor; first [apply B1|apply B2|apply B3|apply B4|apply B5|apply B6|apply B7].
Qed.
Lemma mul_ok a b : below (2 ^ 29 - 1) a /\ below (2 ^ 30 - 1) b \/ below (2 ^ 30 - 1) a /\ below (2 ^ 29 - 1) b ->
  tight (p224_mul a b) /\ cong q (val28 (p224_mul a b)) (val28 a * val28 b) /\ 2 ^ 96 - 1 <= val28 (p224_mul a b).
Proof.
  intros H. unfold p224_mul. destruct H as [[[La Fa] [Lb Fb]]|[[La Fa] [Lb Fb]]]; eight_of a; eight_of b.
  - destruct (mul_rows _ _ _ _ _ _ _ _ _ _ _ _ _ _ _ _ Fa Fb) as (t0 & t1 & t2 & t3 & t4 & t5 & t6 & t7 & t8 & t9 & t10 & t11 & t12 & t13 & t14 & -> & B & V).
    rewrite <- V. apply large_tight, B.
  - destruct (mul_rows2 _ _ _ _ _ _ _ _ _ _ _ _ _ _ _ _ Fa Fb) as (t0 & t1 & t2 & t3 & t4 & t5 & t6 & t7 & t8 & t9 & t10 & t11 & t12 & t13 & t14 & -> & B & V).
    rewrite <- V. apply large_tight, B.
Qed.
Lemma square_ok a : below (2 ^ 29 - 1) a -> tight (p224_square a) /\ cong q (val28 (p224_square a)) (val28 a * val28 a) /\ 2 ^ 96 - 1 <= val28 (p224_square a).
Proof.
  intros [La Fa]. unfold p224_square. eight_of a.
  destruct (square_rows _ _ _ _ _ _ _ _ Fa) as (t0 & t1 & t2 & t3 & t4 & t5 & t6 & t7 & t8 & t9 & t10 & t11 & t12 & t13 & t14 & -> & B & V).
  rewrite <- V. apply large_tight, B.
Qed.
Lemma reduce_ok a : below (2 ^ 32 - 16) a -> below (2 ^ 29 - 1) (p224_reduce a) /\ cong q (val28 (p224_reduce a)) (val28 a).
Proof.
  intros [La Fa]. eight_of a. destruct (reduce_8 _ _ _ _ _ _ _ _ Fa) as (o0 & o1 & o2 & o3 & o4 & o5 & o6 & o7 & -> & B & C).
  split; [|exact C]. split; [reflexivity|exact B].
Qed.
Lemma add_limbs A B a b : below A a -> below B b -> A + B < M32 -> below (A + B) (p224_add a b) /\ val28 (p224_add a b) = val28 a + val28 b.
Proof.
  intros [La Fa] [Lb Fb] S. eight_of a. eight_of b. unfold p224_add, zip_with. cbn [combine map fst snd]. split_bounds.
  unfold add32. rewrite !(Z.mod_small _ M32) by lia. split; [split; [reflexivity|repeat (apply Forall_cons; [lia|]); constructor]|]. cbn [val28]. ring.
Qed.
Lemma cong_eq x y k : x = y + k * q -> cong q x y. Proof. intros ->. exists k. ring. Qed.
Lemma sub_limbs A B a b : below A a -> below B b -> A <= 2 ^ 31 - 24 -> B <= 2 ^ 31 - 2 ^ 16 -> below (2 ^ 32 - 16) (p224_sub a b) /\ cong q (val28 (p224_sub a b)) (val28 a - val28 b).
Proof.
  intros [La Fa] [Lb Fb] S T. eight_of a. eight_of b. unfold p224_sub, zero31, two31p3, two31m3, two31m15m3. cbn [combine map fst snd]. split_bounds.
  unfold add32, sub32, M32. rewrite !(Z.mod_small _ 4294967296) by (rewrite ?(Z.mod_small (_ + _) 4294967296) by lia; lia).
  split; [split; [reflexivity|repeat (apply Forall_cons; [lia|]); constructor]|]. apply (cong_eq _ _ 8). cbn [val28]. ring.
Qed.
(** [beta << 2] for a product [beta], minus a reduced element *)
Lemma sub_shift2 a b : tight a -> below (2 ^ 29 - 1) b ->
  below (2 ^ 32 - 16) (p224_sub (map (fun x => shl32 x 2) a) b) /\ cong q (val28 (p224_sub (map (fun x => shl32 x 2) a) b)) (4 * val28 a - val28 b).
Proof.
  intros (x0 & l & -> & X0 & Ll & Fl) [Lb Fb]. do 7 (destruct l as [|? l]; [discriminate Ll|]). destruct l; [|discriminate Ll]. clear Ll. eight_of b.
  unfold p224_sub, zero31, two31p3, two31m3, two31m15m3. cbn [combine map fst snd]. split_bounds.
  unfold shl32, add32, sub32, M32. rewrite !Z.shiftl_mul_pow2 by lia. change (2 ^ 2) with 4. rewrite !(Z.mod_small (_ * 4) 4294967296) by lia.
  rewrite !(Z.mod_small (_ * 4 + _) 4294967296) by lia. rewrite !(Z.mod_small (_ - _) 4294967296) by lia.
  split; [split; [reflexivity|repeat (apply Forall_cons; [lia|]); constructor]|]. apply (cong_eq _ _ 8). cbn [val28]. ring.
Qed.
Lemma shl_limbs A k a : below A a -> 0 <= k -> A * 2 ^ k < M32 -> below (A * 2 ^ k) (map (fun x => shl32 x k) a) /\ val28 (map (fun x => shl32 x k) a) = 2 ^ k * val28 a.
Proof.
  intros [La Fa] K S. eight_of a. cbn [map]. split_bounds. assert (P := Z.pow_pos_nonneg 2 k ltac:(lia) K). set (m := 2 ^ k) in *.
  unfold shl32. rewrite !Z.shiftl_mul_pow2 by lia. fold m. clearbody m. rewrite !(Z.mod_small (_ * _) M32) by nia.
  split; [split; [reflexivity|repeat (apply Forall_cons; [nia|]); constructor]|]. cbn [val28]. ring.
Qed.
Lemma triple_limbs A a : below A a -> 3 * A < M32 -> below (3 * A) (map (fun x => add32 x (shl32 x 1)) a) /\ val28 (map (fun x => add32 x (shl32 x 1)) a) = 3 * val28 a.
Proof.
  intros [La Fa] S. eight_of a. cbn [map]. split_bounds. unfold add32, shl32. rewrite !Z.shiftl_mul_pow2 by lia. change (2 ^ 1) with 2.
  rewrite !(Z.mod_small (_ * 2) M32) by lia. rewrite !(Z.mod_small (_ + _) M32) by lia.
  split; [split; [reflexivity|repeat (apply Forall_cons; [lia|]); constructor]|]. cbn [val28]. ring.
Qed.
Lemma triple2_limbs A a : below A a -> 3 * A < M32 -> below (3 * A) (map (fun m => (m * 3) mod M32) a) /\ val28 (map (fun m => (m * 3) mod M32) a) = 3 * val28 a.
Proof.
  intros [La Fa] S. eight_of a. cbn [map]. split_bounds.
  rewrite !(Z.mod_small (_ * 3) M32) by lia.
  split; [split; [reflexivity|repeat (apply Forall_cons; [lia|]); constructor]|]. cbn [val28]. ring.
Qed.
Lemma lxor_select0 x y : Z.lxor x (Z.land (Z.lxor x y) 0) = x.
Proof. rewrite Z.land_0_r, Z.lxor_0_r. reflexivity. Qed.
Lemma lxor_select1 x y : 0 <= x < M32 -> 0 <= y < M32 -> Z.lxor x (Z.land (Z.lxor x y) (M32 - 1)) = y.
Proof.
  intros X Y. change (M32 - 1) with (Z.ones 32). rewrite Z.land_ones by lia. rewrite Z.mod_small.
  - rewrite <- Z.lxor_assoc, Z.lxor_nilpotent, Z.lxor_0_l. reflexivity.
  - exact (lxor_range 32 x y ltac:(lia) X Y).
Qed.
Lemma copy_0 a b : length a = length b -> copy_conditional a b 0 = a.
Proof.
  unfold copy_conditional. change (sar31 (shl32 0 31)) with 0. unfold zip_with. revert b. induction a as [|x a IH]; intros [|y b] L; try discriminate L; [reflexivity|].
  cbn [combine map fst snd]. rewrite lxor_select0, IH; [reflexivity|]. injection L. auto.
Qed.
Lemma copy_1 B a b : B < M32 -> below B a -> below B b -> copy_conditional a b 1 = b.
Proof.
  intros S [La Fa] [Lb Fb]. assert (L : length a = length b) by congruence. clear La Lb.
  unfold copy_conditional. change (sar31 (shl32 1 31)) with (M32 - 1). unfold zip_with. revert b Fb L. induction a as [|x a IH]; intros [|y b] Fb L; try discriminate L; [reflexivity|].
  apply Forall_cons_iff in Fa. apply Forall_cons_iff in Fb. cbn [combine map fst snd]. rewrite lxor_select1 by lia. rewrite IH; [reflexivity|apply Fa|apply Fb|]. injection L. auto.
Qed.

(** The comparison of two contracted elements. *)
Lemma limbs_eq_iff a b : length a = length b -> (limbs_eq a b = true <-> a = b).
Proof.
  revert b. induction a as [|x a IH]; intros [|y b] L; try discriminate L; cbn [limbs_eq]; [tauto|].
  rewrite andb_true_iff, Z.eqb_eq, IH by (injection L; auto). split; [intros [-> ->]; reflexivity|intros E; injection E; auto].
Qed.
Definition digits (l : list Z) : Prop := length l = 8%nat /\ Forall (fun x => 0 <= x <= 2 ^ 28 - 1) l.
Lemma digits_inj l : forall k, length l = length k -> Forall (fun x => 0 <= x <= 2 ^ 28 - 1) l -> Forall (fun x => 0 <= x <= 2 ^ 28 - 1) k -> val28 l = val28 k -> l = k.
Proof.
  induction l as [|x l IH]; intros [|y k] L Fl Fk E; try discriminate L; [reflexivity|]. apply Forall_cons_iff in Fl, Fk. cbn [val28] in E.
  assert (x = y) as -> by lia. f_equal. apply IH; [injection L; auto|apply Fl|apply Fk|lia].
Qed.
(** A contracted element determines its representative, except that a number below 2^96 and that number plus p can look alike. *)
Lemma contract_cases a : below (2 ^ 30 - 1) a -> exists v, 0 <= v < 2 ^ 224 /\ cong q v (val28 a) /\ rep96 (val28 a) v /\ length (p224_contract a) = 8%nat /\
  (v < q - 1 \/ v mod 2 ^ 28 <> 0 -> digits (p224_contract a) /\ val28 (p224_contract a) = contracted v) /\
  (q - 1 <= v -> v mod 2 ^ 28 = 0 -> exists l, p224_contract a = (M32 - 1) :: l /\ length l = 7%nat /\ Forall (fun x => 0 <= x <= 2 ^ 28 - 1) l /\ 2 ^ 28 * val28 l = v - q + 1).
Proof.
  intros [LA HA]. eight_of a. destruct (contract_8 _ _ _ _ _ _ _ _ HA) as (o0 & o1 & o2 & o3 & o4 & o5 & o6 & o7 & C & B & E & P96). exists (val28 [o0; o1; o2; o3; o4; o5; o6; o7]).
  assert (B' : id (Forall (fun x => 0 <= x <= 2 ^ 28 - 1) [o0; o1; o2; o3; o4; o5; o6; o7])) by exact B. split_bounds. split; [cbn [val28]; lia|]. split; [exact C|]. split; [exact P96|]. clear P96. rewrite E. unfold contracted. rewrite val28_mod0 by assumption. clear E C.
  destruct (Z.ltb_spec (val28 [o0; o1; o2; o3; o4; o5; o6; o7]) (q - 1)) as [S|S].
  - split; [reflexivity|]. split; [intros _; split; [split; [reflexivity|exact B']|reflexivity]|lia].
  - split; [reflexivity|]. cbn [val28] in S. assert (E7 : o7 = 0xfffffff) by lia. assert (E6 : o6 = 0xfffffff) by lia. assert (E5 : o5 = 0xfffffff) by lia.
    assert (E4 : o4 = 0xfffffff) by lia. assert (E3 : 0xffff000 <= o3) by lia. subst o4 o5 o6 o7. split.
    + intros N. assert (N0 : o0 <> 0) by (destruct N as [N|N]; [cbn [val28] in N; lia|exact N]). destruct (Z.eqb_spec o0 0); [contradiction|].
      split; [split; [reflexivity|repeat (apply Forall_cons; [lia|]); constructor]|]. cbn [val28]. lia.
    + intros _ ->. cbn [Z.eqb]. exists [o1; o2; o3 - 268431360; 0; 0; 0; 0]. split; [reflexivity|]. split; [reflexivity|]. split; [repeat (apply Forall_cons; [lia|]); constructor|]. cbn [val28]. lia.
Qed.
Lemma contract_eq_cong a c : below (2 ^ 30 - 1) a -> below (2 ^ 30 - 1) c -> limbs_eq (p224_contract a) (p224_contract c) = true -> cong q (val28 a) (val28 c).
Proof.
  intros A C E. destruct (contract_cases a A) as (v & V & CV & RA & LA & DA & SA). destruct (contract_cases c C) as (w & Wb & CW & RC & LC & DC & SC).
  apply limbs_eq_iff in E; [|congruence].
  assert (G : cong q v w); [|destruct CV as [i I], CW as [j J], G as [k K]; exists (k - i + j); lia].
  assert (N0 : forall l, digits l -> forall k, l <> (M32 - 1) :: k) by (intros l [_ F] k ->; apply Forall_cons_iff in F; unfold M32 in F; lia).
  assert (CV2 : forall u, 0 <= u < 2 ^ 224 -> u < q - 1 \/ u mod 2 ^ 28 <> 0 -> exists k, contracted u = u - k * q).
  { intros u U H. unfold contracted. destruct (Z.ltb_spec u (q - 1)); [exists 0; lia|]. destruct (Z.eqb_spec (u mod 2 ^ 28) 0) as [Z0|Z0]; [destruct H; [lia|contradiction]|]. exists 1. lia. }
  assert (DV : {v < q - 1 \/ v mod 2 ^ 28 <> 0} + {q - 1 <= v /\ v mod 2 ^ 28 = 0}) by (destruct (Z_lt_le_dec v (q - 1)); [left; left; assumption|destruct (Z.eq_dec (v mod 2 ^ 28) 0); [right; auto|left; right; assumption]]).
  assert (DW : {w < q - 1 \/ w mod 2 ^ 28 <> 0} + {q - 1 <= w /\ w mod 2 ^ 28 = 0}) by (destruct (Z_lt_le_dec w (q - 1)); [left; left; assumption|destruct (Z.eq_dec (w mod 2 ^ 28) 0); [right; auto|left; right; assumption]]).
  destruct DV as [HV|[HV1 HV2]]; destruct DW as [HW|[HW1 HW2]].
  - destruct (DA HV) as [_ E1]. destruct (DC HW) as [_ E2]. rewrite E in E1. rewrite E1 in E2. destruct (CV2 v V HV) as [i I]. destruct (CV2 w Wb HW) as [j J]. exists (i - j). lia.
  - destruct (DA HV) as [D _]. destruct (SC HW1 HW2) as (l & L & _). rewrite E in D. destruct (N0 _ D l L).
  - destruct (DC HW) as [D _]. destruct (SA HV1 HV2) as (l & L & _). rewrite <- E in D. destruct (N0 _ D l L).
  - destruct (SA HV1 HV2) as (l & L & _ & _ & L2). destruct (SC HW1 HW2) as (k & K & _ & _ & K2). rewrite E in L. rewrite L in K. injection K as ->. exists 0. lia.
Qed.
Lemma contract_cong_eq a c : below (2 ^ 30 - 1) a -> below (2 ^ 30 - 1) c -> cong q (val28 a) (val28 c) -> 2 ^ 96 - 1 <= val28 a -> 2 ^ 96 - 1 <= val28 c -> limbs_eq (p224_contract a) (p224_contract c) = true.
Proof.
  intros A C E LA' LC'. destruct (contract_cases a A) as (v & V & CV & RA & LA & DA & SA). destruct (contract_cases c C) as (w & Wb & CW & RC & LC & DC & SC).
  apply limbs_eq_iff; [congruence|]. unfold rep96 in RA, RC.
  destruct (Z.ltb_spec (val28 a) (2 ^ 96 - 1)); [lia|]. destruct (Z.ltb_spec (val28 c) (2 ^ 96 - 1)); [lia|].
  assert (GV : cong q v w) by (destruct CV as [i I], CW as [j J], E as [k K]; exists (i + k - j); lia).
  assert (v = w) as -> by (destruct GV as [k K]; assert (k = 0) by lia; lia).
  clear CV CW E A C GV RA RC.
  assert (D : {w < q - 1 \/ w mod 2 ^ 28 <> 0} + {q - 1 <= w /\ w mod 2 ^ 28 = 0}) by (destruct (Z_lt_le_dec w (q - 1)); [left; left; assumption|destruct (Z.eq_dec (w mod 2 ^ 28) 0); [right; auto|left; right; assumption]]).
  destruct D as [D|[D1 D2]].
  - destruct (DA D) as [[L1 F1] E1]. destruct (DC D) as [[L2 F2] E2]. apply digits_inj; [congruence|assumption|assumption|congruence].
  - destruct (SA D1 D2) as (l & L & Ll & Fl & Vl). destruct (SC D1 D2) as (k & K & Lk & Fk & Vk). rewrite L, K. f_equal. apply digits_inj; [congruence|assumption|assumption|lia].
Qed.
(** What the contraction returns for a representative that is not a small number. *)
Lemma contracted_exact v : 2 ^ 96 - 1 <= v < 2 ^ 224 -> contracted v = returned (v mod P224).
Proof.
  intros V. unfold contracted, returned, bad_coordinate, P224.
  assert (D := Z.div_mod v q ltac:(lia)). assert (M := Z.mod_pos_bound v q ltac:(lia)). set (X := v mod q) in *. set (k := v / q) in *. clearbody X k.
  assert (K : k = 0 \/ k = 1) by lia. destruct K as [-> | ->].
  - assert (v = X) as -> by lia. destruct (Z.ltb_spec X (2 ^ 96 - 1)); [lia|]. cbn [andb]. rewrite orb_false_r.
    destruct (Z.eqb_spec X (q - 1)) as [->|N]; [reflexivity|]. destruct (Z.ltb_spec X (q - 1)); [reflexivity|lia].
  - destruct (Z.ltb_spec v (q - 1)); [lia|]. destruct (Z.ltb_spec X (2 ^ 96 - 1)); [|lia]. destruct (Z.eqb_spec X (q - 1)); [lia|]. cbn [andb orb].
    assert (E : v mod 2 ^ 28 = (X + 1) mod 2 ^ 28). { replace v with ((X + 1) + (2 ^ 196 - 2 ^ 68) * 2 ^ 28) by lia. apply Z.mod_add. lia. }
    rewrite E. assert (EQ : ((X + 1) mod 2 ^ 28 =? 0) = (X mod 2 ^ 28 =? 2 ^ 28 - 1)).
    { apply Bool.eq_iff_eq_true. rewrite !Z.eqb_eq. clear - M. split; intros; Z.to_euclidean_division_equations; lia. }
    rewrite EQ. destruct (X mod 2 ^ 28 =? 2 ^ 28 - 1); [rewrite Z.mod_small by lia|]; lia.
Qed.

(** ** In the field *)
Section FIELD.
Variables p b : Z.
Hypothesis EP : p = q.
Hypothesis Hp : prime p.
Notation F := (Fp p). Notation oz := (of_Z p Hp).
Add Field Ff224 : (Fp_field p Hp).
Declare Scope f224_scope. Delimit Scope f224_scope with f.
Notation "0" := (f0 p Hp) : f224_scope. Notation "1" := (f1 p Hp) : f224_scope.
Notation "x + y" := (fadd p Hp x y) : f224_scope. Notation "x * y" := (fmul p Hp x y) : f224_scope.
Notation "x - y" := (fsub p Hp x y) : f224_scope. Notation "- x" := (fopp p Hp x) : f224_scope. Notation "x / y" := (fdiv p Hp x y) : f224_scope.
Notation "2" := (f1 p Hp + f1 p Hp)%f : f224_scope. Notation "3" := (2 + 1)%f : f224_scope.
Lemma P3 : 3 < p. Proof. rewrite EP. reflexivity. Qed.
Definition W (B : Z) (a : list Z) (u : F) : Prop := below B a /\ oz (val28 a) = u.
Definition R := W (2 ^ 29 - 1).
Definition T (a : list Z) (u : F) : Prop := tight a /\ oz (val28 a) = u.
Lemma T_R a u : T a u -> R a u.
Proof. intros [H E]. split; [|exact E]. apply (below_le (2 ^ 29 - 2)); [lia|]. apply tight_below, H. Qed.
Lemma R_W B a u : 2 ^ 29 - 1 <= B -> R a u -> W B a u.
Proof. intros L [H E]. split; [|exact E]. exact (below_le _ _ _ L H). Qed.
Lemma ozc x y : cong q x y -> oz x = oz y.
Proof. intros C. apply (oz_cong p Hp P3). rewrite EP. exact C. Qed.
Lemma f_mul a c u v : R a u -> R c v -> T (p224_mul a c) (u * v)%f.
Proof.
  intros [A <-] [C <-]. destruct (mul_ok a c) as (M & E & _); [left; split; [exact A|apply (below_le (2 ^ 29 - 1)); [lia|exact C]]|].
  split; [exact M|]. rewrite (ozc _ _ E). apply of_mul.
Qed.
Lemma big_mul a c u v : R a u -> R c v -> 2 ^ 96 - 1 <= val28 (p224_mul a c).
Proof. intros [A _] [C _]. apply mul_ok. left. split; [exact A|apply (below_le (2 ^ 29 - 1)); [lia|exact C]]. Qed.
Lemma f_mul2 a c u v : W (2 ^ 30 - 1) a u -> R c v -> T (p224_mul a c) (u * v)%f.
Proof. intros [A <-] [C <-]. destruct (mul_ok a c) as (M & E & _); [right; split; assumption|]. split; [exact M|]. rewrite (ozc _ _ E). apply of_mul. Qed.
Lemma f_square a u : R a u -> T (p224_square a) (u * u)%f.
Proof. intros [A <-]. destruct (square_ok a A) as (M & E & _). split; [exact M|]. rewrite (ozc _ _ E). apply of_mul. Qed.
Lemma f_reduce a u : W (2 ^ 32 - 16) a u -> R (p224_reduce a) u.
Proof. intros [A <-]. destruct (reduce_ok a A) as [M E]. split; [exact M|]. apply (ozc _ _ E). Qed.
Lemma f_add A B a c u v : A + B < M32 -> W A a u -> W B c v -> W (A + B) (p224_add a c) (u + v)%f.
Proof. intros S [Ha <-] [Hc <-]. destruct (add_limbs A B a c Ha Hc S) as [H E]. split; [exact H|]. rewrite E. apply of_add. Qed.
Lemma f_sub A B a c u v : A <= 2 ^ 31 - 24 -> B <= 2 ^ 31 - 2 ^ 16 -> W A a u -> W B c v -> W (2 ^ 32 - 16) (p224_sub a c) (u - v)%f.
Proof. intros S S' [Ha <-] [Hc <-]. destruct (sub_limbs A B a c Ha Hc S S') as [H E]. split; [exact H|]. rewrite (ozc _ _ E). apply of_sub. Qed.
Lemma f_shl A k a u : 0 <= k -> A * 2 ^ k < M32 -> W A a u -> W (A * 2 ^ k) (map (fun x => shl32 x k) a) (oz (2 ^ k) * u)%f.
Proof. intros K S [Ha <-]. destruct (shl_limbs A k a Ha K S) as [H E]. split; [exact H|]. rewrite E. apply of_mul. Qed.
Lemma W_le A B a u : A <= B -> W A a u -> W B a u.
Proof. intros L [H E]. split; [|exact E]. exact (below_le _ _ _ L H). Qed.
Lemma W_eq A a u v : u = v -> W A a u -> W A a v. Proof. intros ->. auto. Qed.

Lemma r_sub a c u v : R a u -> R c v -> R (p224_reduce (p224_sub a c)) (u - v)%f.
Proof. intros A C. apply f_reduce. apply (f_sub (2 ^ 29 - 1) (2 ^ 29 - 1)); [lia|lia|exact A|exact C]. Qed.
Lemma r_add a c u v : R a u -> R c v -> R (p224_reduce (p224_add a c)) (u + v)%f.
Proof. intros A C. apply f_reduce. apply (W_le ((2 ^ 29 - 1) + (2 ^ 29 - 1))); [lia|]. apply f_add; [unfold M32; lia|exact A|exact C]. Qed.
Lemma r_triple a c u v : R a u -> R c v -> R (p224_reduce (map (fun x => add32 x (shl32 x 1)) (p224_add a c))) (3 * (u + v))%f.
Proof.
  intros A C. apply f_reduce. destruct (f_add (2 ^ 29 - 1) (2 ^ 29 - 1) a c u v ltac:(unfold M32; lia) A C) as [S E].
  destruct (triple_limbs _ _ S ltac:(unfold M32; lia)) as [H V]. split; [apply (below_le (3 * (2 ^ 29 - 1 + (2 ^ 29 - 1)))); [lia|exact H]|].
  rewrite V, of_mul, E. unfold f1. rewrite <- !of_add. reflexivity.
Qed.
Lemma r_shl1 a u : R a u -> R (p224_reduce (map (fun n => shl32 n 1) a)) (2 * u)%f.
Proof.
  intros A. apply f_reduce. apply (W_le ((2 ^ 29 - 1) * 2 ^ 1)); [lia|]. apply (W_eq _ _ (oz (2 ^ 1) * u)%f); [unfold f1; rewrite <- of_add; reflexivity|].
  apply f_shl; [lia|unfold M32; lia|exact A].
Qed.
Lemma r_shl3 a u : T a u -> R (p224_reduce (map (fun n => shl32 n 3) a)) (2 * (2 * 2) * u)%f.
Proof.
  intros [A E]. apply f_reduce. apply (W_le ((2 ^ 29 - 2) * 2 ^ 3)); [lia|]. apply (W_eq _ _ (oz (2 ^ 3) * u)%f).
  - f_equal. change (2 ^ 3)%Z with 8%Z. apply oz_8.
  - apply f_shl; [lia|unfold M32; lia|]. split; [apply tight_below, A|exact E].
Qed.
Lemma r_shl2_sub a c u v : T a u -> R c v -> R (p224_reduce (p224_sub (map (fun n => shl32 n 2) a) c)) (2 * 2 * u - v)%f.
Proof.
  intros [A <-] [C <-]. apply f_reduce. destruct (sub_shift2 a c A C) as [H E]. split; [exact H|]. rewrite (ozc _ _ E), of_sub, of_mul, oz_4. reflexivity.
Qed.
Lemma r_sub_sum a c d u v w : R a u -> R c v -> R d w -> R (p224_reduce (p224_sub a (p224_add c d))) (u - (v + w))%f.
Proof.
  intros A C D. apply f_reduce. apply (f_sub (2 ^ 29 - 1) ((2 ^ 29 - 1) + (2 ^ 29 - 1))); [lia|lia|exact A|]. apply f_add; [unfold M32; lia|exact C|exact D].
Qed.
Lemma r_add_double a c u v : R a u -> R c v -> R (p224_reduce (p224_add a (map (fun n => shl32 n 1) c))) (u + 2 * v)%f.
Proof.
  intros A C. apply f_reduce. apply (W_le ((2 ^ 29 - 1) + (2 ^ 29 - 1) * 2 ^ 1)); [lia|]. apply f_add; [unfold M32; lia|exact A|].
  apply (W_eq _ _ (oz (2 ^ 1) * v)%f); [unfold f1; rewrite <- of_add; reflexivity|]. apply f_shl; [lia|unfold M32; lia|exact C].
Qed.
Lemma r_double_mul a c u v : T a u -> R c v -> T (p224_mul (map (fun n => shl32 n 1) a) c) (2 * u * v)%f.
Proof.
  intros A C. apply f_mul2; [|exact C]. apply T_R in A. apply (W_le ((2 ^ 29 - 1) * 2 ^ 1)); [lia|]. apply (W_eq _ _ (oz (2 ^ 1) * u)%f); [unfold f1; rewrite <- of_add; reflexivity|].
  apply f_shl; [lia|unfold M32; lia|exact A].
Qed.
Lemma r_zero a u : R a u -> (p224_is_zero a = 1 /\ u = 0%f) \/ (p224_is_zero a = 0%Z /\ u <> 0%f).
Proof.
  intros [A <-]. assert (L : limbs_below (2 ^ 30) a) by (apply below_limbs, (below_le (2 ^ 29 - 1)); [lia|exact A]).
  destruct (is_zero_8 a L) as [[E C]|[E C]]; [left|right]; (split; [exact E|]).
  - apply ozc, C.
  - intros N. apply C. unfold f0 in N. apply (oz_cong p Hp P3) in N. rewrite EP in N. exact N.
Qed.

(** One step of a chain of operations: the innermost application whose arguments are known is replaced by a variable. *)
Ltac known a k := match goal with
  | H : T a _ |- _ => k (T_R a _ H)
  | H : R a _ |- _ => k H end.
Ltac fresh_limbs e H := let x := fresh "r" in set (x := e) in *; clearbody x.
Ltac fstep := match goal with
  | |- context [p224_reduce (p224_sub (map (fun n => shl32 n 2) ?a) ?c)] => is_var a; is_var c; match goal with Ha : T a _ |- _ => known c ltac:(fun Hc =>
      let H := fresh "H" in pose proof (r_shl2_sub a c _ _ Ha Hc) as H; fresh_limbs (p224_reduce (p224_sub (map (fun n => shl32 n 2) a) c)) H) end
  | |- context [p224_reduce (map (fun n => shl32 n 3) ?a)] => is_var a; match goal with Ha : T a _ |- _ =>
      let H := fresh "H" in pose proof (r_shl3 a _ Ha) as H; fresh_limbs (p224_reduce (map (fun n => shl32 n 3) a)) H end
  | |- context [p224_reduce (map (fun n => shl32 n 1) ?a)] => is_var a; known a ltac:(fun Ha =>
      let H := fresh "H" in pose proof (r_shl1 a _ Ha) as H; fresh_limbs (p224_reduce (map (fun n => shl32 n 1) a)) H)
  | |- context [p224_reduce (p224_sub ?a (p224_add ?c ?d))] => is_var a; is_var c; is_var d; known a ltac:(fun Ha => known c ltac:(fun Hc => known d ltac:(fun Hd =>
      let H := fresh "H" in pose proof (r_sub_sum a c d _ _ _ Ha Hc Hd) as H; fresh_limbs (p224_reduce (p224_sub a (p224_add c d))) H)))
  | |- context [p224_reduce (p224_add ?a (map (fun n => shl32 n 1) ?c))] => is_var a; is_var c; known a ltac:(fun Ha => known c ltac:(fun Hc =>
      let H := fresh "H" in pose proof (r_add_double a c _ _ Ha Hc) as H; fresh_limbs (p224_reduce (p224_add a (map (fun n => shl32 n 1) c))) H))
  | |- context [p224_reduce (map (fun x => add32 x (shl32 x 1)) (p224_add ?a ?c))] => is_var a; is_var c; known a ltac:(fun Ha => known c ltac:(fun Hc =>
      let H := fresh "H" in pose proof (r_triple a c _ _ Ha Hc) as H; fresh_limbs (p224_reduce (map (fun x => add32 x (shl32 x 1)) (p224_add a c))) H))
  | |- context [p224_reduce (p224_sub ?a ?c)] => is_var a; is_var c; known a ltac:(fun Ha => known c ltac:(fun Hc =>
      let H := fresh "H" in pose proof (r_sub a c _ _ Ha Hc) as H; fresh_limbs (p224_reduce (p224_sub a c)) H))
  | |- context [p224_reduce (p224_add ?a ?c)] => is_var a; is_var c; known a ltac:(fun Ha => known c ltac:(fun Hc =>
      let H := fresh "H" in pose proof (r_add a c _ _ Ha Hc) as H; fresh_limbs (p224_reduce (p224_add a c)) H))
  | |- context [p224_mul (map (fun n => shl32 n 1) ?a) ?c] => is_var a; is_var c; match goal with Ha : T a _ |- _ => known c ltac:(fun Hc =>
      let H := fresh "H" in pose proof (r_double_mul a c _ _ Ha Hc) as H; fresh_limbs (p224_mul (map (fun n => shl32 n 1) a) c) H) end
  | |- context [p224_mul ?a ?c] => is_var a; is_var c; known a ltac:(fun Ha => known c ltac:(fun Hc =>
      let H := fresh "H" in pose proof (f_mul a c _ _ Ha Hc) as H; fresh_limbs (p224_mul a c) H))
  | |- context [p224_square ?a] => is_var a; known a ltac:(fun Ha =>
      let H := fresh "H" in pose proof (f_square a _ Ha) as H; fresh_limbs (p224_square a) H)
  end.
Lemma R_eq a u v : u = v -> R a u -> R a v. Proof. intros ->. auto. Qed.
Notation dx := (dbl_x (f1 p Hp) (fadd p Hp) (fmul p Hp) (fsub p Hp)).
Notation dy := (dbl_y (f1 p Hp) (fadd p Hp) (fmul p Hp) (fsub p Hp)).
Notation dz := (dbl_z (fadd p Hp) (fmul p Hp) (fsub p Hp)).
Ltac value := match goal with
  | H : T ?a _ |- R ?a _ => refine (R_eq a _ _ _ (T_R a _ H))
  | H : R ?a _ |- R ?a _ => refine (R_eq a _ _ _ H) end.
Lemma double_limbs x1 y1 z1 X Y Z : R x1 X -> R y1 Y -> R z1 Z ->
  exists x3 y3 z3, p224_double_jacobian x1 y1 z1 = (x3, y3, z3) /\ R x3 (dx X Y Z) /\ R y3 (dy X Y Z) /\ R z3 (dz X Y Z).
Proof.
  intros HX HY HZ. unfold p224_double_jacobian. cbv zeta. repeat fstep.
  do 3 eexists. split; [reflexivity|]. split; [|split]; value; unfold dbl_y, dbl_x, dbl_z; ring.
Qed.

Notation Peq := (Fp_eq_dec p).
Notation fon := (@on F (fadd p Hp) (fmul p Hp) (fa p Hp) (fb p b Hp)).
Notation fpadd := (@padd F (f1 p Hp) (fadd p Hp) (fmul p Hp) (fsub p Hp) (fopp p Hp) (fdiv p Hp) Peq (fa p Hp)).
Notation faff := (aff (f0 p Hp) (fmul p Hp) (fdiv p Hp) Peq).
Notation ax := (ad_x (f1 p Hp) (fadd p Hp) (fmul p Hp) (fsub p Hp)).
Notation ay := (ad_y (f1 p Hp) (fadd p Hp) (fmul p Hp) (fsub p Hp)).
Notation az := (ad_z (fadd p Hp) (fmul p Hp) (fsub p Hp)).
(** A triple of limbs that stands for a point. *)
Definition jac := (list Z * list Z * list Z)%type.
Definition three (J : jac) (X Y Z : F) : Prop := let '(x, y, z) := J in R x X /\ R y Y /\ R z Z.
Definition reps (J : jac) (P : option (F * F)) : Prop := exists X Y Z, three J X Y Z /\ P = faff X Y Z.
Lemma aff_zero X Y Z : Z = 0%f -> faff X Y Z = None.
Proof. intros ->. unfold aff. destruct (Peq 0%f 0%f); [reflexivity|contradiction]. Qed.
Lemma double_three x1 y1 z1 X Y Z : three (x1, y1, z1) X Y Z -> three (p224_double_jacobian x1 y1 z1) (dx X Y Z) (dy X Y Z) (dz X Y Z).
Proof. intros (HX & HY & HZ). destruct (double_limbs _ _ _ _ _ _ HX HY HZ) as (x3 & y3 & z3 & -> & H). exact H. Qed.
Lemma double_reps x1 y1 z1 P : reps (x1, y1, z1) P -> reps (p224_double_jacobian x1 y1 z1) (fpadd P P).
Proof.
  intros (X & Y & Z & H & ->). exists (dx X Y Z), (dy X Y Z), (dz X Y Z). split; [apply double_three, H|].
  symmetry. apply (dbl_ok _ _ _ _ _ _ _ _ (Fp_field p Hp)), (EllProofs.two_nz p Hp P3).
Qed.
Lemma copy_R0 a c u v : R a u -> R c v -> copy_conditional a c 0 = a.
Proof. intros [[A _] _] [[C _] _]. apply copy_0. congruence. Qed.
Lemma copy_R1 a c u v : R a u -> R c v -> copy_conditional a c 1 = c.
Proof. intros [A _] [C _]. apply (copy_1 (2 ^ 29 - 1)); [unfold M32; lia|exact A|exact C]. Qed.
Ltac copies := repeat match goal with
  | |- context [copy_conditional ?a ?c 0] => is_var a; is_var c; known a ltac:(fun Ha => known c ltac:(fun Hc => rewrite (copy_R0 a c _ _ Ha Hc)))
  | |- context [copy_conditional ?a ?c 1] => is_var a; is_var c; known a ltac:(fun Ha => known c ltac:(fun Hc => rewrite (copy_R1 a c _ _ Ha Hc)))
  end.
Lemma add_reps x1 y1 z1 x2 y2 z2 P Q : reps (x1, y1, z1) P -> reps (x2, y2, z2) Q -> fon P -> fon Q ->
  reps (p224_add_jacobian x1 y1 z1 x2 y2 z2) (fpadd P Q).
Proof.
  intros (X1 & Y1 & Z1 & (HX1 & HY1 & HZ1) & ->) (X2 & Y2 & Z2 & (HX2 & HY2 & HZ2) & ->) O1 O2.
  unfold p224_add_jacobian. cbv zeta. repeat fstep.
  destruct (r_zero z1 Z1 HZ1) as [[E1 N1]|[E1 N1]]; rewrite E1.
  { destruct (r_zero z2 Z2 HZ2) as [[E2 N2]|[E2 N2]]; rewrite E2; cbn [Z.eqb]; rewrite ?andb_false_r; cbn [andb].
    - copies. exists X1, Y1, Z1. split; [split; [exact HX1|split; [exact HY1|exact HZ1]]|].
      rewrite !aff_zero by assumption. reflexivity.
    - copies. exists X2, Y2, Z2. split; [split; [exact HX2|split; [exact HY2|exact HZ2]]|].
      rewrite (aff_zero X1 Y1 Z1) by assumption. reflexivity. }
  destruct (r_zero z2 Z2 HZ2) as [[E2 N2]|[E2 N2]]; rewrite E2.
  { cbn [Z.eqb]; rewrite ?andb_false_r; cbn [andb].
    copies. exists X1, Y1, Z1. split; [split; [exact HX1|split; [exact HY1|exact HZ1]]|].
    rewrite (aff_zero X2 Y2 Z2) by assumption. apply padd_0_r. }
  change (0 =? 0)%Z with true. rewrite !andb_true_r.
  match goal with |- context [if (p224_is_zero ?hh =? 1) && (p224_is_zero ?rr =? 1) then _ else _] => set (h := hh) in *; set (r' := rr) in *; clearbody h r' end.
  match goal with H : R h ?u |- _ => assert (EH : u = ad_h (fmul p Hp) (fsub p Hp) X1 Z1 X2 Z2) by (unfold ad_h; ring); destruct (r_zero h u H) as [[Eh Nh]|[Eh Nh]]; rewrite EH in Nh; clear EH end;
  match goal with H : R r' ?u |- _ => assert (ER : u = ad_r (fmul p Hp) (fsub p Hp) Y1 Z1 Y2 Z2) by (unfold ad_r; ring); destruct (r_zero r' u H) as [[Er Nr]|[Er Nr]]; rewrite ER in Nr; clear ER end;
  rewrite Eh, Er; cbn [Z.eqb Pos.eqb andb].
  1:{ assert (S : faff X1 Y1 Z1 = faff X2 Y2 Z2) by (apply (ad_same _ _ _ _ _ _ _ _ (Fp_field p Hp)); assumption).
      rewrite <- S. apply double_reps. exists X1, Y1, Z1. split; [|reflexivity]. split; [exact HX1|split; [exact HY1|exact HZ1]]. }
  all: copies.
  all: exists (ax X1 Y1 Z1 X2 Y2 Z2), (ay X1 Y1 Z1 X2 Y2 Z2), (az X1 Z1 X2 Z2); split;
    [|symmetry; apply (ad_ok _ _ _ _ _ _ _ _ (Fp_field p Hp) Peq (fb p b Hp) (EllProofs.two_nz p Hp P3)); try assumption; intros [A1 A2]; contradiction].
  all: split; [|split]; value; unfold ad_y, ad_x, ad_z, ad_h, ad_r; ring.
Qed.

(** Inversion. *)
Definition fpow (u : F) (e : Z) : F := oz (to_Z p u ^ e).
Lemma fpow_1 u : fpow u 1 = u. Proof. unfold fpow. rewrite Z.pow_1_r. apply of_to. Qed.
Lemma fpow_add u d e : 0 <= d -> 0 <= e -> (fpow u d * fpow u e)%f = fpow u (d + e).
Proof. intros D E. unfold fpow. rewrite <- of_mul, <- Z.pow_add_r by assumption. reflexivity. Qed.
Definition Pw (u : F) (a : list Z) (e : Z) : Prop := 0 <= e /\ R a (fpow u e).
Lemma pw_mul u a c d e : Pw u a d -> Pw u c e -> Pw u (p224_mul a c) (d + e).
Proof. intros [D A] [E C]. split; [lia|]. rewrite <- fpow_add by assumption. apply T_R, f_mul; assumption. Qed.
Lemma pw_square u a d : Pw u a d -> Pw u (p224_square a) (d + d).
Proof. intros [D A]. split; [lia|]. rewrite <- fpow_add by assumption. apply T_R, f_square; assumption. Qed.
Lemma pw_iter u a d n : Pw u a d -> Pw u (Nat.iter n p224_square a) (d * 2 ^ Z.of_nat n).
Proof.
  intros A. induction n as [|n IH]; [cbn; rewrite Z.mul_1_r; exact A|]. cbn [Nat.iter].
  replace (d * 2 ^ Z.of_nat (S n)) with (d * 2 ^ Z.of_nat n + d * 2 ^ Z.of_nat n); [apply pw_square, IH|].
  rewrite Nat2Z.inj_succ, Z.pow_succ_r by lia. ring.
Qed.
Ltac pstep := match goal with
  | |- context [Nat.iter ?n p224_square ?a] => is_var a; match goal with H : Pw ?u a ?d |- _ =>
      let H' := fresh "H" in pose proof (pw_iter u a d n H) as H'; let e := eval vm_compute in (d * 2 ^ Z.of_nat n) in
      replace (d * 2 ^ Z.of_nat n) with e in H' by (vm_compute; reflexivity); fresh_limbs (Nat.iter n p224_square a) H' end
  | |- context [p224_square ?a] => is_var a; match goal with H : Pw ?u a ?d |- _ =>
      let H' := fresh "H" in pose proof (pw_square u a d H) as H'; let e := eval vm_compute in (d + d) in
      replace (d + d) with e in H' by (vm_compute; reflexivity); fresh_limbs (p224_square a) H' end
  | |- context [p224_mul ?a ?c] => is_var a; is_var c; match goal with H : Pw ?u a ?d |- _ => match goal with K : Pw u c ?d' |- _ =>
      let H' := fresh "H" in pose proof (pw_mul u a c d d' H K) as H'; let e := eval vm_compute in (d + d') in
      replace (d + d') with e in H' by (vm_compute; reflexivity); fresh_limbs (p224_mul a c) H' end end
  end.
Lemma invert_limbs a u : R a u -> R (p224_invert a) (finv p Hp u).
Proof.
  intros A. assert (P1 : Pw u a 1) by (split; [lia|rewrite fpow_1; exact A]). clear A.
  unfold p224_invert. cbv zeta. repeat pstep.
  match goal with H : Pw u ?r ?e |- R ?r _ => destruct H as [_ H]; refine (R_eq r _ _ _ H); unfold finv, fpow; replace (p - 2) with e by (rewrite EP; vm_compute; reflexivity); reflexivity end.
Qed.

(** The result: each coordinate is the contraction of some representative below 2^224. *)
Definition coord (u : F) (out : Z) : Prop := exists v, 2 ^ 96 - 1 <= v < 2 ^ 224 /\ oz v = u /\ out = contracted v.
Lemma contract_coord a u : R a u -> 2 ^ 96 - 1 <= val28 a -> coord u (p224_to_bigint (p224_contract a)).
Proof.
  intros [A <-] BIG. assert (L : limbs_below (2 ^ 30) a) by (apply below_limbs, (below_le (2 ^ 29 - 1)); [lia|exact A]).
  destruct (contract_bigint a L) as (v & V & C & R96 & E). exists v. unfold rep96 in R96. destruct (Z.ltb_spec (val28 a) (2 ^ 96 - 1)); [lia|]. split; [lia|]. split; [apply ozc, C|exact E].
Qed.
Lemma affine_three x y z X Y Z : three (x, y, z) X Y Z -> match faff X Y Z with
  | None => p224_to_affine x y z = (0, 0)%Z
  | Some (u, v) => coord u (fst (p224_to_affine x y z)) /\ coord v (snd (p224_to_affine x y z)) end.
Proof.
  intros (HX & HY & HZ). unfold p224_to_affine, aff. destruct (r_zero z Z HZ) as [[E N]|[E N]]; rewrite E; cbn [Z.eqb Pos.eqb]; destruct (Peq Z 0%f); try contradiction; [reflexivity|].
  cbv zeta. cbn [fst snd]. pose proof (invert_limbs z Z HZ) as HI. set (zi := p224_invert z) in *. clearbody zi.
  pose proof (f_square zi _ HI) as H2. pose proof (f_mul _ _ _ _ (T_R _ _ H2) HI) as H3.
  pose proof (contract_coord _ _ (T_R _ _ (f_mul _ _ _ _ HX (T_R _ _ H2))) (big_mul _ _ _ _ HX (T_R _ _ H2))) as CX.
  pose proof (contract_coord _ _ (T_R _ _ (f_mul _ _ _ _ HY (T_R _ _ H3))) (big_mul _ _ _ _ HY (T_R _ _ H3))) as CY.
  split.
  - replace (X / (Z * Z))%f with (X * (finv p Hp Z * finv p Hp Z))%f; [exact CX|field; exact N].
  - replace (Y / (Z * Z * Z))%f with (Y * (finv p Hp Z * finv p Hp Z * finv p Hp Z))%f; [exact CY|field; exact N].
Qed.
(** Reading coordinates. *)
Lemma from_R n : 0 <= n < 2 ^ 224 -> R (p224_from_bigint n) (oz n).
Proof.
  intros B. destruct (from_bigint_8 n ltac:(lia)) as [L V]. split.
  - apply (below_le (2 ^ 28 - 1)); [lia|]. apply below_limbs, L.
  - rewrite V, Z.mod_small by exact B. reflexivity.
Qed.
Lemma fe1_R : R fe1 1%f.
Proof. split; [split; [reflexivity|]|reflexivity]. unfold fe1. cbn [upd fe0 repeat firstn skipn app]. repeat (apply Forall_cons; [lia|]). constructor. Qed.
Lemma fe0_R : R fe0 0%f.
Proof. split; [split; [reflexivity|]|reflexivity]. unfold fe0. cbn [repeat]. repeat (apply Forall_cons; [lia|]). constructor. Qed.

(** The scalar loop. *)
Hypothesis Hb : ~ cong p b 0.
Hypothesis Hd : ~ cong p (b * b) 4.
Notation zmul := (zmul p Hp).
Lemma one_nz : 1%f <> 0%f.
Proof. assert (P := P3). unfold f1, f0. rewrite of_Z_eq, Z.mod_0_l, Z.mod_1_l by lia. discriminate. Qed.
Lemma aff_one X Y : faff X Y 1%f = Some (X, Y).
Proof. unfold aff. destruct (Peq 1%f 0%f) as [E|_]; [destruct (one_nz E)|]. do 2 f_equal; field; exact one_nz. Qed.
Definition bit_of (byte : Z) (i : nat) : Z := Z.land (shr byte (7 - Z.of_nat i)) 1.
Lemma bit_of_val byte i : (i < 8)%nat -> bit_of byte i = byte / 2 ^ (7 - Z.of_nat i) mod 2.
Proof. intros L. unfold bit_of, shr. rewrite Z.shiftr_div_pow2 by lia. change 1 with (Z.ones 1) at 1. rewrite Z.land_ones by lia. reflexivity. Qed.
Lemma bits_step m byte i : (i < 8)%nat ->
  m * 2 ^ Z.of_nat (S i) + byte / 2 ^ (8 - Z.of_nat (S i)) = 2 * (m * 2 ^ Z.of_nat i + byte / 2 ^ (8 - Z.of_nat i)) + byte / 2 ^ (7 - Z.of_nat i) mod 2.
Proof.
  intros L. rewrite Nat2Z.inj_succ, Z.pow_succ_r by lia. replace (8 - Z.succ (Z.of_nat i)) with (7 - Z.of_nat i) by lia.
  replace (8 - Z.of_nat i) with ((7 - Z.of_nat i) + 1) by lia. rewrite Z.pow_add_r by lia. change (2 ^ 1) with 2.
  rewrite <- Z.div_div by lia. assert (D := Z.div_mod (byte / 2 ^ (7 - Z.of_nat i)) 2 ltac:(lia)). lia.
Qed.
Lemma copy_three a c d a' c' d' X Y Z X' Y' Z' k : (k = 0 \/ k = 1)%Z -> three (a, c, d) X Y Z -> three (a', c', d') X' Y' Z' ->
  (copy_conditional a a' k, copy_conditional c c' k, copy_conditional d d' k) = if k =? 1 then (a', c', d') else (a, c, d).
Proof.
  intros K (A & C & D) (A' & C' & D').
  destruct K as [-> | ->]; cbn [Z.eqb Pos.eqb]; [rewrite (copy_R0 a a' X X'), (copy_R0 c c' Y Y'), (copy_R0 d d' Z Z')|rewrite (copy_R1 a a' X X'), (copy_R1 c c' Y Y'), (copy_R1 d d' Z Z')]; auto.
Qed.
Section LOOP.
Variables x0 y0 : list Z.
Variables X Y : F.
Hypothesis T0 : three (x0, y0, fe1) X Y 1%f.
Hypothesis O : fon (Some (X, Y)).
Let P : option (F * F) := Some (X, Y).
Lemma bit_reps byte J i m : (i < 8)%nat -> 0 <= byte < 256 -> 0 <= m -> reps J (zmul (m * 2 ^ Z.of_nat i + byte / 2 ^ (8 - Z.of_nat i)) P) ->
  reps (scalar_bit x0 y0 fe1 byte J i) (zmul (m * 2 ^ Z.of_nat (S i) + byte / 2 ^ (8 - Z.of_nat (S i))) P).
Proof.
  intros L B M H. assert (OP : fon P) by exact O. destruct J as [[x1 y1] z1].
  assert (NN : 0 <= m * 2 ^ Z.of_nat i + byte / 2 ^ (8 - Z.of_nat i)).
  { assert (0 < 2 ^ Z.of_nat i) by (apply Z.pow_pos_nonneg; lia). assert (0 <= byte / 2 ^ (8 - Z.of_nat i)) by (apply Z.div_pos; [lia|apply Z.pow_pos_nonneg; lia]). nia. }
  rewrite bits_step by exact L. set (k := m * 2 ^ Z.of_nat i + byte / 2 ^ (8 - Z.of_nat i)) in *. clearbody k.
  unfold scalar_bit. apply double_reps in H. destruct (p224_double_jacobian x1 y1 z1) as [[x2 y2] z2].
  rewrite <- (zmul_add p b Hp P3 Hd) in H by (assumption || lia). replace (k + k) with (2 * k) in H by lia.
  fold (bit_of byte i). rewrite bit_of_val by exact L. set (bit := byte / 2 ^ (7 - Z.of_nat i) mod 2). assert (Bit : 0 <= bit < 2) by (apply Z.mod_pos_bound; lia). clearbody bit.
  assert (H0 : reps (x0, y0, fe1) P) by (exists X, Y, 1%f; split; [exact T0|symmetry; apply aff_one]).
  pose proof (add_reps _ _ _ _ _ _ _ _ H0 H OP (on_zmul p b Hp P3 (2 * k) P OP)) as A.
  destruct (p224_add_jacobian x0 y0 fe1 x2 y2 z2) as [[xx yy] zz].
  assert (A' := A). assert (H' := H). destruct A' as (X' & Y' & Z' & TA & _). destruct H' as (X2 & Y2 & Z2 & TD & _).
  rewrite (copy_three _ _ _ _ _ _ _ _ _ _ _ _ bit ltac:(lia) TD TA).
  destruct (Z.eqb_spec bit 1) as [->|N].
  - rewrite (Z.add_comm (2 * k)). rewrite (zmul_add p b Hp P3 Hd) by (assumption || lia). rewrite zmul_1. exact A.
  - assert (bit = 0) as -> by lia. rewrite Z.add_0_r. exact H.
Qed.
Lemma byte_reps byte m n : forall J, (n <= 8)%nat -> 0 <= byte < 256 -> 0 <= m -> reps J (zmul m P) ->
  reps (fold_left (scalar_bit x0 y0 fe1 byte) (seq 0 n) J) (zmul (m * 2 ^ Z.of_nat n + byte / 2 ^ (8 - Z.of_nat n)) P).
Proof.
  induction n as [|n IH]; intros J L B M H.
  - cbn [seq fold_left]. replace (m * 2 ^ Z.of_nat 0 + byte / 2 ^ (8 - Z.of_nat 0)) with m; [exact H|].
    rewrite Z.div_small by (cbn; lia). cbn. lia.
  - rewrite seq_S, fold_left_app. cbn [fold_left]. apply bit_reps; [lia|exact B|exact M|]. apply IH; auto. lia.
Qed.
Lemma scalar_reps l : forall J m, bytes l -> 0 <= m -> reps J (zmul m P) ->
  reps (fold_left (fun q byte => fold_left (scalar_bit x0 y0 fe1 byte) (seq 0 8) q) l J) (zmul (m * 256 ^ Z.of_nat (length l) + be_val l) P).
Proof.
  induction l as [|e l IH]; intros J m B M H.
  - cbn [fold_left length]. replace (m * 256 ^ Z.of_nat 0 + be_val []) with m; [exact H|]. cbn. lia.
  - apply Forall_cons_iff in B. destruct B as [Be Bl]. unfold byte in Be. cbn [fold_left].
    pose proof (byte_reps e m 8 J ltac:(lia) Be M H) as R'. change (8 - Z.of_nat 8) with 0 in R'. rewrite Z.pow_0_r, Z.div_1_r in R'.
    change (2 ^ Z.of_nat 8) with 256 in R'. pose proof (IH _ (m * 256 + e) Bl ltac:(lia) R') as R''.
    replace (m * 256 ^ Z.of_nat (length (e :: l)) + be_val (e :: l)) with ((m * 256 + e) * 256 ^ Z.of_nat (length l) + be_val l); [exact R''|].
    change (e :: l) with ([e] ++ l). rewrite be_val_app, app_length. cbn [length be_val fold_left].
    rewrite Nat2Z.inj_add, Z.pow_add_r by lia. cbn [Z.of_nat]. change (Z.of_nat 1) with 1. rewrite Z.pow_1_r. ring.
Qed.
Lemma scalar_mult_reps l : bytes l -> reps (p224_scalar_mult x0 y0 fe1 l) (zmul (be_val l) P).
Proof.
  intros B. unfold p224_scalar_mult. rewrite <- (Z.add_0_l (be_val l)), <- (Z.mul_0_l (256 ^ Z.of_nat (length l))). apply scalar_reps; [exact B|lia|].
  exists 0%f, 0%f, 0%f. split; [repeat split; apply fe0_R|]. rewrite aff_zero by reflexivity. reflexivity.
Qed.
End LOOP.
Lemma add_zero_right x1 y1 z1 x2 y2 z2 X1 Y1 Z1 X2 Y2 Z2 : three (x1, y1, z1) X1 Y1 Z1 -> three (x2, y2, z2) X2 Y2 Z2 -> Z2 = 0%f ->
  p224_add_jacobian x1 y1 z1 x2 y2 z2 = (x1, y1, z1).
Proof.
  intros (HX1 & HY1 & HZ1) (HX2 & HY2 & HZ2) N. unfold p224_add_jacobian. cbv zeta. repeat fstep.
  destruct (r_zero z2 Z2 HZ2) as [[E2 _]|[_ N2]]; [|contradiction]. rewrite E2. change (1 =? 0)%Z with false. rewrite !andb_false_r.
  destruct (r_zero z1 Z1 HZ1) as [[E1 _]|[E1 _]]; rewrite E1; copies; reflexivity.
Qed.
(** The multiples of (0, 0), which the loop treats as a finite point. *)
Definition zero_state (J : jac) : Prop := exists X Y Z, three J X Y Z /\ (Z = 0%f \/ X = 0%f /\ Y = 0%f /\ Z = 1%f).
Lemma zero_bit x0 y0 byte J i : three (x0, y0, fe1) 0%f 0%f 1%f -> (i < 8)%nat -> zero_state J -> zero_state (scalar_bit x0 y0 fe1 byte J i).
Proof.
  intros T0 L (X & Y & Z & H & C). destruct J as [[x1 y1] z1]. unfold scalar_bit. apply double_three in H.
  assert (DZ : dz X Y Z = 0%f) by (unfold dbl_z; destruct C as [->|(-> & -> & ->)]; ring).
  destruct (p224_double_jacobian x1 y1 z1) as [[x2 y2] z2]. rewrite DZ in H.
  assert (H0 : reps (x0, y0, fe1) (faff 0%f 0%f 1%f)) by (exists 0%f, 0%f, 1%f; auto).
  assert (A : p224_add_jacobian x0 y0 fe1 x2 y2 z2 = (x0, y0, fe1)).
  { exact (add_zero_right _ _ _ _ _ _ _ _ _ _ _ _ T0 H eq_refl). }
  rewrite A. fold (bit_of byte i). assert (Bit : bit_of byte i = 0 \/ bit_of byte i = 1).
  { rewrite bit_of_val by exact L. assert (B := Z.mod_pos_bound (byte / 2 ^ (7 - Z.of_nat i)) 2 ltac:(lia)). lia. }
  rewrite (copy_three _ _ _ _ _ _ _ _ _ _ _ _ _ Bit H T0). destruct (_ =? _); [exists 0%f, 0%f, 1%f|exists (dx X Y Z), (dy X Y Z), 0%f]; auto.
Qed.
Lemma zero_bytes x0 y0 l : three (x0, y0, fe1) 0%f 0%f 1%f ->
  forall J, zero_state J -> zero_state (fold_left (fun q byte => fold_left (scalar_bit x0 y0 fe1 byte) (seq 0 8) q) l J).
Proof.
  intros T0. induction l as [|e l IH]; intros J H; [exact H|]. cbn [fold_left]. apply IH.
  assert (G : forall n J, (n <= 8)%nat -> zero_state J -> zero_state (fold_left (scalar_bit x0 y0 fe1 e) (seq 0 n) J)).
  { clear J H. induction n as [|n IHn]; intros J L H; [exact H|]. rewrite seq_S, fold_left_app. cbn [fold_left]. apply zero_bit; [exact T0|lia|]. apply IHn; [lia|exact H]. }
  apply G; [lia|exact H].
Qed.
Lemma coord_zero out : coord 0%f out -> out = 0%Z.
Proof.
  intros (v & V & E & ->). unfold f0 in E. apply (oz_cong p Hp P3) in E. rewrite EP in E. apply (cong_zero_cases v ltac:(lia)) in E. destruct E as [-> | ->]; reflexivity.
Qed.
Lemma scalar_mult_zero x0 y0 l : three (x0, y0, fe1) 0%f 0%f 1%f -> (let '(x, y, z) := p224_scalar_mult x0 y0 fe1 l in p224_to_affine x y z) = (0, 0)%Z.
Proof.
  intros T0. assert (S0 : zero_state (fe0, fe0, fe0)) by (exists 0%f, 0%f, 0%f; split; [repeat split; apply fe0_R|left; reflexivity]).
  pose proof (zero_bytes x0 y0 l T0 _ S0) as (X & Y & Z & H & C). fold (p224_scalar_mult x0 y0 fe1 l) in H.
  destruct (p224_scalar_mult x0 y0 fe1 l) as [[x y] z]. pose proof (affine_three _ _ _ _ _ _ H) as A.
  destruct C as [->|(-> & -> & ->)].
  - rewrite aff_zero in A by reflexivity. exact A.
  - rewrite aff_one in A. destruct A as [A1 A2]. apply coord_zero in A1. apply coord_zero in A2. destruct (p224_to_affine x y z). cbn [fst snd] in *. subst. reflexivity.
Qed.

(** ** The interface *)
Notation phi := (phi p Hp). Notation psi := (psi p).
(** The pair returned for a point. *)
Definition result (P : option (F * F)) (out : Z * Z) : Prop :=
  match P with None => out = (0, 0)%Z | Some (u, v) => coord u (fst out) /\ coord v (snd out) end.
Lemma result_reps x y z P : reps (x, y, z) P -> result P (p224_to_affine x y z).
Proof. intros (X & Y & Z & H & ->). exact (affine_three _ _ _ _ _ _ H). Qed.
Lemma in_reps x y : 0 <= x < 2 ^ 224 -> 0 <= y < 2 ^ 224 ->
  reps (p224_from_bigint x, p224_from_bigint y, if negb (Z.sgn x =? 0) || negb (Z.sgn y =? 0) then fe1 else fe0) (phi (x, y)).
Proof.
  intros BX BY. assert (Z3 : z_for_affine x y = if negb (Z.sgn x =? 0) || negb (Z.sgn y =? 0) then 1%Z else 0%Z) by reflexivity.
  destruct (z_for_rep p Hp P3 x y) as [_ ->]. rewrite Z3. exists (oz x), (oz y), (oz (if negb (Z.sgn x =? 0) || negb (Z.sgn y =? 0) then 1%Z else 0%Z)).
  split; [|reflexivity]. split; [apply from_R, BX|]. split; [apply from_R, BY|]. destruct (_ || _); [apply fe1_R|apply fe0_R].
Qed.
Lemma add_result x1 y1 x2 y2 : 0 <= x1 < 2 ^ 224 -> 0 <= y1 < 2 ^ 224 -> 0 <= x2 < 2 ^ 224 -> 0 <= y2 < 2 ^ 224 ->
  fon (phi (x1, y1)) -> fon (phi (x2, y2)) -> result (fpadd (phi (x1, y1)) (phi (x2, y2))) (c224_add x1 y1 x2 y2).
Proof.
  intros B1 B2 B3 B4 O1 O2. unfold c224_add. cbv zeta. pose proof (add_reps _ _ _ _ _ _ _ _ (in_reps x1 y1 B1 B2) (in_reps x2 y2 B3 B4) O1 O2) as A.
  destruct (p224_add_jacobian _ _ _ _ _ _) as [[a3 b3] c3]. apply result_reps, A.
Qed.
Lemma in_three x y : 0 <= x < 2 ^ 224 -> 0 <= y < 2 ^ 224 -> three (p224_from_bigint x, p224_from_bigint y, fe1) (oz x) (oz y) 1%f.
Proof. intros BX BY. split; [apply from_R, BX|]. split; [apply from_R, BY|apply fe1_R]. Qed.
Lemma double_result x y : 0 <= x < 2 ^ 224 -> 0 <= y < 2 ^ 224 -> result (fpadd (phi (x, y)) (phi (x, y))) (c224_double x y).
Proof.
  intros BX BY. unfold c224_double. pose proof (in_three x y BX BY) as T0. pose proof (double_three _ _ _ _ _ _ T0) as D.
  unfold phi, decode. cbn [fst snd]. destruct ((x =? 0) && (y =? 0)) eqn:E.
  - apply andb_prop in E. destruct E as [E1 E2]. apply Z.eqb_eq in E1, E2. subst.
    destruct (p224_double_jacobian _ _ _) as [[a2 b2] c2]. apply affine_three in D. rewrite aff_zero in D by (unfold dbl_z; change (oz 0) with 0%f; ring). exact D.
  - assert (H : reps (p224_from_bigint x, p224_from_bigint y, fe1) (Some (oz x, oz y))) by (exists (oz x), (oz y), 1%f; split; [exact T0|symmetry; apply aff_one]).
    apply double_reps in H. destruct (p224_double_jacobian _ _ _) as [[a2 b2] c2]. apply result_reps, H.
Qed.
Lemma scalar_result x y k : 0 <= x < 2 ^ 224 -> 0 <= y < 2 ^ 224 -> 0 <= k -> fon (phi (x, y)) -> result (zmul k (phi (x, y))) (c224_scalar x y k).
Proof.
  intros BX BY K O. unfold c224_scalar. pose proof (in_three x y BX BY) as T0.
  unfold phi, decode in *. cbn [fst snd] in *. destruct ((x =? 0) && (y =? 0)) eqn:E.
  - apply andb_prop in E. destruct E as [E1 E2]. apply Z.eqb_eq in E1, E2. subst. rewrite zmul_O.
    exact (scalar_mult_zero _ _ (to_be_bytes k) T0).
  - pose proof (scalar_mult_reps _ _ _ _ T0 O (to_be_bytes k) (bytes_to_be k)) as H. rewrite be_val_to_be_bytes in H by exact K.
    destruct (p224_scalar_mult _ _ _ _) as [[a2 b2] c2]. apply result_reps, H.
Qed.
(** The contraction compared with the canonical representative. *)
Lemma coord_exact u out : coord u out -> out = returned (to_Z p u).
Proof. intros (v & V & <- & ->). rewrite to_of. rewrite EP. apply contracted_exact, V. Qed.
End FIELD.
