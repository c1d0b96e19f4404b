(** Property C84: what repeats in key streams and long outputs, and from where.
    A step of the ZUC generator, of OFB and of the SHAKE output can be undone.  So two ZUC keys or IVs never lead to one state, two OFB key
    streams that share a block differ by a shift only, and every stream that repeats repeats from its first word, block or bit. *)
From Coq Require Import Btauto.
From Verif Require Import Base Words HashSpec HashModel WordW ZucModel ZucSpec ZucProofs ZucApi PropZuc
  ModesModel ModesSpec PropModes PropModesErr PropReuse KeccakModel KeccakSpec KeccakBij SpongeProofs Sha3Proofs KeccakApi PropKeccak.
Local Open Scope Z_scope.

(** ** The parts of F are one to one *)
Lemma ROTL_bit k x i : 0 <= k <= 32 -> ww 32 x -> 0 <= i < 32 -> Z.testbit (ROTL 32 k x) i = Z.testbit x ((i - k) mod 32).
Proof.
  intros K W I. unfold ROTL. rewrite ROTL_split by lia.
  assert (R : 0 <= x / 2 ^ (32 - k) < 2 ^ k). { unfold ww in W. split; [apply Z.div_pos; [lia|apply Z.pow_pos_nonneg; lia]|apply Z.div_lt_upper_bound; [apply Z.pow_pos_nonneg; lia|]]. rewrite <- Z.pow_add_r by lia. replace (32 - k + k) with 32 by lia. lia. }
  rewrite <- Z.shiftl_mul_pow2 by lia. rewrite <- Z.shiftr_div_pow2 in * by lia.
  rewrite Z.add_nocarry_lxor.
  2: { apply Z.bits_inj'. intros j J. rewrite Z.land_spec, Z.bits_0, Z.shiftl_spec by lia. destruct (Z.ltb_spec j k) as [L|L]; [rewrite Z.testbit_neg_r by lia; reflexivity|].
       rewrite (ww_high k (Z.shiftr x (32 - k)) j) by (unfold ww; lia). apply andb_false_r. }
  rewrite Z.lxor_spec, Z.shiftl_spec by lia. destruct (Z.ltb_spec i k) as [L|L].
  - rewrite Z.testbit_neg_r by lia. rewrite Z.shiftr_spec by lia. rewrite xorb_false_l. f_equal. symmetry. replace (i - k) with ((i + (32 - k)) + (-1) * 32) by ring. rewrite Z_mod_plus_full. apply Z.mod_small. lia.
  - rewrite (ww_high k (Z.shiftr x (32 - k)) i) by (unfold ww; lia). rewrite xorb_false_r. rewrite (Z.mod_small (i - k)) by lia.
    destruct (Z.ltb_spec (i - k) (32 - k)) as [M|M]; [|lia]. rewrite <- Z.land_ones by lia. rewrite Z.land_spec, Z.ones_spec_low by lia. apply andb_true_r.
Qed.
Definition five (a b c d : Z) (x i : Z) : bool := xorb (xorb (xorb (xorb (Z.testbit x i) (Z.testbit x ((i - a) mod 32))) (Z.testbit x ((i - b) mod 32))) (Z.testbit x ((i - c) mod 32))) (Z.testbit x ((i - d) mod 32)).
Lemma ZL1_bit x i : ww 32 x -> 0 <= i < 32 -> Z.testbit (ZL1 x) i = five 2 10 18 24 x i.
Proof. intros W I. unfold ZL1, XORs, five. cbn [fold_left]. rewrite Z.lxor_0_l, !Z.lxor_spec, !ROTL_bit by (assumption || lia). reflexivity. Qed.
Lemma ZL2_bit x i : ww 32 x -> 0 <= i < 32 -> Z.testbit (ZL2 x) i = five 8 14 22 30 x i.
Proof. intros W I. unfold ZL2, XORs, five. cbn [fold_left]. rewrite Z.lxor_0_l, !Z.lxor_spec, !ROTL_bit by (assumption || lia). reflexivity. Qed.

Definition bits32 : list Z := map Z.of_nat (seq 0 32).
Lemma in_bits32 i : 0 <= i < 32 -> In i bits32.
Proof. intros I. apply in_map_iff. exists (Z.to_nat i). split; [lia|]. apply in_seq. lia. Qed.
Definition xors (l : list bool) : bool := fold_right xorb false l.
(** The inverse of a sum of rotations is a sum of rotations. *)
Lemma five_inverse1 x : Forall (fun i => Z.testbit x i = xors (map (fun k => five 2 10 18 24 x ((i - k) mod 32)) [0; 2; 4; 8; 12; 14; 16; 18; 22; 24; 30])) bits32.
Proof. unfold five. set (b := Z.testbit x). clearbody b. clear x. unfold bits32. cbv -[xorb Z.sub Z.modulo]. repeat (apply Forall_cons; [cbv -[xorb]; btauto|]). apply Forall_nil. Qed.
Lemma five_inverse2 x : Forall (fun i => Z.testbit x i = xors (map (fun k => five 8 14 22 30 x ((i - k) mod 32)) [0; 2; 8; 10; 14; 16; 18; 20; 24; 28; 30])) bits32.
Proof. unfold five. set (b := Z.testbit x). clearbody b. clear x. unfold bits32. cbv -[xorb Z.sub Z.modulo]. repeat (apply Forall_cons; [cbv -[xorb]; btauto|]). apply Forall_nil. Qed.
Lemma ZL1_inj x y : ww 32 x -> ww 32 y -> ZL1 x = ZL1 y -> x = y.
Proof.
  intros X Y E. apply (ww_eq 32); try assumption; try lia. intros i I. pose proof (five_inverse1 x) as A. pose proof (five_inverse1 y) as B. rewrite Forall_forall in A, B.
  rewrite (A i), (B i) by (apply in_bits32; exact I). f_equal. apply map_ext. intros k. rewrite <- !ZL1_bit by (try assumption; apply Z.mod_pos_bound; lia). rewrite E. reflexivity.
Qed.
Lemma ZL2_inj x y : ww 32 x -> ww 32 y -> ZL2 x = ZL2 y -> x = y.
Proof.
  intros X Y E. apply (ww_eq 32); try assumption; try lia. intros i I. pose proof (five_inverse2 x) as A. pose proof (five_inverse2 y) as B. rewrite Forall_forall in A, B.
  rewrite (A i), (B i) by (apply in_bits32; exact I). f_equal. apply map_ext. intros k. rewrite <- !ZL2_bit by (try assumption; apply Z.mod_pos_bound; lia). rewrite E. reflexivity.
Qed.
(** The S-boxes: where the value [b] comes from. *)
Definition from (f : Z -> Z) (b : Z) : Z := match List.find (fun a => f a =? b) (map Z.of_nat (seq 0 256)) with Some a => a | None => 0 end.
Definition T0 : list Z := Eval vm_compute in map (fun b => from (tbl S_0) (Z.of_nat b)) (seq 0 256).
Definition T1 : list Z := Eval vm_compute in map (fun b => from (tbl S_1) (Z.of_nat b)) (seq 0 256).
Lemma boxes_back : forall b, byte b -> (tbl T0 (tbl S_0 b) =? b) && (tbl T1 (tbl S_1 b) =? b) = true.
Proof. apply (forall_byte (fun b => (tbl T0 (tbl S_0 b) =? b) && (tbl T1 (tbl S_1 b) =? b))). vm_compute. reflexivity. Qed.
Lemma ZS0_inj a b : byte a -> byte b -> ZS0 a = ZS0 b -> a = b.
Proof.
  intros A B E. destruct (S0_eq a A) as [Ea _]. destruct (S0_eq b B) as [Eb _]. pose proof (boxes_back a A) as Pa. pose proof (boxes_back b B) as Pb.
  apply andb_prop in Pa, Pb. destruct Pa as [Pa _], Pb as [Pb _]. apply Z.eqb_eq in Pa, Pb. rewrite <- Pa, <- Pb, Ea, Eb, E. reflexivity.
Qed.
Lemma ZS1_inj a b : byte a -> byte b -> ZS1 a = ZS1 b -> a = b.
Proof.
  intros A B E. destruct (S1_eq a A) as [Ea _]. destruct (S1_eq b B) as [Eb _]. pose proof (boxes_back a A) as Pa. pose proof (boxes_back b B) as Pb.
  apply andb_prop in Pa, Pb. destruct Pa as [_ Pa], Pb as [_ Pb]. apply Z.eqb_eq in Pa, Pb. rewrite <- Pa, <- Pb, Ea, Eb, E. reflexivity.
Qed.
Lemma four_bytes x : ww 32 x -> byte (x / 2 ^ 24) /\ byte (x / 2 ^ 16 mod 256) /\ byte (x / 2 ^ 8 mod 256) /\ byte (x mod 256) /\
  x = 2 ^ 24 * (x / 2 ^ 24) + 2 ^ 16 * (x / 2 ^ 16 mod 256) + 2 ^ 8 * (x / 2 ^ 8 mod 256) + x mod 256.
Proof.
  unfold ww, byte. intros W. change (2 ^ 32) with 4294967296 in W. change (2 ^ 24) with 16777216. change (2 ^ 16) with 65536. change (2 ^ 8) with 256.
  pose proof (Z.div_mod x 256 ltac:(lia)) as D1. pose proof (Z.mod_pos_bound x 256 ltac:(lia)).
  pose proof (Z.div_mod (x / 256) 256 ltac:(lia)) as D2. pose proof (Z.mod_pos_bound (x / 256) 256 ltac:(lia)). rewrite Z.div_div in D2 by lia. change (256 * 256) with 65536 in D2.
  pose proof (Z.div_mod (x / 65536) 256 ltac:(lia)) as D3. pose proof (Z.mod_pos_bound (x / 65536) 256 ltac:(lia)). rewrite Z.div_div in D3 by lia. change (65536 * 256) with 16777216 in D3.
  assert (0 <= x / 16777216 < 256) by (split; [apply Z.div_pos; lia|apply Z.div_lt_upper_bound; lia]). repeat split; lia.
Qed.
Lemma four_inj u3 u2 u1 u0 v3 v2 v1 v0 : byte u3 -> byte u2 -> byte u1 -> byte u0 -> byte v3 -> byte v2 -> byte v1 -> byte v0 ->
  2 ^ 24 * u3 + 2 ^ 16 * u2 + 2 ^ 8 * u1 + u0 = 2 ^ 24 * v3 + 2 ^ 16 * v2 + 2 ^ 8 * v1 + v0 -> u3 = v3 /\ u2 = v2 /\ u1 = v1 /\ u0 = v0.
Proof. unfold byte. change (2 ^ 24) with 16777216. change (2 ^ 16) with 65536. change (2 ^ 8) with 256. intros. lia. Qed.
Lemma SBOX_inj x y : ww 32 x -> ww 32 y -> SBOX x = SBOX y -> x = y.
Proof.
  intros X Y E. destruct (four_bytes x X) as (A3 & A2 & A1 & A0 & EX). destruct (four_bytes y Y) as (B3 & B2 & B1 & B0 & EY). revert E. unfold SBOX. intros E.
  pose proof (four_inj _ _ _ _ _ _ _ _ (proj2 (S0_eq _ A3)) (proj2 (S1_eq _ A2)) (proj2 (S0_eq _ A1)) (proj2 (S1_eq _ A0)) (proj2 (S0_eq _ B3)) (proj2 (S1_eq _ B2)) (proj2 (S0_eq _ B1)) (proj2 (S1_eq _ B0)) E) as Q. clear E.
  destruct Q as (E3 & E2 & E1 & E0). rewrite EX, EY. rewrite (ZS0_inj _ _ A3 B3 E3), (ZS1_inj _ _ A2 B2 E2), (ZS0_inj _ _ A1 B1 E1), (ZS1_inj _ _ A0 B0 E0). reflexivity.
Qed.
Lemma join_inj h l h' l' : ww 16 l -> ww 16 l' -> join16 h l = join16 h' l' -> h = h' /\ l = l'.
Proof. unfold ww, join16. change (2 ^ 16) with 65536. intros. lia. Qed.
Lemma halves_inj a b : wH a = wH b -> wL a = wL b -> a = b.
Proof. unfold wH, wL. intros H L. rewrite (Z.div_mod a (2 ^ 16)), (Z.div_mod b (2 ^ 16)) by discriminate. rewrite H, L. reflexivity. Qed.
Lemma ADD_cancel a b c : ww 32 a -> ww 32 b -> ADD 32 a c = ADD 32 b c -> a = b.
Proof.
  unfold ww, ADD. intros A B E. assert (X : (a - b) mod 2 ^ 32 = 0).
  { replace (a - b) with (a + c - (b + c)) by ring. rewrite Zminus_mod, E, Z.sub_diag. reflexivity. }
  apply Z.mod_divide in X; [|discriminate]. destruct X as [t T]. change (2 ^ 32) with 4294967296 in *. lia.
Qed.
Lemma lxor_cancel a b c : Z.lxor a c = Z.lxor b c -> a = b.
Proof. intros E. rewrite <- (Z.lxor_0_r a), <- (Z.lxor_0_r b), <- (Z.lxor_nilpotent c), <- !Z.lxor_assoc, E. reflexivity. Qed.

(** ** A step can be undone *)
Definition zok (st : zstate) : Prop := length (S_cells st) = 16%nat /\ Forall c31 (S_cells st) /\ ww 32 (S_R1 st) /\ ww 32 (S_R2 st).
Lemma zrel_zok z st : zrel z st -> zok st.
Proof. intros R. split; [exact (zrel_len z st R)|]. destruct R as (_ & _ & _ & _ & F & V1 & V2). auto. Qed.
Lemma zok_c31 st i : zok st -> (i < 16)%nat -> c31 (cell (S_cells st) i).
Proof. intros (L & F & _) I. rewrite Forall_forall in F. apply F, nth_In. lia. Qed.
Lemma zok_X st : zok st -> ww 32 (X1 (S_cells st)) /\ ww 32 (X2 (S_cells st)).
Proof. intros Z. unfold X1, X2. split; apply join_ww; try apply mod16_ww; apply cH_ww, zok_c31; try assumption; lia. Qed.
Lemma tl_cells s s' : length s = 16%nat -> length s' = 16%nat -> tl s = tl s' -> forall i, (0 < i)%nat -> cell s i = cell s' i.
Proof. intros L L' E i I. destruct s as [|a s]; [discriminate|]. destruct s' as [|a' s']; [discriminate|]. cbn [tl] in E. subst s'. destruct i as [|i]; [lia|]. reflexivity. Qed.
Lemma canon_mod x : canon31 x mod P31 = x mod P31.
Proof. unfold canon31. destruct (Z.eqb_spec (x mod P31) 0) as [E|E]; [rewrite E; reflexivity|apply Z.mod_mod; discriminate]. Qed.
Lemma clock_back st st' u u' : zok st -> zok st' -> (tl (S_cells st) = tl (S_cells st') -> S_R1 st = S_R1 st' -> S_R2 st = S_R2 st' -> u = u') ->
  clock u st = clock u' st' -> st = st'.
Proof.
  intros Z Z' U E. unfold clock in E. injection E as E1 E2 E3. pose proof Z as (L & F & V1 & V2). pose proof Z' as (L' & F' & V1' & V2').
  unfold LFSR in E1. apply app_inj_tail in E1. destruct E1 as [ET EC]. pose proof (tl_cells _ _ L L' ET) as C.
  destruct (zok_X st Z) as [WX1 WX2]. destruct (zok_X st' Z') as [WX1' WX2'].
  assert (EX1 : X1 (S_cells st) = X1 (S_cells st')) by (unfold X1, cL, cH; rewrite !C by lia; reflexivity).
  assert (EX2 : X2 (S_cells st) = X2 (S_cells st')) by (unfold X2, cL, cH; rewrite !C by lia; reflexivity).
  revert E2 E3. unfold F_R1, F_R2. cbv zeta. rewrite <- EX1, <- EX2. intros E2 E3.
  set (x1 := X1 (S_cells st)) in *. set (x2 := X2 (S_cells st)) in *. clearbody x1 x2.
  set (w1 := ADD 32 (S_R1 st) x1) in *. set (w1' := ADD 32 (S_R1 st') x1) in *. set (w2 := Z.lxor (S_R2 st) x2) in *. set (w2' := Z.lxor (S_R2 st') x2) in *.
  assert (K1 : ww 32 w1) by (apply ww_ADD; lia). assert (K1' : ww 32 w1') by (apply ww_ADD; lia).
  assert (K2 : ww 32 w2) by (apply ww_lxor; assumption || lia). assert (K2' : ww 32 w2') by (apply ww_lxor; assumption || lia).
  assert (J : forall a b, ww 32 b -> ww 32 (join16 (wL a) (wH b))) by (intros a b Hb; apply join_ww; [apply mod16_ww|apply wH_ww, Hb]).
  apply (SBOX_inj _ _ (proj2 (zl1_ok _ (J w1 w2 K2))) (proj2 (zl1_ok _ (J w1' w2' K2')))) in E2. apply (ZL1_inj _ _ (J w1 w2 K2) (J w1' w2' K2')) in E2. apply (join_inj _ _ _ _ (wH_ww _ K2) (wH_ww _ K2')) in E2.
  apply (SBOX_inj _ _ (proj2 (zl2_ok _ (J w2 w1 K1))) (proj2 (zl2_ok _ (J w2' w1' K1')))) in E3. apply (ZL2_inj _ _ (J w2 w1 K1) (J w2' w1' K1')) in E3. apply (join_inj _ _ _ _ (wH_ww _ K1) (wH_ww _ K1')) in E3.
  destruct E2 as [A1 A2]. destruct E3 as [B1 B2]. assert (EW1 : w1 = w1') by (apply halves_inj; assumption). assert (EW2 : w2 = w2') by (apply halves_inj; assumption).
  assert (ER1 : S_R1 st = S_R1 st') by (apply (ADD_cancel _ _ x1); assumption). assert (ER2 : S_R2 st = S_R2 st') by (apply (lxor_cancel _ _ x2); assumption).
  specialize (U ET ER1 ER2). subst u'.
  assert (EF : (FEEDBACK (S_cells st) + u) mod P31 = (FEEDBACK (S_cells st') + u) mod P31) by (rewrite <- canon_mod, EC, canon_mod; reflexivity).
  assert (C0 : cell (S_cells st) 0 = cell (S_cells st') 0).
  { unfold FEEDBACK in EF. rewrite !(C 15%nat), !(C 13%nat), !(C 10%nat), !(C 4%nat) in EF by lia.
    pose proof (zok_c31 st 0 Z ltac:(lia)) as R0. pose proof (zok_c31 st' 0 Z' ltac:(lia)) as R0'. unfold c31 in R0, R0'. set (a := cell (S_cells st) 0) in *. set (b := cell (S_cells st') 0) in *. clearbody a b.
    match type of EF with (?k + _ * a + u) mod _ = _ => set (t := k) in EF; clearbody t end.
    assert (D : (P31 | (1 + 2 ^ 8) * (a - b))).
    { apply Z.mod_divide; [discriminate|]. replace ((1 + 2 ^ 8) * (a - b)) with ((t + (1 + 2 ^ 8) * a + u) - (t + (1 + 2 ^ 8) * b + u)) by ring. rewrite Zminus_mod, EF, Z.sub_diag. reflexivity. }
    apply Z.gauss in D; [|reflexivity]. destruct D as [q Q]. rewrite P31_val in *. lia. }
  destruct st as [s r1 r2], st' as [s' r1' r2']. cbn [S_cells S_R1 S_R2] in *. subst r1' r2'. f_equal.
  destruct s as [|a s]; [discriminate|]. destruct s' as [|a' s']; [discriminate|]. cbn [tl] in ET. cbn in C0. subst. reflexivity.
Qed.

(** ** Invertible steps on finitely many states run in cycles *)
Section Cycle.
Context {A : Type} (ok : A -> Prop) (f : A -> A) (e : A -> Z) (N : Z).
Hypothesis ok_f : forall x, ok x -> ok (f x).
Hypothesis f_inj : forall x y, ok x -> ok y -> f x = f y -> x = y.
Hypothesis e_inj : forall x y, ok x -> ok y -> e x = e y -> x = y.
Hypothesis e_range : forall x, ok x -> 0 <= e x < N.
Lemma ok_iter k x : ok x -> ok (Nat.iter k f x).
Proof. intros X. induction k as [|k IH]; [exact X|]. cbn. apply ok_f, IH. Qed.
Lemma iter_inj k x y : ok x -> ok y -> Nat.iter k f x = Nat.iter k f y -> x = y.
Proof. intros X Y. induction k as [|k IH]; intros E; [exact E|]. cbn in E. apply IH, f_inj; auto using ok_iter. Qed.
Lemma iter_add j k x : Nat.iter (j + k) f x = Nat.iter j f (Nat.iter k f x).
Proof. induction j as [|j IH]; [reflexivity|]. cbn. f_equal. exact IH. Qed.
Lemma repeats x : ok x -> exists i j, (i < j)%nat /\ Z.of_nat j <= N /\ Nat.iter i f x = Nat.iter j f x.
Proof.
  intros X. set (l := map (fun k => e (Nat.iter k f x)) (seq 0 (Datatypes.S (Z.to_nat N)))).
  assert (N0 : 0 < N) by (pose proof (e_range x X); lia).
  assert (ND : ~ NoDup l).
  { intros ND. assert (I : incl l (map Z.of_nat (seq 0 (Z.to_nat N)))).
    { intros v V. unfold l in V. apply in_map_iff in V. destruct V as (k & <- & _). pose proof (e_range _ (ok_iter k x X)). apply in_map_iff. exists (Z.to_nat (e (Nat.iter k f x))). split; [lia|]. apply in_seq. lia. }
    pose proof (NoDup_incl_length ND I) as L. unfold l in L. rewrite !map_length, !seq_length in L. lia. }
  assert (K : forall m, NoDup (map (fun k => e (Nat.iter k f x)) (seq 0 m)) \/ exists i j, (i < j < m)%nat /\ e (Nat.iter i f x) = e (Nat.iter j f x)).
  { induction m as [|m [IH|(i & j & IJ & E)]]; [left; constructor| |right; exists i, j; split; [lia|exact E]].
    destruct (in_dec Z.eq_dec (e (Nat.iter m f x)) (map (fun k => e (Nat.iter k f x)) (seq 0 m))) as [Y|Y].
    - right. apply in_map_iff in Y. destruct Y as (i & E & I). apply in_seq in I. exists i, m. split; [lia|exact E].
    - left. rewrite seq_S, map_app. cbn [map Nat.add]. apply (NoDup_Add (a := e (Nat.iter m f x)) (l := map (fun k => e (Nat.iter k f x)) (seq 0 m))); [|split; [exact IH|exact Y]].
      rewrite <- (app_nil_r (map _ (seq 0 m))) at 1. apply Add_app. }
  destruct (K (Datatypes.S (Z.to_nat N))) as [Y|(i & j & IJ & E)]; [contradiction|]. exists i, j. split; [lia|]. split; [lia|]. apply e_inj; auto using ok_iter.
Qed.
Lemma cycle x : ok x -> exists T, (0 < T)%nat /\ Z.of_nat T <= N /\ forall k, Nat.iter (k + T) f x = Nat.iter k f x.
Proof.
  intros X. destruct (repeats x X) as (i & j & IJ & J & E). exists (j - i)%nat. split; [lia|]. split; [lia|].
  assert (B : Nat.iter (j - i) f x = x). { symmetry. apply (iter_inj i); auto using ok_iter. rewrite <- iter_add. replace (i + (j - i))%nat with j by lia. exact E. }
  intros k. rewrite iter_add, B. reflexivity.
Qed.
End Cycle.

(** ** ZUC *)
(** The sixteen cells and the two registers are the same. *)
Definition same_state (z z' : zuc) : Prop := firstn 16 (z_lfsr z) = firstn 16 (z_lfsr z') /\ z_r1 z = z_r1 z' /\ z_r2 z = z_r2 z'.
Lemma init_back st st' : zok st -> zok st' -> init_clock st = init_clock st' -> st = st'.
Proof.
  intros Z Z' E. unfold init_clock in E. apply (clock_back st st' (F_W st / 2) (F_W st' / 2)); try assumption. intros T R1 R2. unfold F_W, X0, cH, cL.
  rewrite R1, R2, !(tl_cells _ _ (proj1 Z) (proj1 Z') T) by lia. reflexivity.
Qed.
Lemma work_back st st' : zok st -> zok st' -> clock 0 st = clock 0 st' -> st = st'.
Proof. intros Z Z' E. apply (clock_back st st' 0 0); auto. Qed.
Lemma same_rel z z' st st' : zrel z st -> zrel z' st' -> same_state z z' <-> st = st'.
Proof.
  intros (_ & A & B & C & _) (_ & A' & B' & C' & _). unfold same_state. rewrite A, A', B, B', C, C'. destruct st, st'. cbn. split; [intros (-> & -> & ->); reflexivity|intros E; injection E; auto].
Qed.
Lemma load_rel key iv : key16 key -> key16 iv -> zrel (key_schedule key iv) (key_load key iv).
Proof. intros [Lk Bk] [Lv Bv]. apply load_ok; auto. Qed.
Lemma cells_inj key iv key' iv' : key16 key -> key16 iv -> key16 key' -> key16 iv' -> S_cells (key_load key iv) = S_cells (key_load key' iv') -> key = key' /\ iv = iv'.
Proof.
  intros [Lk Bk] [Lv Bv] [Lk' Bk'] [Lv' Bv'] E.
  assert (C : forall i, (i < 16)%nat -> nth i key 0 = nth i key' 0 /\ nth i iv 0 = nth i iv' 0).
  { intros i I. set (g := fun (k v : list Z) i => 2 ^ 23 * nth i k 0 + 2 ^ 8 * nth i ZD 0 + nth i v 0).
    assert (G : forall k v, nth i (S_cells (key_load k v)) 0 = g k v i).
    { intros k v. change (S_cells (key_load k v)) with (map (g k v) (seq 0 16)). rewrite (nth_indep _ 0 (g k v 0%nat)) by (rewrite map_length, seq_length; exact I). rewrite map_nth, seq_nth by exact I. reflexivity. }
    pose proof (f_equal (fun l => nth i l 0) E) as Ei. cbv beta in Ei. rewrite !G in Ei. unfold g in Ei. clear G g.
    assert (B : forall l, bytes l -> length l = 16%nat -> byte (nth i l 0)) by (intros l Bl Ll; apply (proj1 (Forall_forall _ _) Bl), nth_In; lia).
    pose proof (B key Bk Lk) as P1. pose proof (B iv Bv Lv) as P2. pose proof (B key' Bk' Lk') as P3. pose proof (B iv' Bv' Lv') as P4. unfold byte in *. change (2 ^ 23) with 8388608 in Ei. change (2 ^ 8) with 256 in Ei. clear -Ei P1 P2 P3 P4. lia. }
  split; apply (nth_ext _ _ 0 0); try congruence; intros i I; apply C; lia.
Qed.

Lemma zok_zrel st : zok st -> zrel (mkZuc (S_cells st ++ [0]) (S_R1 st) (S_R2 st)) st.
Proof.
  intros (L & F & W1 & W2). unfold zrel. cbn [z_lfsr z_r1 z_r2]. split; [rewrite app_length, L; reflexivity|]. split; [|auto].
  rewrite firstn_app, L, Nat.sub_diag, firstn_all2 by lia. apply app_nil_r.
Qed.
Lemma OW st : zok st -> zok (clock 0 st).
Proof. intros Z. exact (zrel_zok _ _ (proj1 (next_ok _ _ (zok_zrel st Z)))). Qed.
Lemma OI st : zok st -> zok (init_clock st).
Proof. intros Z. exact (zrel_zok _ _ (init_round_ok _ _ (zok_zrel st Z))). Qed.

(** Two generators, made with any keys and IVs, that are in the same state after the same number of words were made with the same key and IV. *)
Theorem C84_zuc_states : forall key iv key' iv' z z' n, key16 key -> key16 iv -> key16 key' -> key16 iv' ->
  zuc_from_slice key iv = Ok z -> zuc_from_slice key' iv' = Ok z' -> same_state (fst (zuc_take n z)) (fst (zuc_take n z')) -> key = key' /\ iv = iv'.
Proof.
  intros key iv key' iv' z z' n K V K' V' E E' S.
  destruct (from_slice_ok key iv (proj1 K) (proj1 V) (proj2 K) (proj2 V)) as (z1 & E1 & R). rewrite E in E1. injection E1 as <-.
  destruct (from_slice_ok key' iv' (proj1 K') (proj1 V') (proj2 K') (proj2 V')) as (z1 & E1 & R'). rewrite E' in E1. injection E1 as <-.
  destruct (take_at key iv n z 0 R) as (y & EY & RY). destruct (take_at key' iv' n z' 0 R') as (y' & EY' & RY'). rewrite EY, EY' in S. cbn [fst Nat.add] in *.
  apply (same_rel y y' _ _ RY RY') in S. unfold zstate_at in S.
  pose proof (zrel_zok _ _ (load_rel key iv K V)) as L0. pose proof (zrel_zok _ _ (load_rel key' iv' K' V')) as L0'.
  pose proof (ok_iter zok init_clock OI 32 _ L0) as L1. pose proof (ok_iter zok init_clock OI 32 _ L0') as L1'.
  apply (iter_inj zok (clock 0) OW work_back) in S; [|unfold start; apply OW; assumption..]. unfold start in S. apply work_back in S; [|assumption..].
  apply (iter_inj zok init_clock OI init_back) in S; [|assumption..]. apply cells_inj; try assumption. rewrite S. reflexivity.
Qed.
Print Assumptions C84_zuc_states.

Lemma app_inj_len {A} (a b c d : list A) : length a = length c -> a ++ b = c ++ d -> a = c /\ b = d.
Proof. revert c. induction a as [|x a IH]; intros [|y c] L E; try discriminate; [auto|]. injection E as -> E. injection L as L. destruct (IH c L E) as [-> ->]. auto. Qed.
(** The state as a number of 72 bytes. *)
Definition words (st : zstate) : list Z := S_R1 st :: S_R2 st :: S_cells st.
Definition znum (st : zstate) : Z := be_val (flat_map (be_bytes 4) (words st)).
Lemma words_inj : forall l l', length l = length l' -> Forall (fun x => 0 <= x < 256 ^ 4) l -> Forall (fun x => 0 <= x < 256 ^ 4) l' -> flat_map (be_bytes 4) l = flat_map (be_bytes 4) l' -> l = l'.
Proof.
  induction l as [|a l IH]; intros [|b l'] L F F' E; try discriminate; [reflexivity|]. cbn [flat_map] in E. injection L as L. apply Forall_cons_iff in F, F'. destruct F as [A F], F' as [B F'].
  apply app_inj_len in E; [|rewrite !be_bytes_length; reflexivity]. destruct E as [E1 E2]. f_equal; [|apply IH; assumption].
  rewrite <- (Z.mod_small a (256 ^ Z.of_nat 4)), <- (Z.mod_small b (256 ^ Z.of_nat 4)), <- !be_val_bytes, E1 by assumption. reflexivity.
Qed.
Lemma zok_words st : zok st -> Forall (fun x => 0 <= x < 256 ^ 4) (words st) /\ length (words st) = 18%nat.
Proof.
  intros (L & F & W1 & W2). split; [|cbn; rewrite L; reflexivity]. apply Forall_cons; [exact W1|]. apply Forall_cons; [exact W2|].
  eapply Forall_impl; [|exact F]. unfold c31. rewrite P31_val. change (256 ^ 4) with 4294967296. intros a A. lia.
Qed.
Lemma flat_bytes l : bytes (flat_map (be_bytes 4) l) /\ length (flat_map (be_bytes 4) l) = (4 * length l)%nat.
Proof.
  induction l as [|a l [IH IL]]; [split; [constructor|reflexivity]|]. cbn [flat_map]. split; [apply bytes_app; split; [apply be_bytes_bytes|exact IH]|].
  rewrite app_length, be_bytes_length, IL. cbn [length]. lia.
Qed.
Lemma znum_range st : zok st -> 0 <= znum st < 256 ^ 72.
Proof.
  intros Z. destruct (zok_words st Z) as [_ L]. destruct (flat_bytes (words st)) as [B BL]. unfold znum. pose proof (be_val_bound _ B) as R. rewrite BL, L in R. exact R.
Qed.
Lemma znum_inj st st' : zok st -> zok st' -> znum st = znum st' -> st = st'.
Proof.
  intros Z Z' E. destruct (zok_words st Z) as [F L]. destruct (zok_words st' Z') as [F' L']. destruct (flat_bytes (words st)) as [B BL]. destruct (flat_bytes (words st')) as [B' BL'].
  apply be_val_inj in E; [|assumption..|congruence]. apply words_inj in E; [|congruence|assumption..]. destruct st, st'. unfold words in E. cbn in E. injection E as -> -> ->. reflexivity.
Qed.
(** The key stream is periodic from its first word. *)
Theorem C84_zuc_period : forall key iv z, key16 key -> key16 iv -> zuc_from_slice key iv = Ok z ->
  exists T, (0 < T)%nat /\ Z.of_nat T <= 256 ^ 72 /\ forall n i, (i + T < n)%nat -> nth (i + T) (snd (zuc_take n z)) 0 = nth i (snd (zuc_take n z)) 0.
Proof.
  intros key iv z K V E. destruct (from_slice_ok key iv (proj1 K) (proj1 V) (proj2 K) (proj2 V)) as (z1 & E1 & R). rewrite E in E1. injection E1 as <-.
  destruct (cycle zok (clock 0) znum (256 ^ 72) OW work_back znum_inj znum_range (start key iv) (zrel_zok _ _ R)) as (T & T0 & TN & C). exists T. split; [exact T0|]. split; [exact TN|].
  intros n i I. destruct (take_at key iv n z 0 R) as (y & -> & _). cbn [snd].
  assert (G : forall k, (k < n)%nat -> nth k (map (Zword key iv) (seq 0 n)) 0 = Zword key iv k).
  { intros k Hk. rewrite (nth_indep _ 0 (Zword key iv 0%nat)) by (rewrite map_length, seq_length; exact Hk). rewrite map_nth, seq_nth by exact Hk. reflexivity. }
  rewrite !G by lia. unfold Zword, zstate_at. rewrite C. reflexivity.
Qed.
Print Assumptions C84_zuc_period.

(** ** OFB *)
(** What one encryption adds to the message. *)
Definition ofb_pad (c : cipher) (iv dst m : list Z) : list Z := xorl m (fst (ofb_encrypt (mkOfb c iv) dst m)).
Section Ofb.
Context (c : cipher) (n : nat) (E D : list Z -> list Z).
Hypothesis GC : GoodCipher c n E D.
Definition blk_ok (b : list Z) : Prop := length b = n /\ bytes b.
Lemma E_ok b : blk_ok b -> blk_ok (E b).
Proof. intros [L B]. exact (gc_E _ _ _ _ GC b L B). Qed.
Lemma E_inj a b : blk_ok a -> blk_ok b -> E a = E b -> a = b.
Proof. intros [L B] [L' B'] X. rewrite <- (gc_DE _ _ _ _ GC a L B), <- (gc_DE _ _ _ _ GC b L' B'), X. reflexivity. Qed.
Lemma block_concat : forall (g : nat -> list Z) m o j, (forall i, length (g i) = n) -> (j < m)%nat -> block_at n j (concat (map g (seq o m))) = g (o + j)%nat.
Proof.
  intros g. induction m as [|m IH]; intros o j G J; [lia|]. cbn [seq map concat]. destruct j as [|j]; [rewrite block_at_0, Nat.add_0_r by apply G; reflexivity|].
  rewrite block_at_S by apply G. rewrite IH by (auto; lia). f_equal. lia.
Qed.
Lemma pad_block iv dst m j : blk_ok iv -> (S j * n <= length m)%nat -> block_at n j (ofb_pad c iv dst m) = Nat.iter (S j) E iv.
Proof.
  intros [L B] J. unfold ofb_pad. destruct (C18_ofb c n E D GC iv dst m L B) as (LC & -> & _). cbn [fst]. unfold OFB in *. rewrite xorl_length in LC.
  pose proof (gc_pos _ _ _ _ GC) as P. rewrite xorl_known. unfold block_at. rewrite skipn_firstn_comm, firstn_firstn, Nat.min_l by (cbn [Nat.mul] in J; lia).
  apply (block_concat (fun j => Nat.iter (S j) E iv) _ 0 j).
  - intros i. exact (proj1 (ok_iter blk_ok E E_ok (S i) iv (conj L B))).
  - unfold nblocks. apply Nat.div_le_lower_bound; [lia|]. cbn [Nat.mul] in J. nia.
Qed.
Lemma shared iv iv' i j : blk_ok iv -> blk_ok iv' -> (i <= j)%nat -> Nat.iter (S i) E iv = Nat.iter (S j) E iv' -> iv = Nat.iter (j - i) E iv'.
Proof.
  intros I I' L X. apply (iter_inj blk_ok E E_ok E_inj (S i)); auto using (ok_iter blk_ok E E_ok). rewrite <- (iter_add E). replace (S i + (j - i))%nat with (S j) by lia. exact X.
Qed.
End Ofb.

(** Under one key, if a block of one key stream is a block of another, the IV of the one that reaches it first is the IV or a block of the
    other, and from there on the two key streams agree. *)
Theorem C84_ofb_shared : forall c n E D, GoodCipher c n E D -> forall iv iv' dst dst' m m' i j, length iv = n -> bytes iv -> length iv' = n -> bytes iv' ->
  (S i * n <= length m)%nat -> (S j * n <= length m')%nat -> (i <= j)%nat ->
  let p := ofb_pad c iv dst m in let p' := ofb_pad c iv' dst' m' in block_at n i p = block_at n j p' ->
  (if (i =? j)%nat then iv = iv' else iv = block_at n (j - i - 1) p') /\
  forall t, (S (i + t) * n <= length m)%nat -> (S (j + t) * n <= length m')%nat -> block_at n (i + t) p = block_at n (j + t) p'.
Proof.
  intros c n E D GC iv iv' dst dst' m m' i j L B L' B' I J IJ p p' X. unfold p, p' in *. rewrite !(pad_block c n E D GC) in X by (try split; assumption).
  pose proof (shared c n E D GC iv iv' i j (conj L B) (conj L' B') IJ X) as Q. split.
  - destruct (Nat.eqb_spec i j) as [->|NE]; [rewrite Nat.sub_diag in Q; exact Q|]. rewrite (pad_block c n E D GC); [|split; assumption|nia]. replace (S (j - i - 1)) with (j - i)%nat by lia. exact Q.
  - intros t It Jt. rewrite !(pad_block c n E D GC) by (try split; assumption). replace (S (i + t)) with (t + S i)%nat by lia. replace (S (j + t)) with (t + S j)%nat by lia. rewrite !iter_add, X. reflexivity.
Qed.
Print Assumptions C84_ofb_shared.
(** The key stream of an IV is periodic from its first block, and reaches the IV itself just before it repeats. *)
Theorem C84_ofb_period : forall c n E D, GoodCipher c n E D -> forall iv, length iv = n -> bytes iv ->
  exists T, (0 < T)%nat /\ Z.of_nat T <= 256 ^ Z.of_nat n /\ forall dst m, let p := ofb_pad c iv dst m in
    ((T * n <= length m)%nat -> block_at n (T - 1) p = iv) /\ forall i, (S (i + T) * n <= length m)%nat -> block_at n (i + T) p = block_at n i p.
Proof.
  intros c n E D GC iv L B.
  destruct (cycle (blk_ok n) E be_val (256 ^ Z.of_nat n) (E_ok c n E D GC) (E_inj c n E D GC)) with (x := iv) as (T & T0 & TN & C).
  - intros x y [Lx Bx] [Ly By] X. apply be_val_inj; congruence.
  - intros x [Lx Bx]. rewrite <- Lx. apply be_val_bound, Bx.
  - split; assumption.
  - exists T. split; [exact T0|]. split; [exact TN|]. intros dst m p. unfold p. split.
    + intros M. rewrite (pad_block c n E D GC); [|split; assumption|replace (S (T - 1)) with T by lia; exact M]. replace (S (T - 1)) with T by lia. exact (C 0%nat).
    + intros i I. rewrite !(pad_block c n E D GC); [|split; assumption|nia|split; assumption|exact I]. replace (S (i + T)) with (S i + T)%nat by lia. apply C.
Qed.
Print Assumptions C84_ofb_period.

(** ** SHAKE *)
Lemma nth_blocks {X} (g : nat -> list X) r d0 : (0 < r)%nat -> (forall i, length (g i) = r) -> forall m o k, (k < m * r)%nat ->
  nth k (flat_map g (seq o m)) d0 = nth (k mod r) (g (o + k / r)%nat) d0.
Proof.
  intros R G. induction m as [|m IH]; intros o k K; [lia|]. cbn [seq flat_map]. destruct (Nat.lt_ge_cases k r) as [A|A].
  - rewrite app_nth1 by (rewrite G; exact A). rewrite Nat.div_small, Nat.mod_small, Nat.add_0_r by exact A. reflexivity.
  - rewrite app_nth2 by (rewrite G; exact A). rewrite G. rewrite IH by (cbn [Nat.mul] in K; lia).
    assert (DM : k = (1 * r + (k - r))%nat) by lia. rewrite DM at 3 4. rewrite Nat.add_comm with (n := (1 * r)%nat), Nat.mod_add, Nat.div_add by lia. f_equal. f_equal. lia.
Qed.
Definition bstate (s : list bool) : Prop := length s = 1600%nat.
Lemma bits_val_inj : forall a b, length a = length b -> bits_val a = bits_val b -> a = b.
Proof. intros a b L E. apply (nth_ext _ _ false false); [exact L|]. intros i _. rewrite <- !bits_val_testbit, E. reflexivity. Qed.
(** For every message there is a period, in blocks of the rate, of its whole SHAKE output, however long. *)
Theorem C84_shake_period : forall strength ws, In strength [128; 256]%nat -> forall raw : bool,
  let start d := if raw then to_raw_shake (shake_new strength d) else shake_new strength d in
  let out d := snd (shake_checksum (fold_left shake_write ws (start d))) in
  exists T, (0 < T)%nat /\ Z.of_nat T <= 2 ^ 1600 /\
    forall d i, (i + T * (1600 - 2 * strength) < d)%nat -> nth (i + T * (1600 - 2 * strength)) (h2b (out d)) false = nth i (h2b (out d)) false.
Proof.
  intros strength ws H raw start out.
  assert (EO : forall d, out d = XOF strength raw d (h2b (concat ws))).
  { intros d. destruct (C30_shake_chunking strength d ws H) as [A B]. unfold out, start, XOF. destruct raw; [exact B|exact A]. }
  set (N := h2b (concat ws) ++ if raw then [true; true] else [true; true; true; true]). set (r := (1600 - 2 * strength)%nat).
  assert (Hr : (0 < r <= 1600)%nat) by (unfold r; cbn [In] in H; destruct H as [<-|[<-|[]]]; lia).
  assert (Hf : forall s, bstate (KECCAK_p 6 24 s)) by (intros s; apply (KECCAK_p_length 6 24)).
  set (S0 := fold_left (fun s Pi => KECCAK_p 6 24 (bxor s (Pi ++ repeat false (1600 - r)))) (blocks r (N ++ pad10s1 r (length N))) (repeat false 1600)).
  assert (B0 : bstate S0).
  { unfold S0. generalize (blocks r (N ++ pad10s1 r (length N))). intros l. assert (G : bstate (repeat false 1600)) by (unfold bstate; apply repeat_length). revert G. generalize (repeat false 1600).
    induction l as [|b l IH]; intros s Hs; [exact Hs|]. cbn [fold_left]. apply IH, Hf. }
  destruct (cycle bstate (KECCAK_p 6 24) bits_val (2 ^ 1600)) with (x := S0) as (T & T0 & TN & C).
  - intros x _. apply Hf.
  - intros x y Lx Ly. apply KECCAK_p_inj; assumption.
  - intros x y Lx Ly. apply bits_val_inj. congruence.
  - intros x Lx. pose proof (bits_val_bound x) as Q. rewrite Lx in Q. exact Q.
  - exact B0.
  - exists T. split; [exact T0|]. split; [exact TN|]. intros d i I.
    assert (V : forall k, (k < d)%nat -> nth k (h2b (out d)) false = nth (k mod r) (Nat.iter (k / r) (KECCAK_p 6 24) S0) false).
    { intros k K. rewrite EO, XOF_sponge. fold N r. pose proof (h2b_b2h (SPONGE (KECCAK_p 6 24) 1600 r N d)) as Q. rewrite (SPONGE_length (KECCAK_p 6 24) 1600 r N d Hr Hf) in Q.
      rewrite <- (nth_firstn (h2b (b2h (SPONGE (KECCAK_p 6 24) 1600 r N d))) d) by exact K. rewrite Q. unfold SPONGE. fold S0. rewrite nth_firstn by exact K.
      rewrite (nth_blocks _ r).
      - cbn [Nat.add]. apply nth_firstn. apply Nat.mod_upper_bound. lia.
      - lia.
      - intros j. rewrite firstn_length. assert (X : bstate (Nat.iter j (KECCAK_p 6 24) S0)) by (apply ok_iter; [intros x _; apply Hf|exact B0]). rewrite X. lia.
      - pose proof (Nat.div_mod d r ltac:(lia)). pose proof (Nat.mod_upper_bound d r ltac:(lia)). nia. }
    fold r in I |- *. rewrite !V by lia. rewrite Nat.mod_add, Nat.div_add, C by lia. reflexivity.
Qed.
Print Assumptions C84_shake_period.

(** ** Cases *)
(** The premises; in the OFB case a block of one key stream is the IV of another. *)
Example C84_case : key16 (repeat 0 16) /\ key16 (repeat 0 15 ++ [1]) /\ repeat 0 16 <> repeat 0 15 ++ [1] /\
  (exists z, zuc_from_slice (repeat 0 16) (repeat 0 16) = Ok z) /\ (exists z, zuc_from_slice (repeat 0 16) (repeat 0 15 ++ [1]) = Ok z) /\
  (exists E D, GoodCipher exc 16 E D) /\
  (let p' := ofb_pad exc exiv [] (repeat 0 48) in let iv := block_at 16 0 p' in iv <> exiv /\ block_at 16 0 (ofb_pad exc iv [] (repeat 5 32)) = block_at 16 1 p').
Proof.
  assert (K0 : key16 (repeat 0 16)) by (split; [reflexivity|apply bytes_forallb; reflexivity]). assert (K1 : key16 (repeat 0 15 ++ [1])) by (split; [reflexivity|apply bytes_forallb; reflexivity]).
  split; [exact K0|]. split; [exact K1|]. split; [discriminate|]. split; [destruct (C35_keystream _ _ K0 K0) as (z & E & _); exists z; exact E|]. split; [destruct (C35_keystream _ _ K0 K1) as (z & E & _); exists z; exact E|].
  split; [exact instance_good|]. vm_compute. split; [discriminate|reflexivity].
Qed.
