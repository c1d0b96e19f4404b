(** Proofs about P224Model.v: carries, reduction and contraction. *)
From Coq Require Import Znumtheory.
From Verif Require Import Base Words HashModel EllModel EllSpec P224Model P224Spec LimbTac P224Large.
Local Open Scope Z_scope.
Local Notation p := (2 ^ 224 - 2 ^ 96 + 1).

Ltac eight H R := match type of H with R = [?a; ?b; ?c; ?d; ?e; ?f; ?g; ?h] => exists a, b, c, d, e, f, g, h end.
Ltac start H R t := set (R := t); assert (H : R = t) by reflexivity; clearbody R.
(** The carry chain from limb 0 to limb 7. *)
Ltac carries H := repeat (match type of H with context [carry_step (?x :: ?l) ?i] =>
    let e := eval cbv [carry_step upd nth Nat.add firstn skipn app bot28] in (carry_step (x :: l) i) in ev H (carry_step (x :: l) i) e end;
    repeat word_step H).
Lemma top_mask q : 0 <= q <= 15 ->
  sar31 (shl32 (Z.lor (Z.lor q (shr q 2)) (shr (Z.lor q (shr q 2)) 1)) 31) = if q =? 0 then 0 else M32 - 1.
Proof.
  intros B. assert (D : In q (map Z.of_nat (seq 0 16))) by (apply in_map_iff; exists (Z.to_nat q); split; [lia|apply in_seq; lia]).
  revert D. generalize q. clear. cbn [seq map]. intros q D. repeat (destruct D as [<-|D]; [reflexivity|]). destruct D.
Qed.
Lemma add_sub_32 x y z : 0 <= x - y + z < M32 -> add32 (sub32 x y) z = x - y + z.
Proof. intros B. unfold add32, sub32. rewrite Zplus_mod_idemp_l. apply Z.mod_small. exact B. Qed.
Lemma sub_add_32 x y z : 0 <= x + y - z < M32 -> sub32 (add32 x y) z = x + y - z.
Proof. intros B. unfold add32, sub32. rewrite Zminus_mod_idemp_l. apply Z.mod_small. exact B. Qed.

Lemma reduce_8 a0 a1 a2 a3 a4 a5 a6 a7 : Forall (fun x => 0 <= x <= 4294967280) [a0; a1; a2; a3; a4; a5; a6; a7] ->
  exists o0 o1 o2 o3 o4 o5 o6 o7, p224_reduce [a0; a1; a2; a3; a4; a5; a6; a7] = [o0; o1; o2; o3; o4; o5; o6; o7] /\ Forall (fun x => 0 <= x <= 2 ^ 29 - 1) [o0; o1; o2; o3; o4; o5; o6; o7] /\ cong p (val28 [o0; o1; o2; o3; o4; o5; o6; o7]) (val28 [a0; a1; a2; a3; a4; a5; a6; a7]).
Proof.
  intros HA. split_bounds. start H R (p224_reduce [a0; a1; a2; a3; a4; a5; a6; a7]).
  unfold p224_reduce in H. ev H (seq 0 7) [0; 1; 2; 3; 4; 5; 6]%nat. rewrite !fold_cons, !fold_nil in H. carries H.
  match type of H with context [reduce_top ?l] => let e := eval cbv [reduce_top upd nth firstn skipn app bot28] in (reduce_top l) in ev H (reduce_top l) e end.
  opsplit H v5 28 268435455. rewrite (top_mask q6) in H by lia.
  destruct (Z.eqb_spec q6 0) as [Q0|Q0].
  - rewrite Q0 in H. change (Z.land 0 268435455) with 0 in H. change (Z.land 0 268435456) with 0 in H. change (Z.land 1 0) with 0 in H.
    change (shl32 0 12) with 0 in H. repeat word_step H.
    eight H R. split; [exact H|]. split.
    + repeat (apply Forall_cons; [lia|]). constructor.
    + apply (cong_by _ _ _ 0). cbn [val28]. lia.
  - change (Z.land 1 (M32 - 1)) with 1 in H. change (Z.land (M32 - 1) 268435455) with 268435455 in H. change (Z.land (M32 - 1) 268435456) with 268435456 in H.
    rewrite (add_sub_32 r q6 268435456) in H by (unfold M32; lia).
    match goal with B : 0 <= q6 <= 15 |- _ => assert (BQ : 1 <= q6 <= 15) by lia; clear B end. repeat word_step H.
    eight H R. split; [exact H|]. split.
    + repeat (apply Forall_cons; [lia|]). constructor.
    + apply (cong_by _ _ _ (- q6)). cbn [val28]. lia.
Qed.

(** The borrow chain from limb 0 to limb 3. *)
Lemma bstep s y : - 2 ^ 28 <= s < 2 ^ 28 ->
  add32 (s mod M32) (Z.land (2 ^ 28) (sar31 (s mod M32))) = s mod 2 ^ 28 /\ sub32 y (Z.land 1 (sar31 (s mod M32))) = (y + s / 2 ^ 28) mod M32.
Proof.
  intros B. unfold sar31, add32, sub32. destruct (Z.ltb_spec s 0) as [N|N].
  - assert (E : s mod M32 = s + M32) by (symmetry; apply (Z.mod_unique_pos _ _ (-1)); unfold M32; lia).
    rewrite E. destruct (Z.ltb_spec (s + M32) 2147483648) as [C|_]; [unfold M32 in C; lia|].
    change (Z.land (2 ^ 28) (M32 - 1)) with (2 ^ 28). change (Z.land 1 (M32 - 1)) with 1.
    assert (Q : s / 2 ^ 28 = -1) by (symmetry; apply (Z.div_unique_pos _ _ _ (s + 2 ^ 28)); lia). split.
    + rewrite (Z.mod_eq s), Q by lia. symmetry. apply (Z.mod_unique_pos _ _ 1); unfold M32; lia.
    + rewrite Q. reflexivity.
  - rewrite (Z.mod_small s M32) by (unfold M32; lia). destruct (Z.ltb_spec s 2147483648) as [C|C]; [|lia].
    change (Z.land (2 ^ 28) 0) with 0. change (Z.land 1 0) with 0. rewrite (Z.div_small s), (Z.mod_small s (2 ^ 28)) by lia.
    split; [rewrite Z.add_0_r; apply Z.mod_small; unfold M32; lia|]. reflexivity.
Qed.
Lemma borrow3 a0 a1 a2 a3 a4 a5 a6 a7 t : 0 <= a0 <= 268435455 -> 0 <= a1 <= 268435455 -> 0 <= a2 <= 268435455 -> 0 <= t <= 15 -> 4096 * t <= a3 <= 4294967295 ->
  exists c0 c1 c2 c3 b, fold_left borrow_step (seq 0 3) [sub32 a0 t; a1; a2; a3; a4; a5; a6; a7] = [c0; c1; c2; c3; a4; a5; a6; a7] /\
    0 <= c0 <= 268435455 /\ 0 <= c1 <= 268435455 /\ 0 <= c2 <= 268435455 /\ c3 = a3 - b /\ 0 <= b <= 1 /\ b <= t /\
    c0 + 2 ^ 28 * c1 + 2 ^ 56 * c2 + 2 ^ 84 * c3 = a0 - t + 2 ^ 28 * a1 + 2 ^ 56 * a2 + 2 ^ 84 * a3.
Proof.
  intros B0 B1 B2 BT B3. start H R (fold_left borrow_step (seq 0 3) [sub32 a0 t; a1; a2; a3; a4; a5; a6; a7]).
  ev H (seq 0 3) [0; 1; 2]%nat. rewrite !fold_cons, !fold_nil in H.
  Ltac bor H s := match type of H with context [borrow_step (?x :: ?l) ?i] =>
    let e := eval cbv [borrow_step upd nth Nat.add firstn skipn app] in (borrow_step (x :: l) i) in ev H (borrow_step (x :: l) i) e end;
    match type of H with context [sub32 ?y (Z.land 1 (sar31 (s mod M32)))] => let E1 := fresh in let E2 := fresh in
      destruct (bstep s y ltac:(lia)) as [E1 E2]; rewrite E1, E2 in H; clear E1 E2 end;
    let q := fresh "q" in let r := fresh "r" in pose proof (Z.div_mod s (2 ^ 28) ltac:(lia)); pose proof (Z.mod_pos_bound s (2 ^ 28) ltac:(lia));
    set (q := s / 2 ^ 28) in *; set (r := s mod 2 ^ 28) in *; clearbody q r.
  unfold sub32 in H at 1.
  bor H (a0 - t). bor H (a1 + q). bor H (a2 + q0).
  exists r, r0, r1, (a3 + q1), (- q1). split; [|lia]. rewrite H. rewrite (Z.mod_small (a3 + q1)) by (unfold M32; lia). reflexivity.
Qed.
(** Small numbers are left alone, others stay at least 2^96 - 1. *)
Definition rep96 (x v : Z) : Prop := if x <? 2 ^ 96 - 1 then v = x else 2 ^ 96 - 1 <= v.
Lemma contract_norm_8 a0 a1 a2 a3 a4 a5 a6 a7 : Forall (fun x => 0 <= x <= 1073741823) [a0; a1; a2; a3; a4; a5; a6; a7] ->
  exists o0 o1 o2 o3 o4 o5 o6 o7, contract_norm [a0; a1; a2; a3; a4; a5; a6; a7] = [o0; o1; o2; o3; o4; o5; o6; o7] /\ Forall (fun x => 0 <= x <= 2 ^ 28 - 1) [o0; o1; o2; o3; o4; o5; o6; o7] /\ cong p (val28 [o0; o1; o2; o3; o4; o5; o6; o7]) (val28 [a0; a1; a2; a3; a4; a5; a6; a7]) /\
    rep96 (val28 [a0; a1; a2; a3; a4; a5; a6; a7]) (val28 [o0; o1; o2; o3; o4; o5; o6; o7]).
Proof.
  intros HA. split_bounds. start H R (contract_norm [a0; a1; a2; a3; a4; a5; a6; a7]).
  unfold contract_norm in H. ev H (seq 0 7) [0; 1; 2; 3; 4; 5; 6]%nat. ev H (seq 3 4) [3; 4; 5; 6]%nat. rewrite 11 fold_cons in H. rewrite !(fold_nil carry_step) in H.
  carries H.
  Ltac ftop H := match type of H with context [fold_top (?x :: ?l)] => let e := eval cbv [fold_top upd nth firstn skipn app bot28] in (fold_top (x :: l)) in ev H (fold_top (x :: l)) e end.
  ftop H. opsplit H v5 28 268435455. repeat word_step H.
  destruct (borrow3 r r0 r1 v7 r3 r4 r5 r6 q6) as (c0 & c1 & c2 & c3 & b & E & C0 & C1 & C2 & C3 & BB & BT & V); [lia..|]. rewrite E in H. clear E.
  assert (C3' : 0 <= c3 <= 268451839) by lia. carries H. ftop H. opsplit H v11 28 268435455. repeat word_step H.
  assert (T : q11 = 1 -> r7 <= 65535) by lia.
  destruct (borrow3 c0 c1 c2 v13 r8 r9 r10 r11 q11) as (d0 & d1 & d2 & d3 & b' & E & D0 & D1 & D2 & D3 & BB' & BT' & V'); [lia..|]. rewrite E in H. clear E.
  exists d0, d1, d2, d3, r8, r9, r10, r11. split; [exact H|]. split.
  - assert (0 <= d3 <= 268435455) by lia. repeat (apply Forall_cons; [lia|]). constructor.
  - split; [|unfold rep96; cbn [val28] in *; assert (Hq6 : 0 <= q6) by lia; assert (Hq11 : 0 <= q11) by lia; match goal with |- if ?x <? ?y then _ else _ => destruct (Z.ltb_spec x y) as [L96|L96] end; destruct (Z.eq_dec q11 0) as [Z11|N11]; [destruct (Z.eq_dec q6 0)| |destruct (Z.eq_dec q6 0)|]; lia].
    apply (cong_by _ _ _ (- q6 - q11)). cbn [val28].
    clear - Ev Ev0 Ev1 Ev2 Ev3 Ev4 Ev5 Ev6 Ev7 Ev8 Ev9 Ev10 Ev11 Ev12 Ev13 Ev14 Ev15 Ev16 Ev17 Ev18 Ev19 Ev20 Ev21 Ev22 Ev23 Ev24 Ev25 Ev26 V V'. lia.
Qed.

(** The mask of the comparison: it is set from p - 1 on. *)
Definition any_of (offs : list Z) (x n : Z) : bool := existsb (fun i => Z.testbit x (n + i)) offs.
Definition all_of (offs : list Z) (x n : Z) : bool := forallb (fun i => Z.testbit x (n + i)) offs.
Definition more (offs : list Z) (k : Z) : list Z := offs ++ map (Z.add k) offs.
Lemma more_nonneg offs k : Forall (Z.le 0) offs -> 0 <= k -> Forall (Z.le 0) (more offs k).
Proof.
  intros F K. apply Forall_app. split; [exact F|]. rewrite Forall_forall in *. intros x I. apply in_map_iff in I. destruct I as (y & <- & I).
  specialize (F y I). lia.
Qed.
Lemma existsb_map {A B} (f : A -> B) g l : existsb g (map f l) = existsb (fun x => g (f x)) l.
Proof. induction l as [|x l IH]; [reflexivity|]. cbn [map existsb]. rewrite IH. reflexivity. Qed.
Lemma forallb_map {A B} (f : A -> B) g l : forallb g (map f l) = forallb (fun x => g (f x)) l.
Proof. induction l as [|x l IH]; [reflexivity|]. cbn [map forallb]. rewrite IH. reflexivity. Qed.
Lemma existsb_ext {A} (f g : A -> bool) l : (forall x, f x = g x) -> existsb f l = existsb g l.
Proof. intros E. induction l as [|x l IH]; [reflexivity|]. cbn [existsb]. rewrite E, IH. reflexivity. Qed.
Lemma forallb_ext' {A} (f g : A -> bool) l : (forall x, f x = g x) -> forallb f l = forallb g l.
Proof. intros E. induction l as [|x l IH]; [reflexivity|]. cbn [forallb]. rewrite E, IH. reflexivity. Qed.
Lemma any_more offs k x y : (forall n, 0 <= n -> Z.testbit y n = any_of offs x n) -> 0 <= k ->
  forall n, 0 <= n -> Z.testbit (Z.lor y (shr y k)) n = any_of (more offs k) x n.
Proof.
  intros H K n N. rewrite Z.lor_spec. unfold shr. rewrite Z.shiftr_spec by lia. rewrite (H n N), (H (n + k)) by lia.
  unfold any_of, more. rewrite existsb_app, existsb_map. f_equal. apply existsb_ext. intros i. f_equal. lia.
Qed.
Lemma all_more offs k x y : (forall n, 0 <= n -> Z.testbit y n = all_of offs x n) -> 0 <= k ->
  forall n, 0 <= n -> Z.testbit (Z.land y (shr y k)) n = all_of (more offs k) x n.
Proof.
  intros H K n N. rewrite Z.land_spec. unfold shr. rewrite Z.shiftr_spec by lia. rewrite (H n N), (H (n + k)) by lia.
  unfold all_of, more. rewrite forallb_app, forallb_map. f_equal. apply forallb_ext'. intros i. f_equal. lia.
Qed.
Definition offs32 : list Z := more (more (more (more (more [0] 16) 8) 4) 2) 1.
Lemma offs32_all i : 0 <= i < 32 -> In i offs32.
Proof.
  intros B. assert (D : In i (map Z.of_nat (seq 0 32))) by (apply in_map_iff; exists (Z.to_nat i); split; [lia|apply in_seq; lia]).
  assert (F : forallb (fun i => existsb (Z.eqb i) offs32) (map Z.of_nat (seq 0 32)) = true) by reflexivity.
  rewrite forallb_forall in F. specialize (F i D). apply existsb_exists in F. destruct F as (j & J & E). apply Z.eqb_eq in E. subst j. exact J.
Qed.
Lemma offs32_range i : In i offs32 -> 0 <= i < 32.
Proof.
  intros I. assert (F : forallb (fun i => (0 <=? i) && (i <? 32)) offs32 = true) by reflexivity.
  rewrite forallb_forall in F. specialize (F i I). lia.
Qed.
Lemma or_fold_any x n : 0 <= n -> Z.testbit (or_fold x) n = any_of offs32 x n.
Proof.
  revert n. unfold or_fold. do 5 (apply any_more; [|lia]). intros n N. unfold any_of. cbn [existsb]. rewrite Z.add_0_r, orb_false_r. reflexivity.
Qed.
Lemma and_fold_all x n : 0 <= n -> Z.testbit (and_fold x) n = all_of offs32 x n.
Proof.
  revert n. unfold and_fold. do 5 (apply all_more; [|lia]). intros n N. unfold all_of. cbn [forallb]. rewrite Z.add_0_r, andb_true_r. reflexivity.
Qed.
Lemma or_fold_bit x : 0 <= x < M32 -> Z.testbit (or_fold x) 0 = negb (x =? 0).
Proof.
  intros B. rewrite or_fold_any by lia. unfold any_of. destruct (Z.eqb_spec x 0) as [->|N]; [reflexivity|]. cbn [negb].
  apply existsb_exists. exists (Z.log2 x). split; [|apply Z.bit_log2; lia]. apply offs32_all. split; [apply Z.log2_nonneg|]. apply Z.log2_lt_pow2; [lia|exact (proj2 B)].
Qed.
Lemma and_fold_bit x : 0 <= x < M32 -> Z.testbit (and_fold x) 0 = (x =? M32 - 1).
Proof.
  intros B. rewrite and_fold_all by lia. unfold all_of. apply eq_true_iff_eq. rewrite forallb_forall, Z.eqb_eq. split.
  - intros H. change (M32 - 1) with (Z.ones 32). apply Z.bits_inj'. intros n Hn. destruct (Z.ltb_spec n 32) as [L|L].
    + rewrite Z.ones_spec_low by lia. exact (H n (offs32_all n ltac:(lia))).
    + rewrite Z.ones_spec_high by lia. destruct (Z.eq_dec x 0) as [->|X0]; [apply Z.bits_0|]. apply Z.bits_above_log2; [lia|].
      enough (Z.log2 x < 32) by lia. apply Z.log2_lt_pow2; [lia|exact (proj2 B)].
  - intros -> i I. apply offs32_range in I. change (M32 - 1) with (Z.ones 32). apply Z.ones_spec_low. lia.
Qed.
Lemma sar_bit x : sar31 (shl32 x 31) = if Z.testbit x 0 then M32 - 1 else 0.
Proof.
  unfold shl32, sar31. rewrite Z.shiftl_mul_pow2 by lia. change M32 with (2 * 2 ^ 31). rewrite Z.mul_mod_distr_r by lia.
  rewrite Z.bit0_odd, Zmod_odd. destruct (Z.odd x); reflexivity.
Qed.

Lemma land_ones_m x : 0 <= x < M32 -> Z.land x (M32 - 1) = x.
Proof. intros B. change (M32 - 1) with (Z.ones 32). rewrite Z.land_ones by lia. apply Z.mod_small. exact B. Qed.
Lemma lor_range n x y : 0 <= n -> 0 <= x < 2 ^ n -> 0 <= y < 2 ^ n -> 0 <= Z.lor x y < 2 ^ n.
Proof.
  intros N X Y. split; [apply Z.lor_nonneg; lia|]. destruct (Z.eq_dec (Z.lor x y) 0) as [->|E]; [lia|].
  assert (0 <= Z.lor x y) by (apply Z.lor_nonneg; lia). apply Z.log2_lt_pow2; [lia|]. rewrite Z.log2_lor by lia.
  assert (LG : forall u, 0 <= u < 2 ^ n -> n <> 0 -> Z.log2 u < n).
  { intros u U N0. destruct (Z.eq_dec u 0) as [->|U0]; [cbn; lia|]. apply Z.log2_lt_pow2; lia. }
  assert (n <> 0) by (intros ->; change (2 ^ 0) with 1 in *; assert (x = 0) by lia; assert (y = 0) by lia; subst; apply E; reflexivity).
  apply Z.max_lub_lt; apply LG; assumption.
Qed.
Lemma lor_zero x y : Z.lor x y = 0 <-> x = 0 /\ y = 0. Proof. apply Z.lor_eq_0_iff. Qed.
Lemma land_range n x y : 0 <= x < 2 ^ n -> 0 <= n -> 0 <= y -> 0 <= Z.land x y < 2 ^ n.
Proof.
  intros X N Y. split; [apply Z.land_nonneg; lia|]. destruct (Z.eq_dec (Z.land x y) 0) as [->|E]; [lia|].
  pose proof (proj2 (Z.land_nonneg x y) (or_introl (proj1 X))). apply Z.log2_lt_pow2; [lia|].
  pose proof (Z.log2_land x y ltac:(lia) Y). assert (Z.log2 x < n).
  { destruct (Z.eq_dec x 0) as [->|X0]; [rewrite Z.land_0_l in E; lia|]. apply Z.log2_lt_pow2; lia. }
  lia.
Qed.
(** Four limbs of 28 bits are all ones. *)
Lemma top4 x y z t : 0 <= x < 2 ^ 28 -> 0 <= y < 2 ^ 28 -> 0 <= z < 2 ^ 28 -> 0 <= t < 2 ^ 28 ->
  (Z.lor (Z.land (Z.land (Z.land (Z.land 0xffffffff x) y) z) t) 0xf0000000 =? M32 - 1) =
  ((x =? 2 ^ 28 - 1) && (y =? 2 ^ 28 - 1) && (z =? 2 ^ 28 - 1) && (t =? 2 ^ 28 - 1)).
Proof.
  intros X Y Z0 T. apply eq_true_iff_eq. rewrite !andb_true_iff, !Z.eqb_eq. split.
  - intros E.
    assert (Q : forall n, 0 <= n < 28 -> Z.testbit x n = true /\ Z.testbit y n = true /\ Z.testbit z n = true /\ Z.testbit t n = true).
    { intros n N. assert (B : Z.testbit (Z.lor (Z.land (Z.land (Z.land (Z.land 0xffffffff x) y) z) t) 0xf0000000) n = true).
      { rewrite E. change (M32 - 1) with (Z.ones 32). apply Z.ones_spec_low. lia. }
      rewrite Z.lor_spec, !Z.land_spec in B.
      assert (F : Z.testbit 0xf0000000 n = false) by (change 0xf0000000 with (Z.shiftl 15 28); apply Z.shiftl_spec_low; lia).
      rewrite F, orb_false_r, !andb_true_iff in B. tauto. }
    assert (ONE : forall u, 0 <= u < 2 ^ 28 -> (forall n, 0 <= n < 28 -> Z.testbit u n = true) -> u = 2 ^ 28 - 1).
    { intros u U H. change (2 ^ 28 - 1) with (Z.ones 28). apply Z.bits_inj'. intros n N. destruct (Z.ltb_spec n 28).
      - rewrite Z.ones_spec_low by lia. apply H. lia.
      - rewrite Z.ones_spec_high by lia. destruct (Z.eq_dec u 0) as [->|U0]; [apply Z.bits_0|]. apply Z.bits_above_log2; [lia|].
        enough (Z.log2 u < 28) by lia. apply Z.log2_lt_pow2; lia. }
    repeat split; apply ONE; try assumption; intros n N; apply (Q n N).
  - intros (((-> & ->) & ->) & ->). reflexivity.
Qed.
Lemma mask_8 o0 o1 o2 o3 o4 o5 o6 o7 : Forall (fun x => 0 <= x <= 2 ^ 28 - 1) [o0; o1; o2; o3; o4; o5; o6; o7] ->
  contract_mask [o0; o1; o2; o3; o4; o5; o6; o7] = if p - 1 <=? val28 [o0; o1; o2; o3; o4; o5; o6; o7] then M32 - 1 else 0.
Proof.
  intros HA. split_bounds. unfold contract_mask. cbn [firstn skipn fold_left nth]. rewrite !sar_bit.
  rewrite and_fold_bit, top4 by first [lia | change M32 with (2 ^ 32); apply lor_range; [lia| |lia]; do 4 (apply land_range; [|lia|lia]); lia].
  rewrite !or_fold_bit by first [change M32 with (2 ^ 32); repeat apply lor_range; lia | unfold sub32; apply Z.mod_pos_bound; reflexivity].
  assert (N : sub32 o3 0xffff000 = if o3 <? 0xffff000 then o3 - 0xffff000 + M32 else o3 - 0xffff000).
  { unfold sub32. destruct (Z.ltb_spec o3 0xffff000); symmetry; [apply (Z.mod_unique_pos _ _ (-1))|apply (Z.mod_unique_pos _ _ 0)]; unfold M32; lia. }
  rewrite N. clear N.
  destruct (Z.ltb_spec o3 0xffff000) as [L|L].
  - replace (o3 - 0xffff000 + M32 =? 0) with false by (unfold M32; lia). unfold sar31 at 1.
    replace (o3 - 0xffff000 + M32 <? 2147483648) with false by (unfold M32; lia).
    cbn [negb]. change (not32 (M32 - 1)) with 0. rewrite Z.land_0_l, Z.lor_0_l, Z.land_0_r.
    replace (p - 1 <=? _) with false; [reflexivity|]. symmetry. apply Z.leb_gt. cbn [val28]. lia.
  - unfold sar31 at 1. replace (o3 - 0xffff000 <? 2147483648) with true by lia. change (not32 0) with (M32 - 1).
    match goal with |- Z.land ?A ?B = _ => replace B with (M32 - 1) end.
    2: { destruct (negb (o3 - 0xffff000 =? 0)), (negb (Z.lor (Z.lor o0 o1) o2 =? 0)); reflexivity. }
    destruct (Z.eqb_spec o4 (2 ^ 28 - 1)) as [E4|E4]; [|replace (p - 1 <=? _) with false; [reflexivity|symmetry; apply Z.leb_gt; cbn [val28]; lia]].
    destruct (Z.eqb_spec o5 (2 ^ 28 - 1)) as [E5|E5]; [|replace (p - 1 <=? _) with false; [reflexivity|symmetry; apply Z.leb_gt; cbn [val28]; lia]].
    destruct (Z.eqb_spec o6 (2 ^ 28 - 1)) as [E6|E6]; [|replace (p - 1 <=? _) with false; [reflexivity|symmetry; apply Z.leb_gt; cbn [val28]; lia]].
    destruct (Z.eqb_spec o7 (2 ^ 28 - 1)) as [E7|E7]; [|replace (p - 1 <=? _) with false; [reflexivity|symmetry; apply Z.leb_gt; cbn [val28]; lia]].
    replace (p - 1 <=? _) with true; [reflexivity|]. symmetry. apply Z.leb_le. cbn [val28]. lia.
Qed.
