(** Straight-line code on machine words: lemmas that replace a wrapping operation by the integer one, given interval bounds, and a
    tactic that applies them from the inside out to the right-hand side of an equation. *)
From Verif Require Import Base Words HashModel P224Model.
Local Open Scope Z_scope.

Lemma add64_b x y lx hx ly hy : lx <= x <= hx -> ly <= y <= hy -> (0 <=? lx + ly) && (hx + hy <? M64) = true ->
  add64 x y = x + y /\ lx + ly <= x + y <= hx + hy.
Proof. intros X Y C. apply andb_true_iff in C. rewrite Z.leb_le, Z.ltb_lt in C. split; [|lia]. apply Z.mod_small. lia. Qed.
Lemma sub64_b x y lx hx ly hy : lx <= x <= hx -> ly <= y <= hy -> (0 <=? lx - hy) && (hx - ly <? M64) = true ->
  sub64 x y = x - y /\ lx - hy <= x - y <= hx - ly.
Proof. intros X Y C. apply andb_true_iff in C. rewrite Z.leb_le, Z.ltb_lt in C. split; [|lia]. apply Z.mod_small. lia. Qed.
Lemma add32_b x y lx hx ly hy : lx <= x <= hx -> ly <= y <= hy -> (0 <=? lx + ly) && (hx + hy <? M32) = true ->
  add32 x y = x + y /\ lx + ly <= x + y <= hx + hy.
Proof. intros X Y C. apply andb_true_iff in C. rewrite Z.leb_le, Z.ltb_lt in C. split; [|lia]. apply Z.mod_small. lia. Qed.
Lemma sub32_b x y lx hx ly hy : lx <= x <= hx -> ly <= y <= hy -> (0 <=? lx - hy) && (hx - ly <? M32) = true ->
  sub32 x y = x - y /\ lx - hy <= x - y <= hx - ly.
Proof. intros X Y C. apply andb_true_iff in C. rewrite Z.leb_le, Z.ltb_lt in C. split; [|lia]. apply Z.mod_small. lia. Qed.
Lemma mulz_b x y lx hx ly hy : lx <= x <= hx -> ly <= y <= hy -> (0 <=? lx) && (0 <=? ly) = true ->
  lx * ly <= x * y <= hx * hy.
Proof.
  intros X Y C. apply andb_true_iff in C. rewrite !Z.leb_le in C. split; apply Z.mul_le_mono_nonneg; lia.
Qed.
Lemma shl64_b x n lx hx : lx <= x <= hx -> (0 <=? n) && (0 <=? lx) && (hx * 2 ^ n <? M64) = true ->
  shl64 x n = x * 2 ^ n /\ lx * 2 ^ n <= x * 2 ^ n <= hx * 2 ^ n.
Proof.
  intros X C. rewrite !andb_true_iff, !Z.leb_le, Z.ltb_lt in C. pose proof (Z.pow_pos_nonneg 2 n). split; [|nia].
  unfold shl64. rewrite Z.shiftl_mul_pow2 by lia. apply Z.mod_small. nia.
Qed.
Lemma shl32_b x n lx hx : lx <= x <= hx -> (0 <=? n) && (0 <=? lx) && (hx * 2 ^ n <? M32) = true ->
  shl32 x n = x * 2 ^ n /\ lx * 2 ^ n <= x * 2 ^ n <= hx * 2 ^ n.
Proof.
  intros X C. rewrite !andb_true_iff, !Z.leb_le, Z.ltb_lt in C. pose proof (Z.pow_pos_nonneg 2 n). split; [|nia].
  unfold shl32. rewrite Z.shiftl_mul_pow2 by lia. apply Z.mod_small. nia.
Qed.
(** The quotient and the remainder by a power of two. *)
Lemma split_b x n m lx hx : lx <= x <= hx -> (0 <=? n) && (m =? 2 ^ n - 1) = true ->
  x = 2 ^ n * shr x n + Z.land x m /\ (lx / 2 ^ n <= shr x n <= hx / 2 ^ n) /\ (0 <= Z.land x m <= m).
Proof.
  intros X C. rewrite andb_true_iff, Z.leb_le, Z.eqb_eq in C. destruct C as [N ->]. pose proof (Z.pow_pos_nonneg 2 n).
  unfold shr. rewrite Z.shiftr_div_pow2 by lia. replace (2 ^ n - 1) with (Z.ones n) by (rewrite Z.ones_equiv; lia).
  rewrite Z.land_ones by lia. pose proof (Z.mod_pos_bound x (2 ^ n)). rewrite (Z.div_mod x (2 ^ n)) at 1 by lia.
  split; [reflexivity|]. split; [split; apply Z.div_le_mono; lia|]. rewrite Z.ones_equiv. lia.
Qed.
Lemma land_small_b x m n lx hx : lx <= x <= hx -> (0 <=? n) && (0 <=? lx) && (m =? 2 ^ n - 1) && (hx <=? m) = true -> Z.land x m = x.
Proof.
  intros X C. rewrite !andb_true_iff, !Z.leb_le, Z.eqb_eq in C. destruct C as [[[N L] ->] U].
  replace (2 ^ n - 1) with (Z.ones n) in * by (rewrite Z.ones_equiv; lia). rewrite Z.land_ones by lia. rewrite Z.ones_equiv in U. apply Z.mod_small. lia.
Qed.
Lemma mod_small_b x m lx hx : lx <= x <= hx -> (0 <=? lx) && (hx <? m) = true -> x mod m = x.
Proof. intros X C. rewrite andb_true_iff, Z.leb_le, Z.ltb_lt in C. apply Z.mod_small. lia. Qed.

Ltac zconst c := match c with Zpos _ => idtac | Z0 => idtac | Zneg _ => idtac end.
Ltac atom x := first [is_var x | zconst x].
(** A proof of [l <= x <= h] with literals. *)
Ltac bound_of x := match goal with
  | H : ?l <= x <= ?h |- _ => constr:(H)
  | _ => let _ := match goal with _ => zconst x end in constr:(conj (Z.le_refl x) (Z.le_refl x))
  end.
Ltac norm_bound B := match type of B with ?l <= _ <= ?h =>
  let l' := eval vm_compute in l in let h' := eval vm_compute in h in change l with l' in B; change h with h' in B end.
Ltac log_of m := let n := eval vm_compute in (Z.log2 (m + 1)) in n.
Ltac intro_op H e E B :=
  rewrite E in H; clear E; let v := fresh "v" in let Ev := fresh "Ev" in
  norm_bound B; set (v := e) in H, B; assert (Ev : v = e) by reflexivity; clearbody v.
Ltac op2 H lem x y := let bx := bound_of x in let by_ := bound_of y in
  let E := fresh "E" in let B := fresh "B" in
  destruct (lem x y _ _ _ _ bx by_ eq_refl) as [E B];
  match type of E with _ = ?e => intro_op H e E B end.
Ltac opmul H x y := let bx := bound_of x in let by_ := bound_of y in
  let B := fresh "B" in pose proof (mulz_b x y _ _ _ _ bx by_ eq_refl) as B; norm_bound B;
  let v := fresh "v" in let Ev := fresh "Ev" in set (v := x * y) in H, B; assert (Ev : v = x * y) by reflexivity; clearbody v.
Ltac opsh H lem x n := let bx := bound_of x in
  let E := fresh "E" in let B := fresh "B" in
  destruct (lem x n _ _ bx eq_refl) as [E B];
  match type of E with _ = ?e => intro_op H e E B end.
Ltac opsplit H x n m := let bx := bound_of x in
  let E := fresh "Ev" in let B1 := fresh "B" in let B2 := fresh "B" in
  destruct (split_b x n m _ _ bx eq_refl) as (E & B1 & B2);
  norm_bound B1; norm_bound B2;
  let q := fresh "q" in let r := fresh "r" in
  set (q := shr x n) in H, E, B1; set (r := Z.land x m) in H, E, B2; clearbody q r.
(** Replaces an evaluable subterm of [H] by its value through an equation, so that the kernel does not compare the whole terms. *)
Ltac ev H t e := let E := fresh "E" in assert (E : t = e) by reflexivity; rewrite E in H; clear E.
Lemma fold_cons {A B} (f : A -> B -> A) x l a : fold_left f (x :: l) a = fold_left f l (f a x). Proof. reflexivity. Qed.
Lemma fold_nil {A B} (f : A -> B -> A) a : fold_left f [] a = a. Proof. reflexivity. Qed.
Ltac word_step H :=
  match type of H with
  | context [add32 ?x ?y] => atom x; atom y; op2 H add32_b x y
  | context [sub32 ?x ?y] => atom x; atom y; op2 H sub32_b x y
  | context [add64 ?x ?y] => atom x; atom y; op2 H add64_b x y
  | context [sub64 ?x ?y] => atom x; atom y; op2 H sub64_b x y
  | context [Z.mul ?x ?y] => is_var x; is_var y; opmul H x y
  | context [shl32 ?x ?n] => atom x; opsh H shl32_b x n
  | context [shl64 ?x ?n] => atom x; opsh H shl64_b x n
  | context [Z.land ?x ?m] => is_var x; zconst m; let n := log_of m in let bx := bound_of x in rewrite (land_small_b x m n _ _ bx eq_refl) in H
  | context [Z.land ?x ?m] => is_var x; zconst m; let n := log_of m in opsplit H x n m
  | context [shr ?x ?n] => is_var x; let m := eval vm_compute in (2 ^ n - 1) in opsplit H x n m
  | context [?x mod ?m] => is_var x; let bx := bound_of x in rewrite (mod_small_b x m _ _ bx eq_refl) in H
  end.
