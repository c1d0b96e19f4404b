(** Model of the curve arithmetic of src/elliptic/p224.rs and p256.rs on memory.  P224Model.v and P256Model.v treat the routines as functions
    of values; here a field element is an array at an address, the routines get addresses, and [out] may be the address of an input, which is
    how the code uses the variants ending in [_a] (p224.rs:95-101, 124-130, 138-143, 152-158, 362-367, 646-651, p256.rs:223-228, 252-257,
    496-501, 556-562, 809-814, 855-861).  Reads and writes happen in the order of the source, one limb at a time.
    Two addresses are equal or do not overlap.  Scratch arrays of another type (tmp, tmp2, c) cannot be one of the arguments and stay values. *)
From Verif Require Import Base Words HashModel NumTheory RsaModel RsaEncModel EllModel P224Model P256Model.

(** Arrays of the caller and arrays local to the routine. *)
Inductive ptr := A (i : nat) | L (i : nat).
Definition mem : Type := list (list Z) * list (list Z).
Definition get (m : mem) (p : ptr) : list Z := match p with A i => nth i (fst m) [] | L i => nth i (snd m) [] end.
Definition put (l : list (list Z)) (i : nat) (v : list Z) : list (list Z) := firstn i l ++ v :: skipn (S i) l.
Definition set (m : mem) (p : ptr) (v : list Z) : mem := match p with A i => (put (fst m) i v, snd m) | L i => (fst m, put (snd m) i v) end.
(** [p[i]] and [p[i] = v]. *)
Definition ld (m : mem) (p : ptr) (i : nat) : Z := (get m p).[i].
Definition st (m : mem) (p : ptr) (i : nat) (v : Z) : mem := set m p (upd (get m p) i v).

(** ** P-256 *)
(** The bits of a limb: 29 for even positions. *)
Definition wd (i : nat) : Z := if Nat.even i then 29 else 28.
Definition bot (i : nat) : Z := if Nat.even i then BOT29 else BOT28.
(** p256_sum, p256.rs:230-250: the loop body at [i] ... *)
Definition sum_body (out a b : ptr) (mc : mem * Z) (i : nat) : mem * Z :=
  let (m, carry) := mc in
  let m := st m out i (add32 (ld m a i) (ld m b i)) in
  let m := st m out i (add32 (ld m out i) carry) in
  let carry := shr (ld m out i) (wd i) in
  let m := st m out i (Z.land (ld m out i) (bot i)) in
  (m, carry).
(** ... and the whole, with p256_reduce_carry(out, carry). *)
Definition sum_m (out a b : ptr) (m : mem) : mem :=
  let (m, carry) := fold_left (sum_body out a b) (seq 0 9) (m, 0) in set m out (p256_reduce_carry (get m out) carry).
(** p256_diff, p256.rs:264-289. *)
Definition diff_body (out a b : ptr) (mc : mem * Z) (i : nat) : mem * Z :=
  let (m, carry) := mc in
  let m := st m out i (sub32 (ld m a i) (ld m b i)) in
  let m := st m out i (add32 (ld m out i) (P256ZERO31.[i])) in
  let m := st m out i (add32 (ld m out i) carry) in
  let carry := shr (ld m out i) (wd i) in
  let m := st m out i (Z.land (ld m out i) (bot i)) in
  (m, carry).
Definition diff_m (out a b : ptr) (m : mem) : mem :=
  let (m, carry) := fold_left (diff_body out a b) (seq 0 9) (m, 0) in set m out (p256_reduce_carry (get m out) carry).
(** p256_square and p256_mul, p256.rs:503-554, 564-651: the products go to the local [tmp], then [out] is written from it. *)
Definition square_m (dbg : bool) (out a : ptr) (m : mem) : option mem :=
  let tmp := square_tmp (get m a) in let? v := p256_reduce_degree dbg tmp in Some (set m out v).
Definition mul_m (dbg : bool) (out a b : ptr) (m : mem) : option mem :=
  let tmp := mul_tmp (get m a) (get m b) in let? v := p256_reduce_degree dbg tmp in Some (set m out v).
(** p256_scalar3, p256_scalar4, p256_scalar8, p256.rs:723-807: one argument. *)
Definition in_place (f : list Z -> list Z) (p : ptr) (m : mem) : mem := set m p (f (get m p)).
(** p256_assign, p256.rs:653-655. *)
Definition assign_m (out a : ptr) (m : mem) : mem := set m out (get m a).
(** A routine with [n] zeroed local arrays. *)
Definition frame (n : nat) (zero : list Z) (body : mem -> option mem) (m : list (list Z)) : option (list (list Z)) :=
  let? m := body (m, repeat zero n) in Some (fst m).

(** p256_point_double, p256.rs:824-853; the locals delta, gamma, alpha, beta, tmp, tmp2. *)
Definition point_double_m (dbg : bool) (xout yout zout x y z : nat) : list (list Z) -> option (list (list Z)) :=
  let '(xout, yout, zout, x, y, z) := (A xout, A yout, A zout, A x, A y, A z) in
  let '(delta, gamma, alpha, beta, tmp, tmp2) := (L 0, L 1, L 2, L 3, L 4, L 5)%nat in
  frame 6 fz (fun m =>
    let? m := square_m dbg delta z m in
    let? m := square_m dbg gamma y m in
    let? m := mul_m dbg beta x gamma m in
    let m := sum_m tmp x delta m in
    let m := diff_m tmp2 x delta m in
    let? m := mul_m dbg alpha tmp tmp2 m in
    let m := in_place p256_scalar3 alpha m in
    let m := sum_m tmp y z m in
    let? m := square_m dbg tmp tmp m in
    let m := diff_m tmp tmp gamma m in
    let m := diff_m zout tmp delta m in
    let m := in_place p256_scalar4 beta m in
    let? m := square_m dbg xout alpha m in
    let m := diff_m xout xout beta m in
    let m := diff_m xout xout beta m in
    let m := diff_m tmp beta xout m in
    let? m := mul_m dbg tmp alpha tmp m in
    let? m := square_m dbg tmp2 gamma m in
    let m := in_place p256_scalar8 tmp2 m in
    let m := diff_m yout tmp tmp2 m in
    Some m).
(** p256_point_add_mixed, p256.rs:870-900; the locals z1z1, z1z1z1, s2, u2, h, i, j, r, rr, v, tmp. *)
Definition point_add_mixed_m (dbg : bool) (xout yout zout x1 y1 z1 x2 y2 : nat) : list (list Z) -> option (list (list Z)) :=
  let '(xout, yout, zout, x1, y1, z1, x2, y2) := (A xout, A yout, A zout, A x1, A y1, A z1, A x2, A y2) in
  let '(z1z1, z1z1z1, s2, u2, h, i, j, r, rr, v, tmp) := (L 0, L 1, L 2, L 3, L 4, L 5, L 6, L 7, L 8, L 9, L 10)%nat in
  frame 11 fz (fun m =>
    let? m := square_m dbg z1z1 z1 m in
    let m := sum_m tmp z1 z1 m in
    let? m := mul_m dbg u2 x2 z1z1 m in
    let? m := mul_m dbg z1z1z1 z1 z1z1 m in
    let? m := mul_m dbg s2 y2 z1z1z1 m in
    let m := diff_m h u2 x1 m in
    let m := sum_m i h h m in
    let? m := square_m dbg i i m in
    let? m := mul_m dbg j h i m in
    let m := diff_m r s2 y1 m in
    let m := sum_m r r r m in
    let? m := mul_m dbg v x1 i m in
    let? m := mul_m dbg zout tmp h m in
    let? m := square_m dbg rr r m in
    let m := diff_m xout rr j m in
    let m := diff_m xout xout v m in
    let m := diff_m xout xout v m in
    let m := diff_m tmp v xout m in
    let? m := mul_m dbg yout tmp r m in
    let? m := mul_m dbg tmp y1 j m in
    let m := diff_m yout yout tmp m in
    let m := diff_m yout yout tmp m in
    Some m).
(** p256_point_add, p256.rs:908-948; the locals of the previous routine and s1, z2z2, z2z2z2, u1. *)
Definition point_add_m (dbg : bool) (xout yout zout x1 y1 z1 x2 y2 z2 : nat) : list (list Z) -> option (list (list Z)) :=
  let '(xout, yout, zout, x1, y1, z1, x2, y2, z2) := (A xout, A yout, A zout, A x1, A y1, A z1, A x2, A y2, A z2) in
  let '(z1z1, z1z1z1, s2, u2, h, i, j, r, rr, v, tmp) := (L 0, L 1, L 2, L 3, L 4, L 5, L 6, L 7, L 8, L 9, L 10)%nat in
  let '(s1, z2z2, z2z2z2, u1) := (L 11, L 12, L 13, L 14)%nat in
  frame 15 fz (fun m =>
    let? m := square_m dbg z1z1 z1 m in
    let? m := square_m dbg z2z2 z2 m in
    let? m := mul_m dbg u1 x1 z2z2 m in
    let m := sum_m tmp z1 z2 m in
    let? m := square_m dbg tmp tmp m in
    let m := diff_m tmp tmp z1z1 m in
    let m := diff_m tmp tmp z2z2 m in
    let? m := mul_m dbg z2z2z2 z2 z2z2 m in
    let? m := mul_m dbg s1 y1 z2z2z2 m in
    let? m := mul_m dbg u2 x2 z1z1 m in
    let? m := mul_m dbg z1z1z1 z1 z1z1 m in
    let? m := mul_m dbg s2 y2 z1z1z1 m in
    let m := diff_m h u2 u1 m in
    let m := sum_m i h h m in
    let? m := square_m dbg i i m in
    let? m := mul_m dbg j h i m in
    let m := diff_m r s2 s1 m in
    let m := sum_m r r r m in
    let? m := mul_m dbg v u1 i m in
    let? m := mul_m dbg zout tmp h m in
    let? m := square_m dbg rr r m in
    let m := diff_m xout rr j m in
    let m := diff_m xout xout v m in
    let m := diff_m xout xout v m in
    let m := diff_m tmp v xout m in
    let? m := mul_m dbg yout tmp r m in
    let? m := mul_m dbg tmp s1 j m in
    let m := diff_m yout yout tmp m in
    let m := diff_m yout yout tmp m in
    Some m).
(** The table of p256_scalar_mult, p256.rs:1113-1120, in memory: entry [i] at 3i, 3i+1, 3i+2, then x and y. *)
Definition precomp_body (dbg : bool) (om : option (list (list Z))) (i : nat) : option (list (list Z)) :=
  let? m := om in
  let j := (i / 2)%nat in
  let? m := point_double_m dbg (3 * i) (3 * i + 1) (3 * i + 2) (3 * j) (3 * j + 1) (3 * j + 2) m in
  point_add_mixed_m dbg (3 * i + 3) (3 * i + 4) (3 * i + 5) (3 * i) (3 * i + 1) (3 * i + 2) 48 49 m.
Definition precomp_m (dbg : bool) (m : list (list Z)) : option (list (list Z)) :=
  let m := put m 3 (nth 48 m []) in
  let m := put m 4 (nth 49 m []) in
  let m := put m 5 P256_ONE in
  fold_left (precomp_body dbg) [2; 4; 6; 8; 10; 12; 14]%nat (Some m).
(** p256_copy_conditional, p256.rs:953-957. *)
Definition copy256_body (mask : Z) (out a : ptr) (m : mem) (i : nat) : mem :=
  st m out i (Z.lxor (ld m out i) (Z.land mask (Z.lxor (ld m a i) (ld m out i)))).
Definition copy256_m (out a : nat) (mask : Z) (m : list (list Z)) : list (list Z) :=
  fst (fold_left (copy256_body mask (A out) (A a)) (seq 0 9) (m, [])).
(** p256_select_jacobian_point, p256.rs:985-1008: the limbs of one coordinate for one [i] ... *)
Definition select_body (mask : Z) (out t : ptr) (m : mem) (j : nat) : mem := st m out j (Z.lor (ld m out j) (Z.land (ld m t j) mask)).
Definition select_m (mask : Z) (out t : nat) (m : list (list Z)) : list (list Z) :=
  fst (fold_left (select_body mask (A out) (A t)) (seq 0 9) (m, [])).
(** ... and the whole; the table is at address 0. *)
Definition select_jacobian_m (xout yout zout : nat) (index : Z) (m : list (list Z)) : list (list Z) :=
  let m := put (put (put m xout fz) yout fz) zout fz in
  fold_left (fun m i =>
    let mask := jacobian_mask (Z.of_nat i) index in
    let m := select_m mask xout (3 * i) m in
    let m := select_m mask yout (3 * i + 1) m in
    select_m mask zout (3 * i + 2) m) (seq 1 15) m.
(** p256_scalar_mult, p256.rs:1105-1158.  The table is at 0, x and y at 48 and 49, xout, yout, zout at 50, 51, 52, px, py, pz at 53, 54, 55
    and tx, ty, tz at 56, 57, 58.  One round of the loop of lines 1129-1157 ... *)
Definition double4_m (dbg : bool) (m : list (list Z)) : option (list (list Z)) :=
  let? m := point_double_m dbg 50 51 52 50 51 52 m in
  let? m := point_double_m dbg 50 51 52 50 51 52 m in
  let? m := point_double_m dbg 50 51 52 50 51 52 m in
  point_double_m dbg 50 51 52 50 51 52 m.
Definition window_round_m (dbg : bool) (scalar : list Z) (os : option (list (list Z) * Z)) (i : nat) : option (list (list Z) * Z) :=
  let? (m, nm) := os in
  let? m := if Nat.eqb i 0 then Some m else double4_m dbg m in
  let index := scalar.[31 - i / 2] in
  let index := if Nat.odd i then Z.land index 15 else shr index 4 in
  let m := select_jacobian_m 53 54 55 index m in
  let? m := point_add_m dbg 56 57 58 50 51 52 53 54 55 m in
  let m := copy256_m 50 53 nm m in
  let m := copy256_m 51 54 nm m in
  let m := copy256_m 52 55 nm m in
  let pm := nz_mask index in
  let mask := Z.land pm (not32 nm) in
  let m := copy256_m 50 56 mask m in
  let m := copy256_m 51 57 mask m in
  let m := copy256_m 52 58 mask m in
  Some (m, Z.land nm (not32 pm)).
(** ... and the whole: what is left at 50, 51 and 52. *)
Definition scalar_mult_m (dbg : bool) (x y : list Z) (scalar : list Z) (out : list (list Z)) : option (list (list Z)) :=
  let m := repeat fz 48 ++ [x; y] ++ out ++ repeat fz 6 in
  let? m := precomp_m dbg m in
  let m := put (put (put m 50 fz) 51 fz) 52 fz in
  let? (m, _) := fold_left (window_round_m dbg scalar) (seq 0 64) (Some (m, M32 - 1)) in
  Some (firstn 3 (skipn 50 m)).

(** ** P-224 *)
(** p224_add and p224_sub, p224.rs:132-136, 145-150. *)
Definition add224_body (out a b : ptr) (m : mem) (i : nat) : mem := st m out i (add32 (ld m a i) (ld m b i)).
Definition add224_m (out a b : ptr) (m : mem) : mem := fold_left (add224_body out a b) (seq 0 8) m.
Definition sub224_body (out a b : ptr) (m : mem) (i : nat) : mem := st m out i (sub32 (add32 (ld m a i) (zero31.[i])) (ld m b i)).
Definition sub224_m (out a b : ptr) (m : mem) : mem := fold_left (sub224_body out a b) (seq 0 8) m.
(** p224_reduce_large, p224.rs:163-197, with what [out] held before. *)
Definition reduce_large_from (out a : list Z) : list Z :=
  let a := large_init a in
  let a := fold_left large_step [14; 13; 12; 11; 10; 9; 8]%nat a in
  let a := upd a 8 0 in
  large_out (fold_left large_carry [1; 2; 3; 4; 5; 6; 7]%nat (a, out)).
(** p224_mul and p224_square, p224.rs:83-93, 107-122: the products go to tmp, then [out] is written from it. *)
Definition mul224_m (out a b : ptr) (m : mem) : mem :=
  let tmp := fold_left (mul_row (get m a) (get m b)) (seq 0 8) lfe0 in set m out (reduce_large_from (get m out) tmp).
Definition square224_m (out a : ptr) (m : mem) : mem :=
  let tmp := fold_left (square_row (get m a)) (seq 0 8) lfe0 in set m out (reduce_large_from (get m out) tmp).
(** p224_contract, p224.rs:373-480: a copy to [out], then [out] only. *)
Definition copy_body (out a : ptr) (m : mem) (i : nat) : mem := st m out i (ld m a i).
Definition contract224_m (out a : ptr) (m : mem) : mem :=
  let m := fold_left (copy_body out a) (seq 0 8) m in in_place p224_contract out m.
(** [out.iter_mut().zip(a.iter())] with a shift, p224.rs:592-594, 679-681. *)
Definition shl_body (n : Z) (out a : ptr) (m : mem) (i : nat) : mem := st m out i (shl32 (ld m a i) n).
Definition shl224_m (n : Z) (out a : ptr) (m : mem) : mem := fold_left (shl_body n out a) (seq 0 8) m.
(** p224_double_jacobian, p224.rs:653-704; the locals delta, gamma, beta, alpha, t. *)
Definition double224_m (x3 y3 z3 x1 y1 z1 : nat) : list (list Z) -> option (list (list Z)) :=
  let '(x3, y3, z3, x1, y1, z1) := (A x3, A y3, A z3, A x1, A y1, A z1) in
  let '(delta, gamma, beta, alpha, t) := (L 0, L 1, L 2, L 3, L 4)%nat in
  frame 5 fe0 (fun m =>
    let m := square224_m delta z1 m in
    let m := square224_m gamma y1 m in
    let m := mul224_m beta x1 gamma m in
    let m := add224_m t x1 delta m in
    let m := in_place (map (fun x => add32 x (shl32 x 1))) t m in
    let m := in_place p224_reduce t m in
    let m := sub224_m alpha x1 delta m in
    let m := in_place p224_reduce alpha m in
    let m := mul224_m alpha alpha t m in
    let m := add224_m z3 y1 z1 m in
    let m := in_place p224_reduce z3 m in
    let m := square224_m z3 z3 m in
    let m := sub224_m z3 z3 gamma m in
    let m := in_place p224_reduce z3 m in
    let m := sub224_m z3 z3 delta m in
    let m := in_place p224_reduce z3 m in
    let m := shl224_m 3 delta beta m in
    let m := in_place p224_reduce delta m in
    let m := square224_m x3 alpha m in
    let m := sub224_m x3 x3 delta m in
    let m := in_place p224_reduce x3 m in
    let m := in_place (map (fun x => shl32 x 2)) beta m in
    let m := sub224_m beta beta x3 m in
    let m := in_place p224_reduce beta m in
    let m := square224_m gamma gamma m in
    let m := in_place (map (fun x => shl32 x 3)) gamma m in
    let m := in_place p224_reduce gamma m in
    let m := mul224_m y3 alpha beta m in
    let m := sub224_m y3 y3 gamma m in
    let m := in_place p224_reduce y3 m in
    Some m).

(** p224_copy_conditional, p224.rs:482-488. *)
Definition copy224_body (control : Z) (out a : ptr) (m : mem) (i : nat) : mem :=
  st m out i (Z.lxor (ld m out i) (Z.land (Z.lxor (ld m out i) (ld m a i)) control)).
Definition copy224_m (out a : ptr) (control : Z) (m : mem) : mem :=
  let control := shl32 control 31 in
  let control := sar31 control in
  fold_left (copy224_body control out a) (seq 0 8) m.
(** p224_add_jacobian, p224.rs:565-644; the locals z1z1, z2z2, u1, u2, s1, s2, h, i, j, r, v.  The call of p224_double_jacobian has its own locals. *)
Definition add_jacobian_m (x3 y3 z3 x1 y1 z1 x2 y2 z2 : nat) (mm : list (list Z)) : option (list (list Z)) :=
  let '(px3, py3, pz3, px1, py1, pz1, px2, py2, pz2) := (A x3, A y3, A z3, A x1, A y1, A z1, A x2, A y2, A z2) in
  let '(z1z1, z2z2, u1, u2, s1, s2, h, i, j, r, v) := (L 0, L 1, L 2, L 3, L 4, L 5, L 6, L 7, L 8, L 9, L 10)%nat in
  let m := (mm, repeat fe0 11) in
  let z1_is_zero := p224_is_zero (get m pz1) in let z2_is_zero := p224_is_zero (get m pz2) in
  let m := square224_m z1z1 pz1 m in
  let m := square224_m z2z2 pz2 m in
  let m := mul224_m u1 px1 z2z2 m in
  let m := mul224_m u2 px2 z1z1 m in
  let m := mul224_m s1 pz2 z2z2 m in
  let m := mul224_m s1 py1 s1 m in
  let m := mul224_m s2 pz1 z1z1 m in
  let m := mul224_m s2 py2 s2 m in
  let m := sub224_m h u2 u1 m in
  let m := in_place p224_reduce h m in
  let x_equal := p224_is_zero (get m h) in
  let m := shl224_m 1 i h m in
  let m := in_place p224_reduce i m in
  let m := square224_m i i m in
  let m := mul224_m j h i m in
  let m := sub224_m r s2 s1 m in
  let m := in_place p224_reduce r m in
  let y_equal := p224_is_zero (get m r) in
  if (x_equal =? 1) && (y_equal =? 1) && (z1_is_zero =? 0) && (z2_is_zero =? 0) then double224_m x3 y3 z3 x1 y1 z1 (fst m)
  else
    let m := in_place (map (fun x => shl32 x 1)) r m in
    let m := in_place p224_reduce r m in
    let m := mul224_m v u1 i m in
    let m := add224_m z1z1 z1z1 z2z2 m in
    let m := add224_m z2z2 pz1 pz2 m in
    let m := in_place p224_reduce z2z2 m in
    let m := square224_m z2z2 z2z2 m in
    let m := sub224_m pz3 z2z2 z1z1 m in
    let m := in_place p224_reduce pz3 m in
    let m := mul224_m pz3 pz3 h m in
    let m := shl224_m 1 z1z1 v m in
    let m := add224_m z1z1 j z1z1 m in
    let m := in_place p224_reduce z1z1 m in
    let m := square224_m px3 r m in
    let m := sub224_m px3 px3 z1z1 m in
    let m := in_place p224_reduce px3 m in
    let m := in_place (map (fun x => shl32 x 1)) s1 m in
    let m := mul224_m s1 s1 j m in
    let m := sub224_m z1z1 v px3 m in
    let m := in_place p224_reduce z1z1 m in
    let m := mul224_m z1z1 z1z1 r m in
    let m := sub224_m py3 z1z1 s1 m in
    let m := in_place p224_reduce py3 m in
    let m := copy224_m px3 px2 z1_is_zero m in
    let m := copy224_m px3 px1 z2_is_zero m in
    let m := copy224_m py3 py2 z1_is_zero m in
    let m := copy224_m py3 py1 z2_is_zero m in
    let m := copy224_m pz3 pz2 z1_is_zero m in
    let m := copy224_m pz3 pz1 z2_is_zero m in
    Some (fst m).
(** p224_scalar_mult, p224.rs:523-539, with x1, y1, z1 at 0, 1, 2, x0, y0, z0 at 3, 4, 5 and xx, yy, zz at 6, 7, 8: one bit, then the loops. *)
Definition scalar_bit_m (byte : Z) (om : option (list (list Z))) (bitnum : nat) : option (list (list Z)) :=
  let? m := om in
  let? m := double224_m 0 1 2 0 1 2 m in
  let bit := Z.land (shr byte (7 - Z.of_nat bitnum)) 1 in
  let? m := add_jacobian_m 6 7 8 3 4 5 0 1 2 m in
  let m := copy224_m (A 0) (A 6) bit (m, []) in
  let m := copy224_m (A 1) (A 7) bit m in
  let m := copy224_m (A 2) (A 8) bit m in
  Some (fst m).
Definition scalar224_m (x0 y0 z0 : list Z) (scalar : list Z) (out : list (list Z)) : option (list (list Z)) :=
  let m := out ++ [x0; y0; z0] ++ repeat fe0 3 in
  let m := put (put (put m 0 fe0) 1 fe0) 2 fe0 in
  let? m := fold_left (fun om byte => fold_left (scalar_bit_m byte) (seq 0 8) om) scalar (Some m) in
  Some (firstn 3 m).
