(** Model of src/elliptic/p224.rs.  A field element is a list of eight u32 limbs of 28 bits, least significant first; a "large"
    one has fifteen u64 limbs.  Functions that write to an [out] argument return it.  The variants whose name ends in [_a] only
    make references out of raw pointers, so that [out] may be one of the inputs; every routine reads what it needs of an input
    before it overwrites it (C66, InplaceModel.v), so they are the same functions of values.  The scratch arguments [tmp] and [c] are cleared before use
    and are not modelled.  rmath's BigInt and Nat are [Z]; coordinates are taken to be nonnegative and NaN is not modelled.
    All the arithmetic on limbs is with wrapping operations, shifts by less than the word size and u32 products in u64, so that the code
    never panics and means the same with and without overflow checks. *)
From Verif Require Import Base Words HashModel NumTheory RsaModel RsaEncModel EllModel.

(** u32 and u64 operations: wrapping_sub, [<<] and [((x as i32) >> 31) as u32]. *)
Definition sub32 (a b : Z) : Z := (a - b) mod M32.
Definition sub64 (a b : Z) : Z := (a - b) mod M64.
Definition shl32 (x n : Z) : Z := Z.shiftl x n mod M32.
Definition shl64 (x n : Z) : Z := Z.shiftl x n mod M64.
Definition shr (x n : Z) : Z := Z.shiftr x n.
Definition sar31 (x : Z) : Z := if x <? 2147483648 then 0 else M32 - 1.
Notation "a .[ i ]" := (nth i a 0) (at level 2, format "a .[ i ]").

(** p224.rs:10-16. *)
Definition two31p3 : Z := 2147483656.
Definition two31m3 : Z := 2147483640.
Definition two31m15m3 : Z := 2147450872.
Definition two63p35 : Z := 9223372071214514176.
Definition two63m35 : Z := 9223372002495037440.
Definition two63m35m19 : Z := 9223372002494513152.
Definition bot28 : Z := 0xfffffff.
(** p224.rs:21. *)
Definition zero31 : list Z := [two31p3; two31m3; two31m3; two31m15m3; two31m3; two31m3; two31m3; two31m3].
(** p224.rs:25. *)
Definition zero63 : list Z := [two63p35; two63m35; two63m35; two63m35; two63m35m19; two63m35; two63m35; two63m35].
(** p224.rs:28. *)
Definition p224_p : list Z := [1; 0; 0; 0xffff000; 0xfffffff; 0xfffffff; 0xfffffff; 0xfffffff].
(** PFE_DF and PLFE_DF, p224.rs:31, 37. *)
Definition fe0 : list Z := repeat 0 8.
Definition lfe0 : list Z := repeat 0 15.
(** [c1[0] = 1]. *)
Definition fe1 : list Z := upd fe0 0 1.

Definition zip_with (f : Z -> Z -> Z) (a b : list Z) : list Z := map (fun xy => f (fst xy) (snd xy)) (combine a b).

(** p224_add, p224.rs:132-136. *)
Definition p224_add (a b : list Z) : list Z := zip_with add32 a b.
(** p224_sub, p224.rs:145-150. *)
Definition p224_sub (a b : list Z) : list Z := map (fun q => sub32 (add32 (fst q) (fst (snd q))) (snd (snd q))) (combine a (combine zero31 b)).

(** p224_reduce_large, p224.rs:163-197: first the loop of lines 169-173, for one [i]. *)
Definition large_step (a : list Z) (i : nat) : list Z :=
  let a := upd a (i - 8) (sub64 a.[i - 8] a.[i]) in
  let a := upd a (i - 5) (add64 a.[i - 5] (shl64 (Z.land a.[i] 0xffff) 12)) in
  upd a (i - 4) (add64 a.[i - 4] (shr a.[i] 16)).
(** ... the loop of lines 179-182, on (a, out). *)
Definition large_carry (ao : list Z * list Z) (i : nat) : list Z * list Z :=
  let (a, out) := ao in
  (upd a (i + 1) (add64 a.[i + 1] (shr a.[i] 28)), upd out i (Z.land a.[i] bot28)).
(** ... lines 164-166 ... *)
Definition large_init (a : list Z) : list Z := zip_with add64 (firstn 8 a) zero63 ++ skipn 8 a.
(** ... and lines 183-193. *)
Definition large_out (ao : list Z * list Z) : list Z :=
  let (a, out) := ao in
  let a := upd a 0 (sub64 a.[0] a.[8]) in
  let out := upd out 3 (add32 out.[3] (shl64 (Z.land a.[8] 0xffff) 12 mod M32)) in
  let out := upd out 4 (add32 out.[4] (Z.land (shr a.[8] 16) 0xffffffff)) in
  let out := upd out 0 (Z.land a.[0] bot28) in
  let out := upd out 1 (add32 out.[1] (Z.land (shr a.[0] 28) bot28)) in
  upd out 2 (add32 out.[2] (shr a.[0] 56 mod M32)).
Definition p224_reduce_large (a : list Z) : list Z :=
  let a := large_init a in
  let a := fold_left large_step [14; 13; 12; 11; 10; 9; 8]%nat a in
  let a := upd a 8 0 in
  large_out (fold_left large_carry [1; 2; 3; 4; 5; 6; 7]%nat (a, fe0)).

(** p224_mul, p224.rs:83-93. *)
Definition mul_row (a : list Z) (b : list Z) (tmp : list Z) (i : nat) : list Z :=
  fold_left (fun tmp j => upd tmp (i + j) (add64 tmp.[i + j] (a.[i] * b.[j]))) (seq 0 8) tmp.
Definition p224_mul (a b : list Z) : list Z := p224_reduce_large (fold_left (mul_row a b) (seq 0 8) lfe0).
(** p224_square, p224.rs:107-122. *)
Definition square_row (a : list Z) (tmp : list Z) (i : nat) : list Z :=
  fold_left (fun tmp j => let r := a.[i] * a.[j] in
    if Nat.eqb i j then upd tmp (i + j) (add64 tmp.[i + j] r) else upd tmp (i + j) (add64 tmp.[i + j] (shl64 r 1))) (seq 0 (i + 1)) tmp.
Definition p224_square (a : list Z) : list Z := p224_reduce_large (fold_left (square_row a) (seq 0 8) lfe0).

(** The carry step shared by p224.rs:204-207, 376-379 and 397-400. *)
Definition carry_step (a : list Z) (i : nat) : list Z :=
  let a := upd a (i + 1) (add32 a.[i + 1] (shr a.[i] 28)) in
  upd a i (Z.land a.[i] bot28).
(** p224_reduce, p224.rs:208-228: what follows the carry loop. *)
Definition reduce_top (a : list Z) : list Z :=
  let top := shr a.[7] 28 in
  let a := upd a 7 (Z.land a.[7] bot28) in
  let mask := top in
  let mask := Z.lor mask (shr mask 2) in
  let mask := Z.lor mask (shr mask 1) in
  let mask := shl32 mask 31 in
  let mask := sar31 mask in
  let a := upd a 0 (sub32 a.[0] top) in
  let a := upd a 3 (add32 a.[3] (shl32 top 12)) in
  let a := upd a 3 (sub32 a.[3] (Z.land 1 mask)) in
  let a := upd a 2 (add32 a.[2] (Z.land mask 268435455)) in
  let a := upd a 1 (add32 a.[1] (Z.land mask 268435455)) in
  upd a 0 (add32 a.[0] (Z.land mask 268435456)).
(** p224_reduce, p224.rs:203-229. *)
Definition p224_reduce (a : list Z) : list Z := reduce_top (fold_left carry_step (seq 0 7) a).

(** get_ls28bits_from_end, p224.rs:250-267. *)
Definition get28 (buf : list Z) (shift : Z) : Z * list Z :=
  let '(ret, buf) := fold_left (fun (rb : Z * list Z) i =>
    let (ret, buf) := rb in
    let l := length buf in
    let b := if (0 <? l)%nat then buf.[l - 1] else 0 in
    let buf := if (0 <? l)%nat && (negb (Nat.eqb i 3) || (shift =? 4)) then firstn (l - 1) buf else buf in
    (Z.lor ret (shr (shl32 b (8 * Z.of_nat i)) shift), buf)) (seq 0 4) (0, buf) in
  (Z.land ret bot28, buf).
(** p224_from_bigint, p224.rs:231-246. *)
Definition p224_from_bigint (n : Z) : list Z :=
  let bytes := to_be_bytes n in
  let (o0, bytes) := get28 bytes 0 in
  let (o1, bytes) := get28 bytes 4 in
  let (o2, bytes) := get28 bytes 0 in
  let (o3, bytes) := get28 bytes 4 in
  let (o4, bytes) := get28 bytes 0 in
  let (o5, bytes) := get28 bytes 4 in
  let (o6, bytes) := get28 bytes 0 in
  let (o7, _) := get28 bytes 4 in
  [o0; o1; o2; o3; o4; o5; o6; o7].
(** p224_to_bigint, p224.rs:269-309: the seven bytes made of two limbs, then the whole. *)
Definition limb_bytes (e0 e1 : Z) : list Z :=
  [Z.land (shr e1 20) 0xff; Z.land (shr e1 12) 0xff; Z.land (shr e1 4) 0xff;
   Z.lor (Z.land (shr e0 24) 0x0f) (Z.land (shl32 e1 4) 0xf0);
   Z.land (shr e0 16) 0xff; Z.land (shr e0 8) 0xff; Z.land e0 0xff].
Definition p224_to_bigint (e : list Z) : Z :=
  be_val (limb_bytes e.[6] e.[7] ++ limb_bytes e.[4] e.[5] ++ limb_bytes e.[2] e.[3] ++ limb_bytes e.[0] e.[1]).

(** p224_invert, p224.rs:313-360. *)
Definition p224_invert (a : list Z) : list Z :=
  let f1 := p224_square a in
  let f1 := p224_mul f1 a in
  let f1 := p224_square f1 in
  let f1 := p224_mul f1 a in
  let f2 := p224_square f1 in
  let f2 := p224_square f2 in
  let f2 := p224_square f2 in
  let f1 := p224_mul f1 f2 in
  let f2 := p224_square f1 in
  let f2 := Nat.iter 5 p224_square f2 in
  let f2 := p224_mul f2 f1 in
  let f3 := p224_square f2 in
  let f3 := Nat.iter 11 p224_square f3 in
  let f2 := p224_mul f3 f2 in
  let f3 := p224_square f2 in
  let f3 := Nat.iter 23 p224_square f3 in
  let f3 := p224_mul f3 f2 in
  let f4 := p224_square f3 in
  let f4 := Nat.iter 47 p224_square f4 in
  let f3 := p224_mul f3 f4 in
  let f4 := p224_square f3 in
  let f4 := Nat.iter 23 p224_square f4 in
  let f2 := p224_mul f4 f2 in
  let f2 := Nat.iter 6 p224_square f2 in
  let f1 := p224_mul f1 f2 in
  let f1 := p224_square f1 in
  let f1 := p224_mul f1 a in
  let f1 := Nat.iter 97 p224_square f1 in
  p224_mul f1 f3.

(** The borrow of p224.rs:389-393 and 422-426, for one [i]. *)
Definition borrow_step (out : list Z) (i : nat) : list Z :=
  let mask := sar31 out.[i] in
  let out := upd out i (add32 out.[i] (Z.land (2 ^ 28) mask)) in
  upd out (i + 1) (sub32 out.[i + 1] (Z.land 1 mask)).
(** The foldings of p224.rs:440-444 and of 449-453, 463-467, 506-516. *)
Definition and_fold (x : Z) : Z :=
  let x := Z.land x (shr x 16) in let x := Z.land x (shr x 8) in let x := Z.land x (shr x 4) in
  let x := Z.land x (shr x 2) in Z.land x (shr x 1).
Definition or_fold (x : Z) : Z :=
  let x := Z.lor x (shr x 16) in let x := Z.lor x (shr x 8) in let x := Z.lor x (shr x 4) in
  let x := Z.lor x (shr x 2) in Z.lor x (shr x 1).
(** Elimination of the bits above 2^224, p224.rs:380-384 and 401-406. *)
Definition fold_top (out : list Z) : list Z :=
  let top := shr out.[7] 28 in
  let out := upd out 7 (Z.land out.[7] bot28) in
  let out := upd out 0 (sub32 out.[0] top) in
  upd out 3 (add32 out.[3] (shl32 top 12)).
(** p224_contract, p224.rs:373-426: the part before the comparison with p. *)
Definition contract_norm (a : list Z) : list Z :=
  let out := fold_left carry_step (seq 0 7) a in
  let out := fold_top out in
  let out := fold_left borrow_step (seq 0 3) out in
  let out := fold_left carry_step (seq 3 4) out in
  let out := fold_top out in
  fold_left borrow_step (seq 0 3) out.
(** p224_contract, p224.rs:434-473: the mask. *)
Definition contract_mask (out : list Z) : Z :=
  let top4_all_ones := fold_left Z.land (firstn 4 (skipn 4 out)) 0xffffffff in
  let top4_all_ones := Z.lor top4_all_ones 0xf0000000 in
  let top4_all_ones := and_fold top4_all_ones in
  let top4_all_ones := sar31 (shl32 top4_all_ones 31) in
  let bottom3_non_zero := Z.lor (Z.lor out.[0] out.[1]) out.[2] in
  let bottom3_non_zero := or_fold bottom3_non_zero in
  let bottom3_non_zero := sar31 (shl32 bottom3_non_zero 31) in
  let n := sub32 out.[3] 0xffff000 in
  let out3_equal := or_fold n in
  let out3_equal := not32 (sar31 (shl32 out3_equal 31)) in
  let out3_gt := not32 (sar31 n) in
  Z.land top4_all_ones (Z.lor (Z.land out3_equal bottom3_non_zero) out3_gt).
(** p224_contract, p224.rs:474-479. *)
Definition sub_p (out : list Z) (mask : Z) : list Z :=
  let out := upd out 0 (sub32 out.[0] (Z.land 1 mask)) in
  let out := upd out 3 (sub32 out.[3] (Z.land 0xffff000 mask)) in
  let out := upd out 4 (sub32 out.[4] (Z.land 0xfffffff mask)) in
  let out := upd out 5 (sub32 out.[5] (Z.land 0xfffffff mask)) in
  let out := upd out 6 (sub32 out.[6] (Z.land 0xfffffff mask)) in
  upd out 7 (sub32 out.[7] (Z.land 0xfffffff mask)).
(** p224_contract, p224.rs:373-480. *)
Definition p224_contract (a : list Z) : list Z :=
  let out := contract_norm a in
  let mask := contract_mask out in
  sub_p out mask.

(** p224_copy_conditional, p224.rs:482-488. *)
Definition copy_conditional (out a : list Z) (control : Z) : list Z :=
  let control := shl32 control 31 in
  let control := sar31 control in
  zip_with (fun x y => Z.lxor x (Z.land (Z.lxor x y) control)) out a.
(** p224_is_zero, p224.rs:493-521. *)
Definition p224_is_zero (a : list Z) : Z :=
  let minimal := p224_contract a in
  let is_zero := fold_left Z.lor minimal 0 in
  let is_p := fold_left Z.lor (zip_with sub32 minimal p224_p) 0 in
  let is_zero := or_fold is_zero in
  let is_p := or_fold is_p in
  let result := Z.land is_zero is_p in
  Z.land (not32 result) 1.

(** p224_double_jacobian, p224.rs:653-704. *)
Definition p224_double_jacobian (x1 y1 z1 : list Z) : list Z * list Z * list Z :=
  let delta := p224_square z1 in
  let gamma := p224_square y1 in
  let beta := p224_mul x1 gamma in
  let t := p224_add x1 delta in
  let t := map (fun x => add32 x (shl32 x 1)) t in
  let t := p224_reduce t in
  let alpha := p224_sub x1 delta in
  let alpha := p224_reduce alpha in
  let alpha := p224_mul alpha t in
  let z3 := p224_add y1 z1 in
  let z3 := p224_reduce z3 in
  let z3 := p224_square z3 in
  let z3 := p224_sub z3 gamma in
  let z3 := p224_reduce z3 in
  let z3 := p224_sub z3 delta in
  let z3 := p224_reduce z3 in
  let delta := map (fun y => shl32 y 3) beta in
  let delta := p224_reduce delta in
  let x3 := p224_square alpha in
  let x3 := p224_sub x3 delta in
  let x3 := p224_reduce x3 in
  let beta := map (fun x => shl32 x 2) beta in
  let beta := p224_sub beta x3 in
  let beta := p224_reduce beta in
  let gamma := p224_square gamma in
  let gamma := map (fun x => shl32 x 3) gamma in
  let gamma := p224_reduce gamma in
  let y3 := p224_mul alpha beta in
  let y3 := p224_sub y3 gamma in
  let y3 := p224_reduce y3 in
  (x3, y3, z3).
(** p224_add_jacobian, p224.rs:565-644. *)
Definition p224_add_jacobian (x1 y1 z1 x2 y2 z2 : list Z) : list Z * list Z * list Z :=
  let z1_is_zero := p224_is_zero z1 in let z2_is_zero := p224_is_zero z2 in
  let z1z1 := p224_square z1 in
  let z2z2 := p224_square z2 in
  let u1 := p224_mul x1 z2z2 in
  let u2 := p224_mul x2 z1z1 in
  let s1 := p224_mul z2 z2z2 in
  let s1 := p224_mul y1 s1 in
  let s2 := p224_mul z1 z1z1 in
  let s2 := p224_mul y2 s2 in
  let h := p224_sub u2 u1 in
  let h := p224_reduce h in
  let x_equal := p224_is_zero h in
  let i := map (fun n => shl32 n 1) h in
  let i := p224_reduce i in
  let i := p224_square i in
  let j := p224_mul h i in
  let r := p224_sub s2 s1 in
  let r := p224_reduce r in
  let y_equal := p224_is_zero r in
  if (x_equal =? 1) && (y_equal =? 1) && (z1_is_zero =? 0) && (z2_is_zero =? 0) then p224_double_jacobian x1 y1 z1
  else
    let r := map (fun m => shl32 m 1) r in
    let r := p224_reduce r in
    let v := p224_mul u1 i in
    let z1z1 := p224_add z1z1 z2z2 in
    let z2z2 := p224_add z1 z2 in
    let z2z2 := p224_reduce z2z2 in
    let z2z2 := p224_square z2z2 in
    let z3 := p224_sub z2z2 z1z1 in
    let z3 := p224_reduce z3 in
    let z3 := p224_mul z3 h in
    let z1z1 := map (fun n => shl32 n 1) v in
    let z1z1 := p224_add j z1z1 in
    let z1z1 := p224_reduce z1z1 in
    let x3 := p224_square r in
    let x3 := p224_sub x3 z1z1 in
    let x3 := p224_reduce x3 in
    let s1 := map (fun m => shl32 m 1) s1 in
    let s1 := p224_mul s1 j in
    let z1z1 := p224_sub v x3 in
    let z1z1 := p224_reduce z1z1 in
    let z1z1 := p224_mul z1z1 r in
    let y3 := p224_sub z1z1 s1 in
    let y3 := p224_reduce y3 in
    let x3 := copy_conditional x3 x2 z1_is_zero in
    let x3 := copy_conditional x3 x1 z2_is_zero in
    let y3 := copy_conditional y3 y2 z1_is_zero in
    let y3 := copy_conditional y3 y1 z2_is_zero in
    let z3 := copy_conditional z3 z2 z1_is_zero in
    let z3 := copy_conditional z3 z1 z2_is_zero in
    (x3, y3, z3).

(** p224_scalar_mult, p224.rs:523-539: one bit, then the loops. *)
Definition scalar_bit (x0 y0 z0 : list Z) (byte : Z) (q : list Z * list Z * list Z) (bitnum : nat) : list Z * list Z * list Z :=
  let '(x1, y1, z1) := q in
  let '(x1, y1, z1) := p224_double_jacobian x1 y1 z1 in
  let bit := Z.land (shr byte (7 - Z.of_nat bitnum)) 1 in
  let '(xx, yy, zz) := p224_add_jacobian x0 y0 z0 x1 y1 z1 in
  (copy_conditional x1 xx bit, copy_conditional y1 yy bit, copy_conditional z1 zz bit).
Definition p224_scalar_mult (x0 y0 z0 : list Z) (scalar : list Z) : list Z * list Z * list Z :=
  fold_left (fun q byte => fold_left (scalar_bit x0 y0 z0 byte) (seq 0 8) q) scalar (fe0, fe0, fe0).

(** p224_to_affine, p224.rs:541-558. *)
Definition p224_to_affine (x y z : list Z) : Z * Z :=
  if p224_is_zero z =? 1 then (0, 0)
  else
    let zinv := p224_invert z in
    let zinvsq := p224_square zinv in
    let x := p224_mul x zinvsq in
    let zinvsq := p224_mul zinvsq zinv in
    let y := p224_mul y zinvsq in
    let outx := p224_contract x in
    let outy := p224_contract y in
    (p224_to_bigint outx, p224_to_bigint outy).

(** The limbs that [new] keeps of the constants, p224.rs:61-77. *)
Definition c224_gx : list Z := p224_from_bigint (cp_gx p224).
Definition c224_gy : list Z := p224_from_bigint (cp_gy p224).
Definition c224_b : list Z := p224_from_bigint (cp_b p224).
Fixpoint limbs_eq (a b : list Z) : bool :=
  match a, b with x :: a, y :: b => (x =? y) && limbs_eq a b | _, _ => true end.
(** is_on_curve, p224.rs:712-742. *)
Definition c224_is_on_curve (x y : Z) : bool :=
  let a := p224_from_bigint x in
  let b := p224_from_bigint y in
  let x3 := p224_square a in
  let x3 := p224_mul x3 a in
  let a := map (fun m => (m * 3) mod M32) a in
  let x3 := p224_sub x3 a in
  let x3 := p224_reduce x3 in
  let x3 := p224_add x3 c224_b in
  let x3 := p224_contract x3 in
  let b := p224_square b in
  let b := p224_contract b in
  limbs_eq x3 b.
(** add, p224.rs:744-767. *)
Definition c224_add (x1 y1 x2 y2 : Z) : Z * Z :=
  let a1 := p224_from_bigint x1 in
  let b1 := p224_from_bigint y1 in
  let c1 := if negb (Z.sgn x1 =? 0) || negb (Z.sgn y1 =? 0) then fe1 else fe0 in
  let a2 := p224_from_bigint x2 in
  let b2 := p224_from_bigint y2 in
  let c2 := if negb (Z.sgn x2 =? 0) || negb (Z.sgn y2 =? 0) then fe1 else fe0 in
  let '(a3, b3, c3) := p224_add_jacobian a1 b1 c1 a2 b2 c2 in
  p224_to_affine a3 b3 c3.
(** double, p224.rs:769-783. *)
Definition c224_double (x y : Z) : Z * Z :=
  let '(a2, b2, c2) := p224_double_jacobian (p224_from_bigint x) (p224_from_bigint y) fe1 in
  p224_to_affine a2 b2 c2.
(** scalar, p224.rs:785-800. *)
Definition c224_scalar (x y k : Z) : Z * Z :=
  let '(a2, b2, c2) := p224_scalar_mult (p224_from_bigint x) (p224_from_bigint y) fe1 (to_be_bytes k) in
  p224_to_affine a2 b2 c2.
(** scalar_base_point, p224.rs:802-813. *)
Definition c224_scalar_base (k : Z) : Z * Z :=
  let '(x2, y2, z2) := p224_scalar_mult c224_gx c224_gy fe1 (to_be_bytes k) in
  p224_to_affine x2 y2 z2.
