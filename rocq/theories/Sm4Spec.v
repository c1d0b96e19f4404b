(** GB/T 32907-2016 (SM4), written from the standard. *)
From Verif Require Import Base Words.

(** The S-box in its algebraic form: S(x) = A I(A x + C) + C over
    GF(2^8) modulo x^8+x^7+x^6+x^5+x^4+x^2+1, with A circulant and C = 0xD3. *)
Definition sm4_xtime (b : Z) : Z := if 2 * b <? 256 then 2 * b else Z.lxor (2 * b) 0x1f5.
Definition sm4_mul (a b : Z) : Z :=
  fold_left Z.lxor
    (map (fun i => if Z.testbit a (Z.of_nat i) then Nat.iter i sm4_xtime b else 0) (seq 0 8)) 0.
Definition sm4_inv (b : Z) : Z :=
  match find (fun c => sm4_mul b c =? 1) all_bytes with Some c => c | None => 0 end.
(** Bit i of A x is the parity of bits i, i+1, i+2, i+5 and i+7 (mod 8) of x. *)
Definition sm4_A (x : Z) : Z :=
  fold_left Z.add (map (fun i =>
    if xorb (xorb (xorb (xorb (Z.testbit x i) (Z.testbit x ((i + 1) mod 8))) (Z.testbit x ((i + 2) mod 8)))
         (Z.testbit x ((i + 5) mod 8))) (Z.testbit x ((i + 7) mod 8))
    then 2 ^ i else 0) [0;1;2;3;4;5;6;7]) 0.
Definition Sbox (x : Z) : Z := Z.lxor (sm4_A (sm4_inv (Z.lxor (sm4_A x) 0xd3))) 0xd3.

(** 32-bit left rotation. *)
Definition rol (x n : Z) : Z := (x * 2 ^ n) mod 2 ^ 32 + x / 2 ^ (32 - n).
(** 6.2: tau, L, L'. *)
Definition tau (x : Z) : Z :=
  Sbox (x / 2 ^ 24 mod 256) * 2 ^ 24 + Sbox (x / 2 ^ 16 mod 256) * 2 ^ 16 +
  Sbox (x / 2 ^ 8 mod 256) * 2 ^ 8 + Sbox (x mod 256).
Definition L (b : Z) : Z :=
  Z.lxor b (Z.lxor (rol b 2) (Z.lxor (rol b 10) (Z.lxor (rol b 18) (rol b 24)))).
Definition L' (b : Z) : Z := Z.lxor b (Z.lxor (rol b 13) (rol b 23)).

(** 7.3: FK and CK; ck_{i,j} = (4i+j) * 7 mod 256. *)
Definition FK : list Z := [0xA3B1BAC6; 0x56AA3350; 0x677D9197; 0xB27022DC].
Definition CK (i : nat) : Z :=
  let ck j := ((4 * Z.of_nat i + j) * 7) mod 256 in be_val [ck 0; ck 1; ck 2; ck 3].

(** The sliding window (X_i, X_{i+1}, X_{i+2}, X_{i+3}). *)
Definition win : Type := Z * Z * Z * Z.
(** Key expansion: rk_i = K_{i+4} = K_i xor L'(tau(K_{i+1} xor K_{i+2} xor K_{i+3} xor CK_i)). *)
Fixpoint round_keys (cnt i : nat) (k : win) : list Z :=
  match cnt with
  | O => []
  | S c => let '(k0, k1, k2, k3) := k in
           let rk := Z.lxor k0 (L' (tau (Z.lxor k1 (Z.lxor k2 (Z.lxor k3 (CK i)))))) in
           rk :: round_keys c (S i) (k1, k2, k3, rk)
  end.
Definition words (b : list Z) : win :=
  match map be_val (chunks 4 b) with [a; b; c; d] => (a, b, c, d) | _ => (0, 0, 0, 0) end.
Definition SM4_keys (key : list Z) : list Z :=
  let '(a, b, c, d) := words key in
  round_keys 32 0 (Z.lxor a (nth 0 FK 0), Z.lxor b (nth 1 FK 0), Z.lxor c (nth 2 FK 0), Z.lxor d (nth 3 FK 0)).
(** Round function and the reversal R. *)
Definition sm4_round (x : win) (rk : Z) : win :=
  let '(x0, x1, x2, x3) := x in
  (x1, x2, x3, Z.lxor x0 (L (tau (Z.lxor x1 (Z.lxor x2 (Z.lxor x3 rk)))))).
Definition R (x : win) : win := let '(a, b, c, d) := x in (d, c, b, a).
Definition out (x : win) : list Z :=
  let '(a, b, c, d) := x in be_bytes 4 a ++ be_bytes 4 b ++ be_bytes 4 c ++ be_bytes 4 d.
Definition SM4_enc (key b : list Z) : list Z := out (R (fold_left sm4_round (SM4_keys key) (words b))).
Definition SM4_dec (key b : list Z) : list Z := out (R (fold_left sm4_round (rev (SM4_keys key)) (words b))).
