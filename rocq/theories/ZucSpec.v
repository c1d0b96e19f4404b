(** Specification of ZUC (GM/T 0001.1-2012; ETSI/SAGE ZUC specification v1.6), 128-EEA3 (GM/T 0001.2) and
    128-EIA3 (GM/T 0001.3). *)
From Verif Require Import Base Words HashSpec.

(** ** The S-boxes, from the design: S0 is a three round Feistel network on nibbles followed by a rotation by 5;
    S1 is an affine function of inversion in GF(2)[x]/(x^8+x^7+x^3+x+1). *)
Definition nib (t : list Z) (i : Z) : Z := nth (Z.to_nat i) t 0.
Definition ZP1 : list Z := [9; 15; 0; 14; 15; 15; 2; 10; 0; 4; 0; 12; 7; 5; 3; 9].
Definition ZP2 : list Z := [8; 13; 6; 5; 7; 0; 12; 4; 11; 1; 14; 10; 15; 3; 9; 2].
Definition ZP3 : list Z := [2; 6; 10; 6; 0; 13; 10; 15; 3; 3; 13; 5; 0; 9; 12; 13].
Definition ZS0 (x : Z) : Z :=
  let a := x / 16 in let b := x mod 16 in
  let a := Z.lxor a (nib ZP1 b) in
  let b := Z.lxor b (nib ZP2 a) in
  let a := Z.lxor a (nib ZP3 b) in
  ROTL 8 5 (16 * a + b).
Definition zx (b : Z) : Z := if 2 * b <? 256 then 2 * b else Z.lxor (2 * b) 0x18b.
Definition zmul (a b : Z) : Z :=
  fold_left Z.lxor (map (fun i => if Z.testbit a (Z.of_nat i) then Nat.iter i zx b else 0) (seq 0 8)) 0.
(** a^254, which is the inverse of a, and 0 for 0. *)
Definition zinv (a : Z) : Z :=
  let a2 := zmul a a in let a4 := zmul a2 a2 in let a8 := zmul a4 a4 in
  let a16 := zmul a8 a8 in let a32 := zmul a16 a16 in let a64 := zmul a32 a32 in let a128 := zmul a64 a64 in
  zmul a128 (zmul a64 (zmul a32 (zmul a16 (zmul a8 (zmul a4 a2))))).
Definition ZS1_columns : list Z := [0x97; 0x3e; 0x6d; 0xcb; 0xee; 0xdd; 0xbb; 0x77].
Definition ZS1 (x : Z) : Z :=
  let y := zinv x in
  fold_left Z.lxor (map (fun i => if Z.testbit y (Z.of_nat i) then nth i ZS1_columns 0 else 0) (seq 0 8)) 0x55.

(** ** The generator: sixteen cells of 31 bits, two registers of 32 bits *)
Record zstate := mkZ { S_cells : list Z; S_R1 : Z; S_R2 : Z }.
Definition P31 : Z := 2 ^ 31 - 1.
(** The representative in [1, 2^31-1] of a class modulo 2^31-1. *)
Definition canon31 (x : Z) : Z := if x mod P31 =? 0 then P31 else x mod P31.
Definition cell (s : list Z) (i : nat) : Z := nth i s 0.
Definition FEEDBACK (s : list Z) : Z :=
  2 ^ 15 * cell s 15 + 2 ^ 17 * cell s 13 + 2 ^ 21 * cell s 10 + 2 ^ 20 * cell s 4 + (1 + 2 ^ 8) * cell s 0.
(** Initialisation mode with input [u]; the working mode is the same with [u = 0]. *)
Definition LFSR (u : Z) (s : list Z) : list Z := tl s ++ [canon31 (FEEDBACK s + u)].
(** High and low halves: bits 30..15 and 15..0 of a cell, bits 31..16 and 15..0 of a word. *)
Definition cH (s : list Z) i := cell s i / 2 ^ 15.
Definition cL (s : list Z) i := cell s i mod 2 ^ 16.
Definition wH (x : Z) := x / 2 ^ 16.
Definition wL (x : Z) := x mod 2 ^ 16.
Definition join16 (h l : Z) : Z := 2 ^ 16 * h + l.
Definition X0 s := join16 (cH s 15) (cL s 14).
Definition X1 s := join16 (cL s 11) (cH s 9).
Definition X2 s := join16 (cL s 7) (cH s 5).
Definition X3 s := join16 (cL s 2) (cH s 0).
Definition SBOX (x : Z) : Z :=
  2 ^ 24 * ZS0 (x / 2 ^ 24) + 2 ^ 16 * ZS1 (x / 2 ^ 16 mod 256) + 2 ^ 8 * ZS0 (x / 2 ^ 8 mod 256) + ZS1 (x mod 256).
Definition XORs (l : list Z) : Z := fold_left Z.lxor l 0.
Definition ZL1 x := XORs [x; ROTL 32 2 x; ROTL 32 10 x; ROTL 32 18 x; ROTL 32 24 x].
Definition ZL2 x := XORs [x; ROTL 32 8 x; ROTL 32 14 x; ROTL 32 22 x; ROTL 32 30 x].
(** F: the output W, and the new registers. *)
Definition F_W (st : zstate) : Z := ADD 32 (Z.lxor (X0 (S_cells st)) (S_R1 st)) (S_R2 st).
Definition F_R1 (st : zstate) : Z :=
  let W1 := ADD 32 (S_R1 st) (X1 (S_cells st)) in let W2 := Z.lxor (S_R2 st) (X2 (S_cells st)) in
  SBOX (ZL1 (join16 (wL W1) (wH W2))).
Definition F_R2 (st : zstate) : Z :=
  let W1 := ADD 32 (S_R1 st) (X1 (S_cells st)) in let W2 := Z.lxor (S_R2 st) (X2 (S_cells st)) in
  SBOX (ZL2 (join16 (wL W2) (wH W1))).
Definition clock (u : Z) (st : zstate) : zstate := mkZ (LFSR u (S_cells st)) (F_R1 st) (F_R2 st).
Definition init_clock (st : zstate) : zstate := clock (F_W st / 2) st.

(** The constants d_i of 15 bits. *)
Definition ZD : list Z :=
  [0x44D7; 0x26BC; 0x626B; 0x135E; 0x5789; 0x35E2; 0x7135; 0x09AF;
   0x4D78; 0x2F13; 0x6BC4; 0x1AF1; 0x5E26; 0x3C4D; 0x789A; 0x47AC].
Definition key_load (key iv : list Z) : zstate :=
  mkZ (map (fun i => 2 ^ 23 * nth i key 0 + 2 ^ 8 * nth i ZD 0 + nth i iv 0) (seq 0 16)) 0 0.
(** State when the first keystream word is produced: 32 initialisation rounds, one discarded working round. *)
Definition start (key iv : list Z) : zstate := clock 0 (Nat.iter 32 init_clock (key_load key iv)).
Definition zstate_at (key iv : list Z) (i : nat) : zstate := Nat.iter i (clock 0) (start key iv).
(** The i-th keystream word. *)
Definition Zword (key iv : list Z) (i : nat) : Z :=
  let st := zstate_at key iv i in Z.lxor (F_W st) (X3 (S_cells st)).

(** ** 128-EEA3 *)
(** The i-th keystream byte. *)
Definition Zbyte (key iv : list Z) (i : nat) : Z := nth (i mod 4) (be_bytes 4 (Zword key iv (i / 4))) 0.
(** [n] keystream bytes from position [pos]. *)
Definition Zstream (key iv : list Z) (pos n : nat) : list Z := map (Zbyte key iv) (seq pos n).
Definition EEA3_iv (count bearer direction : Z) : list Z :=
  let h := be_bytes 4 count ++ [8 * bearer + 4 * direction; 0; 0; 0] in h ++ h.
Definition EEA3 (count bearer direction : Z) (ck m : list Z) : list Z :=
  xorl m (Zstream ck (EEA3_iv count bearer direction) 0 (length m)).

(** ** 128-EIA3 *)
Definition EIA3_iv (count bearer direction : Z) : list Z :=
  let c := be_bytes 4 count in
  let h := c ++ [8 * bearer; 0; 0; 0] in
  h ++ [Z.lxor (nth 0 c 0) (128 * direction)] ++ tl c ++ [8 * bearer; 0; 128 * direction; 0].
(** The i-th keystream bit, most significant bit of a word first. *)
Definition Zbit (key iv : list Z) (i : nat) : bool := Z.testbit (Zword key iv (i / 32)) (31 - Z.of_nat (i mod 32)).
(** z_i = z[i] || z[i+1] || ... || z[i+31]. *)
Definition Zwin (key iv : list Z) (i : nat) : Z :=
  fold_left (fun acc j => 2 * acc + (if Zbit key iv (i + j) then 1 else 0)) (seq 0 32) 0.
(** M[i], first bit of the message first. *)
Definition Mbit (m : list Z) (i : nat) : bool := Z.testbit (nth (i / 8) m 0) (7 - Z.of_nat (i mod 8)).
(** The universal hash part, with keystream windows taken from bit [off] on. *)
Definition EIA3_sum (key iv : list Z) (off : nat) (m : list Z) : Z :=
  XORs (map (fun i => if Mbit m i then Zwin key iv (off + i) else 0) (seq 0 (8 * length m))).
Definition EIA3 (count bearer direction : Z) (ck m : list Z) : list Z :=
  let iv := EIA3_iv count bearer direction in
  let len := (8 * length m)%nat in
  let L := ((len + 31) / 32 + 2)%nat in
  be_bytes 4 (Z.lxor (Z.lxor (EIA3_sum ck iv 0 m) (Zwin ck iv len)) (Zwin ck iv (32 * (L - 1)))).
