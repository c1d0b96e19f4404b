(** FIPS 197, written from the standard: bytes of the state in column order
    (byte r of column c at index r + 4c). *)
From Verif Require Import Base Words.

(** 4.2: multiplication in GF(2^8) modulo x^8+x^4+x^3+x+1. *)
Definition xtime (b : Z) : Z := if 2 * b <? 256 then 2 * b else Z.lxor (2 * b) 0x11b.
Definition gmul (a b : Z) : Z :=
  fold_left Z.lxor
    (map (fun i => if Z.testbit a (Z.of_nat i) then Nat.iter i xtime b else 0) (seq 0 8)) 0.
(** Multiplicative inverse; 0 is mapped to itself. *)
Definition ginv (b : Z) : Z :=
  match find (fun c => gmul b c =? 1) all_bytes with Some c => c | None => 0 end.

(** 5.1.1, equation (5.1): the affine transformation. *)
Definition of_bits (f : Z -> bool) : Z :=
  fold_left Z.add (map (fun i => if f i then 2 ^ i else 0) [0;1;2;3;4;5;6;7]) 0.
Definition affine (b : Z) : Z :=
  of_bits (fun i => xorb (xorb (xorb (xorb (xorb (Z.testbit b i) (Z.testbit b ((i + 4) mod 8)))
     (Z.testbit b ((i + 5) mod 8))) (Z.testbit b ((i + 6) mod 8))) (Z.testbit b ((i + 7) mod 8)))
     (Z.testbit 0x63 i)).
Definition inv_affine (b : Z) : Z :=
  of_bits (fun i => xorb (xorb (xorb (Z.testbit b ((i + 2) mod 8)) (Z.testbit b ((i + 5) mod 8)))
     (Z.testbit b ((i + 7) mod 8))) (Z.testbit 0x05 i)).
Definition sbox (b : Z) : Z := affine (ginv b).
Definition inv_sbox (b : Z) : Z := ginv (inv_affine b).

Definition SubBytes (st : list Z) : list Z := map sbox st.
Definition InvSubBytes (st : list Z) : list Z := map inv_sbox st.

(** 5.1.2: row r is rotated left by r: s'[r,c] = s[r,(c+r) mod 4]. *)
Definition permute (f : nat -> nat) (st : list Z) : list Z := map (fun i => nth (f i) st 0) (seq 0 16).
Definition ShiftRows (st : list Z) : list Z :=
  permute (fun i => let r := (i mod 4)%nat in let c := (i / 4)%nat in (r + 4 * ((c + r) mod 4))%nat) st.
(** 5.3.1: s'[r,(c+r) mod 4] = s[r,c]. *)
Definition InvShiftRows (st : list Z) : list Z :=
  permute (fun i => let r := (i mod 4)%nat in let c := (i / 4)%nat in (r + 4 * ((c + 4 - r) mod 4))%nat) st.

(** 5.1.3, equation (5.6): each column times the circulant (02 03 01 01). *)
Definition mix_column (k0 k1 k2 k3 : Z) (col : list Z) : list Z :=
  match col with
  | [a; b; c; d] =>
      [ Z.lxor (Z.lxor (Z.lxor (gmul k0 a) (gmul k1 b)) (gmul k2 c)) (gmul k3 d);
        Z.lxor (Z.lxor (Z.lxor (gmul k3 a) (gmul k0 b)) (gmul k1 c)) (gmul k2 d);
        Z.lxor (Z.lxor (Z.lxor (gmul k2 a) (gmul k3 b)) (gmul k0 c)) (gmul k1 d);
        Z.lxor (Z.lxor (Z.lxor (gmul k1 a) (gmul k2 b)) (gmul k3 c)) (gmul k0 d) ]
  | _ => []
  end.
Definition columns (st : list Z) : list (list Z) := map (fun c => firstn 4 (skipn (4 * c) st)) (seq 0 4).
Definition MixColumns (st : list Z) : list Z := concat (map (mix_column 2 3 1 1) (columns st)).
(** 5.3.3. *)
Definition InvMixColumns (st : list Z) : list Z := concat (map (mix_column 14 11 13 9) (columns st)).

(** 5.2: key expansion over 4-byte words. *)
Definition SubWord (w : list Z) : list Z := map sbox w.
Definition RotWord (w : list Z) : list Z := skipn 1 w ++ firstn 1 w.
Definition Rcon (i : nat) : list Z := [Nat.iter (i - 1) xtime 1; 0; 0; 0].
Definition next_word (nk : nat) (w : list (list Z)) : list Z :=
  let i := length w in
  let temp := nth (i - 1) w [] in
  let temp := if (i mod nk =? 0)%nat then xorl (SubWord (RotWord temp)) (Rcon (i / nk))
              else if (6 <? nk)%nat && (i mod nk =? 4)%nat then SubWord temp
              else temp in
  xorl (nth (i - nk) w []) temp.
Definition KeyExpansion (key : list Z) : list (list Z) :=
  let nk := (length key / 4)%nat in
  Nat.iter (4 * (nk + 7) - nk) (fun w => w ++ [next_word nk w]) (chunks 4 key).

(** Round key r: words 4r .. 4r+3. *)
Definition round_key (w : list (list Z)) (r : nat) : list Z := concat (firstn 4 (skipn (4 * r) w)).
Definition AddRoundKey (st rk : list Z) : list Z := xorl st rk.

(** Figure 5: Cipher; [ks] are the round keys still to be used. *)
Fixpoint enc_rounds (st : list Z) (ks : list (list Z)) : list Z :=
  match ks with
  | [] => st
  | [k] => AddRoundKey (ShiftRows (SubBytes st)) k
  | k :: ks' => enc_rounds (AddRoundKey (MixColumns (ShiftRows (SubBytes st))) k) ks'
  end.
(** Figure 12: InvCipher, round keys in decreasing order. *)
Fixpoint dec_rounds (st : list Z) (ks : list (list Z)) : list Z :=
  match ks with
  | [] => st
  | [k] => AddRoundKey (InvSubBytes (InvShiftRows st)) k
  | k :: ks' => dec_rounds (InvMixColumns (AddRoundKey (InvSubBytes (InvShiftRows st)) k)) ks'
  end.

Definition AES_round_keys (key : list Z) : list (list Z) :=
  map (round_key (KeyExpansion key)) (seq 0 (length key / 4 + 7)).
Definition AES_Cipher (key st : list Z) : list Z :=
  match AES_round_keys key with
  | k0 :: ks => enc_rounds (AddRoundKey st k0) ks
  | [] => st
  end.
Definition AES_InvCipher (key st : list Z) : list Z :=
  match rev (AES_round_keys key) with
  | k0 :: ks => dec_rounds (AddRoundKey st k0) ks
  | [] => st
  end.
