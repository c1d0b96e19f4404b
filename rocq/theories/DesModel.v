(** Model of src/des/des.rs and src/des/tdes.rs (little-endian target, as x86).
    A u64 is a [Z] in [0, 2^64); a u8 is a [Z] in [0, 256). *)
From Verif Require Import Base Words ModesModel.

(** src/des/const_tables.rs:19, 32, 46, 102, 127-135, 147, 150-152, copied. *)
Definition DES_IP : list Z :=
  [6; 14; 22; 30; 38; 46; 54; 62; 4; 12; 20; 28; 36; 44; 52; 60; 2; 10; 18; 26; 34; 42; 50; 58; 0; 8; 16; 24; 32; 40; 48; 56; 7; 15; 23; 31; 39; 47; 55; 63; 5; 13; 21; 29; 37; 45; 53; 61; 3; 11; 19; 27; 35; 43; 51; 59; 1; 9; 17; 25; 33; 41; 49; 57].
Definition DES_IIP : list Z :=
  [24; 56; 16; 48; 8; 40; 0; 32; 25; 57; 17; 49; 9; 41; 1; 33; 26; 58; 18; 50; 10; 42; 2; 34; 27; 59; 19; 51; 11; 43; 3; 35; 28; 60; 20; 52; 12; 44; 4; 36; 29; 61; 21; 53; 13; 45; 5; 37; 30; 62; 22; 54; 14; 46; 6; 38; 31; 63; 23; 55; 15; 47; 7; 39].
Definition DES_E : list Z :=
  [3; 4; 3; 4; 5; 6; 7; 24; 13; 14; 15; 0; 15; 0; 1; 2; 23; 8; 9; 10; 11; 12; 11; 12; 19; 20; 19; 20; 21; 22; 23; 8; 29; 30; 31; 16; 31; 16; 17; 18; 7; 24; 25; 26; 27; 28; 27; 28].
Definition DES_P : list Z :=
  [23; 28; 12; 27; 19; 20; 1; 8; 14; 25; 22; 3; 30; 17; 9; 7; 15; 5; 29; 24; 10; 16; 0; 6; 31; 4; 13; 18; 2; 26; 11; 21].
Definition DES_PC1 : list Z :=
  [7; 15; 23; 31; 39; 47; 55; 63; 6; 14; 22; 30; 38; 46; 54; 62; 5; 13; 21; 29; 37; 45; 53; 61; 33; 41; 49; 57; 36; 44; 52; 60; 34; 42; 50; 58; 1; 9; 17; 25; 35; 43; 51; 59; 2; 10; 18; 26; 4; 12; 20; 28; 3; 11; 19; 27].
Definition DES_PC2 : list Z :=
  [28; 5; 3; 7; 16; 13; 23; 10; 4; 12; 21; 17; 14; 19; 2; 9; 6; 11; 20; 29; 1; 8; 0; 30; 32; 26; 49; 41; 35; 25; 52; 47; 48; 33; 55; 44; 40; 39; 43; 53; 24; 27; 36; 54; 46; 42; 51; 38].
Definition DES_LS : list Z :=
  [1; 1; 2; 2; 2; 2; 2; 2; 1; 2; 2; 2; 2; 2; 2; 1].
(** const_tables.rs:49-89. *)
Definition DES_S : list (list Z) := [
  [14; 4; 13; 1; 2; 15; 11; 8; 3; 10; 6; 12; 5; 9; 0; 7; 0; 15; 7; 4; 14; 2; 13; 1; 10; 6; 12; 11; 9; 5; 3; 8; 4; 1; 14; 8; 13; 6; 2; 11; 15; 12; 9; 7; 3; 10; 5; 0; 15; 12; 8; 2; 4; 9; 1; 7; 5; 11; 3; 14; 10; 0; 6; 13];
  [15; 1; 8; 14; 6; 11; 3; 4; 9; 7; 2; 13; 12; 0; 5; 10; 3; 13; 4; 7; 15; 2; 8; 14; 12; 0; 1; 10; 6; 9; 11; 5; 0; 14; 7; 11; 10; 4; 13; 1; 5; 8; 12; 6; 9; 3; 2; 15; 13; 8; 10; 1; 3; 15; 4; 2; 11; 6; 7; 12; 0; 5; 14; 9];
  [10; 0; 9; 14; 6; 3; 15; 5; 1; 13; 12; 7; 11; 4; 2; 8; 13; 7; 0; 9; 3; 4; 6; 10; 2; 8; 5; 14; 12; 11; 15; 1; 13; 6; 4; 9; 8; 15; 3; 0; 11; 1; 2; 12; 5; 10; 14; 7; 1; 10; 13; 0; 6; 9; 8; 7; 4; 15; 14; 3; 11; 5; 2; 12];
  [7; 13; 14; 3; 0; 6; 9; 10; 1; 2; 8; 5; 11; 12; 4; 15; 13; 8; 11; 5; 6; 15; 0; 3; 4; 7; 2; 12; 1; 10; 14; 9; 10; 6; 9; 0; 12; 11; 7; 13; 15; 1; 3; 14; 5; 2; 8; 4; 3; 15; 0; 6; 10; 1; 13; 8; 9; 4; 5; 11; 12; 7; 2; 14];
  [2; 12; 4; 1; 7; 10; 11; 6; 8; 5; 3; 15; 13; 0; 14; 9; 14; 11; 2; 12; 4; 7; 13; 1; 5; 0; 15; 10; 3; 9; 8; 6; 4; 2; 1; 11; 10; 13; 7; 8; 15; 9; 12; 5; 6; 3; 0; 14; 11; 8; 12; 7; 1; 14; 2; 13; 6; 15; 0; 9; 10; 4; 5; 3];
  [12; 1; 10; 15; 9; 2; 6; 8; 0; 13; 3; 4; 14; 7; 5; 11; 10; 15; 4; 2; 7; 12; 9; 5; 6; 1; 13; 14; 0; 11; 3; 8; 9; 14; 15; 5; 2; 8; 12; 3; 7; 0; 4; 10; 1; 13; 11; 6; 4; 3; 2; 12; 9; 5; 15; 10; 11; 14; 1; 7; 6; 0; 8; 13];
  [4; 11; 2; 14; 15; 0; 8; 13; 3; 12; 9; 7; 5; 10; 6; 1; 13; 0; 11; 7; 4; 9; 1; 10; 14; 3; 5; 12; 2; 15; 8; 6; 1; 4; 11; 13; 12; 3; 7; 14; 10; 15; 6; 8; 0; 5; 9; 2; 6; 11; 13; 8; 1; 4; 10; 7; 9; 5; 0; 15; 14; 2; 3; 12];
  [13; 2; 8; 4; 6; 15; 11; 1; 10; 9; 3; 14; 5; 0; 12; 7; 1; 15; 13; 8; 10; 3; 7; 4; 12; 5; 6; 11; 0; 14; 9; 2; 7; 11; 4; 1; 9; 12; 14; 2; 0; 6; 10; 13; 15; 3; 5; 8; 2; 1; 14; 7; 4; 10; 8; 13; 15; 12; 9; 0; 3; 5; 6; 11]].

(** des.rs:142-147, [permute]: bit i of the result is bit table[i] of the argument. *)
Definition permute (key : Z) (tb : list Z) : Z :=
  snd (fold_left (fun '(i, kp) ele =>
        let b := Z.land (Z.shiftr key ele) 1 in (i + 1, Z.lor kp (Z.shiftl b i))) tb (0, 0)).

(** u8 shift left: bits above the eighth are lost. *)
Definition shl8 (x n : Z) : Z := Z.shiftl x n mod 256.

(** des.rs:152-167, [ks_rotate]. *)
Definition ks_rotate (key cl : Z) : Z :=
  let sl := cl in let sr := 8 - cl in
  let v i := nth i (le_bytes 8 key) 0 in
  let o := Z.lor (shl8 (v 0%nat) sl) (Z.shiftr (v 1%nat) sr) in
  let o := Z.lor o (Z.shiftl (Z.lor (shl8 (v 1%nat) sl) (Z.shiftr (v 2%nat) sr)) 8) in
  let o := Z.lor o (Z.shiftl (Z.lor (shl8 (v 2%nat) sl) (Z.shiftr (v 3%nat) sr)) 16) in
  let tmp := shl8 (v 3%nat) (4 + sl) in
  let o := Z.lor o (Z.shiftl
     (Z.lor (Z.lor (Z.lor (shl8 (Z.land (v 3%nat) 240) sl) (shl8 (Z.shiftr (v 0%nat) sr) 4)) (Z.shiftr tmp 4))
            (Z.shiftr (v 4%nat) sr)) 24) in
  let o := Z.lor o (Z.shiftl (Z.lor (shl8 (v 4%nat) sl) (Z.shiftr (v 5%nat) sr)) 32) in
  let o := Z.lor o (Z.shiftl (Z.lor (shl8 (v 5%nat) sl) (Z.shiftr (v 6%nat) sr)) 40) in
  let tmp := shl8 (v 3%nat) 4 in
  Z.lor o (Z.shiftl (Z.lor (shl8 (v 6%nat) sl) (Z.shiftr tmp (8 - sl))) 48).

(** des.rs:126-139, [key_schedule]; the fold over the 16 output slots. *)
Fixpoint ks_fold (k : Z) (ls : list Z) : list Z :=
  match ls with
  | [] => []
  | cl :: ls => let tmp := ks_rotate k cl in permute tmp DES_PC2 :: ks_fold tmp ls
  end.
Definition key_schedule (key : list Z) : list Z :=
  ks_fold (permute (le_val key) DES_PC1) DES_LS.

(** des.rs:95-99, [sbox_idx]. *)
Definition sbox_idx (t : Z) : Z :=
  let m := Z.land t 1 + Z.land (Z.shiftr t 4) 2 in
  let n := Z.land (Z.shiftr t 1) 15 in
  Z.shiftl m 4 + n.

(** des.rs:102-123, [f_sbox]. *)
Definition f_sbox (t : Z) : Z :=
  let e i := nth i (le_bytes 8 t) 0 in
  let b1 := Z.shiftr (e 0%nat) 2 in
  let b2 := shl8 (Z.land (e 0%nat) 3) 4 + Z.shiftr (e 1%nat) 4 in
  let b3 := shl8 (Z.land (e 1%nat) 15) 2 + Z.shiftr (e 2%nat) 6 in
  let b4 := Z.land (e 2%nat) 63 in
  let b5 := Z.shiftr (e 3%nat) 2 in
  let b6 := shl8 (Z.land (e 3%nat) 3) 4 + Z.shiftr (e 4%nat) 4 in
  let b7 := shl8 (Z.land (e 4%nat) 15) 2 + Z.shiftr (e 5%nat) 6 in
  let b8 := Z.land (e 5%nat) 63 in
  let S i b := tbl (nth i DES_S []) (sbox_idx b) in
  let o := Z.shiftl (S 0%nat b1) 4 + S 1%nat b2 in
  let o := Z.lor o (Z.shiftl (Z.shiftl (S 2%nat b3) 4 + S 3%nat b4) 8) in
  let o := Z.lor o (Z.shiftl (Z.shiftl (S 4%nat b5) 4 + S 5%nat b6) 16) in
  Z.lor o (Z.shiftl (Z.shiftl (S 6%nat b7) 4 + S 7%nat b8) 24).

(** des.rs:82-92, [feistel] and [f_expand]. *)
Definition feistel (r k : Z) : Z :=
  permute (f_sbox (Z.lxor (permute r DES_E) k)) DES_P.

(** des.rs:59-79, [crypt_block]; [ks] is the list of round keys in the order used
    ([self.ks[i]] when encrypting, [self.ks[15 - i]] when decrypting). *)
Definition des_round (lr : Z * Z) (k : Z) : Z * Z :=
  let '(l, r) := lr in (r, Z.lxor l (feistel r k)).
Definition des_crypt_block (ks : list Z) (is_encrypt : bool) (src : list Z) : list Z :=
  let data := permute (le_val src) DES_IP in
  let key i := if is_encrypt then nth i ks 0 else nth (15 - i) ks 0 in
  let '(l, r) := fold_left (fun lr i => des_round lr (key i)) (seq 0 16)
                   (Z.land data (2 ^ 32 - 1), Z.shiftr data 32) in
  let pre_output := Z.lor (Z.shiftl l 32 mod 2 ^ 64) r in
  le_bytes 8 (permute pre_output DES_IIP).

(** des.rs:177-201, [encrypt]/[decrypt], and 173-175 [block_size]. *)
Definition des_encrypt (ks : list Z) (b : list Z) : res (list Z) :=
  if (length b =? 8)%nat then Ok (des_crypt_block ks true b) else Err InvalidParameter.
Definition des_decrypt (ks : list Z) (b : list Z) : res (list Z) :=
  if (length b =? 8)%nat then Ok (des_crypt_block ks false b) else Err InvalidParameter.
Definition des_cipher (ks : list Z) : cipher := mkCipher (Some 8%nat) (des_encrypt ks) (des_decrypt ks).

(** des.rs:16-20, [DES::new] on an 8-byte array. *)
Definition des_new (key : list Z) : cipher := des_cipher (key_schedule key).

(** tdes.rs:58-71: the three single-DES calls; the intermediate vector is the private [buf]. *)
Definition tdes_encrypt (d1 d2 d3 : cipher) (b : list Z) : res (list Z) :=
  rbind (enc d1 b) (fun x => rbind (dec d2 x) (fun y => enc d3 y)).
Definition tdes_decrypt (d1 d2 d3 : cipher) (b : list Z) : res (list Z) :=
  rbind (dec d3 b) (fun x => rbind (enc d2 x) (fun y => dec d1 y)).
(** tdes.rs:34-41 and 54-56. *)
Definition tdes_new (k1 k2 k3 : list Z) : cipher :=
  let d1 := des_new k1 in let d2 := des_new k2 in let d3 := des_new k3 in
  mkCipher (blk d1) (tdes_encrypt d1 d2 d3) (tdes_decrypt d1 d2 d3).

(** Known answers of des.rs:212-226 and tdes.rs:81-90. *)
Example des_kat1 : enc (des_new (repeat 0 8)) (repeat 0 8) = Ok [0x8c; 0xa6; 0x4d; 0xe9; 0xc1; 0xb1; 0x23; 0xa7].
Proof. vm_compute. reflexivity. Qed.
Example des_kat2 : enc (des_new (repeat 0 8)) [0x01; 0x23; 0x45; 0x67; 0x89; 0xab; 0xcd; 0xef]
  = Ok [0x61; 0x7b; 0x3a; 0x0c; 0xe8; 0xf0; 0x71; 0x00].
Proof. vm_compute. reflexivity. Qed.
Example tdes_kat : enc (tdes_new (be_bytes 8 0x0123456789ABCDEF) (be_bytes 8 0x23456789ABCDEF01) (be_bytes 8 0x456789ABCDEF0123))
  (be_bytes 8 0x6BC1BEE22E409F96) = Ok (be_bytes 8 0x714772F339841D34).
Proof. vm_compute. reflexivity. Qed.
