(** Model of src/zuc: zuc_core.rs, zuc_cipher.rs, zuc_mac.rs and zuc_const_tables.rs. *)
From Verif Require Import Base Words HashModel.

(** ** Tables (zuc_const_tables.rs: KD, S_0 and S_1, copied by script) *)
Definition KD : list Z :=
  [0x44D7; 0x26BC; 0x626B; 0x135E; 0x5789; 0x35E2; 0x7135; 0x09AF;
   0x4D78; 0x2F13; 0x6BC4; 0x1AF1; 0x5E26; 0x3C4D; 0x789A; 0x47AC].
Definition S_0 : list Z :=
  [0x3e; 0x72; 0x5b; 0x47; 0xca; 0xe0; 0x00; 0x33; 0x04; 0xd1; 0x54; 0x98; 0x09; 0xb9; 0x6d; 0xcb;
   0x7b; 0x1b; 0xf9; 0x32; 0xaf; 0x9d; 0x6a; 0xa5; 0xb8; 0x2d; 0xfc; 0x1d; 0x08; 0x53; 0x03; 0x90;
   0x4d; 0x4e; 0x84; 0x99; 0xe4; 0xce; 0xd9; 0x91; 0xdd; 0xb6; 0x85; 0x48; 0x8b; 0x29; 0x6e; 0xac;
   0xcd; 0xc1; 0xf8; 0x1e; 0x73; 0x43; 0x69; 0xc6; 0xb5; 0xbd; 0xfd; 0x39; 0x63; 0x20; 0xd4; 0x38;
   0x76; 0x7d; 0xb2; 0xa7; 0xcf; 0xed; 0x57; 0xc5; 0xf3; 0x2c; 0xbb; 0x14; 0x21; 0x06; 0x55; 0x9b;
   0xe3; 0xef; 0x5e; 0x31; 0x4f; 0x7f; 0x5a; 0xa4; 0x0d; 0x82; 0x51; 0x49; 0x5f; 0xba; 0x58; 0x1c;
   0x4a; 0x16; 0xd5; 0x17; 0xa8; 0x92; 0x24; 0x1f; 0x8c; 0xff; 0xd8; 0xae; 0x2e; 0x01; 0xd3; 0xad;
   0x3b; 0x4b; 0xda; 0x46; 0xeb; 0xc9; 0xde; 0x9a; 0x8f; 0x87; 0xd7; 0x3a; 0x80; 0x6f; 0x2f; 0xc8;
   0xb1; 0xb4; 0x37; 0xf7; 0x0a; 0x22; 0x13; 0x28; 0x7c; 0xcc; 0x3c; 0x89; 0xc7; 0xc3; 0x96; 0x56;
   0x07; 0xbf; 0x7e; 0xf0; 0x0b; 0x2b; 0x97; 0x52; 0x35; 0x41; 0x79; 0x61; 0xa6; 0x4c; 0x10; 0xfe;
   0xbc; 0x26; 0x95; 0x88; 0x8a; 0xb0; 0xa3; 0xfb; 0xc0; 0x18; 0x94; 0xf2; 0xe1; 0xe5; 0xe9; 0x5d;
   0xd0; 0xdc; 0x11; 0x66; 0x64; 0x5c; 0xec; 0x59; 0x42; 0x75; 0x12; 0xf5; 0x74; 0x9c; 0xaa; 0x23;
   0x0e; 0x86; 0xab; 0xbe; 0x2a; 0x02; 0xe7; 0x67; 0xe6; 0x44; 0xa2; 0x6c; 0xc2; 0x93; 0x9f; 0xf1;
   0xf6; 0xfa; 0x36; 0xd2; 0x50; 0x68; 0x9e; 0x62; 0x71; 0x15; 0x3d; 0xd6; 0x40; 0xc4; 0xe2; 0x0f;
   0x8e; 0x83; 0x77; 0x6b; 0x25; 0x05; 0x3f; 0x0c; 0x30; 0xea; 0x70; 0xb7; 0xa1; 0xe8; 0xa9; 0x65;
   0x8d; 0x27; 0x1a; 0xdb; 0x81; 0xb3; 0xa0; 0xf4; 0x45; 0x7a; 0x19; 0xdf; 0xee; 0x78; 0x34; 0x60].
Definition S_1 : list Z :=
  [0x55; 0xc2; 0x63; 0x71; 0x3b; 0xc8; 0x47; 0x86; 0x9f; 0x3c; 0xda; 0x5b; 0x29; 0xaa; 0xfd; 0x77;
   0x8c; 0xc5; 0x94; 0x0c; 0xa6; 0x1a; 0x13; 0x00; 0xe3; 0xa8; 0x16; 0x72; 0x40; 0xf9; 0xf8; 0x42;
   0x44; 0x26; 0x68; 0x96; 0x81; 0xd9; 0x45; 0x3e; 0x10; 0x76; 0xc6; 0xa7; 0x8b; 0x39; 0x43; 0xe1;
   0x3a; 0xb5; 0x56; 0x2a; 0xc0; 0x6d; 0xb3; 0x05; 0x22; 0x66; 0xbf; 0xdc; 0x0b; 0xfa; 0x62; 0x48;
   0xdd; 0x20; 0x11; 0x06; 0x36; 0xc9; 0xc1; 0xcf; 0xf6; 0x27; 0x52; 0xbb; 0x69; 0xf5; 0xd4; 0x87;
   0x7f; 0x84; 0x4c; 0xd2; 0x9c; 0x57; 0xa4; 0xbc; 0x4f; 0x9a; 0xdf; 0xfe; 0xd6; 0x8d; 0x7a; 0xeb;
   0x2b; 0x53; 0xd8; 0x5c; 0xa1; 0x14; 0x17; 0xfb; 0x23; 0xd5; 0x7d; 0x30; 0x67; 0x73; 0x08; 0x09;
   0xee; 0xb7; 0x70; 0x3f; 0x61; 0xb2; 0x19; 0x8e; 0x4e; 0xe5; 0x4b; 0x93; 0x8f; 0x5d; 0xdb; 0xa9;
   0xad; 0xf1; 0xae; 0x2e; 0xcb; 0x0d; 0xfc; 0xf4; 0x2d; 0x46; 0x6e; 0x1d; 0x97; 0xe8; 0xd1; 0xe9;
   0x4d; 0x37; 0xa5; 0x75; 0x5e; 0x83; 0x9e; 0xab; 0x82; 0x9d; 0xb9; 0x1c; 0xe0; 0xcd; 0x49; 0x89;
   0x01; 0xb6; 0xbd; 0x58; 0x24; 0xa2; 0x5f; 0x38; 0x78; 0x99; 0x15; 0x90; 0x50; 0xb8; 0x95; 0xe4;
   0xd0; 0x91; 0xc7; 0xce; 0xed; 0x0f; 0xb4; 0x6f; 0xa0; 0xcc; 0xf0; 0x02; 0x4a; 0x79; 0xc3; 0xde;
   0xa3; 0xef; 0xea; 0x51; 0xe6; 0x6b; 0x18; 0xec; 0x1b; 0x2c; 0x80; 0xf7; 0x74; 0xe7; 0xff; 0x21;
   0x5a; 0x6a; 0x54; 0x1e; 0x41; 0x31; 0x92; 0x35; 0xc4; 0x33; 0x07; 0x0a; 0xba; 0x7e; 0x0e; 0x34;
   0x88; 0xb1; 0x98; 0x7c; 0xf3; 0x3d; 0x60; 0x6c; 0x7b; 0xca; 0xd3; 0x1f; 0x32; 0x65; 0x04; 0x28;
   0x64; 0xbe; 0x85; 0x9b; 0x2f; 0x59; 0x8a; 0xd7; 0xb0; 0x25; 0xac; 0xaf; 0x12; 0x03; 0xe2; 0xf2].

(** ** The generator (zuc_core.rs)
    zuc_core.rs:9-14, [ZUC]: seventeen cells (the last one is a buffer) and the two registers of F. *)
Record zuc := mkZuc { z_lfsr : list Z; z_r1 : Z; z_r2 : Z }.
(** zuc_core.rs:4, [LFSR_MASK]. *)
Definition LFSR_MASK : Z := 0x7fffffff.
(** [x << k] of a [u32]. *)
Definition shl32 (x k : Z) : Z := (Z.shiftl x k) mod M32.

(** zuc_core.rs:19-23, [generate_lfs4]: the zip stops after sixteen cells, cell 16 keeps its value. *)
Fixpoint lfs4_cells (kd key iv : list Z) : list Z :=
  match kd, key, iv with
  | d :: kd, k :: key, v :: iv => Z.lor (Z.lor (shl32 k 23) (shl32 (Z.land d 0x7fff) 8)) v :: lfs4_cells kd key iv
  | _, _, _ => []
  end.
Definition generate_lfs4 (lfsr key iv : list Z) : list Z :=
  let c := lfs4_cells KD key iv in c ++ skipn (length c) lfsr.
(** zuc_core.rs:26-36, [key_schedule]. *)
Definition key_schedule (key iv : list Z) : zuc := mkZuc (generate_lfs4 (repeat 0 17) key iv) 0 0.
(** zuc_core.rs:39-41, [rhl31]. *)
Definition rhl31 (a k : Z) : Z := Z.land (Z.lor (shl32 a k) (Z.shiftr a (31 - k))) LFSR_MASK.
(** zuc_core.rs:46-49, [add_mod31]; the outer [+] cannot overflow (at most 2^31). *)
Definition add_mod31 (a b : Z) : Z :=
  let x := add32 a b in Z.land x LFSR_MASK + Z.shiftr x 31.
(** zuc_core.rs:66-68 and 85-87: [for i in 0..16 { lfsr[i] = lfsr[i+1] }]. *)
Definition shift_cells (l : list Z) : list Z := fold_left (fun l i => upd l i (nth (i + 1) l 0)) (seq 0 16) l.
(** zuc_core.rs:54-58 and 74-78. *)
Definition feedback (l : list Z) : Z :=
  let v := add_mod31 (rhl31 (nth 0 l 0) 8) (nth 0 l 0) in
  let v := add_mod31 (rhl31 (nth 4 l 0) 20) v in
  let v := add_mod31 (rhl31 (nth 10 l 0) 21) v in
  let v := add_mod31 (rhl31 (nth 13 l 0) 17) v in
  add_mod31 (rhl31 (nth 15 l 0) 15) v.
(** zuc_core.rs:51-69, [lfsr_with_initial_mode]. *)
Definition lfsr_with_initial_mode (u : Z) (z : zuc) : zuc :=
  let s16 := add_mod31 u (feedback (z_lfsr z)) in
  mkZuc (shift_cells (upd (z_lfsr z) 16 (if s16 =? 0 then LFSR_MASK else s16))) (z_r1 z) (z_r2 z).
(** zuc_core.rs:71-88, [lfsr_with_work_mode]. *)
Definition lfsr_with_work_mode (z : zuc) : zuc :=
  let v := feedback (z_lfsr z) in
  mkZuc (shift_cells (upd (z_lfsr z) 16 (if v =? 0 then LFSR_MASK else v))) (z_r1 z) (z_r2 z).
(** zuc_core.rs:114-121, [l1] and [l2]. *)
Definition zl1 (x : Z) : Z :=
  Z.lxor (Z.lxor (Z.lxor (Z.lxor x (rotl32 x 2)) (rotl32 x 10)) (rotl32 x 18)) (rotl32 x 24).
Definition zl2 (x : Z) : Z :=
  Z.lxor (Z.lxor (Z.lxor (Z.lxor x (rotl32 x 8)) (rotl32 x 14)) (rotl32 x 22)) (rotl32 x 30).
(** zuc_core.rs:124-130, [sbox]. *)
Definition zsbox (x : Z) : Z :=
  let idx := be_bytes 4 x in
  be_val [tbl S_0 (nth 0 idx 0); tbl S_1 (nth 1 idx 0); tbl S_0 (nth 2 idx 0); tbl S_1 (nth 3 idx 0)].
(** zuc_core.rs:90-98, [non_linear_f]: the new state and the result. *)
Definition non_linear_f (z : zuc) (x0 x1 x2 : Z) : zuc * Z :=
  let w := add32 (Z.lxor x0 (z_r1 z)) (z_r2 z) in
  let w1 := add32 (z_r1 z) x1 in
  let w2 := Z.lxor (z_r2 z) x2 in
  (mkZuc (z_lfsr z) (zsbox (zl1 (Z.lor (shl32 w1 16) (Z.shiftr w2 16))))
                    (zsbox (zl2 (Z.lor (shl32 w2 16) (Z.shiftr w1 16)))), w).
(** zuc_core.rs:102-111, [bit_reconstruction]. *)
Definition bit_x0 (l : list Z) : Z := Z.lor (shl32 (Z.land (nth 15 l 0) 0x7fff8000) 1) (Z.land (nth 14 l 0) 0xffff).
Definition bit_x1 (l : list Z) : Z := Z.lor (Z.shiftr (nth 9 l 0) 15) (shl32 (nth 11 l 0) 16).
Definition bit_x2 (l : list Z) : Z := Z.lor (Z.shiftr (nth 5 l 0) 15) (shl32 (nth 7 l 0) 16).
Definition bit_x3 (l : list Z) : Z := Z.lor (Z.shiftr (nth 0 l 0) 15) (shl32 (nth 2 l 0) 16).
(** zuc_core.rs:135-139, one initialisation round. *)
Definition init_round (z : zuc) : zuc :=
  let l := z_lfsr z in
  let '(z, w) := non_linear_f z (bit_x0 l) (bit_x1 l) (bit_x2 l) in
  lfsr_with_initial_mode (Z.shiftr w 1) z.
(** zuc_core.rs:132-144, [init_and_first_step]. *)
Definition init_and_first_step (z : zuc) : zuc :=
  let z := Nat.iter 32 init_round z in
  let l := z_lfsr z in
  lfsr_with_work_mode (fst (non_linear_f z (bit_x0 l) (bit_x1 l) (bit_x2 l))).
(** zuc_core.rs:150-163, [set_slice]; [set] (146-148) unwraps it. *)
Definition zuc_set_slice (z : zuc) (key iv : list Z) : res zuc :=
  if (negb (length key =? 16)%nat || negb (length iv =? 16)%nat)%bool then Err InvalidParameter
  else Ok (init_and_first_step (mkZuc (generate_lfs4 (z_lfsr z) key iv) 0 0)).
(** zuc_core.rs:169-180, [from_slice]; [new] (165-167) unwraps it. *)
Definition zuc_from_slice (key iv : list Z) : res zuc :=
  if (negb (length key =? 16)%nat || negb (length iv =? 16)%nat)%bool then Err InvalidParameter
  else Ok (init_and_first_step (key_schedule key iv)).
(** zuc_core.rs:182-187, [zuc]; also [Iterator::next], 190-196. *)
Definition zuc_next (z : zuc) : zuc * Z :=
  let l := z_lfsr z in
  let '(z, w) := non_linear_f z (bit_x0 l) (bit_x1 l) (bit_x2 l) in
  (lfsr_with_work_mode z, Z.lxor w (bit_x3 l)).
(** [zuc.take(n)], collected. *)
Fixpoint zuc_take (n : nat) (z : zuc) : zuc * list Z :=
  match n with
  | O => (z, [])
  | S n => let '(z, w) := zuc_next z in let '(z, ws) := zuc_take n z in (z, w :: ws)
  end.

(** ** ZUCCipher (zuc_cipher.rs:8-13; the [Cell]s are ordinary fields of the state) *)
Record zcipher := mkZc { zc_zuc : zuc; zc_ck : list Z; zc_iv : list Z; zc_key : list Z }.
Definition bool8 (b : bool) : Z := if b then 1 else 0.
(** [x << k] of a [u8]. *)
Definition shl8 (x k : Z) : Z := (Z.shiftl x k) mod 256.
(** zuc_cipher.rs:38-44: the assignments to the zeroed [iv], in order. *)
Definition zc_iv_of (count bearer : Z) (direction : bool) : list Z :=
  let iv := repeat 0 16 in
  let tmp := be_bytes 4 count in
  let iv := upd (upd (upd (upd iv 0 (nth 0 tmp 0)) 1 (nth 1 tmp 0)) 2 (nth 2 tmp 0)) 3 (nth 3 tmp 0) in
  let iv := upd iv 4 (Z.lor (shl8 bearer 3) (shl8 (bool8 direction) 2)) in
  fold_left (fun iv i => upd iv (i + 8) (nth i iv 0)) (seq 0 5) iv.
(** zuc_cipher.rs:33-62, [from_slice]; [new] (28-30) unwraps it. *)
Definition zc_from_slice (count bearer : Z) (direction : bool) (ck : list Z) : res zcipher :=
  if negb (length ck =? 16)%nat then Err InvalidParameter
  else let iv := zc_iv_of count bearer direction in
       rbind (zuc_from_slice ck iv) (fun z => Ok (mkZc z ck iv [])).
(** zuc_cipher.rs:65-68, [reset]: the [unwrap] panics on an error. *)
Definition zc_reset (c : zcipher) : res zcipher :=
  match zuc_set_slice (zc_zuc c) (zc_ck c) (zc_iv c) with
  | Ok z => Ok (mkZc z (zc_ck c) (zc_iv c) [])
  | _ => Panic
  end.
(** zuc_cipher.rs:113-117: [k ^ itr.next().unwrap()] for every byte [k]; [None] when the iterator is exhausted. *)
Fixpoint xor_all (ks data : list Z) : option (list Z * list Z) :=
  match ks, data with
  | [], _ => Some ([], data)
  | k :: ks, d :: data =>
      match xor_all ks data with Some (o, r) => Some (Z.lxor k d :: o, r) | None => None end
  | _ :: _, [] => None
  end.
(** zuc_cipher.rs:120-125: bytes pushed to [dst] and bytes pushed to [key]. *)
Fixpoint xor_last (ks data : list Z) : list Z * list Z :=
  match ks, data with
  | [], _ => ([], [])
  | k :: ks, d :: data => let '(o, r) := xor_last ks data in (Z.lxor k d :: o, r)
  | k :: ks, [] => let '(o, r) := xor_last ks [] in (o, k :: r)
  end.
(** zuc_cipher.rs:91-128, [encrypt]; [decrypt] (130-132) is the same function.  The result is the new object, the
    contents of [dst] and the returned length. *)
Definition zc_encrypt (c : zcipher) (data : list Z) : res (zcipher * list Z * Z) :=
  let len := Nat.min (length (zc_key c)) (length data) in
  let dst := xorl (zc_key c) data in
  let data := skipn len data in
  let key := skipn len (zc_key c) in
  match data with
  | [] => Ok (mkZc (zc_zuc c) (zc_ck c) (zc_iv c) key, dst, 0)
  | _ =>
      let n := ((length data + 3) / 4)%nat in
      let '(z, ws) := zuc_take (n - 1) (zc_zuc c) in
      match xor_all (flat_map (be_bytes 4) ws) data with
      | None => Panic
      | Some (o, data) =>
          let '(z, w) := zuc_next z in
          let '(o', key') := xor_last (be_bytes 4 w) data in
          let dst := dst ++ o ++ o' in
          Ok (mkZc z (zc_ck c) (zc_iv c) (key ++ key'), dst, Z.of_nat (length dst))
      end
  end.

(** ** ZUCMac (zuc_mac.rs:5-14) *)
Record zmac := mkZm { zm_zuc : zuc; zm_ck : list Z; zm_iv : list Z; zm_key0 : Z; zm_key1 : Z;
                      zm_length : Z; zm_t : Z; zm_is_check : bool }.
(** zuc_mac.rs:28-38. *)
Definition zm_iv_of (count bearer : Z) (direction : bool) : list Z :=
  let iv := repeat 0 16 in
  let tmp := be_bytes 4 count in
  let iv := upd (upd (upd (upd iv 0 (nth 0 tmp 0)) 1 (nth 1 tmp 0)) 2 (nth 2 tmp 0)) 3 (nth 3 tmp 0) in
  let iv := upd iv 4 (shl8 bearer 3) in
  let iv := upd iv 8 (Z.lxor (nth 0 iv 0) (shl8 (bool8 direction) 7)) in
  let iv := upd iv 9 (nth 1 iv 0) in
  let iv := fold_left (fun iv i => upd iv (i + 8) (nth i iv 0)) (seq 2 4) iv in
  let iv := upd iv 14 (Z.lxor (nth 6 iv 0) (shl8 (bool8 direction) 7)) in
  upd iv 15 (nth 7 iv 0).
(** zuc_mac.rs:23-60, [from_slice]; [new] (18-20) unwraps it. *)
Definition zm_from_slice (count bearer : Z) (direction : bool) (ck : list Z) : res zmac :=
  if negb (length ck =? 16)%nat then Err InvalidParameter
  else let iv := zm_iv_of count bearer direction in
       rbind (zuc_from_slice ck iv) (fun z => Ok (mkZm z ck iv 0 0 0 0 false)).
(** zuc_mac.rs:122-128, [reset]; the [unwrap] cannot fail because [ck] and [iv] are arrays of 16 bytes, and the model
    keeps the generator in that case. *)
Definition zm_reset (m : zmac) : zmac :=
  mkZm (match zuc_set_slice (zm_zuc m) (zm_ck m) (zm_iv m) with Ok z => z | _ => zm_zuc m end)
       (zm_ck m) (zm_iv m) 0 0 0 0 (zm_is_check m).
(** zuc_mac.rs:62-66, [is_one]. *)
Definition is_one (data : list Z) (idx : nat) : bool :=
  0 <? Z.land (nth (idx / 8) data 0) (shl8 1 (7 - Z.of_nat (idx mod 8))).
(** zuc_mac.rs:93 and 112: [(key0 << rem) | (key1 >> (32 - rem))], used with [0 < rem]. *)
Definition straddle (k0 k1 rem : Z) : Z := Z.lor (shl32 k0 rem) (Z.shiftr k1 (32 - rem)).
(** zuc_mac.rs:87-101, one turn of the loop over the bits, on (zuc, key0, key1, t). *)
Definition mac_bit (data : list Z) (s : zuc * Z * Z * Z) (i : nat) : zuc * Z * Z * Z :=
  let '(z, k0, k1, t) := s in
  let rem := (i mod 32)%nat in
  let t := if is_one data i
           then (if (rem =? 0)%nat then Z.lxor t k0 else Z.lxor t (straddle k0 k1 (Z.of_nat rem)))
           else t in
  if (rem =? 31)%nat then let '(z, w) := zuc_next z in (z, k1, w, t) else (z, k0, k1, t).
(** zuc_mac.rs:78-103, [write].  [length] is taken to fit in a [usize]. *)
Definition zm_write (m : zmac) (data : list Z) : zmac :=
  let m := if zm_is_check m then zm_reset m else m in
  let bound := (8 * length data)%nat in
  let '(z, k0) := zuc_next (zm_zuc m) in
  let '(z, k1) := zuc_next z in
  let '(z, k0, k1, t) := fold_left (mac_bit data) (seq 0 bound) (z, k0, k1, zm_t m) in
  mkZm z (zm_ck m) (zm_iv m) k0 k1 (zm_length m + Z.of_nat bound) t (zm_is_check m).
(** zuc_mac.rs:105-120, [checksum]: [is_check] is tested but never set. *)
Definition zm_checksum (m : zmac) : zmac * list Z :=
  let '(z, t) :=
    if zm_is_check m then (zm_zuc m, zm_t m)
    else let rem := zm_length m mod 32 in
         if rem =? 0 then (zm_zuc m, Z.lxor (Z.lxor (zm_t m) (zm_key0 m)) (zm_key1 m))
         else let t := Z.lxor (zm_t m) (straddle (zm_key0 m) (zm_key1 m) rem) in
              let '(z, w) := zuc_next (zm_zuc m) in (z, Z.lxor t w) in
  (mkZm z (zm_ck m) (zm_iv m) (zm_key0 m) (zm_key1 m) (zm_length m) t (zm_is_check m), be_bytes 4 t).
