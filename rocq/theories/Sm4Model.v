(** Model of src/sm4/sm4.rs and src/sm4/sm4_const_tables.rs. *)
From Verif Require Import Base Words ModesModel.

(** sm4_const_tables.rs:3-36 *)
Definition SM4_SBOX : list Z := [
  214; 144; 233; 254; 204; 225; 61; 183;
  22; 182; 20; 194; 40; 251; 44; 5;
  43; 103; 154; 118; 42; 190; 4; 195;
  170; 68; 19; 38; 73; 134; 6; 153;
  156; 66; 80; 244; 145; 239; 152; 122;
  51; 84; 11; 67; 237; 207; 172; 98;
  228; 179; 28; 169; 201; 8; 232; 149;
  128; 223; 148; 250; 117; 143; 63; 166;
  71; 7; 167; 252; 243; 115; 23; 186;
  131; 89; 60; 25; 230; 133; 79; 168;
  104; 107; 129; 178; 113; 100; 218; 139;
  248; 235; 15; 75; 112; 86; 157; 53;
  30; 36; 14; 94; 99; 88; 209; 162;
  37; 34; 124; 59; 1; 33; 120; 135;
  212; 0; 70; 87; 159; 211; 39; 82;
  76; 54; 2; 231; 160; 196; 200; 158;
  234; 191; 138; 210; 64; 199; 56; 181;
  163; 247; 242; 206; 249; 97; 21; 161;
  224; 174; 93; 164; 155; 52; 26; 85;
  173; 147; 50; 48; 245; 140; 177; 227;
  29; 246; 226; 46; 130; 102; 202; 96;
  192; 41; 35; 171; 13; 83; 78; 111;
  213; 219; 55; 69; 222; 253; 142; 47;
  3; 255; 106; 114; 109; 108; 91; 81;
  141; 27; 175; 146; 187; 221; 188; 127;
  17; 217; 92; 65; 31; 16; 90; 216;
  10; 193; 49; 136; 165; 205; 123; 189;
  45; 116; 208; 18; 184; 229; 180; 176;
  137; 105; 151; 74; 12; 150; 119; 126;
  101; 185; 241; 9; 197; 110; 198; 132;
  24; 240; 125; 236; 58; 220; 77; 32;
  121; 238; 95; 62; 215; 203; 57; 72
].
(** sm4_const_tables.rs:38-40 *)
Definition SM4_FK : list Z := [
  2746333894; 1453994832; 1736282519; 2993693404
].
(** sm4_const_tables.rs:42-51 *)
Definition SM4_CK : list Z := [
  462357; 472066609; 943670861; 1415275113; 1886879365; 2358483617; 2830087869; 3301692121;
  3773296373; 4228057617; 404694573; 876298825; 1347903077; 1819507329; 2291111581; 2762715833;
  3234320085; 3705924337; 4177462797; 337322537; 808926789; 1280531041; 1752135293; 2223739545;
  2695343797; 3166948049; 3638552301; 4110090761; 269950501; 741554753; 1213159005; 1684763257
].

(** sm4.rs:20-25. *)
Definition f_tau (x : Z) : Z := be_val (map (tbl SM4_SBOX) (be_bytes 4 x)).
(** sm4.rs:27-30. *)
Definition f_l (x : Z) : Z :=
  Z.lxor (Z.lxor (Z.lxor (Z.lxor x (rotl32 x 2)) (rotl32 x 10)) (rotl32 x 18)) (rotl32 x 24).
(** sm4.rs:32-35. *)
Definition round_f (x0 x1 x2 x3 rk : Z) : Z :=
  Z.lxor x0 (f_l (f_tau (Z.lxor (Z.lxor (Z.lxor x1 x2) x3) rk))).
(** sm4.rs:37-40. *)
Definition f_lb (x : Z) : Z := Z.lxor (Z.lxor x (rotl32 x 13)) (rotl32 x 23).

(** sm4.rs:49-52, the loop of [key_schedule]: the array [k] is filled in order,
    here by appending ([length k = i + 4] at iteration [i]). *)
Fixpoint sm4_ks_loop (cnt i : nat) (k rk : list Z) : list Z :=
  match cnt with
  | O => rk
  | S c =>
      let v := Z.lxor (nth i k 0)
        (f_lb (f_tau (Z.lxor (Z.lxor (Z.lxor (nth (i + 1) k 0) (nth (i + 2) k 0)) (nth (i + 3) k 0)) (nth i SM4_CK 0)))) in
      sm4_ks_loop c (S i) (k ++ [v]) (rk ++ [v])
  end.
(** sm4.rs:42-57, [key_schedule]. *)
Definition sm4_key_schedule (mk : list Z) : list Z :=
  sm4_ks_loop 32 0 (xorl mk SM4_FK) [].

(** sm4.rs:59-62 and 68-73: four bytes to a word; the shifted bytes occupy
    disjoint bits, so [|] is the big-endian value. *)
Definition sm4_words (b : list Z) : list Z :=
  map (fun i => be_val (firstn 4 (skipn (4 * i) b))) (seq 0 4).

(** sm4.rs:64-77, [from_slice] (and [new], 79-81, for a 16-byte key). *)
Definition sm4_from_slice (key : list Z) : res (list Z) :=
  if negb (length key =? 16)%nat then Err InvalidParameter
  else Ok (sm4_key_schedule (sm4_words key)).

(** sm4.rs:101-103, the round loop of [ed_inner]. *)
Fixpoint sm4_loop (rk : nat -> Z) (cnt i : nat) (x : list Z) : list Z :=
  match cnt with
  | O => x
  | S c => sm4_loop rk c (S i)
             (x ++ [round_f (nth i x 0) (nth (i + 1) x 0) (nth (i + 2) x 0) (nth (i + 3) x 0) (rk i)])
  end.
(** sm4.rs:95-107: x[35], x[34], x[33], x[32] are written out big-endian. *)
Definition sm4_block (rk : nat -> Z) (b : list Z) : list Z :=
  let x := sm4_loop rk 32 0 (sm4_words b) in
  flat_map (fun i => be_bytes 4 (nth i x 0)) [35; 34; 33; 32]%nat.
(** sm4.rs:89-110 and 113-126: [dst] is only cleared once the length check passed. *)
Definition sm4_encrypt (rk : list Z) (b : list Z) : res (list Z) :=
  if negb (length b =? 16)%nat then Err InvalidParameter
  else Ok (sm4_block (fun i => nth i rk 0) b).
Definition sm4_decrypt (rk : list Z) (b : list Z) : res (list Z) :=
  if negb (length b =? 16)%nat then Err InvalidParameter
  else Ok (sm4_block (fun i => nth (31 - i) rk 0) b).
Definition sm4_cipher (rk : list Z) : cipher := mkCipher (Some 16%nat) (sm4_encrypt rk) (sm4_decrypt rk).
