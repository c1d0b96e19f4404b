(** Specifications of the hash functions: RFC 1321 (MD5), FIPS 180-4 (SHA-1, SHA-2), GB/T 32905-2016 (SM3). *)
From Verif Require Import Base Words.

(** ** Padding (RFC 1321 3.1-3.2, FIPS 180-4 5.1, GB/T 32905 5.2)
    A message of [n] bytes gets a 1 bit (byte 0x80), [zeros] zero bytes -- the least number that makes the
    total, together with the length field of [lf] bytes, a multiple of the block length [B] -- and the bit
    length of the message. *)
Definition zeros (B lf n : nat) : nat := Z.to_nat ((Z.of_nat B - Z.of_nat lf - 1 - Z.of_nat n) mod Z.of_nat B).
Definition pad_with (B : nat) (lenfield : list Z) (m : list Z) : list Z :=
  m ++ [0x80] ++ repeat 0 (zeros B (length lenfield) (length m)) ++ lenfield.
Definition pad_be (B lf : nat) (m : list Z) : list Z := pad_with B (be_bytes lf (8 * Z.of_nat (length m))) m.
Definition pad_le (B lf : nat) (m : list Z) : list Z := pad_with B (le_bytes lf (8 * Z.of_nat (length m))) m.

(** Merkle-Damgard iteration over the blocks of the padded message. *)
Definition iterate (B : nat) (compress : list Z -> list Z -> list Z) (iv padded : list Z) : list Z :=
  fold_left compress (chunks B padded) iv.

(** ** Words of [w] bits *)
Definition ADD (w a b : Z) : Z := (a + b) mod 2 ^ w.
Definition NOT (w a : Z) : Z := 2 ^ w - 1 - a.
Definition SHR (n x : Z) : Z := x / 2 ^ n.
Definition ROTL (w n x : Z) : Z := (x * 2 ^ n) mod 2 ^ w + x / 2 ^ (w - n).
Definition ROTR (w n x : Z) : Z := ROTL w (w - n) x.
Definition XOR3 (a b c : Z) : Z := Z.lxor a (Z.lxor b c).
Definition Ch (w x y z : Z) : Z := Z.lxor (Z.land x y) (Z.land (NOT w x) z).
Definition Maj (x y z : Z) : Z := XOR3 (Z.land x y) (Z.land x z) (Z.land y z).

(** ** MD5 *)
(** T[i] = floor (2^32 |sin (i+1)|), RFC 1321 3.4. *)
Definition MD5_T : list Z :=
  [0xd76aa478; 0xe8c7b756; 0x242070db; 0xc1bdceee; 0xf57c0faf; 0x4787c62a; 0xa8304613; 0xfd469501;
   0x698098d8; 0x8b44f7af; 0xffff5bb1; 0x895cd7be; 0x6b901122; 0xfd987193; 0xa679438e; 0x49b40821;
   0xf61e2562; 0xc040b340; 0x265e5a51; 0xe9b6c7aa; 0xd62f105d; 0x2441453; 0xd8a1e681; 0xe7d3fbc8;
   0x21e1cde6; 0xc33707d6; 0xf4d50d87; 0x455a14ed; 0xa9e3e905; 0xfcefa3f8; 0x676f02d9; 0x8d2a4c8a;
   0xfffa3942; 0x8771f681; 0x6d9d6122; 0xfde5380c; 0xa4beea44; 0x4bdecfa9; 0xf6bb4b60; 0xbebfbc70;
   0x289b7ec6; 0xeaa127fa; 0xd4ef3085; 0x4881d05; 0xd9d4d039; 0xe6db99e5; 0x1fa27cf8; 0xc4ac5665;
   0xf4292244; 0x432aff97; 0xab9423a7; 0xfc93a039; 0x655b59c3; 0x8f0ccc92; 0xffeff47d; 0x85845dd1;
   0x6fa87e4f; 0xfe2ce6e0; 0xa3014314; 0x4e0811a1; 0xf7537e82; 0xbd3af235; 0x2ad7d2bb; 0xeb86d391].
Definition MD5_F (i : nat) (x y z : Z) : Z :=
  match (i / 16)%nat with
  | 0%nat => Z.lor (Z.land x y) (Z.land (NOT 32 x) z)
  | 1%nat => Z.lor (Z.land x z) (Z.land y (NOT 32 z))
  | 2%nat => XOR3 x y z
  | _ => Z.lxor y (Z.lor x (NOT 32 z))
  end.
(** Which message word step [i] uses, and how far it rotates. *)
Definition MD5_g (i : nat) : nat :=
  match (i / 16)%nat with
  | 0%nat => i
  | 1%nat => ((5 * i + 1) mod 16)%nat
  | 2%nat => ((3 * i + 5) mod 16)%nat
  | _ => ((7 * i) mod 16)%nat
  end.
Definition MD5_S (i : nat) : Z :=
  nth (i mod 4) (nth (i / 16) [[7; 12; 17; 22]; [5; 9; 14; 20]; [4; 11; 16; 23]; [6; 10; 15; 21]] []) 0.
Definition MD5_step (X : list Z) (st : Z * Z * Z * Z) (i : nat) : Z * Z * Z * Z :=
  let '(A, B, C, D) := st in
  let f := ADD 32 (ADD 32 (ADD 32 A (MD5_F i B C D)) (nth (MD5_g i) X 0)) (nth i MD5_T 0) in
  (D, ADD 32 B (ROTL 32 (MD5_S i) f), B, C).
Definition MD5_block (h blk : list Z) : list Z :=
  match h with
  | [A; B; C; D] =>
      let X := map le_val (chunks 4 blk) in
      let '(A', B', C', D') := fold_left (MD5_step X) (seq 0 64) (A, B, C, D) in
      [ADD 32 A A'; ADD 32 B B'; ADD 32 C C'; ADD 32 D D']
  | _ => []
  end.
Definition MD5_H0 : list Z := [0x67452301; 0xefcdab89; 0x98badcfe; 0x10325476].
Definition MD5_hash (m : list Z) : list Z :=
  flat_map (le_bytes 4) (iterate 64 MD5_block MD5_H0 (pad_le 64 8 m)).

(** ** SHA-1 *)
Definition SHA1_f (t : nat) (x y z : Z) : Z :=
  if (t <? 20)%nat then Ch 32 x y z else if (t <? 40)%nat then XOR3 x y z
  else if (t <? 60)%nat then Maj x y z else XOR3 x y z.
(** K_t = floor (2^30 sqrt n) for n = 2, 3, 5, 10. *)
Definition SHA1_Kt (t : nat) : Z := Z.sqrt (nth (t / 20) [2; 3; 5; 10] 0 * 2 ^ 60).
(** The message schedule as a list that grows by one word per step; [W] has [t] words already. *)
Definition SHA1_next (W : list Z) : Z :=
  let t := length W in
  ROTL 32 1 (Z.lxor (Z.lxor (nth (t - 3) W 0) (nth (t - 8) W 0)) (Z.lxor (nth (t - 14) W 0) (nth (t - 16) W 0))).
Fixpoint extend (next : list Z -> Z) (n : nat) (W : list Z) : list Z :=
  match n with O => W | S n => extend next n (W ++ [next W]) end.
Definition SHA1_step (W : list Z) (st : Z * Z * Z * Z * Z) (t : nat) : Z * Z * Z * Z * Z :=
  let '(a, b, c, d, e) := st in
  (ADD 32 (ADD 32 (ADD 32 (ADD 32 (ROTL 32 5 a) (SHA1_f t b c d)) e) (SHA1_Kt t)) (nth t W 0),
   a, ROTL 32 30 b, c, d).
Definition SHA1_block (H blk : list Z) : list Z :=
  match H with
  | [h0; h1; h2; h3; h4] =>
      let W := extend SHA1_next 64 (map be_val (chunks 4 blk)) in
      let '(a, b, c, d, e) := fold_left (SHA1_step W) (seq 0 80) (h0, h1, h2, h3, h4) in
      [ADD 32 a h0; ADD 32 b h1; ADD 32 c h2; ADD 32 d h3; ADD 32 e h4]
  | _ => []
  end.
Definition SHA1_H0 : list Z := [0x67452301; 0xefcdab89; 0x98badcfe; 0x10325476; 0xc3d2e1f0].
Definition SHA1_hash (m : list Z) : list Z :=
  flat_map (be_bytes 4) (iterate 64 SHA1_block SHA1_H0 (pad_be 64 8 m)).

(** ** SHA-2 *)
Definition is_prime (n : Z) : bool :=
  (2 <=? n) && forallb (fun d => negb (n mod Z.of_nat d =? 0)) (seq 2 (Z.to_nat n - 2)).
Definition primes : list Z := filter is_prime (map Z.of_nat (seq 2 410)).
(** Integer cube root: the greatest [c] with [c^3 <= n], built bit by bit. *)
Fixpoint icbrt (bits : nat) (c n : Z) : Z :=
  match bits with
  | O => c
  | S k => let c' := c + 2 ^ Z.of_nat k in icbrt k (if c' * c' * c' <=? n then c' else c) n
  end.
(** First [w] bits of the fractional part of the cube root / square root of [p]. *)
Definition cbrt_frac (w p : Z) : Z := icbrt (Z.to_nat (w + 8)) 0 (p * 2 ^ (3 * w)) mod 2 ^ w.
Definition sqrt_frac (w p : Z) : Z := Z.sqrt (p * 2 ^ (2 * w)) mod 2 ^ w.

Record sha2_params := { s2_w : Z; s2_rounds : nat;
  s2_S0 : Z * Z * Z; s2_S1 : Z * Z * Z; s2_s0 : Z * Z * Z; s2_s1 : Z * Z * Z }.
Definition BigSigma (w : Z) (r : Z * Z * Z) (x : Z) : Z :=
  let '(a, b, c) := r in XOR3 (ROTR w a x) (ROTR w b x) (ROTR w c x).
Definition SmallSigma (w : Z) (r : Z * Z * Z) (x : Z) : Z :=
  let '(a, b, c) := r in XOR3 (ROTR w a x) (ROTR w b x) (SHR c x).
Definition SHA2_K (P : sha2_params) : list Z := map (cbrt_frac (s2_w P)) (firstn (s2_rounds P) primes).
Definition SHA2_next (P : sha2_params) (W : list Z) : Z :=
  let t := length W in let w := s2_w P in
  ADD w (ADD w (ADD w (SmallSigma w (s2_s1 P) (nth (t - 2) W 0)) (nth (t - 7) W 0))
               (SmallSigma w (s2_s0 P) (nth (t - 15) W 0))) (nth (t - 16) W 0).
Definition SHA2_step (P : sha2_params) (K W : list Z) (st : Z * Z * Z * Z * Z * Z * Z * Z) (t : nat)
    : Z * Z * Z * Z * Z * Z * Z * Z :=
  let '(a, b, c, d, e, f, g, h) := st in let w := s2_w P in
  let T1 := ADD w (ADD w (ADD w (ADD w h (BigSigma w (s2_S1 P) e)) (Ch w e f g)) (nth t K 0)) (nth t W 0) in
  let T2 := ADD w (BigSigma w (s2_S0 P) a) (Maj a b c) in
  (ADD w T1 T2, a, b, c, ADD w d T1, e, f, g).
Definition SHA2_block (P : sha2_params) (H blk : list Z) : list Z :=
  match H with
  | [h0; h1; h2; h3; h4; h5; h6; h7] =>
      let w := s2_w P in
      let W := extend (SHA2_next P) (s2_rounds P - 16) (map be_val (chunks (Z.to_nat (w / 8)) blk)) in
      let '(a, b, c, d, e, f, g, h) := fold_left (SHA2_step P (SHA2_K P) W) (seq 0 (s2_rounds P)) (h0, h1, h2, h3, h4, h5, h6, h7) in
      [ADD w a h0; ADD w b h1; ADD w c h2; ADD w d h3; ADD w e h4; ADD w f h5; ADD w g h6; ADD w h h7]
  | _ => []
  end.
Definition P256 : sha2_params := {| s2_w := 32; s2_rounds := 64;
  s2_S0 := (2, 13, 22); s2_S1 := (6, 11, 25); s2_s0 := (7, 18, 3); s2_s1 := (17, 19, 10) |}.
Definition P512 : sha2_params := {| s2_w := 64; s2_rounds := 80;
  s2_S0 := (28, 34, 39); s2_S1 := (14, 18, 41); s2_s0 := (1, 8, 7); s2_s1 := (19, 61, 6) |}.
(** Initial values: square roots of the first eight primes (SHA-256, SHA-512), of the ninth to sixteenth
    (SHA-384), the second 32 bits of those (SHA-224). *)
Definition SHA256_H0 : list Z := map (sqrt_frac 32) (firstn 8 primes).
Definition SHA512_H0 : list Z := map (sqrt_frac 64) (firstn 8 primes).
Definition SHA384_H0 : list Z := map (sqrt_frac 64) (firstn 8 (skipn 8 primes)).
Definition SHA224_H0 : list Z := map (fun v => v mod 2 ^ 32) SHA384_H0.
Definition SHA2_32 (H0 : list Z) (m : list Z) : list Z :=
  flat_map (be_bytes 4) (iterate 64 (SHA2_block P256) H0 (pad_be 64 8 m)).
Definition SHA2_64 (H0 : list Z) (m : list Z) : list Z :=
  flat_map (be_bytes 8) (iterate 128 (SHA2_block P512) H0 (pad_be 128 16 m)).
Definition SHA256_hash (m : list Z) := SHA2_32 SHA256_H0 m.
Definition SHA224_hash (m : list Z) := firstn 28 (SHA2_32 SHA224_H0 m).
Definition SHA512_hash (m : list Z) := SHA2_64 SHA512_H0 m.
Definition SHA384_hash (m : list Z) := firstn 48 (SHA2_64 SHA384_H0 m).
(** SHA-512/t (FIPS 180-4 5.3.6 and 6.7) for t a multiple of 8: the initial value is the SHA-512 chaining
    value for the name under the modified initial value; the digest is the leftmost t bits. *)
Definition dec3 (t : nat) : list Z :=
  let ds := map (fun k => Z.of_nat (48 + (t / k) mod 10)) [100; 10; 1]%nat in
  if (t <? 10)%nat then skipn 2 ds else if (t <? 100)%nat then skipn 1 ds else ds.
Definition SHA512t_name (t : nat) : list Z := [83; 72; 65; 45; 53; 49; 50; 47] (* "SHA-512/" *) ++ dec3 t.
Definition SHA512t_H0 (t : nat) : list Z :=
  iterate 128 (SHA2_block P512) (map (Z.lxor 0xa5a5a5a5a5a5a5a5) SHA512_H0) (pad_be 128 16 (SHA512t_name t)).
Definition SHA512t_hash (t : nat) (m : list Z) : list Z := firstn (t / 8) (SHA2_64 (SHA512t_H0 t) m).

(** ** SM3 (GB/T 32905-2016) *)
Definition SM3_FF (j : nat) (x y z : Z) : Z :=
  if (j <? 16)%nat then XOR3 x y z else Z.lor (Z.land x y) (Z.lor (Z.land x z) (Z.land y z)).
Definition SM3_GG (j : nat) (x y z : Z) : Z :=
  if (j <? 16)%nat then XOR3 x y z else Z.lor (Z.land x y) (Z.land (NOT 32 x) z).
Definition SM3_P0 (x : Z) : Z := XOR3 x (ROTL 32 9 x) (ROTL 32 17 x).
Definition SM3_P1 (x : Z) : Z := XOR3 x (ROTL 32 15 x) (ROTL 32 23 x).
Definition SM3_T (j : nat) : Z := if (j <? 16)%nat then 0x79cc4519 else 0x7a879d8a.
Definition SM3_next (W : list Z) : Z :=
  let j := length W in
  XOR3 (SM3_P1 (XOR3 (nth (j - 16) W 0) (nth (j - 9) W 0) (ROTL 32 15 (nth (j - 3) W 0))))
       (ROTL 32 7 (nth (j - 13) W 0)) (nth (j - 6) W 0).
Definition SM3_step (W W' : list Z) (st : Z * Z * Z * Z * Z * Z * Z * Z) (j : nat) : Z * Z * Z * Z * Z * Z * Z * Z :=
  let '(A, B, C, D, E, F, G, H) := st in
  let SS1 := ROTL 32 7 (ADD 32 (ADD 32 (ROTL 32 12 A) E) (ROTL 32 (Z.of_nat j mod 32) (SM3_T j))) in
  let SS2 := Z.lxor SS1 (ROTL 32 12 A) in
  let TT1 := ADD 32 (ADD 32 (ADD 32 (SM3_FF j A B C) D) SS2) (nth j W' 0) in
  let TT2 := ADD 32 (ADD 32 (ADD 32 (SM3_GG j E F G) H) SS1) (nth j W 0) in
  (TT1, A, ROTL 32 9 B, C, SM3_P0 TT2, E, ROTL 32 19 F, G).
Definition SM3_block (V blk : list Z) : list Z :=
  match V with
  | [a; b; c; d; e; f; g; h] =>
      let W := extend SM3_next 52 (map be_val (chunks 4 blk)) in
      let W' := map (fun j => Z.lxor (nth j W 0) (nth (j + 4) W 0)) (seq 0 64) in
      let '(A, B, C, D, E, F, G, H) := fold_left (SM3_step W W') (seq 0 64) (a, b, c, d, e, f, g, h) in
      [Z.lxor A a; Z.lxor B b; Z.lxor C c; Z.lxor D d; Z.lxor E e; Z.lxor F f; Z.lxor G g; Z.lxor H h]
  | _ => []
  end.
Definition SM3_H0 : list Z :=
  [0x7380166f; 0x4914b2b9; 0x172442d7; 0xda8a0600; 0xa96f30bc; 0x163138aa; 0xe38dee4d; 0xb0fb0e4e].
Definition SM3_hash (m : list Z) : list Z :=
  flat_map (be_bytes 4) (iterate 64 SM3_block SM3_H0 (pad_be 64 8 m)).

(** ** The Merkle-Damgard hashes as data
    Block length, length field (from the byte count), block function, initial value, digest of a chaining value. *)
Record merkle := mkMerkle { mk_B : nat; mk_len : Z -> list Z; mk_block : list Z -> list Z -> list Z;
                            mk_iv : list Z; mk_out : list Z -> list Z }.
Definition mk_pad (h : merkle) (n : Z) (m : list Z) : list Z := pad_with (mk_B h) (mk_len h n) m.
(** Chaining value after [m] starting from [v], the length field holding [n]. *)
Definition mk_chain (h : merkle) (v : list Z) (n : Z) (m : list Z) : list Z := iterate (mk_B h) (mk_block h) v (mk_pad h n m).
Definition mk_hash (h : merkle) (m : list Z) : list Z := mk_out h (mk_chain h (mk_iv h) (Z.of_nat (length m)) m).
Definition len_be (lf : nat) (L : Z) : list Z := be_bytes lf (8 * L).
Definition len_le (L : Z) : list Z := le_bytes 8 (8 * L).
Definition MD5_std := mkMerkle 64 len_le MD5_block MD5_H0 (flat_map (le_bytes 4)).
Definition SHA1_std := mkMerkle 64 (len_be 8) SHA1_block SHA1_H0 (flat_map (be_bytes 4)).
Definition SHA256_std := mkMerkle 64 (len_be 8) (SHA2_block P256) SHA256_H0 (flat_map (be_bytes 4)).
Definition SHA224_std := mkMerkle 64 (len_be 8) (SHA2_block P256) SHA224_H0 (fun v => firstn 28 (flat_map (be_bytes 4) v)).
Definition SHA512_std := mkMerkle 128 (len_be 16) (SHA2_block P512) SHA512_H0 (flat_map (be_bytes 8)).
Definition SHA384_std := mkMerkle 128 (len_be 16) (SHA2_block P512) SHA384_H0 (fun v => firstn 48 (flat_map (be_bytes 8) v)).
Definition SHA512t_std (t : nat) :=
  mkMerkle 128 (len_be 16) (SHA2_block P512) (SHA512t_H0 t) (fun v => firstn (t / 8) (flat_map (be_bytes 8) v)).
Definition SM3_std := mkMerkle 64 (len_be 8) SM3_block SM3_H0 (flat_map (be_bytes 4)).
(** The records give the hash functions above. *)
Example std_hashes m : mk_hash MD5_std m = MD5_hash m /\ mk_hash SHA1_std m = SHA1_hash m /\ mk_hash SHA256_std m = SHA256_hash m /\
  mk_hash SHA224_std m = SHA224_hash m /\ mk_hash SHA512_std m = SHA512_hash m /\ mk_hash SHA384_std m = SHA384_hash m /\
  (forall t, mk_hash (SHA512t_std t) m = SHA512t_hash t m) /\ mk_hash SM3_std m = SM3_hash m.
Proof. repeat split. Qed.

(** Vectors of the standards. *)
Example MD5_abc : MD5_hash [97; 98; 99] = be_bytes 16 0x900150983cd24fb0d6963f7d28e17f72.
Proof. vm_compute. reflexivity. Qed.
Example SHA1_abc : SHA1_hash [97; 98; 99] = be_bytes 20 0xa9993e364706816aba3e25717850c26c9cd0d89d.
Proof. vm_compute. reflexivity. Qed.
Example SHA256_abc : SHA256_hash [97; 98; 99] = be_bytes 32 0xba7816bf8f01cfea414140de5dae2223b00361a396177a9cb410ff61f20015ad.
Proof. vm_compute. reflexivity. Qed.
Example SHA224_abc : SHA224_hash [97; 98; 99] = be_bytes 28 0x23097d223405d8228642a477bda255b32aadbce4bda0b3f7e36c9da7.
Proof. vm_compute. reflexivity. Qed.
Example SHA512_abc : SHA512_hash [97; 98; 99] = be_bytes 64 0xddaf35a193617abacc417349ae20413112e6fa4e89a97ea20a9eeee64b55d39a2192992a274fc1a836ba3c23a3feebbd454d4423643ce80e2a9ac94fa54ca49f.
Proof. vm_compute. reflexivity. Qed.
Example SM3_abc : SM3_hash [97; 98; 99] = be_bytes 32 0x66c7f0f462eeedd9d1f2d46bdc10e4e24167c4875cf2f7a2297da02b8f4ba8e0.
Proof. vm_compute. reflexivity. Qed.

(** The leftmost [t] bits, as bytes with unused low bits zero. *)
Definition left_bits (t : nat) (dg : list Z) : list Z :=
  let d := firstn ((t + 7) / 8) dg in
  match (t mod 8)%nat with
  | O => d
  | r => firstn (t / 8) d ++ [nth (t / 8) d 0 / 2 ^ (8 - Z.of_nat r) * 2 ^ (8 - Z.of_nat r)]
  end.
