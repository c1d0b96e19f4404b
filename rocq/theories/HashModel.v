(** Hash functions of src/md5, src/sha, src/sm3.

    All of these types have the same shape: a chaining value, a one-block buffer with a fill index, a
    byte counter and an [is_checked] flag.  Their [write] functions are the same code up to the block
    size, the comparison used for whole blocks ([>=] in MD5, [>] elsewhere) and the block function, so
    [md_write] models them once. *)
From Verif Require Import Base Words.

(** ** u64 operations *)
Definition M64 : Z := 18446744073709551616.
Definition add64 (a b : Z) : Z := (a + b) mod M64.
Definition rotr64 (x n : Z) : Z := Z.lor (Z.shiftr x n) ((Z.shiftl x (64 - n)) mod M64).
Definition not64 (x : Z) : Z := M64 - 1 - x.
Definition rotr32 (x n : Z) : Z := Z.lor (Z.shiftr x n) ((Z.shiftl x (32 - n)) mod M32).

(** ** The [Digest] trait (cipher.rs:44-64): an implementation over states of type [S].
    [d_checksum] gives the new state and the content of the output vector, which every implementation
    clears first. *)
Record digest (S : Type) := mkDigest {
  d_block_size : option nat;
  d_bits_len : nat;
  d_write : S -> list Z -> S;
  d_checksum : S -> S * list Z;
  d_reset : S -> S }.
Arguments mkDigest {S}.
Arguments d_block_size {S}. Arguments d_bits_len {S}. Arguments d_write {S}. Arguments d_checksum {S}. Arguments d_reset {S}.

(** ** The common object *)
(** md5.rs:12-18, sha1.rs:8-14, sha256.rs:8-14, sha512.rs:11-17, sm3.rs:14-20. *)
Record mdst := mkMd { md_h : list Z; md_buf : list Z; md_idx : nat; md_len : Z; md_checked : bool }.

(** [buf[i..i+src.len()].copy_from_slice(src)] *)
Definition put (buf : list Z) (i : nat) (src : list Z) : list Z :=
  firstn i buf ++ src ++ skipn (i + length src) buf.
(** [a[i] = v] *)
Definition upd (a : list Z) (i : nat) (v : Z) : list Z := firstn i a ++ v :: skipn (S i) a.

Section Md.
Variables (B : nat) (ge : bool) (compress : list Z -> list Z -> list Z).

(** [update(Some(data))] / [update(None)] on [buf]: the block loop of md5_generic.rs:10-101,
    sha1_generic.rs:35-94, sha256_generic.rs:34-76, sha512_generic.rs:36-76, sm3.rs:77-117. *)
Definition md_update (h : list Z) (data : list Z) : list Z := fold_left compress (chunks B data) h.

(** md5.rs:41-73, sha1.rs:37-69, sha256.rs:37-67, sha512.rs:40-70, sm3.rs:130-161.
    [n = len & !(B-1)] is written as [len / B * B]: the block sizes are powers of two.  The counter is a
    64-bit [usize]; its overflow is a wrap (release build). *)
Definition md_write (s : mdst) (data : list Z) : mdst :=
  let len := (md_len s + Z.of_nat (length data)) mod M64 in
  let '(h, buf, idx, data) :=
    if (0 <? md_idx s)%nat then
      let min := Nat.min (B - md_idx s) (length data) in
      let buf := put (md_buf s) (md_idx s) (firstn min data) in
      let idx := (md_idx s + min)%nat in
      let '(h, idx) := if (idx =? B)%nat then (md_update (md_h s) buf, 0%nat) else (md_h s, idx) in
      (h, buf, idx, skipn min data)
    else (md_h s, md_buf s, md_idx s, data) in
  let '(h, data) :=
    if (if ge then (B <=? length data)%nat else (B <? length data)%nat) then
      let n := (length data / B * B)%nat in
      (md_update h (firstn n data), skipn n data)
    else (h, data) in
  let '(buf, idx) :=
    if (0 <? length data)%nat then (put buf 0 data, (idx + length data)%nat) else (buf, idx) in
  mkMd h buf idx len false.

(** md5.rs:75-96, sha1.rs:71-94, sha256.rs:69-92, sha512.rs:72-94, sm3.rs:163-188.  [pads len] are the
    arguments of the [write] calls made by [checksum]; [zero_len] says whether [self.len = 0] follows
    (not in sha512.rs). *)
Variables (pads : Z -> list (list Z)) (zero_len : bool).
Definition md_finish (s : mdst) : mdst :=
  if md_checked s then s
  else let s' := fold_left md_write (pads (md_len s)) s in
       mkMd (md_h s') (md_buf s') (md_idx s') (if zero_len then 0 else md_len s') true.
End Md.

(** [MD5::new], [SHA1::new], ...: md5.rs:21-29, sha1.rs:17-25, sha256.rs:17-25 and 102-112, sha512.rs:20-28,
    103-113, 122-132, 141-151, sm3.rs:23-31. *)
Definition md_init (B : nat) (iv : list Z) : mdst := mkMd iv (repeat 0 B) 0 0 false.

(** md5.rs:77-84: [tmp[0..(1+pad_len+8)]] with the little-endian bit length at [1+pad_len]. *)
Definition md5_pads (len : Z) : list (list Z) :=
  let pad_len := Z.to_nat (((55 - len) mod M64) mod 64) in
  [ [0x80] ++ repeat 0 pad_len ++ le_bytes 8 ((len * 8) mod M64) ].
(** sha1.rs:73-83 and the like (block 64, 8 length bytes), sha512.rs:74-85 (block 128, 16 length bytes).
    [tmp] is one block: 0x80 followed by zeros. *)
Definition sha_pads (B lf : nat) (len : Z) : list (list Z) :=
  let tmp := 0x80 :: repeat 0 (B - 1) in
  let r := Z.to_nat (len mod Z.of_nat B) in
  let p := if (r <? B - lf)%nat then (B - lf - r)%nat else (B + (B - lf) - r)%nat in
  [ firstn p tmp; be_bytes lf ((len * 8) mod 256 ^ Z.of_nat lf) ].

(** The [Digest] implementation built from these parts; [out] serialises the chaining value and
    [trunc] is [digest.truncate]. *)
Definition md_digest (B : nat) (bits : nat) (ge : bool) (compress : list Z -> list Z -> list Z)
    (pads : Z -> list (list Z)) (zero_len : bool) (iv : list Z) (out : list Z -> list Z) : digest mdst :=
  mkDigest (Some B) bits (md_write B ge compress)
    (fun s => let s' := md_finish B ge compress pads zero_len s in (s', firstn (bits / 8) (out (md_h s'))))
    (fun _ => md_init B iv).

(** Big-endian words of a block (the [for i in 0..LEN] loops). *)
Definition be_words (k : nat) (blk : list Z) : list Z := map be_val (chunks k blk).
Definition le_words (blk : list Z) : list Z := map le_val (chunks 4 blk).
Definition out_be (k : nat) (h : list Z) : list Z := flat_map (be_bytes k) h.
Definition out_le (h : list Z) : list Z := flat_map (le_bytes 4) h.

(** ** MD5 *)
Definition MD5_INIT : list Z := [0x67452301; 0xEFCDAB89; 0x98BADCFE; 0x10325476].
Inductive reg := rA | rB | rC | rD.
(** md5_generic.rs:21-90, one entry per source line:
    (assigned variable, round, index into [x], constant, rotation). *)
Definition md5_ops : list (reg * nat * nat * Z * Z) :=
  [(rA, 1%nat, 0%nat, 0xd76aa478, 7); (rD, 1%nat, 1%nat, 0xe8c7b756, 12); (rC, 1%nat, 2%nat, 0x242070db, 17); (rB, 1%nat, 3%nat, 0xc1bdceee, 22);
   (rA, 1%nat, 4%nat, 0xf57c0faf, 7); (rD, 1%nat, 5%nat, 0x4787c62a, 12); (rC, 1%nat, 6%nat, 0xa8304613, 17); (rB, 1%nat, 7%nat, 0xfd469501, 22);
   (rA, 1%nat, 8%nat, 0x698098d8, 7); (rD, 1%nat, 9%nat, 0x8b44f7af, 12); (rC, 1%nat, 10%nat, 0xffff5bb1, 17); (rB, 1%nat, 11%nat, 0x895cd7be, 22);
   (rA, 1%nat, 12%nat, 0x6b901122, 7); (rD, 1%nat, 13%nat, 0xfd987193, 12); (rC, 1%nat, 14%nat, 0xa679438e, 17); (rB, 1%nat, 15%nat, 0x49b40821, 22);
   (rA, 2%nat, 1%nat, 0xf61e2562, 5); (rD, 2%nat, 6%nat, 0xc040b340, 9); (rC, 2%nat, 11%nat, 0x265e5a51, 14); (rB, 2%nat, 0%nat, 0xe9b6c7aa, 20);
   (rA, 2%nat, 5%nat, 0xd62f105d, 5); (rD, 2%nat, 10%nat, 0x02441453, 9); (rC, 2%nat, 15%nat, 0xd8a1e681, 14); (rB, 2%nat, 4%nat, 0xe7d3fbc8, 20);
   (rA, 2%nat, 9%nat, 0x21e1cde6, 5); (rD, 2%nat, 14%nat, 0xc33707d6, 9); (rC, 2%nat, 3%nat, 0xf4d50d87, 14); (rB, 2%nat, 8%nat, 0x455a14ed, 20);
   (rA, 2%nat, 13%nat, 0xa9e3e905, 5); (rD, 2%nat, 2%nat, 0xfcefa3f8, 9); (rC, 2%nat, 7%nat, 0x676f02d9, 14); (rB, 2%nat, 12%nat, 0x8d2a4c8a, 20);
   (rA, 3%nat, 5%nat, 0xfffa3942, 4); (rD, 3%nat, 8%nat, 0x8771f681, 11); (rC, 3%nat, 11%nat, 0x6d9d6122, 16); (rB, 3%nat, 14%nat, 0xfde5380c, 23);
   (rA, 3%nat, 1%nat, 0xa4beea44, 4); (rD, 3%nat, 4%nat, 0x4bdecfa9, 11); (rC, 3%nat, 7%nat, 0xf6bb4b60, 16); (rB, 3%nat, 10%nat, 0xbebfbc70, 23);
   (rA, 3%nat, 13%nat, 0x289b7ec6, 4); (rD, 3%nat, 0%nat, 0xeaa127fa, 11); (rC, 3%nat, 3%nat, 0xd4ef3085, 16); (rB, 3%nat, 6%nat, 0x04881d05, 23);
   (rA, 3%nat, 9%nat, 0xd9d4d039, 4); (rD, 3%nat, 12%nat, 0xe6db99e5, 11); (rC, 3%nat, 15%nat, 0x1fa27cf8, 16); (rB, 3%nat, 2%nat, 0xc4ac5665, 23);
   (rA, 4%nat, 0%nat, 0xf4292244, 6); (rD, 4%nat, 7%nat, 0x432aff97, 10); (rC, 4%nat, 14%nat, 0xab9423a7, 15); (rB, 4%nat, 5%nat, 0xfc93a039, 21);
   (rA, 4%nat, 12%nat, 0x655b59c3, 6); (rD, 4%nat, 3%nat, 0x8f0ccc92, 10); (rC, 4%nat, 10%nat, 0xffeff47d, 15); (rB, 4%nat, 1%nat, 0x85845dd1, 21);
   (rA, 4%nat, 8%nat, 0x6fa87e4f, 6); (rD, 4%nat, 15%nat, 0xfe2ce6e0, 10); (rC, 4%nat, 6%nat, 0xa3014314, 15); (rB, 4%nat, 13%nat, 0x4e0811a1, 21);
   (rA, 4%nat, 4%nat, 0xf7537e82, 6); (rD, 4%nat, 11%nat, 0xbd3af235, 10); (rC, 4%nat, 2%nat, 0x2ad7d2bb, 15); (rB, 4%nat, 9%nat, 0xeb86d391, 21)].

(** The four round functions as written in the source. *)
Definition md5_f (r : nat) (x y z : Z) : Z :=
  match r with
  | 1%nat => Z.lxor (Z.land (Z.lxor y z) x) z
  | 2%nat => Z.lxor (Z.land (Z.lxor x y) z) y
  | 3%nat => Z.lxor (Z.lxor x y) z
  | _ => Z.lxor y (Z.lor x (not32 z))
  end.
Definition md5_new (f : nat) (t u v w x k s : Z) : Z :=
  add32 u (rotl32 (add32 (add32 (add32 (md5_f f u v w) t) x) k) s).
Definition md5_step (x : list Z) (st : Z * Z * Z * Z) (op : reg * nat * nat * Z * Z) : Z * Z * Z * Z :=
  let '(a, b, c, d) := st in
  let '(r, f, i, k, s) := op in
  let xi := nth i x 0 in
  match r with
  | rA => (md5_new f a b c d xi k s, b, c, d)
  | rD => (a, b, c, md5_new f d a b c xi k s)
  | rC => (a, b, md5_new f c d a b xi k s, d)
  | rB => (a, md5_new f b c d a xi k s, c, d)
  end.
(** md5_generic.rs:10-101, one turn of the loop.  The source keeps a..d in locals across turns. *)
Definition md5_compress (h : list Z) (blk : list Z) : list Z :=
  let '(aa, bb, cc, dd) := (nth 0 h 0, nth 1 h 0, nth 2 h 0, nth 3 h 0) in
  let x := le_words blk in
  let '(a, b, c, d) := fold_left (md5_step x) md5_ops (aa, bb, cc, dd) in
  [add32 a aa; add32 b bb; add32 c cc; add32 d dd].
Definition MD5 : digest mdst := md_digest 64 128 true md5_compress md5_pads true MD5_INIT out_le.
Definition md5_init : mdst := md_init 64 MD5_INIT.

(** ** SHA-1 *)
(** const_tables.rs:92-113. [notw] is [!] on the word type. *)
Definition f_ch (notw : Z -> Z) (x y z : Z) : Z := Z.lxor (Z.land x y) (Z.land (notw x) z).
Definition f_parity (x y z : Z) : Z := Z.lxor (Z.lxor x y) z.
Definition f_maj (x y z : Z) : Z := Z.lxor (Z.lxor (Z.land x y) (Z.land x z)) (Z.land y z).
Definition SHA1_INIT : list Z := [0x67452301; 0xEFCDAB89; 0x98BADCFE; 0x10325476; 0xC3D2E1F0].
Definition SHA1_K : list Z := [0x5A827999; 0x6ED9EBA1; 0x8F1BBCDC; 0xCA62C1D6].

(** sha1_generic.rs:20-25, [f_word_extract]: the new ring and the value. *)
Definition sha1_extract (w : list Z) (s : nat) : list Z * Z :=
  let m (i : nat) := Nat.modulo i 16 in
  let v := rotl32 (Z.lxor (Z.lxor (Z.lxor (nth (m (s + 13)%nat) w 0) (nth (m (s + 8)%nat) w 0)) (nth (m (s + 2)%nat) w 0)) (nth (m s) w 0)) 1%Z in
  (upd w (m s) v, v).
(** One turn of the loops at 47-80; [q] is the loop number, [wj] the message word. *)
Definition sha1_round (f : Z -> Z -> Z -> Z) (k : Z) (st : Z * Z * Z * Z * Z) (wj : Z) : Z * Z * Z * Z * Z :=
  let '(a, b, c, d, e) := st in
  let t := add32 (add32 (add32 (add32 (rotl32 a 5) (f b c d)) e) k) wj in
  (t, a, rotl32 b 30, c, d).
(** 47-52: the words come straight from the block. *)
Definition sha1_loop0 (w : list Z) (st : Z * Z * Z * Z * Z) : Z * Z * Z * Z * Z :=
  fold_left (fun st j => sha1_round (f_ch not32) (nth 0 SHA1_K 0) st (nth j w 0)) (seq 0 16) st.
(** 54-80: [while j < hi] with words from [f_word_extract]. *)
Definition sha1_loop (f : Z -> Z -> Z -> Z) (k : Z) (lo n : nat) (ws : list Z * (Z * Z * Z * Z * Z)) : list Z * (Z * Z * Z * Z * Z) :=
  fold_left (fun ws j => let '(w, st) := ws in
                         let '(w, v) := sha1_extract w j in (w, sha1_round f k st v)) (seq lo n) ws.
(** sha1_generic.rs:35-94, one turn of the outer loop. *)
Definition sha1_compress (h : list Z) (blk : list Z) : list Z :=
  let word := be_words 4 blk in
  let st := (nth 0 h 0, nth 1 h 0, nth 2 h 0, nth 3 h 0, nth 4 h 0) in
  let st := sha1_loop0 word st in
  let ws := (word, st) in
  let ws := sha1_loop (f_ch not32) (nth 0 SHA1_K 0) 16 4 ws in
  let ws := sha1_loop f_parity (nth 1 SHA1_K 0) 20 20 ws in
  let ws := sha1_loop f_maj (nth 2 SHA1_K 0) 40 20 ws in
  let ws := sha1_loop f_parity (nth 3 SHA1_K 0) 60 20 ws in
  let '(_, (a, b, c, d, e)) := ws in
  [add32 a (nth 0 h 0); add32 b (nth 1 h 0); add32 c (nth 2 h 0); add32 d (nth 3 h 0); add32 e (nth 4 h 0)].
Definition SHA1 : digest mdst := md_digest 64 160 false sha1_compress (sha_pads 64 8) true SHA1_INIT (out_be 4).
Definition sha1_init : mdst := md_init 64 SHA1_INIT.

(** ** SHA-2 *)
Section Sha2.
(** sha256_generic.rs:27-77 and sha512_generic.rs:25-77 are the same code up to the word type, the
    rotation amounts, the round constants and the number of rounds. *)
Variables (add : Z -> Z -> Z) (notw : Z -> Z) (s0 s1 d0 d1 : Z -> Z) (K : list Z) (rounds wlen : nat).
(** 44-46 / 48-50: [word[j] = ...]. *)
Definition sha2_ext (w : list Z) (j : nat) : list Z :=
  upd w j (add (add (add (d1 (nth (j - 2) w 0)) (nth (j - 7) w 0)) (d0 (nth (j - 15) w 0))) (nth (j - 16) w 0)).
Definition sha2_words (blk : list Z) : list Z :=
  fold_left sha2_ext (seq 16 (rounds - 16)) (be_words wlen blk ++ repeat 0 (rounds - 16)).
(** 49-63 / 55-68. *)
Definition sha2_round (word : list Z) (st : Z * Z * Z * Z * Z * Z * Z * Z) (j : nat) : Z * Z * Z * Z * Z * Z * Z * Z :=
  let '(a, b, c, d, e, f, g, h) := st in
  let t1 := add (add (add (add h (s1 e)) (f_ch notw e f g)) (nth j K 0)) (nth j word 0) in
  let t2 := add (s0 a) (f_maj a b c) in
  (add t1 t2, a, b, c, add d t1, e, f, g).
Definition sha2_compress (dg : list Z) (blk : list Z) : list Z :=
  let word := sha2_words blk in
  let '(a, b, c, d, e, f, g, h) :=
    fold_left (sha2_round word) (seq 0 rounds)
      (nth 0 dg 0, nth 1 dg 0, nth 2 dg 0, nth 3 dg 0, nth 4 dg 0, nth 5 dg 0, nth 6 dg 0, nth 7 dg 0) in
  [add a (nth 0 dg 0); add b (nth 1 dg 0); add c (nth 2 dg 0); add d (nth 3 dg 0);
   add e (nth 4 dg 0); add f (nth 5 dg 0); add g (nth 6 dg 0); add h (nth 7 dg 0)].
End Sha2.
(** const_tables.rs *)
Definition SHA224_INIT : list Z :=
  [0xC1059ED8; 0x367CD507; 0x3070DD17; 0xF70E5939; 0xFFC00B31; 0x68581511; 0x64F98FA7; 0xBEFA4FA4].
(** const_tables.rs *)
Definition SHA256_INIT : list Z :=
  [0x6A09E667; 0xBB67AE85; 0x3C6EF372; 0xA54FF53A; 0x510E527F; 0x9B05688C; 0x1F83D9AB; 0x5BE0CD19].
(** const_tables.rs *)
Definition SHA256_K : list Z :=
  [0x428a2f98; 0x71374491; 0xb5c0fbcf; 0xe9b5dba5; 0x3956c25b; 0x59f111f1; 0x923f82a4; 0xab1c5ed5;
   0xd807aa98; 0x12835b01; 0x243185be; 0x550c7dc3; 0x72be5d74; 0x80deb1fe; 0x9bdc06a7; 0xc19bf174;
   0xe49b69c1; 0xefbe4786; 0x0fc19dc6; 0x240ca1cc; 0x2de92c6f; 0x4a7484aa; 0x5cb0a9dc; 0x76f988da;
   0x983e5152; 0xa831c66d; 0xb00327c8; 0xbf597fc7; 0xc6e00bf3; 0xd5a79147; 0x06ca6351; 0x14292967;
   0x27b70a85; 0x2e1b2138; 0x4d2c6dfc; 0x53380d13; 0x650a7354; 0x766a0abb; 0x81c2c92e; 0x92722c85;
   0xa2bfe8a1; 0xa81a664b; 0xc24b8b70; 0xc76c51a3; 0xd192e819; 0xd6990624; 0xf40e3585; 0x106aa070;
   0x19a4c116; 0x1e376c08; 0x2748774c; 0x34b0bcb5; 0x391c0cb3; 0x4ed8aa4a; 0x5b9cca4f; 0x682e6ff3;
   0x748f82ee; 0x78a5636f; 0x84c87814; 0x8cc70208; 0x90befffa; 0xa4506ceb; 0xbef9a3f7; 0xc67178f2].
(** const_tables.rs *)
Definition SHA512_INIT : list Z :=
  [0x6a09e667f3bcc908; 0xbb67ae8584caa73b; 0x3c6ef372fe94f82b; 0xa54ff53a5f1d36f1; 0x510e527fade682d1; 0x9b05688c2b3e6c1f; 0x1f83d9abfb41bd6b; 0x5be0cd19137e2179].
(** const_tables.rs *)
Definition SHA512_K : list Z :=
  [0x428a2f98d728ae22; 0x7137449123ef65cd; 0xb5c0fbcfec4d3b2f; 0xe9b5dba58189dbbc; 0x3956c25bf348b538; 0x59f111f1b605d019; 0x923f82a4af194f9b; 0xab1c5ed5da6d8118;
   0xd807aa98a3030242; 0x12835b0145706fbe; 0x243185be4ee4b28c; 0x550c7dc3d5ffb4e2; 0x72be5d74f27b896f; 0x80deb1fe3b1696b1; 0x9bdc06a725c71235; 0xc19bf174cf692694;
   0xe49b69c19ef14ad2; 0xefbe4786384f25e3; 0x0fc19dc68b8cd5b5; 0x240ca1cc77ac9c65; 0x2de92c6f592b0275; 0x4a7484aa6ea6e483; 0x5cb0a9dcbd41fbd4; 0x76f988da831153b5;
   0x983e5152ee66dfab; 0xa831c66d2db43210; 0xb00327c898fb213f; 0xbf597fc7beef0ee4; 0xc6e00bf33da88fc2; 0xd5a79147930aa725; 0x06ca6351e003826f; 0x142929670a0e6e70;
   0x27b70a8546d22ffc; 0x2e1b21385c26c926; 0x4d2c6dfc5ac42aed; 0x53380d139d95b3df; 0x650a73548baf63de; 0x766a0abb3c77b2a8; 0x81c2c92e47edaee6; 0x92722c851482353b;
   0xa2bfe8a14cf10364; 0xa81a664bbc423001; 0xc24b8b70d0f89791; 0xc76c51a30654be30; 0xd192e819d6ef5218; 0xd69906245565a910; 0xf40e35855771202a; 0x106aa07032bbd1b8;
   0x19a4c116b8d2d0c8; 0x1e376c085141ab53; 0x2748774cdf8eeb99; 0x34b0bcb5e19b48a8; 0x391c0cb3c5c95a63; 0x4ed8aa4ae3418acb; 0x5b9cca4f7763e373; 0x682e6ff3d6b2b8a3;
   0x748f82ee5defb2fc; 0x78a5636f43172f60; 0x84c87814a1f0ab72; 0x8cc702081a6439ec; 0x90befffa23631e28; 0xa4506cebde82bde9; 0xbef9a3f7b2c67915; 0xc67178f2e372532b;
   0xca273eceea26619c; 0xd186b8c721c0c207; 0xeada7dd6cde0eb1e; 0xf57d4f7fee6ed178; 0x06f067aa72176fba; 0x0a637dc5a2c898a6; 0x113f9804bef90dae; 0x1b710b35131c471b;
   0x28db77f523047d84; 0x32caab7b40c72493; 0x3c9ebe0a15c9bebc; 0x431d67c49c100d4c; 0x4cc5d4becb3e42b6; 0x597f299cfc657e2a; 0x5fcb6fab3ad6faec; 0x6c44198c4a475817].
(** const_tables.rs *)
Definition SHA512_224INIT : list Z :=
  [0x8c3d37c819544da2; 0x73e1996689dcd4d6; 0x1dfab7ae32ff9c82; 0x679dd514582f9fcf; 0x0f6d2b697bd44da8; 0x77e36f7304c48942; 0x3f9d85a86a1d36c8; 0x1112e6ad91d692a1].
(** const_tables.rs *)
Definition SHA512_256INIT : list Z :=
  [0x22312194fc2bf72c; 0x9f555fa3c84c64c2; 0x2393b86b6f53b151; 0x963877195940eabd; 0x96283ee2a88effe3; 0xbe5e1e2553863992; 0x2b0199fc2c85b8aa; 0x0eb72ddc81c52ca2].
(** const_tables.rs *)
Definition SHA512_384INIT : list Z :=
  [0xcbbb9d5dc1059ed8; 0x629a292a367cd507; 0x9159015a3070dd17; 0x152fecd8f70e5939; 0x67332667ffc00b31; 0x8eb44a8768581511; 0xdb0c2e0d64f98fa7; 0x47b5481dbefa4fa4].

(** sha256_generic.rs:6-23. *)
Definition sha256_s0 x := Z.lxor (Z.lxor (rotr32 x 2) (rotr32 x 13)) (rotr32 x 22).
Definition sha256_s1 x := Z.lxor (Z.lxor (rotr32 x 6) (rotr32 x 11)) (rotr32 x 25).
Definition sha256_d0 x := Z.lxor (Z.lxor (rotr32 x 7) (rotr32 x 18)) (Z.shiftr x 3).
Definition sha256_d1 x := Z.lxor (Z.lxor (rotr32 x 17) (rotr32 x 19)) (Z.shiftr x 10).
Definition sha256_compress : list Z -> list Z -> list Z :=
  sha2_compress add32 not32 sha256_s0 sha256_s1 sha256_d0 sha256_d1 SHA256_K 64 4.
(** sha512_generic.rs:6-23. *)
Definition sha512_s0 x := Z.lxor (Z.lxor (rotr64 x 28) (rotr64 x 34)) (rotr64 x 39).
Definition sha512_s1 x := Z.lxor (Z.lxor (rotr64 x 14) (rotr64 x 18)) (rotr64 x 41).
Definition sha512_d0 x := Z.lxor (Z.lxor (rotr64 x 1) (rotr64 x 8)) (Z.shiftr x 7).
Definition sha512_d1 x := Z.lxor (Z.lxor (rotr64 x 19) (rotr64 x 61)) (Z.shiftr x 6).
Definition sha512_compress : list Z -> list Z -> list Z :=
  sha2_compress add64 not64 sha512_s0 sha512_s1 sha512_d0 sha512_d1 SHA512_K 80 8.

Definition SHA256 : digest mdst := md_digest 64 256 false sha256_compress (sha_pads 64 8) true SHA256_INIT (out_be 4).
Definition SHA224 : digest mdst := md_digest 64 224 false sha256_compress (sha_pads 64 8) true SHA224_INIT (out_be 4).
Definition SHA512 : digest mdst := md_digest 128 512 false sha512_compress (sha_pads 128 16) false SHA512_INIT (out_be 8).
Definition SHA384 : digest mdst := md_digest 128 384 false sha512_compress (sha_pads 128 16) false SHA512_384INIT (out_be 8).
Definition SHA512T256 : digest mdst := md_digest 128 256 false sha512_compress (sha_pads 128 16) false SHA512_256INIT (out_be 8).
Definition SHA512T224 : digest mdst := md_digest 128 224 false sha512_compress (sha_pads 128 16) false SHA512_224INIT (out_be 8).
Definition sha256_init := md_init 64 SHA256_INIT.
Definition sha224_init := md_init 64 SHA224_INIT.
Definition sha512_init := md_init 128 SHA512_INIT.
Definition sha384_init := md_init 128 SHA512_384INIT.
Definition sha512t256_init := md_init 128 SHA512_256INIT.
Definition sha512t224_init := md_init 128 SHA512_224INIT.

(** ** SHA-512/t, sha512.rs:191-262 *)
(** [format!("SHA-512/{}", bits_len)]: decimal digits of a number below 1000 (the constructor rejects
    larger ones before formatting). *)
Definition dec_digits (n : nat) : list Z :=
  let d k := Z.of_nat (48 + (n / k) mod 10) in
  if (n <? 10)%nat then [d 1%nat] else if (n <? 100)%nat then [d 10%nat; d 1%nat] else [d 100%nat; d 10%nat; d 1%nat].
Definition sha512t_name (t : nat) : list Z := [83; 72; 65; 45; 53; 49; 50; 47] ++ dec_digits t.
(** 199-219. *)
Definition sha512t_new (t : nat) : option mdst :=
  if (t <=? 512)%nat then
    let s0 := md_init 128 (map (fun e => Z.lxor e 0xa5a5a5a5a5a5a5a5) SHA512_INIT) in
    let s1 := d_write SHA512 s0 (sha512t_name t) in
    let s2 := fst (d_checksum SHA512 s1) in
    Some (mkMd (md_h s2) (md_buf s2) (md_idx s2) (md_len s2) false)
  else None.
(** 237-253: [truncate], then the last byte is masked. *)
Definition sha512t_cut (t : nat) (dg : list Z) : list Z :=
  let num := ((t + 7) / 8)%nat in
  let rom := Z.of_nat (t mod 8) in
  let dg := firstn num dg in
  match rev dg with
  | [] => []
  | x :: r => rev r ++ [if 0 <? rom then (Z.shiftl (Z.shiftr x (8 - rom)) rom) mod 256 else x]
  end.
(** 222-262.  [reset] is [Self::new(self.bits_len).unwrap()]. *)
Definition SHA512T (t : nat) : digest mdst :=
  mkDigest (Some 128%nat) t (d_write SHA512)
    (fun s => let '(s', dg) := d_checksum SHA512 s in (s', sha512t_cut t dg))
    (fun s => match sha512t_new t with Some s' => s' | None => s end).

(** ** SM3 *)
Definition SM3_IV : list Z := [0x7380166f; 0x4914b2b9; 0x172442d7; 0xda8a0600; 0xa96f30bc; 0x163138aa; 0xe38dee4d; 0xb0fb0e4e].
(** sm3.rs:33-68. *)
Definition sm3_t (j : nat) : Z := if (j <? 16)%nat then 0x79cc4519 else 0x7a879d8a.
Definition sm3_ff (j : nat) (x y z : Z) : Z :=
  if (j <? 16)%nat then Z.lxor (Z.lxor x y) z else Z.lor (Z.lor (Z.land x y) (Z.land x z)) (Z.land y z).
Definition sm3_gg (j : nat) (x y z : Z) : Z :=
  if (j <? 16)%nat then Z.lxor (Z.lxor x y) z else Z.lor (Z.land x y) (Z.land (not32 x) z).
Definition sm3_p0 x := Z.lxor (Z.lxor x (rotl32 x 9)) (rotl32 x 17).
Definition sm3_p1 x := Z.lxor (Z.lxor x (rotl32 x 15)) (rotl32 x 23).
(** sm3.rs:78-82: byte [k] is shifted into [word[k >> 2]]; the array has 68 words, initially 0. *)
Definition sm3_load (blk : list Z) : list Z :=
  fold_left (fun w kd => let '(k, d) := kd in
       upd w (k / 4) (Z.lor ((Z.shiftl (nth (k / 4) w 0) 8) mod M32) d)) (combine (seq 0 64) blk) (repeat 0 68).
(** sm3.rs:83-85. *)
Definition sm3_ext (w : list Z) (j : nat) : list Z :=
  upd w j (Z.lxor (Z.lxor (sm3_p1 (Z.lxor (Z.lxor (nth (j - 16) w 0) (nth (j - 9) w 0)) (rotl32 (nth (j - 3) w 0) 15)))
                          (rotl32 (nth (j - 13) w 0) 7)) (nth (j - 6) w 0)).
Definition sm3_words (blk : list Z) : list Z := fold_left sm3_ext (seq 16 52) (sm3_load blk).
(** sm3.rs:89-103; [rotate_left(j as u32)] takes the amount modulo 32. *)
Definition sm3_round (word : list Z) (st : Z * Z * Z * Z * Z * Z * Z * Z) (j : nat) : Z * Z * Z * Z * Z * Z * Z * Z :=
  let '(a, b, c, d, e, f, g, h) := st in
  let tmp := Z.lxor (nth j word 0) (nth (j + 4) word 0) in
  let s1 := rotl32 (add32 (add32 (rotl32 a 12) e) (rotl32 (sm3_t j) (Z.of_nat j mod 32))) 7 in
  let s2 := Z.lxor s1 (rotl32 a 12) in
  let t1 := add32 (add32 (add32 (sm3_ff j a b c) d) s2) tmp in
  let t2 := add32 (add32 (add32 (sm3_gg j e f g) h) s1) (nth j word 0) in
  (t1, a, rotl32 b 9, c, sm3_p0 t2, e, rotl32 f 19, g).
(** sm3.rs:77-117. *)
Definition sm3_compress (dg : list Z) (blk : list Z) : list Z :=
  let word := sm3_words blk in
  let '(a, b, c, d, e, f, g, h) :=
    fold_left (sm3_round word) (seq 0 64)
      (nth 0 dg 0, nth 1 dg 0, nth 2 dg 0, nth 3 dg 0, nth 4 dg 0, nth 5 dg 0, nth 6 dg 0, nth 7 dg 0) in
  [Z.lxor (nth 0 dg 0) a; Z.lxor (nth 1 dg 0) b; Z.lxor (nth 2 dg 0) c; Z.lxor (nth 3 dg 0) d;
   Z.lxor (nth 4 dg 0) e; Z.lxor (nth 5 dg 0) f; Z.lxor (nth 6 dg 0) g; Z.lxor (nth 7 dg 0) h].
Definition SM3 : digest mdst := md_digest 64 256 false sm3_compress (sha_pads 64 8) true SM3_IV (out_be 4).
Definition sm3_init := md_init 64 SM3_IV.

(** ** Test vectors (from the repository's own tests) *)
Definition run_hash (D : digest mdst) (s : mdst) (ws : list (list Z)) : list Z :=
  snd (d_checksum D (fold_left (d_write D) ws s)).
Definition abc : list Z := [97; 98; 99].
Example md5_abc : run_hash MD5 md5_init [abc] = be_bytes 16 0x900150983cd24fb0d6963f7d28e17f72.
Proof. vm_compute. reflexivity. Qed.
Example sha1_abc : run_hash SHA1 sha1_init [abc] = be_bytes 20 0xa9993e364706816aba3e25717850c26c9cd0d89d.
Proof. vm_compute. reflexivity. Qed.
Example sha256_abc : run_hash SHA256 sha256_init [abc] = be_bytes 32 0xba7816bf8f01cfea414140de5dae2223b00361a396177a9cb410ff61f20015ad.
Proof. vm_compute. reflexivity. Qed.
Example sha224_abc : run_hash SHA224 sha224_init [[97]; [98; 99]] = be_bytes 28 0x23097d223405d8228642a477bda255b32aadbce4bda0b3f7e36c9da7.
Proof. vm_compute. reflexivity. Qed.
Example sha512_abc : run_hash SHA512 sha512_init [abc] = be_bytes 64 0xddaf35a193617abacc417349ae20413112e6fa4e89a97ea20a9eeee64b55d39a2192992a274fc1a836ba3c23a3feebbd454d4423643ce80e2a9ac94fa54ca49f.
Proof. vm_compute. reflexivity. Qed.
Example sha384_abc : run_hash SHA384 sha384_init [abc] = be_bytes 48 0xcb00753f45a35e8bb5a03d699ac65007272c32ab0eded1631a8b605a43ff5bed8086072ba1e7cc2358baeca134c825a7.
Proof. vm_compute. reflexivity. Qed.
Example sha512t256_abc : run_hash SHA512T256 sha512t256_init [abc] = be_bytes 32 0x53048e2681941ef99b2e29b76b4c7dabe4c2d0c634fc6d46e0e2f13107e7af23.
Proof. vm_compute. reflexivity. Qed.
Example sha512t224_abc : run_hash SHA512T224 sha512t224_init [abc] = be_bytes 28 0x4634270f707b6a54daae7530460842e20e37ed265ceee9a43e8924aa.
Proof. vm_compute. reflexivity. Qed.
Example sm3_abc : run_hash SM3 sm3_init [abc] = be_bytes 32 0x66c7f0f462eeedd9d1f2d46bdc10e4e24167c4875cf2f7a2297da02b8f4ba8e0.
Proof. vm_compute. reflexivity. Qed.
