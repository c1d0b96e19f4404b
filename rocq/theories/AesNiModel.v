(** Model of src/aes/aes_amd64.rs: AES through the x86 AES instructions (built
    only with [--cfg rcrypto_aes="support"], aes/mod.rs:27-30).

    An [__m128i] is modelled by its 16 bytes in memory order, so [loadu]/[storeu]
    are the identity.  The instructions themselves are hardware; their meaning
    below is that of the Intel SDM, vol. 2 (and belongs to the trusted base). *)
From Verif Require Import Base Words ModesModel AesSpec.

(** ** The instructions *)
Definition mm_xor (a b : list Z) : list Z := xorl a b.
Definition mm_aesenc (a k : list Z) : list Z := xorl (MixColumns (SubBytes (ShiftRows a))) k.
Definition mm_aesenclast (a k : list Z) : list Z := xorl (SubBytes (ShiftRows a)) k.
Definition mm_aesdec (a k : list Z) : list Z := xorl (InvMixColumns (InvSubBytes (InvShiftRows a))) k.
Definition mm_aesdeclast (a k : list Z) : list Z := xorl (InvSubBytes (InvShiftRows a)) k.
Definition mm_aesimc (a : list Z) : list Z := InvMixColumns a.
(** Doubleword [i] of a register. *)
Definition dword (i : nat) (a : list Z) : list Z := firstn 4 (skipn (4 * i) a).
Definition mm_aeskeygenassist (a : list Z) (rcon : Z) : list Z :=
  let x1 := SubWord (dword 1 a) in
  let x3 := SubWord (dword 3 a) in
  x1 ++ xorl (RotWord x1) [rcon; 0; 0; 0] ++ x3 ++ xorl (RotWord x3) [rcon; 0; 0; 0].
Definition mm_shuffle_epi32 (a : list Z) (imm : Z) : list Z :=
  let sel i := dword (Z.to_nat (Z.land (Z.shiftr imm (2 * i)) 3)) a in
  sel 0 ++ sel 1 ++ sel 2 ++ sel 3.
Definition mm_slli_si128 (a : list Z) (n : nat) : list Z := repeat 0 n ++ firstn (16 - n) a.
Definition mm_shuffle_pd (a b : list Z) (imm : Z) : list Z :=
  (if Z.testbit imm 0 then skipn 8 a else firstn 8 a) ++
  (if Z.testbit imm 1 then skipn 8 b else firstn 8 b).

(** ** Key schedules *)
(** aes_amd64.rs:37-46, [aes_128_assist]. *)
Definition aes_128_assist (t1 t2 : list Z) : list Z :=
  let t2 := mm_shuffle_epi32 t2 0xff in
  let t3 := mm_slli_si128 t1 4 in
  let t1 := mm_xor t1 t3 in
  let t3 := mm_slli_si128 t3 4 in
  let t1 := mm_xor t1 t3 in
  let t3 := mm_slli_si128 t3 4 in
  let t1 := mm_xor t1 t3 in
  mm_xor t1 t2.

(** aes_amd64.rs:49-86, [key_schedule_128]: the ten unrolled steps. *)
Fixpoint ks128_loop (t1 : list Z) (rcons : list Z) : list (list Z) :=
  match rcons with
  | [] => []
  | rc :: rcons' =>
      let t2 := mm_aeskeygenassist t1 rc in
      let t1 := aes_128_assist t1 t2 in
      t1 :: ks128_loop t1 rcons'
  end.
Definition ni_key_schedule_128 (key : list Z) : list (list Z) :=
  key :: ks128_loop key [0x1; 0x2; 0x4; 0x8; 0x10; 0x20; 0x40; 0x80; 0x1b; 0x36].

(** aes_amd64.rs:88-101, [key_192_assist]: the new (temp1, temp3). *)
Definition key_192_assist (t1 t2 t3 : list Z) : list Z * list Z :=
  let t2 := mm_shuffle_epi32 t2 0x55 in
  let t4 := mm_slli_si128 t1 4 in
  let t1 := mm_xor t1 t4 in
  let t4 := mm_slli_si128 t4 4 in
  let t1 := mm_xor t1 t4 in
  let t4 := mm_slli_si128 t4 4 in
  let t1 := mm_xor t1 t4 in
  let t1 := mm_xor t1 t2 in
  let t2 := mm_shuffle_epi32 t1 0xff in
  let t4 := mm_slli_si128 t3 4 in
  let t3 := mm_xor t3 t4 in
  let t3 := mm_xor t3 t2 in
  (t1, t3).

(** aes_amd64.rs:114-151, [key_schedule_192].  Line 116 loads 16 bytes at
    offset 16 of a 24-byte array: the last 8 bytes are whatever follows it in
    memory ([junk]).  Each iteration here is two assists, as in lines 119-125. *)
Fixpoint ks192_loop (t1 t3 : list Z) (rcons : list (Z * Z)) : list (list Z) :=
  match rcons with
  | [] => []
  | (rc1, rc2) :: rcons' =>
      let key_temp := t3 in
      let '(t1, t3) := key_192_assist t1 (mm_aeskeygenassist t3 rc1) t3 in
      let k1 := mm_shuffle_pd key_temp t1 0 in
      let k2 := mm_shuffle_pd t1 t3 1 in
      let '(t1, t3) := key_192_assist t1 (mm_aeskeygenassist t3 rc2) t3 in
      k1 :: k2 :: t1 :: ks192_loop t1 t3 rcons'
  end.
Definition ni_key_schedule_192 (junk key : list Z) : list (list Z) :=
  let t1 := firstn 16 key in
  let t3 := skipn 16 key ++ junk in
  t1 :: ks192_loop t1 t3 [(0x1, 0x2); (0x4, 0x8); (0x10, 0x20); (0x40, 0x80)].

(** aes_amd64.rs:154-163, [key_256_assist_1]. *)
Definition key_256_assist_1 (t1 t2 : list Z) : list Z :=
  let t2 := mm_shuffle_epi32 t2 0xff in
  let t4 := mm_slli_si128 t1 4 in
  let t1 := mm_xor t1 t4 in
  let t4 := mm_slli_si128 t4 4 in
  let t1 := mm_xor t1 t4 in
  let t4 := mm_slli_si128 t4 4 in
  let t1 := mm_xor t1 t4 in
  mm_xor t1 t2.
(** aes_amd64.rs:166-176, [key_256_assist_2]. *)
Definition key_256_assist_2 (t1 t3 : list Z) : list Z :=
  let t4 := mm_aeskeygenassist t1 0 in
  let t2 := mm_shuffle_epi32 t4 0xaa in
  let t4 := mm_slli_si128 t3 4 in
  let t3 := mm_xor t3 t4 in
  let t4 := mm_slli_si128 t4 4 in
  let t3 := mm_xor t3 t4 in
  let t4 := mm_slli_si128 t4 4 in
  let t3 := mm_xor t3 t4 in
  mm_xor t3 t2.
(** aes_amd64.rs:180-218, [key_schedule_256]; the last round constant is used
    for [key_256_assist_1] only. *)
Fixpoint ks256_loop (t1 t3 : list Z) (rcons : list Z) : list (list Z) :=
  match rcons with
  | [] => []
  | rc :: rcons' =>
      let t1 := key_256_assist_1 t1 (mm_aeskeygenassist t3 rc) in
      match rcons' with
      | [] => [t1]
      | _ => let t3 := key_256_assist_2 t1 t3 in t1 :: t3 :: ks256_loop t1 t3 rcons'
      end
  end.
Definition ni_key_schedule_256 (key : list Z) : list (list Z) :=
  let t1 := firstn 16 key in
  let t3 := skipn 16 key in
  t1 :: t3 :: ks256_loop t1 t3 [0x01; 0x02; 0x04; 0x08; 0x10; 0x20; 0x40].

(** aes_amd64.rs:26-34, [gen_dec_key]. *)
Definition gen_dec_key (enc : list (list Z)) (nr : nat) : list (list Z) :=
  [last enc []] ++ map mm_aesimc (firstn (nr - 1) (skipn 1 (rev enc))) ++ [nth 0 enc []].

(** aes_amd64.rs:18-23 and 258-301, the constructors. *)
Record aesni := mkNi { ni_enc : list (list Z); ni_dec : list (list Z); ni_nr : nat }.
Definition aesni_make (junk key : list Z) : aesni :=
  let '(enc, nr) :=
    if (length key =? 16)%nat then (ni_key_schedule_128 key, 10%nat)
    else if (length key =? 24)%nat then (ni_key_schedule_192 junk key, 12%nat)
    else (ni_key_schedule_256 key, 14%nat) in
  mkNi enc (gen_dec_key enc nr) nr.

(** aes_amd64.rs:221-231, [crypt_block_inner]. *)
Definition ni_crypt_block (a : aesni) (pb : list Z) : list Z :=
  let tmp := mm_xor pb (nth 0 (ni_enc a) []) in
  let tmp := fold_left mm_aesenc (firstn (ni_nr a - 1) (skipn 1 (ni_enc a))) tmp in
  mm_aesenclast tmp (last (ni_enc a) []).
(** aes_amd64.rs:240-250, [decrypt_block_inner]. *)
Definition ni_decrypt_block (a : aesni) (cb : list Z) : list Z :=
  let tmp := mm_xor cb (nth 0 (ni_dec a) []) in
  let tmp := fold_left mm_aesdec (firstn (ni_nr a - 1) (skipn 1 (ni_dec a))) tmp in
  mm_aesdeclast tmp (last (ni_dec a) []).

(** aes.rs:15-78 with this back end. *)
Definition aesni_new (junk key : list Z) : res aesni :=
  if ((length key =? 16) || (length key =? 24) || (length key =? 32))%nat
  then Ok (aesni_make junk key) else Err InvalidParameter.
Definition aesni_encrypt (a : aesni) (b : list Z) : res (list Z) :=
  if (length b =? 16)%nat then Ok (ni_crypt_block a b) else Err InvalidParameter.
Definition aesni_decrypt (a : aesni) (b : list Z) : res (list Z) :=
  if (length b =? 16)%nat then Ok (ni_decrypt_block a b) else Err InvalidParameter.
Definition aesni_cipher (a : aesni) : cipher := mkCipher (Some 16%nat) (aesni_encrypt a) (aesni_decrypt a).
