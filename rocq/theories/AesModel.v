(** Model of src/aes/aes.rs and src/aes/aes_generic.rs (the portable AES). *)
From Verif Require Import Base Words ModesModel AesTables.

(** aes_generic.rs:23-27, [sub_word]. *)
Definition sub_word (w : Z) : Z := be_val (map (tbl AES_SBOX0) (be_bytes 4 w)).

(** aes_generic.rs:13-20, [nk_nb_nr] (nk and nr; lengths other than 16/24/32 are unreachable). *)
Definition aes_nk (keylen : nat) : nat := (keylen / 4)%nat.
Definition aes_nr (keylen : nat) : nat := (keylen / 4 + 6)%nat.

(** aes_generic.rs:36-41: the key bytes gathered into big-endian words. *)
Fixpoint key_words (fuel : nat) (key : list Z) : list Z :=
  match fuel, key with
  | S f, a :: b :: c :: d :: key' => be_val [a; b; c; d] :: key_words f key'
  | _, _ => []
  end.

(** aes_generic.rs:45-55, one step of the expansion loop.  The code writes
    [enc[i]] in a vector already resized; here the word is appended. *)
Definition ks_step (nk : nat) (enc : list Z) : list Z :=
  let i := length enc in
  let tmp := nth (i - 1) enc 0 in
  let t := if (i mod nk =? 0)%nat
           then Z.lxor (sub_word (rotl32 tmp 8)) (nth (i / nk - 1) AES_POWX 0)
           else if (6 <? nk)%nat && (i mod nk =? 4)%nat then sub_word tmp
           else tmp in
  enc ++ [Z.lxor (nth (i - nk) enc 0) t].

Fixpoint iter_step (cnt nk : nat) (enc : list Z) : list Z :=
  match cnt with O => enc | S c => iter_step c nk (ks_step nk enc) end.

(** aes_generic.rs:30-55, the encryption half of [key_schedule]. *)
Definition enc_schedule (key : list Z) : list Z :=
  let nk := aes_nk (length key) in
  let n := (4 * (aes_nr (length key) + 1))%nat in
  iter_step (n - nk) nk (key_words (length key) key).

(** aes_generic.rs:63-68: the inverse-MixColumns of a round-key word by tables. *)
Definition imc_word (x : Z) : Z :=
  match be_bytes 4 x with
  | [v0; v1; v2; v3] =>
      Z.lxor (Z.lxor (Z.lxor (tbl AES_TD0 (tbl AES_SBOX0 v0)) (tbl AES_TD1 (tbl AES_SBOX0 v1)))
             (tbl AES_TD2 (tbl AES_SBOX0 v2))) (tbl AES_TD3 (tbl AES_SBOX0 v3))
  | _ => 0
  end.

(** aes_generic.rs:57-73, the decryption half of [key_schedule]; iteration [r]
    has i = 4r. *)
Definition dec_schedule (nr : nat) (enc : list Z) : list Z :=
  let n := (4 * (nr + 1))%nat in
  flat_map (fun r =>
    let i := (4 * r)%nat in
    let ei := (n - i - 4)%nat in
    map (fun j => let x := nth (ei + j) enc 0 in
                  if (0 <? i)%nat && (i + 4 <? n)%nat then imc_word x else x) (seq 0 4))
    (seq 0 (nr + 1)).

(** aes_generic.rs:5-10. *)
Record aes := mkAes { enc_ks : list Z; dec_ks : list Z; aes_rounds : nat }.

(** aes_generic.rs:170-195, [aes_128]/[aes_192]/[aes_256]. *)
Definition aes_make (key : list Z) : aes :=
  let enc := enc_schedule key in
  mkAes enc (dec_schedule (aes_nr (length key)) enc) (aes_nr (length key)).

(** aes.rs:15-44, [AES::new]. *)
Definition aes_new (key : list Z) : res aes :=
  if ((length key =? 16) || (length key =? 24) || (length key =? 32))%nat
  then Ok (aes_make key) else Err InvalidParameter.

(** aes_generic.rs:77-81, loading a block; the state is the tuple (s0,s1,s2,s3). *)
Definition st4 : Type := Z * Z * Z * Z.
Definition load (b : list Z) : st4 :=
  (be_val (firstn 4 b), be_val (firstn 4 (skipn 4 b)),
   be_val (firstn 4 (skipn 8 b)), be_val (firstn 4 (skipn 12 b))).
(** aes_generic.rs:117-120. *)
Definition store (s : st4) : list Z :=
  let '(s0, s1, s2, s3) := s in be_bytes 4 s0 ++ be_bytes 4 s1 ++ be_bytes 4 s2 ++ be_bytes 4 s3.

(** byte [i] of [w.to_be_bytes()]. *)
Definition bt (w : Z) (i : nat) : Z := nth i (be_bytes 4 w) 0.

(** aes_generic.rs:85, the initial AddRoundKey. *)
Definition add_key (key : list Z) (k : nat) (s : st4) : st4 :=
  let '(s0, s1, s2, s3) := s in
  (Z.lxor s0 (nth k key 0), Z.lxor s1 (nth (k + 1) key 0),
   Z.lxor s2 (nth (k + 2) key 0), Z.lxor s3 (nth (k + 3) key 0)).

(** aes_generic.rs:91-94, one output word of an encryption round. *)
Definition te_word (k a b c d : Z) : Z :=
  Z.lxor (Z.lxor (Z.lxor (Z.lxor k (tbl AES_TE0 (bt a 0))) (tbl AES_TE1 (bt b 1)))
         (tbl AES_TE2 (bt c 2))) (tbl AES_TE3 (bt d 3)).

Definition enc_round (key : list Z) (k : nat) (s : st4) : st4 :=
  let '(s0, s1, s2, s3) := s in
  (te_word (nth k key 0) s0 s1 s2 s3, te_word (nth (k + 1) key 0) s1 s2 s3 s0,
   te_word (nth (k + 2) key 0) s2 s3 s0 s1, te_word (nth (k + 3) key 0) s3 s0 s1 s2).

(** aes_generic.rs:103-115, last round. *)
Definition se_word (box : list Z) (k a b c d : Z) : Z :=
  Z.lxor (be_val [tbl box (bt a 0); tbl box (bt b 1); tbl box (bt c 2); tbl box (bt d 3)]) k.

Definition enc_last (key : list Z) (k : nat) (s : st4) : st4 :=
  let '(s0, s1, s2, s3) := s in
  (se_word AES_SBOX0 (nth k key 0) s0 s1 s2 s3, se_word AES_SBOX0 (nth (k + 1) key 0) s1 s2 s3 s0,
   se_word AES_SBOX0 (nth (k + 2) key 0) s2 s3 s0 s1, se_word AES_SBOX0 (nth (k + 3) key 0) s3 s0 s1 s2).

(** aes_generic.rs:88-100 followed by the last round. *)
Fixpoint enc_loop (key : list Z) (cnt k : nat) (s : st4) : st4 :=
  match cnt with
  | O => enc_last key k s
  | S c => enc_loop key c (k + 4) (enc_round key k s)
  end.

(** aes_generic.rs:76-121, [crypt_block]. *)
Definition crypt_block (a : aes) (pb : list Z) : list Z :=
  store (enc_loop (enc_ks a) (aes_rounds a - 1) 4 (add_key (enc_ks a) 0 (load pb))).

(** aes_generic.rs:138-141. *)
Definition td_word (k a b c d : Z) : Z :=
  Z.lxor (Z.lxor (Z.lxor (Z.lxor k (tbl AES_TD0 (bt a 0))) (tbl AES_TD1 (bt b 1)))
         (tbl AES_TD2 (bt c 2))) (tbl AES_TD3 (bt d 3)).

Definition dec_round (key : list Z) (k : nat) (s : st4) : st4 :=
  let '(s0, s1, s2, s3) := s in
  (td_word (nth k key 0) s0 s3 s2 s1, td_word (nth (k + 1) key 0) s1 s0 s3 s2,
   td_word (nth (k + 2) key 0) s2 s1 s0 s3, td_word (nth (k + 3) key 0) s3 s2 s1 s0).

(** aes_generic.rs:149-162. *)
Definition dec_last (key : list Z) (k : nat) (s : st4) : st4 :=
  let '(s0, s1, s2, s3) := s in
  (se_word AES_SBOX1 (nth k key 0) s0 s3 s2 s1, se_word AES_SBOX1 (nth (k + 1) key 0) s1 s0 s3 s2,
   se_word AES_SBOX1 (nth (k + 2) key 0) s2 s1 s0 s3, se_word AES_SBOX1 (nth (k + 3) key 0) s3 s2 s1 s0).

Fixpoint dec_loop (key : list Z) (cnt k : nat) (s : st4) : st4 :=
  match cnt with
  | O => dec_last key k s
  | S c => dec_loop key c (k + 4) (dec_round key k s)
  end.

(** aes_generic.rs:123-168, [decrypt_block]. *)
Definition decrypt_block (a : aes) (cb : list Z) : list Z :=
  store (dec_loop (dec_ks a) (aes_rounds a - 1) 4 (add_key (dec_ks a) 0 (load cb))).

(** aes.rs:47-78, [impl Cipher for AES].  On a wrong block length [dst] is left
    unchanged (the match arm returns before [dst.clear()]). *)
Definition aes_encrypt (a : aes) (b : list Z) : res (list Z) :=
  if (length b =? 16)%nat then Ok (crypt_block a b) else Err InvalidParameter.
Definition aes_decrypt (a : aes) (b : list Z) : res (list Z) :=
  if (length b =? 16)%nat then Ok (decrypt_block a b) else Err InvalidParameter.
Definition aes_cipher (a : aes) : cipher := mkCipher (Some 16%nat) (aes_encrypt a) (aes_decrypt a).
