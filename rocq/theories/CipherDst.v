(** The [Cipher] trait calls with their destination vector: each function takes the old content of
    [dst] and gives the new content with the returned value. *)
From Verif Require Import Base Words ModesModel AesModel AesNiModel Sm4Model DesModel.

(** aes.rs:53-64 and 66-77; [crypt_block]/[decrypt_block] append to the cleared [dst]. *)
Definition aes_encrypt_dst (a : aes) (dst b : list Z) : list Z * res nat :=
  if (length b =? 16)%nat then let dst := [] ++ crypt_block a b in (dst, Ok (length dst))
  else (dst, Err InvalidParameter).
Definition aes_decrypt_dst (a : aes) (dst b : list Z) : list Z * res nat :=
  if (length b =? 16)%nat then let dst := [] ++ decrypt_block a b in (dst, Ok (length dst))
  else (dst, Err InvalidParameter).
(** The same with the AES-NI block functions (aes_amd64.rs:221-256). *)
Definition aesni_encrypt_dst (a : aesni) (dst b : list Z) : list Z * res nat :=
  if (length b =? 16)%nat then let dst := [] ++ ni_crypt_block a b in (dst, Ok (length dst))
  else (dst, Err InvalidParameter).
Definition aesni_decrypt_dst (a : aesni) (dst b : list Z) : list Z * res nat :=
  if (length b =? 16)%nat then let dst := [] ++ ni_decrypt_block a b in (dst, Ok (length dst))
  else (dst, Err InvalidParameter).
(** des.rs:177-201: the result goes to an array, [dst] is cleared and the array appended; the
    returned length is that of the array. *)
Definition des_crypt_dst (ks : list Z) (is_encrypt : bool) (dst b : list Z) : list Z * res nat :=
  if (length b =? 8)%nat then
    let output := des_crypt_block ks is_encrypt b in ([] ++ output, Ok (length output))
  else (dst, Err InvalidParameter).
(** tdes.rs:58-71; [buf] is the object's scratch vector.  [?] returns early. *)
Definition tdes_encrypt_dst (k1 k2 k3 buf dst b : list Z) : list Z * list Z * res nat :=
  match des_crypt_dst k1 true dst b with
  | (dst, Ok _) =>
      match des_crypt_dst k2 false buf dst with
      | (buf, Ok _) => let '(dst, r) := des_crypt_dst k3 true dst buf in (buf, dst, r)
      | (buf, r) => (buf, dst, r)
      end
  | (dst, r) => (buf, dst, r)
  end.
Definition tdes_decrypt_dst (k1 k2 k3 buf dst b : list Z) : list Z * list Z * res nat :=
  match des_crypt_dst k3 false dst b with
  | (dst, Ok _) =>
      match des_crypt_dst k2 true buf dst with
      | (buf, Ok _) => let '(dst, r) := des_crypt_dst k1 false dst buf in (buf, dst, r)
      | (buf, r) => (buf, dst, r)
      end
  | (dst, r) => (buf, dst, r)
  end.
(** sm4.rs:89-110, [ed_inner]; [rk] is the key-order closure applied. *)
Definition sm4_ed_dst (rk : nat -> Z) (dst data : list Z) : list Z * res nat :=
  if negb (length data =? 16)%nat then (dst, Err InvalidParameter)
  else let dst := [] ++ sm4_block rk data in (dst, Ok (length dst)).
