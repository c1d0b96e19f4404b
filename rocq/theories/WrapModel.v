(** Model of the wrapper types SHA (src/sha/sha.rs) and SHA3 (src/sha3/sha3.rs:19-108): an enumeration of hash objects behind the
    [Digest] interface. *)
From Verif Require Import Base HashModel KeccakModel.

(** sha.rs:4-14, [SHAType]; [bits_len] is part of the SHA512T object, sha512.rs:191-195. *)
Inductive sha_type :=
  | TSha1 (x : mdst) | TSha256 (x : mdst) | TSha224 (x : mdst) | TSha384 (x : mdst) | TSha512 (x : mdst)
  | TSha512T224 (x : mdst) | TSha512T256 (x : mdst) | TSha512T (bits_len : nat) (x : mdst).
(** sha.rs:22-50, 63-74. *)
Definition sha_sha1 : sha_type := TSha1 sha1_init.
Definition sha_sha256 : sha_type := TSha256 sha256_init.
Definition sha_sha224 : sha_type := TSha224 sha224_init.
Definition sha_sha384 : sha_type := TSha384 sha384_init.
Definition sha_sha512 : sha_type := TSha512 sha512_init.
Definition sha_sha512_256 : sha_type := TSha512T256 sha512t256_init.
Definition sha_sha512_224 : sha_type := TSha512T224 sha512t224_init.
(** sha.rs:52-60, [sha512t]; line 55 unwraps. *)
Definition sha_sha512t (bits_len : nat) : res (option sha_type) :=
  if (bits_len <=? 512)%nat then
    match sha512t_new bits_len with Some x => Ok (Some (TSha512T bits_len x)) | None => Panic end
  else Ok None.
(** sha.rs:78-89. *)
Definition sha_block_size (s : sha_type) : option nat :=
  match s with
  | TSha1 x => d_block_size SHA1
  | TSha224 x => d_block_size SHA224
  | TSha256 x => d_block_size SHA256
  | TSha384 x => d_block_size SHA384
  | TSha512 x => d_block_size SHA512
  | TSha512T224 x => d_block_size SHA512T224
  | TSha512T256 x => d_block_size SHA512T256
  | TSha512T t x => d_block_size (SHA512T t)
  end.
(** sha.rs:91-102. *)
Definition sha_bits_len (s : sha_type) : nat :=
  match s with
  | TSha1 x => d_bits_len SHA1
  | TSha224 x => d_bits_len SHA224
  | TSha256 x => d_bits_len SHA256
  | TSha384 x => d_bits_len SHA384
  | TSha512 x => d_bits_len SHA512
  | TSha512T224 x => d_bits_len SHA512T224
  | TSha512T256 x => d_bits_len SHA512T256
  | TSha512T t x => d_bits_len (SHA512T t)
  end.
(** sha.rs:104-115. *)
Definition sha_write (s : sha_type) (data : list Z) : sha_type :=
  match s with
  | TSha1 x => TSha1 (d_write SHA1 x data)
  | TSha224 x => TSha224 (d_write SHA224 x data)
  | TSha256 x => TSha256 (d_write SHA256 x data)
  | TSha384 x => TSha384 (d_write SHA384 x data)
  | TSha512 x => TSha512 (d_write SHA512 x data)
  | TSha512T224 x => TSha512T224 (d_write SHA512T224 x data)
  | TSha512T256 x => TSha512T256 (d_write SHA512T256 x data)
  | TSha512T t x => TSha512T t (d_write (SHA512T t) x data)
  end.
(** sha.rs:117-128. *)
Definition sha_checksum (s : sha_type) : sha_type * list Z :=
  match s with
  | TSha1 x => let '(x, d) := d_checksum SHA1 x in (TSha1 x, d)
  | TSha224 x => let '(x, d) := d_checksum SHA224 x in (TSha224 x, d)
  | TSha256 x => let '(x, d) := d_checksum SHA256 x in (TSha256 x, d)
  | TSha384 x => let '(x, d) := d_checksum SHA384 x in (TSha384 x, d)
  | TSha512 x => let '(x, d) := d_checksum SHA512 x in (TSha512 x, d)
  | TSha512T224 x => let '(x, d) := d_checksum SHA512T224 x in (TSha512T224 x, d)
  | TSha512T256 x => let '(x, d) := d_checksum SHA512T256 x in (TSha512T256 x, d)
  | TSha512T t x => let '(x, d) := d_checksum (SHA512T t) x in (TSha512T t x, d)
  end.
(** sha.rs:130-141. *)
Definition sha_reset (s : sha_type) : sha_type :=
  match s with
  | TSha1 x => TSha1 (d_reset SHA1 x)
  | TSha224 x => TSha224 (d_reset SHA224 x)
  | TSha256 x => TSha256 (d_reset SHA256 x)
  | TSha384 x => TSha384 (d_reset SHA384 x)
  | TSha512 x => TSha512 (d_reset SHA512 x)
  | TSha512T224 x => TSha512T224 (d_reset SHA512T224 x)
  | TSha512T256 x => TSha512T256 (d_reset SHA512T256 x)
  | TSha512T t x => TSha512T t (d_reset (SHA512T t) x)
  end.

(** sha3.rs:19-24, [SHA3Type]. *)
Inductive sha3_type := T3_224 (x : sha3st) | T3_256 (x : sha3st) | T3_384 (x : sha3st) | T3_512 (x : sha3st).
(** sha3.rs:33-55. *)
Definition sha3w_sha224 : sha3_type := T3_224 (sha3_init 224).
Definition sha3w_sha256 : sha3_type := T3_256 (sha3_init 256).
Definition sha3w_sha384 : sha3_type := T3_384 (sha3_init 384).
Definition sha3w_sha512 : sha3_type := T3_512 (sha3_init 512).
(** sha3.rs:58-65. *)
Definition sha3w_write_bit (s : sha3_type) (bit : Z) : sha3_type :=
  match s with
  | T3_224 x => T3_224 (sha3_write_bit x bit)
  | T3_256 x => T3_256 (sha3_write_bit x bit)
  | T3_384 x => T3_384 (sha3_write_bit x bit)
  | T3_512 x => T3_512 (sha3_write_bit x bit)
  end.
(** sha3.rs:69-76. *)
Definition sha3w_block_size (s : sha3_type) : option nat :=
  match s with
  | T3_224 x => d_block_size (SHA3 224)
  | T3_256 x => d_block_size (SHA3 256)
  | T3_384 x => d_block_size (SHA3 384)
  | T3_512 x => d_block_size (SHA3 512)
  end.
(** sha3.rs:78-85. *)
Definition sha3w_bits_len (s : sha3_type) : nat :=
  match s with
  | T3_224 x => d_bits_len (SHA3 224)
  | T3_256 x => d_bits_len (SHA3 256)
  | T3_384 x => d_bits_len (SHA3 384)
  | T3_512 x => d_bits_len (SHA3 512)
  end.
(** sha3.rs:87-94. *)
Definition sha3w_write (s : sha3_type) (data : list Z) : sha3_type :=
  match s with
  | T3_224 x => T3_224 (d_write (SHA3 224) x data)
  | T3_256 x => T3_256 (d_write (SHA3 256) x data)
  | T3_384 x => T3_384 (d_write (SHA3 384) x data)
  | T3_512 x => T3_512 (d_write (SHA3 512) x data)
  end.
(** sha3.rs:96-103. *)
Definition sha3w_checksum (s : sha3_type) : sha3_type * list Z :=
  match s with
  | T3_224 x => let '(x, d) := d_checksum (SHA3 224) x in (T3_224 x, d)
  | T3_256 x => let '(x, d) := d_checksum (SHA3 256) x in (T3_256 x, d)
  | T3_384 x => let '(x, d) := d_checksum (SHA3 384) x in (T3_384 x, d)
  | T3_512 x => let '(x, d) := d_checksum (SHA3 512) x in (T3_512 x, d)
  end.
(** sha3.rs:105-112. *)
Definition sha3w_reset (s : sha3_type) : sha3_type :=
  match s with
  | T3_224 x => T3_224 (d_reset (SHA3 224) x)
  | T3_256 x => T3_256 (d_reset (SHA3 256) x)
  | T3_384 x => T3_384 (d_reset (SHA3 384) x)
  | T3_512 x => T3_512 (d_reset (SHA3 512) x)
  end.
