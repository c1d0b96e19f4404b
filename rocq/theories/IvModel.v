(** Model of the [update_iv] methods of src/cipher_mode/cfb.rs and ofb.rs, and of the three modes' [update_iv] with the
    initial-vector source [DefaultInitialVec] of initial_vec.rs, whose random source may fail. *)
From Verif Require Import Base ModesModel.

(** cfb.rs:66-79, [CFB::update_iv]: as in CBC, [cur_iv] is overwritten before the length is checked. *)
Definition cfb_update_iv (o : cfb) (ivr : list Z * res unit) : cfb * res (list Z) :=
  (mkCfb (cfb_s o) (cfb_cipher o) (cfb_pad o) (fst ivr), iv_check (cfb_cipher o) ivr).
(** ofb.rs:42-52, [OFB::update_iv]. *)
Definition ofb_update_iv (o : ofb) (ivr : list Z * res unit) : ofb * res (list Z) :=
  (mkOfb (ofb_cipher o) (fst ivr), iv_check (ofb_cipher o) ivr).
(** initial_vec.rs:16-22, [DefaultInitialVec::new]: the [block_size] it keeps. *)
Definition default_iv_size (c : cipher) : nat := match blk c with Some n => n | None => 0%nat end.
(** cbc.rs:51-64, cfb.rs:66-79, ofb.rs:42-52 with a [DefaultInitialVec] on [rnd]: new object, rest of [rnd], returned value. *)
Definition cbc_update (o : cbc) (rnd : list (option Z)) : cbc * list (option Z) * res (list Z) :=
  let '(iv, st, rnd') := default_initial_vec (default_iv_size (cbc_cipher o)) rnd in
  let '(o', r) := cbc_update_iv o (iv, st) in (o', rnd', r).
Definition cfb_update (o : cfb) (rnd : list (option Z)) : cfb * list (option Z) * res (list Z) :=
  let '(iv, st, rnd') := default_initial_vec (default_iv_size (cfb_cipher o)) rnd in
  let '(o', r) := cfb_update_iv o (iv, st) in (o', rnd', r).
Definition ofb_update (o : ofb) (rnd : list (option Z)) : ofb * list (option Z) * res (list Z) :=
  let '(iv, st, rnd') := default_initial_vec (default_iv_size (ofb_cipher o)) rnd in
  let '(o', r) := ofb_update_iv o (iv, st) in (o', rnd', r).
(** cbc.rs:66-68, cfb.rs:81-83, ofb.rs:54-56, [cur_iv]: [cbc_iv], [cfb_iv], [ofb_iv]. *)
