(** Model of src/rsa/pkcs1.rs, oaep.rs and pss.rs.
    The digest object is any [digest] record (HashModel.v); randomness is passed in: [ws] are the u32 words the random
    source yields, [rd] the draws of the blinding loop (None: blinding disabled).  On an error the contents left in the
    destination are not modelled.  [to_be_bytes] of rmath is taken to return the shortest encoding. *)
From Verif Require Import Base HashModel NumTheory RsaModel.

(** BigInt::to_be_bytes. *)
Definition to_be_bytes (x : Z) : list Z := be_bytes ((bits_len x + 7) / 8) x.
(** [resize(k, 0); rotate_right(k - old_len)] or [truncate(k)]: pkcs1.rs:103-110, 187-194, oaep.rs:124-131. *)
Definition fix_len (k : nat) (x : Z) : list Z :=
  let em := to_be_bytes x in
  if (length em <? k)%nat then repeat 0 (k - length em) ++ em else firstn k em.
(** [resize(k.saturating_sub(len), 0)] then append: pkcs1.rs:76-79, 168-172, pss.rs:275-279. *)
Definition left_pad (k : nat) (x : Z) : list Z :=
  let c := to_be_bytes x in repeat 0 (k - length c) ++ c.
(** Slice comparison. *)
Fixpoint list_eqb (a b : list Z) : bool :=
  match a, b with
  | [], [] => true
  | x :: a, y :: b => (x =? y) && list_eqb a b
  | _, _ => false
  end.
(** [hf.reset(); hf.write(..); ...; hf.checksum(..)]. *)
Definition hash_run {S} (D : digest S) (s : S) (ws : list (list Z)) : S * list Z :=
  d_checksum D (fold_left (d_write D) ws (d_reset D s)).
(** [(bits_len() + 7) >> 3] of the digest: pkcs1.rs:140, 177, oaep.rs:48, 105, pss.rs:42, 158, 199. *)
Definition hlen {S} (D : digest S) : nat := ((d_bits_len D + 7) / 8)%nat.

(** ** PKCS1 (pkcs1.rs) *)
(** The padding loop, pkcs1.rs:58-68: the words' non-zero bytes are pushed until [em.len() > bound]. *)
Fixpoint ps_loop (em : list Z) (bound : nat) (ws : list Z) : list Z :=
  match ws with
  | [] => em
  | w :: ws =>
    let em := em ++ filter (fun x => negb (x =? 0)) (be_bytes 4 w) in
    if (bound <? length em)%nat then em else ps_loop em bound ws
  end.
(** PKCS1Inner::encrypt, pkcs1.rs:40-81. *)
Definition pkcs1_encrypt (kp : keypair) (ws : list Z) (msg : list Z) : res (list Z) :=
  if (length msg =? 0)%nat then Ok []
  else
    rbind (pub_is_valid (kp_public kp)) (fun _ =>
      let k := modulus_len (kp_public kp) in
      if (k - 11 <? length msg)%nat then Err InvalidParameter
      else
        let bound := (k - length msg - 3 + 2)%nat in
        let em := firstn bound (ps_loop [0; 2] bound ws) ++ [0] ++ msg in
        Ok (left_pad k (pub_encrypt (kp_public kp) (be_val em)))).
(** The number of leading non-zero bytes, pkcs1.rs:116-123. *)
Fixpoint nonzero_run (l : list Z) : nat := match l with [] => 0 | x :: l => if x =? 0 then 0 else S (nonzero_run l) end.
(** The decoding, pkcs1.rs:112-132. *)
Definition pkcs1_decode (em : list Z) : res (list Z) :=
  if (length em <=? 11)%nat || negb (nth 0 em 0 =? 0) || negb (nth 1 em 0 =? 2) then Err VerificationFailed
  else
    let idx := (2 + nonzero_run (skipn 2 em))%nat in
    if (idx =? length em)%nat || (idx <? 10)%nat then Err VerificationFailed else Ok (skipn (idx + 1) em).
(** PKCS1Inner::decrypt, pkcs1.rs:83-133. *)
Definition pkcs1_decrypt (kp : keypair) (rd : option (list Z)) (c : list Z) : res (list Z) :=
  let k := modulus_len (kp_public kp) in
  if (k <=? 11)%nat then Err InvalidPublicKey
  else if negb (k =? length c)%nat then Err InvalidParameter
  else match kp_private kp with
       | None => Err InvalidPrivateKey
       | Some sk =>
         rbind (pub_is_valid (sk_pk sk)) (fun _ =>
           rbind (priv_decrypt sk (be_val c) rd) (fun m => pkcs1_decode (fix_len k m)))
       end.

(** The digest types PKCS1 distinguishes by TypeId, pkcs1.rs:225-241. *)
Inductive hash_ty := TMD5 | TSHA1 | TSHA224 | TSHA256 | TSHA384 | TSHA512 | TOther.
(** PKCS1Inner::pkcs1_hash_prefix, pkcs1.rs:225-241; [None] is the [unreachable!] panic. *)
Definition hash_prefix (t : hash_ty) : option (list Z) :=
  match t with
  | TMD5 => Some [0x30; 0x20; 0x30; 0x0c; 0x06; 0x08; 0x2a; 0x86; 0x48; 0x86; 0xf7; 0x0d; 0x02; 0x05; 0x05; 0x00; 0x04; 0x10]
  | TSHA1 => Some [0x30; 0x21; 0x30; 0x09; 0x06; 0x05; 0x2b; 0x0e; 0x03; 0x02; 0x1a; 0x05; 0x00; 0x04; 0x14]
  | TSHA224 => Some [0x30; 0x2d; 0x30; 0x0d; 0x06; 0x09; 0x60; 0x86; 0x48; 0x01; 0x65; 0x03; 0x04; 0x02; 0x04; 0x05; 0x00; 0x04; 0x1c]
  | TSHA256 => Some [0x30; 0x31; 0x30; 0x0d; 0x06; 0x09; 0x60; 0x86; 0x48; 0x01; 0x65; 0x03; 0x04; 0x02; 0x01; 0x05; 0x00; 0x04; 0x20]
  | TSHA384 => Some [0x30; 0x41; 0x30; 0x0d; 0x06; 0x09; 0x60; 0x86; 0x48; 0x01; 0x65; 0x03; 0x04; 0x02; 0x02; 0x05; 0x00; 0x04; 0x30]
  | TSHA512 => Some [0x30; 0x51; 0x30; 0x0d; 0x06; 0x09; 0x60; 0x86; 0x48; 0x01; 0x65; 0x03; 0x04; 0x02; 0x03; 0x05; 0x00; 0x04; 0x40]
  | TOther => None
  end.
(** PKCS1::check_hash_is_support, pkcs1.rs:303-319: [h != MD5 || h != SHA1 || ...]. *)
Definition hash_ty_eqb (a b : hash_ty) : bool :=
  match a, b with
  | TMD5, TMD5 | TSHA1, TSHA1 | TSHA224, TSHA224 | TSHA256, TSHA256 | TSHA384, TSHA384 | TSHA512, TSHA512 | TOther, TOther => true
  | _, _ => false
  end.
Definition check_hash_is_support (t : hash_ty) : res unit :=
  if negb (hash_ty_eqb t TMD5) then Ok tt else if negb (hash_ty_eqb t TSHA1) then Ok tt
  else if negb (hash_ty_eqb t TSHA224) then Ok tt else if negb (hash_ty_eqb t TSHA256) then Ok tt
  else if negb (hash_ty_eqb t TSHA384) then Ok tt else if negb (hash_ty_eqb t TSHA512) then Ok tt else Err NotSupportUsage.
(** [key.is_valid()] of [new]: pkcs1.rs:354-358, oaep.rs:235-239, pss.rs:98-102. *)
Definition kp_is_valid (kp : keypair) : res unit :=
  match kp_private kp with Some sk => priv_is_valid sk | None => pub_is_valid (kp_public kp) end.
(** PKCS1::new_uncheck and PKCS1::new, pkcs1.rs:336-362: whether the object is created. *)
Definition pkcs1_new_uncheck (t : hash_ty) (kp : keypair) : res unit :=
  rbind (check_hash_is_support t) (fun _ => if (modulus_len (kp_public kp) <=? 11)%nat then Err InvalidParameter else Ok tt).
Definition pkcs1_new (t : hash_ty) (kp : keypair) : res unit :=
  rbind (check_hash_is_support t) (fun _ => rbind (kp_is_valid kp) (fun _ => pkcs1_new_uncheck t kp)).

Section Pkcs1Sign.
Context {S : Type}.
Variables (D : digest S) (t : hash_ty).
(** PKCS1Inner::sign, pkcs1.rs:139-174; the new digest state is returned beside the signature. *)
Definition pkcs1_sign (kp : keypair) (s : S) (rd : option (list Z)) (msg : list Z) : S * res (list Z) :=
  match hash_prefix t with
  | None => (s, Panic)
  | Some prefix =>
    match kp_private kp with
    | None => (s, Err InvalidPrivateKey)
    | Some sk =>
      let t_len := (length prefix + hlen D)%nat in
      let k := modulus_len (sk_pk sk) in
      if (k <? t_len + 11)%nat then (s, Err InvalidPrivateKey)
      else
        let '(s', dg) := hash_run D s [msg] in
        let em := [0; 1] ++ repeat 255 (k - t_len - 3) ++ [0] ++ prefix ++ dg in
        (s', rbind (priv_decrypt_check sk (be_val em) rd) (fun c => Ok (left_pad k c)))
    end
  end.
(** PKCS1Inner::verify, pkcs1.rs:176-215. *)
Definition pkcs1_verify (kp : keypair) (s : S) (sign msg : list Z) : S * res unit :=
  match hash_prefix t with
  | None => (s, Panic)
  | Some prefix =>
    let h := hlen D in
    let t_len := (length prefix + h)%nat in
    let k := modulus_len (kp_public kp) in
    if (k <? t_len + 11)%nat then (s, Err VerificationFailed)
    else
      let em := fix_len k (pub_encrypt (kp_public kp) (be_val sign)) in
      if negb (nth 0 em 0 =? 0) || negb (nth 1 em 0 =? 1)
         || negb (list_eqb (firstn (length prefix) (skipn (k - t_len) em)) prefix) || negb (nth (k - t_len - 1) em 0 =? 0)
      then (s, Err VerificationFailed)
      else
        let '(s', dg) := hash_run D s [msg] in
        if negb (list_eqb (skipn (k - h) em) dg) then (s', Err VerificationFailed)
        else if forallb (fun e => e =? 255) (firstn (k - t_len - 3) (skipn 2 em)) then (s', Ok tt) else (s', Err VerificationFailed)
  end.
End Pkcs1Sign.

(** ** MGF1 (oaep.rs:161-179, pss.rs:137-154) *)
Section Mgf.
Context {S : Type}.
Variable D : digest S.
(** The loop; [out] is the part not yet masked, [done] is implicit.  The seed slice is disjoint from the output slice.
    [count.to_be_bytes()] is [be_bytes 4] (a counter overflow would need an output of 2^32 digests). *)
Fixpoint mgf1_loop (fuel : nat) (s : S) (seed : list Z) (count : Z) (out : list Z) : S * list Z :=
  match fuel, out with
  | O, _ => (s, out)
  | _, [] => (s, [])
  | Datatypes.S fuel, _ =>
    let '(s, dg) := hash_run D s [seed; be_bytes 4 count] in
    let n := length dg in
    let '(s', rest) := mgf1_loop fuel s seed (count + 1) (skipn n out) in
    (s', xorl (firstn n out) dg ++ rest)
  end.
Definition mgf1_xor (s : S) (seed out : list Z) : S * list Z := mgf1_loop (length out) s seed 0 out.

(** ** OAEP (oaep.rs) *)
(** OAEP::new_uncheck and OAEP::new, oaep.rs:218-242: whether the object is created. *)
Definition oaep_new_uncheck (kp : keypair) : res unit :=
  if (modulus_len (kp_public kp) <=? 2 * hlen D + 2)%nat then Err InvalidParameter else Ok tt.
Definition oaep_new (kp : keypair) : res unit := rbind (kp_is_valid kp) (fun _ => oaep_new_uncheck kp).

(** OAEPInner::encrypt_inner, oaep.rs:46-94.  [k - 2h - 2] must not underflow ([new_uncheck] excludes it). *)
Definition oaep_encrypt (kp : keypair) (label : list Z) (s : S) (ws : list Z) (msg : list Z) : S * res (list Z) :=
  match pub_is_valid (kp_public kp) with
  | Err e => (s, Err e)
  | Panic => (s, Panic)
  | Ok _ =>
    let k := modulus_len (kp_public kp) in
    let h := hlen D in
    if (k <? 2 * h + 2)%nat then (s, Panic)
    else if (k - 2 * h - 2 <? length msg)%nat then (s, Err InvalidParameter)
    else
      let '(s, lhash) := hash_run D s [label] in
      let seed := firstn h (flat_map (be_bytes 4) (firstn ((h + 3) / 2) ws)) in
      let em := [0] ++ seed ++ lhash ++ repeat 0 (k - (length msg + 2 * h + 2)) ++ [1] ++ msg in
      if negb (length em =? k)%nat then (s, Err InnerErr)
      else
        let '(s, db) := mgf1_xor s (firstn h (skipn 1 em)) (skipn (h + 1) em) in
        let '(s, sd) := mgf1_xor s db (firstn h (skipn 1 em)) in
        let c := to_be_bytes (pub_encrypt (kp_public kp) (be_val ([0] ++ sd ++ db))) in
        (s, Ok (if (length c <? k)%nat then repeat 0 (k - length c) ++ c else firstn k c))
  end.

(** The scan for the separator, oaep.rs:145-153: the number of bytes consumed, or an error. *)
Fixpoint oaep_scan (l : list Z) : res nat :=
  match l with
  | [] => Ok 0%nat
  | x :: l => if x =? 0 then rmap Datatypes.S (oaep_scan l) else if x =? 1 then Ok 1%nat else Err VerificationFailed
  end.
(** oaep.rs:133-158: the decoding of the encoded message. *)
Definition oaep_decode (s : S) (lhash em : list Z) : S * res (list Z) :=
  let h := hlen D in
  if negb (nth 0 em 0 =? 0) then (s, Err VerificationFailed)
  else
    let '(s, seed) := mgf1_xor s (skipn (h + 1) em) (firstn h (skipn 1 em)) in
    let '(s, db) := mgf1_xor s seed (skipn (h + 1) em) in
    if negb (list_eqb lhash (firstn h db)) then (s, Err VerificationFailed)
    else (s, rbind (oaep_scan (skipn h db)) (fun i => Ok (skipn (h + i) db))).
(** OAEPInner::decrypt_inner, oaep.rs:96-159. *)
Definition oaep_decrypt (kp : keypair) (label : list Z) (s : S) (rd : option (list Z)) (c : list Z) : S * res (list Z) :=
  if (length c =? 0)%nat then (s, Err InvalidPublicKey)
  else match kp_private kp with
  | None => (s, Err InvalidPrivateKey)
  | Some sk =>
    match pub_is_valid (sk_pk sk) with
    | Err e => (s, Err e)
    | Panic => (s, Panic)
    | Ok _ =>
      let k := modulus_len (sk_pk sk) in
      let h := hlen D in
      if (k <? length c)%nat || (k <? 2 * h + 2)%nat then (s, Err InvalidPublicKey)
      else match priv_decrypt sk (be_val c) rd with
           | Err e => (s, Err e)
           | Panic => (s, Panic)
           | Ok m => let '(s, lhash) := hash_run D s [label] in oaep_decode s lhash (fix_len k m)
           end
    end
  end.

(** ** PSS (pss.rs) *)
(** PSS::compute_salt_len, pss.rs:56-69. *)
Definition compute_salt_len (salt : option nat) (bits : nat) : nat :=
  match salt with
  | Some x => if (0 <? x)%nat then x else ((bits + 7) / 8 - (2 + hlen D))%nat
  | None => hlen D
  end.
(** PSS::new_uncheck and PSS::new, pss.rs:77-105: the salt length of the created object.
    [bits_len() - 1] must not underflow. *)
Definition pss_new_uncheck (kp : keypair) (salt : option nat) : res nat :=
  let bits := bits_len (pk_n (kp_public kp)) in
  let sl := compute_salt_len salt bits in
  if (bits =? 0)%nat then Panic
  else if ((bits - 1 + 7) / 8 <? hlen D + sl + 2)%nat then Err InvalidParameter else Ok sl.
Definition pss_new (kp : keypair) (salt : option nat) : res nat := rbind (kp_is_valid kp) (fun _ => pss_new_uncheck kp salt).

(** PSS::emsa_pss_encode, pss.rs:157-195. *)
Definition emsa_pss_encode (s : S) (msg : list Z) (em_bits : nat) (salt : list Z) : S * res (list Z) :=
  let h := hlen D in
  let sl := length salt in
  let em_len := ((em_bits + 7) / 8)%nat in
  if (em_len <? h + sl + 2)%nat then (s, Err InnerErr)
  else
    let '(s, mh) := hash_run D s [msg] in
    if negb (h =? length mh)%nat then (s, Err VerificationFailed)
    else
      let '(s, hh) := hash_run D s [repeat 0 8; mh; salt] in
      let db := repeat 0 (em_len - sl - h - 2) ++ [1] ++ salt in
      let '(s, db) := mgf1_xor s hh db in
      match db with
      | [] => (s, Panic)
      | d0 :: ds => (s, Ok (Z.land d0 (Z.shiftr 255 (Z.of_nat (8 * em_len - em_bits))) :: ds ++ hh ++ [0xbc]))
      end.

(** A shift of a u8 by [n]: with overflow checks ([chk]) an amount of 8 or more panics, without them it is taken modulo 8. *)
Definition shl8 (chk : bool) (x n : Z) : res Z := if chk && (8 <=? n) then Panic else Ok (Z.land (Z.shiftl x (n mod 8)) 255).
Definition shr8 (chk : bool) (x n : Z) : res Z := if chk && (8 <=? n) then Panic else Ok (Z.shiftr x (n mod 8)).
(** usize subtraction: panics on underflow with overflow checks, wraps modulo 2^64 without. *)
Definition usub (chk : bool) (a b : Z) : res Z := if a <? b then (if chk then Panic else Ok ((a - b) mod 2 ^ 64)) else Ok (a - b).

(** PSS::emsa_pss_verify, pss.rs:198-257; [chk] says whether the build has overflow checks; [sl] is self.slen. *)
Definition emsa_pss_verify (chk : bool) (sl : nat) (s : S) (em msg : list Z) (em_bits : nat) : S * res unit :=
  let h := hlen D in
  let '(s, mh) := hash_run D s [msg] in
  if negb (h =? length mh)%nat then (s, Err VerificationFailed)
  else
    let em_len := ((em_bits + 7) / 8)%nat in
    if negb (em_len =? length em)%nat || (em_len <? h + sl + 2)%nat then (s, Err VerificationFailed)
    else if negb (nth (em_len - 1) em 0 =? 0xbc) then (s, Err VerificationFailed)
    else
      match shl8 chk 255 (8 - Z.of_nat (8 * em_len - em_bits)) with
      | Err e => (s, Err e) | Panic => (s, Panic)
      | Ok mask =>
        if negb (Z.land (nth 0 em 0) mask =? 0) then (s, Err VerificationFailed)
        else
          let hh := firstn h (skipn (em_len - h - 1) em) in
          let '(s, db) := mgf1_xor s hh (firstn (em_len - h - 1) em) in
          match rbind (usub chk (Z.of_nat (em_len / 8)) (Z.of_nat em_bits)) (shr8 chk 255) with
          | Err e => (s, Err e) | Panic => (s, Panic)
          | Ok mask2 =>
            let db := match db with [] => [] | d0 :: ds => Z.land d0 mask2 :: ds end in
            if negb (forallb (fun e => e =? 0) (firstn (em_len - h - sl - 2) db)) then (s, Err VerificationFailed)
            else if negb (nth (em_len - h - sl - 2) db 0 =? 1) then (s, Err VerificationFailed)
            else
              let '(s, hh2) := hash_run D s [repeat 0 8; mh; skipn (length db - sl) db] in
              if negb (list_eqb hh2 hh) then (s, Err VerificationFailed) else (s, Ok tt)
          end
      end.

(** PSS::sign_with_salt and PSS::sign_inner, pss.rs:263-292. *)
Definition pss_sign_with_salt (kp : keypair) (s : S) (rd : option (list Z)) (msg salt : list Z) : S * res (list Z) :=
  let n_bits := bits_len (pk_n (kp_public kp)) in
  match emsa_pss_encode s msg (n_bits - 1) salt with
  | (s, Err e) => (s, Err e) | (s, Panic) => (s, Panic)
  | (s, Ok em) =>
    match kp_private kp with
    | None => (s, Err InvalidPrivateKey)
    | Some sk => (s, rbind (priv_decrypt_check sk (be_val em) rd) (fun c => Ok (left_pad ((n_bits + 7) / 8) c)))
    end
  end.
Definition pss_sign (kp : keypair) (sl : nat) (s : S) (ws : list Z) (rd : option (list Z)) (msg : list Z) : S * res (list Z) :=
  pss_sign_with_salt kp s rd msg (firstn sl (flat_map (be_bytes 4) (firstn ((sl + 3) / 4) ws))).
(** PSS::verify_inner, pss.rs:294-316. *)
Definition pss_verify (chk : bool) (kp : keypair) (sl : nat) (s : S) (sign msg : list Z) : S * res unit :=
  let n_bits := bits_len (pk_n (kp_public kp)) in
  if negb (length sign =? (n_bits + 7) / 8)%nat then (s, Err VerificationFailed)
  else
    let m := pub_encrypt (kp_public kp) (be_val sign) in
    let em_bits := (n_bits - 1)%nat in
    let em_len := ((em_bits + 7) / 8)%nat in
    if (em_len <? (bits_len m + 7) / 8)%nat then (s, Err VerificationFailed)
    else emsa_pss_verify chk sl s (left_pad em_len m) msg em_bits.
End Mgf.
