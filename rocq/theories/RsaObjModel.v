(** Model of the RSA scheme objects of src/rsa as a caller uses them: construction with a generated key, the length queries, and
    objects that keep their hash state and label between calls. *)
From Verif Require Import Base HashModel RsaModel RsaEncModel.

Section Obj.
Context {S : Type}.
Variable D : digest S.

(** ** Construction with a generated key.  [few] and [gens] as in [generate_key]: the outcome of the floating point estimate and what the
    prime generator returns in each attempt. *)
(** PKCS1::auto_generate_key, pkcs1.rs:364-378. *)
Definition pkcs1_auto (t : hash_ty) (bits : nat) (few : bool) (gens : list (nat -> nat -> option Z)) : res privkey :=
  rbind (check_hash_is_support t) (fun _ =>
    if (bits <=? 11 + hlen D)%nat then Err InvalidParameter
    else rbind (generate_key bits few gens) (fun sk => rbind (pkcs1_new_uncheck t (inr sk)) (fun _ => Ok sk))).
(** OAEP::auto_generate_key, oaep.rs:244-253. *)
Definition oaep_auto (bits : nat) (few : bool) (gens : list (nat -> nat -> option Z)) : res privkey :=
  if (bits <=? 2 * hlen D + 2)%nat then Err InvalidParameter
  else rbind (generate_key bits few gens) (fun sk => rbind (oaep_new_uncheck D (inr sk)) (fun _ => Ok sk)).
(** PSS::auto_generate_key, pss.rs:107-117: key and salt length. *)
Definition pss_auto (salt : option nat) (bits : nat) (few : bool) (gens : list (nat -> nat -> option Z)) : res (privkey * nat) :=
  let sl := compute_salt_len D salt bits in
  if ((bits - 1 + 7) / 8 <? hlen D + sl + 2)%nat then Err InvalidParameter
  else rbind (generate_key bits few gens) (fun sk => rbind (pss_new_uncheck D (inr sk) (Some sl)) (fun sl => Ok (sk, sl))).

(** PKCS1::encrypt_max_message_len, pkcs1.rs:301-303. *)
Definition pkcs1_max_message_len (kp : keypair) : nat := (modulus_len (kp_public kp) - 11)%nat.
(** OAEP::max_message_len, oaep.rs:256-258; the subtractions must not underflow. *)
Definition oaep_max_message_len (kp : keypair) : res nat :=
  if (modulus_len (kp_public kp) <? 2 * hlen D + 2)%nat then Panic else Ok (modulus_len (kp_public kp) - 2 * hlen D - 2)%nat.

(** ** Objects.  Every call carries the random words and blinding values it draws. *)
(** [if is_blinding {Some(&mut rd)} else {None}]: pkcs1.rs:98-102, 162-166, oaep.rs:112-116, pss.rs:269-273. *)
Definition blinding (on : bool) (draws : list Z) : option (list Z) := if on then Some draws else None.

(** PKCS1Inner, pkcs1.rs:17-24. *)
Record pkcs1_obj := mkPkcs1 { p1_kp : keypair; p1_hf : S; p1_blind : bool }.
Inductive pkcs1_op := P1Encrypt (ws msg : list Z) | P1Decrypt (draws c : list Z) | P1Sign (draws msg : list Z) | P1Verify (sg msg : list Z).
(** pkcs1.rs:388-397, 405-413. *)
Definition pkcs1_call (t : hash_ty) (o : pkcs1_obj) (op : pkcs1_op) : pkcs1_obj * res (list Z) :=
  match op with
  | P1Encrypt ws msg => (o, pkcs1_encrypt (p1_kp o) ws msg)
  | P1Decrypt draws c => (o, pkcs1_decrypt (p1_kp o) (blinding (p1_blind o) draws) c)
  | P1Sign draws msg =>
    let '(s, r) := pkcs1_sign D t (p1_kp o) (p1_hf o) (blinding (p1_blind o) draws) msg in (mkPkcs1 (p1_kp o) s (p1_blind o), r)
  | P1Verify sg msg =>
    let '(s, r) := pkcs1_verify D t (p1_kp o) (p1_hf o) sg msg in (mkPkcs1 (p1_kp o) s (p1_blind o), rmap (fun _ => []) r)
  end.

(** OAEPInner, oaep.rs:12-20. *)
Record oaep_obj := mkOaep { oa_kp : keypair; oa_hf : S; oa_label : list Z; oa_blind : bool }.
Inductive oaep_op := OaEncrypt (ws msg : list Z) | OaDecrypt (draws c : list Z) | OaSetLabel (l : list Z).
(** oaep.rs:41-44, 211-213, 269-280. *)
Definition oaep_call (o : oaep_obj) (op : oaep_op) : oaep_obj * res (list Z) :=
  match op with
  | OaEncrypt ws msg =>
    let '(s, r) := oaep_encrypt D (oa_kp o) (oa_label o) (oa_hf o) ws msg in (mkOaep (oa_kp o) s (oa_label o) (oa_blind o), r)
  | OaDecrypt draws c =>
    let '(s, r) := oaep_decrypt D (oa_kp o) (oa_label o) (oa_hf o) (blinding (oa_blind o) draws) c in (mkOaep (oa_kp o) s (oa_label o) (oa_blind o), r)
  | OaSetLabel l => (mkOaep (oa_kp o) (oa_hf o) l (oa_blind o), Ok [])
  end.

(** PSS, pss.rs:11-20. *)
Record pss_obj := mkPss { ps_kp : keypair; ps_slen : nat; ps_hf : S; ps_blind : bool }.
Inductive pss_op := PsSign (ws draws msg : list Z) | PsVerify (sg msg : list Z).
(** pss.rs:263-316, 323-331; [chk]: a build with overflow checks. *)
Definition pss_call (chk : bool) (o : pss_obj) (op : pss_op) : pss_obj * res (list Z) :=
  match op with
  | PsSign ws draws msg =>
    let '(s, r) := pss_sign D (ps_kp o) (ps_slen o) (ps_hf o) ws (blinding (ps_blind o) draws) msg in (mkPss (ps_kp o) (ps_slen o) s (ps_blind o), r)
  | PsVerify sg msg =>
    let '(s, r) := pss_verify D chk (ps_kp o) (ps_slen o) (ps_hf o) sg msg in (mkPss (ps_kp o) (ps_slen o) s (ps_blind o), rmap (fun _ => []) r)
  end.
End Obj.
