(** OAEP decryption with the texts of its errors, which the caller sees: CryptoError::new(kind, text), and Display prints both
    (crypto_err.rs:53-57).  Everything else is as in RsaEncModel.v. *)
From Coq Require Import String.
From Verif Require Import Base HashModel RsaModel RsaEncModel.
Local Open Scope Z_scope.

(** The Result of oaep.rs:96.  [None]: the error was passed on by [?] from [is_valid] or [PrivateKey::decrypt]; its text is not modelled. *)
Inductive answer := Opened (m : list Z) | Refused (e : err) (text : option string) | Panicked.
(** Without the texts. *)
Definition answer_kind (a : answer) : res (list Z) :=
  match a with Opened m => Ok m | Refused e _ => Err e | Panicked => Panic end.

(** The two texts of oaep.rs:133 and :150, and the text of oaep.rs:142. *)
Definition text_format : string := "Invalid message encoding format".
Definition text_label : string := "Invalid label hash value".

Section Oaep.
Context {S : Type}.
Variable D : digest S.
(** oaep.rs:132-158. *)
Definition oaep_decode_t (s : S) (lhash em : list Z) : S * answer :=
  let h := hlen D in
  if negb (nth 0 em 0 =? 0) then (s, Refused VerificationFailed (Some text_format))
  else
    let '(s, seed) := mgf1_xor D s (skipn (h + 1) em) (firstn h (skipn 1 em)) in
    let '(s, db) := mgf1_xor D s seed (skipn (h + 1) em) in
    if negb (list_eqb lhash (firstn h db)) then (s, Refused VerificationFailed (Some text_label))
    else (s, match oaep_scan (skipn h db) with
             | Ok i => Opened (skipn (h + i) db)
             | Err e => Refused e (Some text_format)
             | Panic => Panicked
             end).
(** OAEPInner::decrypt_inner, oaep.rs:96-159. *)
Definition oaep_decrypt_t (kp : keypair) (label : list Z) (s : S) (rd : option (list Z)) (c : list Z) : S * answer :=
  if (List.length c =? 0)%nat then (s, Refused InvalidPublicKey (Some "The cipher text is empty"%string))
  else match kp_private kp with
  | None => (s, Refused InvalidPrivateKey (Some "RSAES-OAEP: public key cannot be used for decryption"%string))
  | Some sk =>
    match pub_is_valid (sk_pk sk) with
    | Err e => (s, Refused e None)
    | Panic => (s, Panicked)
    | Ok _ =>
      let k := modulus_len (sk_pk sk) in
      let h := hlen D in
      if (k <? List.length c)%nat || (k <? 2 * h + 2)%nat then (s, Refused InvalidPublicKey (Some "The public key modulus is too short"%string))
      else match priv_decrypt sk (be_val c) rd with
           | Err e => (s, Refused e None)
           | Panic => (s, Panicked)
           | Ok m => let '(s, lhash) := hash_run D s [label] in oaep_decode_t s lhash (fix_len k m)
           end
    end
  end.
End Oaep.
