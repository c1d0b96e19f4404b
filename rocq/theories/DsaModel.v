(** Model of src/dsa/dsa.rs and src/dsa/signature.rs.
    As in RsaModel.v rmath's BigInt is [Z], with [exp] the modular power, [mod_inverse] the inverse or NaN ([None]), [random] a
    number the caller supplies as a draw, [generate_prime] and [probably_prime_test] functions the caller supplies.
    NaN parameters are not modelled.  Display, Debug and Clone are not modelled. *)
From Verif Require Import Base HashModel NumTheory RsaModel RsaEncModel.

(** DomainParameters, dsa.rs:9-15. *)
Record dsa_dp := mkDp { dp_p : Z; dp_q : Z; dp_g : Z }.
(** PublicKey, dsa.rs:27-31. *)
Record dsa_pub := mkDpub { dk_dp : dsa_dp; dk_y : Z }.
(** PrivateKey, dsa.rs:42-46. *)
Record dsa_priv := mkDpriv { ds_pk : dsa_pub; ds_x : Z }.
(** KeyPair, dsa.rs:489-529: made from one of the two. *)
Definition dsa_kp := (dsa_pub + dsa_priv)%type.
Definition dkp_public (k : dsa_kp) : dsa_pub := match k with inl p => p | inr s => ds_pk s end.
Definition dkp_private (k : dsa_kp) : option dsa_priv := match k with inl _ => None | inr s => Some s end.

(** DomainParameters::new_uncheck, dsa.rs:381-394, for non-negative numbers. *)
Definition dp_new_uncheck (p q g : Z) : res dsa_dp :=
  let p_len := bits_len p in let q_len := bits_len q in let g_len := bits_len g in
  if (p_len =? 0)%nat || (q_len =? 0)%nat || (g_len =? 0)%nat || (p_len <? g_len)%nat then Err InvalidParameter else Ok (mkDp p q g).
(** PublicKey::new_uncheck, dsa.rs:412-424, for non-negative numbers. *)
Definition dpub_new_uncheck (dp : dsa_dp) (y : Z) : res dsa_pub :=
  let y_len := bits_len y in
  if (y_len =? 0)%nat || (bits_len (dp_p dp) <? y_len)%nat then Err InvalidParameter else Ok (mkDpub dp y).
(** PrivateKey::new_uncheck, dsa.rs:444-456. *)
Definition dpriv_new_uncheck (pk : dsa_pub) (x : Z) : res dsa_priv :=
  if (Z.sgn x =? -1) || (Z.sgn x =? 0) || (dp_q (dk_dp pk) <=? x) then Err InvalidParameter else Ok (mkDpriv pk x).

(** ** Parameter generation *)
(** dsa.rs:84-87: the bytes drawn, cut to [n] of them, with the last bit and the first bit set. *)
Definition or_last (l : list Z) : list Z := match rev l with [] => [] | x :: r => rev (Z.lor x 1 :: r) end.
Definition or_first (l : list Z) : list Z := match l with [] => [] | x :: r => Z.lor x 128 :: r end.
Definition p_bytes (n : nat) (ws : list Z) : list Z := or_first (or_last (firstn n (flat_map (be_bytes 4) ws))).
(** dsa.rs:87-92. *)
Definition p_adjust (p q : Z) : Z := let rem := p mod q in let p := p + 1 in if rem =? 0 then p else p - rem.
(** dsa.rs:73-103: [cand i] are the words drawn in round [i] and [test i] the outcome of its primality test. *)
Fixpoint try_p (l_len : nat) (q : Z) (cand : nat -> list Z) (test : nat -> Z -> bool) (i rounds : nat) : option Z :=
  match rounds with
  | O => None
  | S rounds =>
    let p := p_adjust (be_val (p_bytes (l_len / 8) (cand i))) q in
    if (bits_len p <? l_len)%nat then try_p l_len q cand test (S i) rounds
    else if negb (test i p) then try_p l_len q cand test (S i) rounds
    else Some p
  end.
(** dsa.rs:111-125: [fuel] bounds the values of h tried. *)
Fixpoint find_g (fuel : nat) (h e p : Z) : option Z :=
  match fuel with
  | O => None
  | S fuel => let g := powmod h e p in if g =? 1 then find_g fuel (h + 1) e p else Some g
  end.
(** One pass of the loop of dsa.rs:70-104: the result of generate_prime, and the draws of the rounds. *)
Record dsa_attempt := mkAtt { at_q : option Z; at_cand : nat -> list Z; at_test : nat -> Z -> bool }.
(** generate_parameters_inner, dsa.rs:66-126.  Running out of attempts or fuel stands for a loop not ending. *)
Fixpoint generate_parameters (fuel l_len : nat) (atts : list dsa_attempt) : res dsa_dp :=
  match atts with
  | [] => Panic
  | a :: atts =>
    match at_q a with
    | None => Err OuterErr
    | Some q =>
      match try_p l_len q (at_cand a) (at_test a) 0 (4 * l_len) with
      | None => generate_parameters fuel l_len atts
      | Some p => match find_g fuel 2 ((p - 1) / q) p with Some g => Ok (mkDp p q g) | None => Panic end
      end
    end
  end.
(** generate_key_inner, dsa.rs:128-147: [draws] are what [q.random] yields. *)
Fixpoint dsa_generate_key (dp : dsa_dp) (draws : list Z) : res dsa_priv :=
  match draws with
  | [] => Panic
  | x :: draws =>
    if negb (x =? 0) && (x <? dp_q dp) then Ok (mkDpriv (mkDpub dp (powmod (dp_g dp) x (dp_p dp))) x) else dsa_generate_key dp draws
  end.

(** ** Signatures *)
(** fermat_inverse, dsa.rs:153-157. *)
Definition fermat_inverse (k p : Z) : Z := powmod k (p - 2) p.
(** dsa.rs:276-281: the first positive draw, and the rest. *)
Fixpoint next_k (draws : list Z) : option (Z * list Z) :=
  match draws with [] => None | k :: draws => if Z.sgn k =? 1 then Some (k, draws) else next_k draws end.
(** dsa.rs:275-306: up to [tries] nonces; [z] is the truncated digest. *)
Fixpoint sign_loop (tries : nat) (dp : dsa_dp) (x z : Z) (draws : list Z) : res (Z * Z) :=
  match tries with
  | O => Err InvalidPrivateKey
  | S tries =>
    match next_k draws with
    | None => Panic
    | Some (k, draws) =>
      let r := powmod (dp_g dp) k (dp_p dp) mod dp_q dp in
      if negb (Z.sgn r =? 1) then sign_loop tries dp x z draws
      else
        let kinv := fermat_inverse k (dp_q dp) in
        let s := (((x * r + z) mod dp_q dp) * kinv) mod dp_q dp in
        if Z.sgn s =? 1 then Ok (r, s) else sign_loop tries dp x z draws
    end
  end.
Section Dsa.
Context {S : Type}.
Variable D : digest S.
(** sign_inner, dsa.rs:258-307. *)
Definition sign_inner (kp : dsa_kp) (s : S) (draws msg : list Z) : S * res (Z * Z) :=
  match dkp_private kp with
  | None => (s, Err InvalidPrivateKey)
  | Some sk =>
    let dp := dk_dp (ds_pk sk) in
    let n := bits_len (dp_q dp) in
    if negb (Z.sgn (dp_q dp) =? 1) || negb (Z.sgn (dp_p dp) =? 1) || negb (Z.sgn (dp_g dp) =? 1) || negb (Z.sgn (ds_x sk) =? 1) || negb (n mod 8 =? 0)%nat
    then (s, Err InvalidPrivateKey)
    else
      let '(s', hm) := hash_run D s [msg] in
      let tmp := Nat.min (hlen D) (n / 8) in
      (s', if (length hm <? tmp)%nat then Panic else sign_loop 10 dp (ds_x sk) (be_val (firstn tmp hm)) draws)
  end.
(** verify_inner, dsa.rs:310-351. *)
Definition verify_inner (kp : dsa_kp) (st : S) (msg : list Z) (r s : Z) : S * res unit :=
  let pk := dkp_public kp in
  let dp := dk_dp pk in
  let n := bits_len (dp_q dp) in
  if negb (Z.sgn (dp_p dp) =? 1) || negb (n mod 8 =? 0)%nat then (st, Err InvalidPublicKey)
  else if negb (Z.sgn r =? 1) || negb (Z.sgn s =? 1) || (dp_q dp <=? r) || (dp_q dp <=? s) then (st, Err VerificationFailed)
  else match mod_inverse s (dp_q dp) with
       | None => (st, Err VerificationFailed)
       | Some w =>
         if w =? 0 then (st, Err VerificationFailed)
         else
           let '(st', hm) := hash_run D st [msg] in
           let u1 := (be_val hm * w) mod dp_q dp in
           let u2 := (r * w) mod dp_q dp in
           let v := powmod (dp_g dp) u1 (dp_p dp) in
           let u2 := powmod (dk_y pk) u2 (dp_p dp) in
           let v := ((v * u2) mod dp_p dp) mod dp_q dp in
           (st', if v =? r then Ok tt else Err VerificationFailed)
       end.
End Dsa.

(** ** SignatureContent, signature.rs:4-9 *)
Record sigc := mkSigc { sc_content : list Z; sc_rlen : nat; sc_slen : nat }.
(** new and with_capacity, signature.rs:12-22. *)
Definition sigc_new : sigc := mkSigc [] 0 0.
(** form_bigint, signature.rs:24-36. *)
Definition sigc_from (r s : Z) : sigc :=
  let buf := to_be_bytes r in
  let r_len := length buf in
  let buf := buf ++ to_be_bytes s in
  mkSigc buf r_len (length buf - r_len).
(** to_bigint, signature.rs:39-42.  An empty slice is read as 0 (a NaN is refused by verify in the same way);
    [as_mut] lets a caller shorten [content], so that the slice can be out of range. *)
Definition sigc_to_bigint (c : sigc) : res (Z * Z) :=
  if (length (sc_content c) <? sc_rlen c)%nat then Panic else Ok (be_val (firstn (sc_rlen c) (sc_content c)), be_val (skipn (sc_rlen c) (sc_content c))).
(** set, signature.rs:44-50. *)
Definition sigc_set (c : sigc) (r s : Z) : sigc :=
  let content := to_be_bytes r in
  let r_len := length content in
  let content := content ++ to_be_bytes s in
  mkSigc content r_len (length content - r_len).
(** as_mut, signature.rs:59-63: the caller replaces the bytes. *)
Definition sigc_as_mut (c : sigc) (f : list Z -> list Z) : sigc := mkSigc (f (sc_content c)) (sc_rlen c) (sc_slen c).

(** Signature::sign and verify, dsa.rs:535-544. *)
Definition dsa_sign {S} (D : digest S) (kp : dsa_kp) (s : S) (draws : list Z) (c : sigc) (msg : list Z) : S * sigc * res unit :=
  match sign_inner D kp s draws msg with
  | (s', Ok (r, v)) => (s', sigc_set c r v, Ok tt)
  | (s', Err e) => (s', c, Err e)
  | (s', Panic) => (s', c, Panic)
  end.
Definition dsa_verify {S} (D : digest S) (kp : dsa_kp) (s : S) (c : sigc) (msg : list Z) : S * res unit :=
  match sigc_to_bigint c with
  | Ok (r, v) => verify_inner D kp s msg r v
  | Err e => (s, Err e)
  | Panic => (s, Panic)
  end.
