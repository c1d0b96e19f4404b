(** Model of src/ecdsa/ecdsa.rs and src/ecdsa/csp_rng.rs.
    BigInt is [Z] as in EllModel.v; the random source is the list of the words it still yields. *)
From Coq Require Import String.
From Verif Require Import Base HashModel ModesModel AesModel NumTheory RsaModel RsaEncModel DsaModel EllModel.

(** What ECDSA uses of an [EllipticCurve]: [curve_params] and [scalar_base_point] ([None] is a pair of NaNs). *)
Record ec_obj := mkEco { eo_params : curve; eo_base : Z -> option (Z * Z) }.
(** CurveParams is itself an EllipticCurve, elliptic.rs:92-110. *)
Definition params_obj (c : curve) : ec_obj := mkEco c (curve_scalar_base c).

(** CSPRng::new, csp_rng.rs:11-23. *)
Definition csprng_new (key iv : list Z) : res ctr :=
  match aes_new key with
  | Ok a => match counter_new iv (16 * 8) with Ok k => ctr_new (aes_cipher a) k | Err e => Err e | Panic => Panic end
  | Err e => Err e
  | Panic => Panic
  end.
(** CSPRng::read_full, csp_rng.rs:25-29. *)
Definition read_full (g : ctr) (len : nat) : ctr * res (list Z) :=
  match ctr_encrypt g [] (repeat 0 len) with
  | (g', (dst, Ok _)) => (g', Ok dst)
  | (g', (_, Err e)) => (g', Err e)
  | (g', (_, Panic)) => (g', Panic)
  end.

(** rand_field_element_inner, ecdsa.rs:50-56. *)
Definition field_element (c : curve) (buf : list Z) : Z := be_val buf mod (cp_n c - 1) + 1.
(** ecdsa.rs:62-64 and 81-83. *)
Definition element_len (c : curve) : nat := (cp_bits c / 8 + 8)%nat.
(** The loops of ecdsa.rs:65-74 and 148-157: words are drawn until [len] bytes are there, at least one. *)
Definition draw_bytes (len : nat) (ws : list Z) : list Z * list Z :=
  let m := Nat.max 1 ((len + 3) / 4) in (firstn len (flat_map (be_bytes 4) (firstn m ws)), skipn m ws).
(** rand_field_element, ecdsa.rs:61-77. *)
Definition rand_field_element (c : curve) (ws : list Z) : Z * list Z :=
  let '(buf, ws) := draw_bytes (element_len c) ws in (field_element c buf, ws).
(** rand_field_element_for_csprng, ecdsa.rs:79-86. *)
Definition rand_field_element_csprng (c : curve) (g : ctr) : ctr * res Z :=
  let '(g', r) := read_full g (element_len c) in (g', rmap (field_element c) r).

(** hash_to_bigint, ecdsa.rs:116-132. *)
Definition hash_to_bigint (c : curve) (hash : list Z) : Z :=
  let order_bits := bits_len (cp_n c) in
  let order_byte := ((order_bits + 7) / 8)%nat in
  let hash := if (order_byte <? length hash)%nat then firstn order_byte hash else hash in
  let ret := be_val hash in
  let excess := (length hash * 8 - order_bits)%nat in
  if (0 <? excess)%nat then Z.shiftr ret (Z.of_nat excess) else ret.

(** ECDSA, ecdsa.rs:11-19, without the random source. *)
Record ecdsa (S : Type) := mkEcdsa { es_curve : ec_obj; es_hf : S; es_kp : ec_kp; es_md : mdst; es_dbytes : option (list Z); es_hash : list Z }.
Arguments mkEcdsa {S}. Arguments es_curve {S}. Arguments es_hf {S}. Arguments es_kp {S}. Arguments es_md {S}. Arguments es_dbytes {S}. Arguments es_hash {S}.

(** new_unchcek, ecdsa.rs:88-100. *)
Definition ecdsa_new {S} (hf : S) (o : ec_obj) (kp : ec_kp) : ecdsa S :=
  mkEcdsa o hf kp sha512_init (option_map (fun k => to_be_bytes (ed_d k)) (ekp_private kp)) [].
(** auto_generate_key, ecdsa.rs:103-114; a NaN public key is not modelled ([Panic]). *)
Definition auto_generate_key {S} (hf : S) (ws : list Z) (o : ec_obj) : res (ecdsa S * list Z) :=
  let '(k, ws) := rand_field_element (eo_params o) ws in
  match eo_base o k with
  | Some (px, py) => Ok (ecdsa_new hf o (inr (mkEpriv (mkEpub px py) k)), ws)
  | None => Panic
  end.

(** ecdsa.rs:170-193: each round of the two nested loops draws one nonce; [fuel] bounds the rounds. *)
Fixpoint ec_sign_loop (fuel : nat) (o : ec_obj) (d e : Z) (g : ctr) : res (Z * Z) :=
  match fuel with
  | O => Panic
  | S fuel =>
    match rand_field_element_csprng (eo_params o) g with
    | (g, Ok k) =>
      let n := cp_n (eo_params o) in
      let kinv := fermat_inverse k n in
      match eo_base o k with
      | None => ec_sign_loop fuel o d e g
      | Some (x, _) =>
        let r := x mod n in
        if Z.sgn r =? 1 then
          let s := ((d * r + e) * kinv) mod n in
          if Z.sgn s =? 1 then Ok (r, s) else ec_sign_loop fuel o d e g
        else ec_sign_loop fuel o d e g
      end
    | (_, Err e) => Err e
    | (_, Panic) => Panic
    end
  end.
(** ecdsa.rs:165: "IV for ECDSA CTR". *)
Definition ECDSA_IV : list Z := [73; 86; 32; 102; 111; 114; 32; 69; 67; 68; 83; 65; 32; 67; 84; 82].
(** ecdsa.rs:145. *)
Definition entropy_len (c : curve) : nat := Nat.min 32 ((cp_bits c + 7) / 16).
Section Ecdsa.
Context {S : Type}.
Variable D : digest S.
(** sign_inner, ecdsa.rs:140-196; [md] is left as the last checksum leaves it. *)
Definition ec_sign_inner (fuel : nat) (o : ecdsa S) (ws : list Z) : ecdsa S * list Z * res (Z * Z) :=
  match ekp_private (es_kp o), es_dbytes o with
  | None, _ => (o, ws, Err InvalidPrivateKey)
  | Some _, None => (o, ws, Panic)
  | Some pk, Some d_bytes =>
    let c := eo_params (es_curve o) in
    let '(entropy, ws) := draw_bytes (entropy_len c) ws in
    let '(md, key) := hash_run SHA512 (es_md o) [d_bytes; entropy; es_hash o] in
    let o := mkEcdsa (es_curve o) (es_hf o) (es_kp o) md (es_dbytes o) (es_hash o) in
    (o, ws, match csprng_new (firstn 32 key) ECDSA_IV with
            | Ok g => if negb (Z.sgn (cp_n c) =? 1) then Err InvalidPrivateKey
                      else ec_sign_loop fuel (es_curve o) (ed_d pk) (hash_to_bigint c (es_hash o)) g
            | Err e => Err e
            | Panic => Panic
            end)
  end.
(** verify_inner, ecdsa.rs:198-232; NaN is refused by [signnum] or the comparison. *)
Definition ec_verify_inner (o : ecdsa S) (r s : Z) : res unit :=
  let pk := ekp_public (es_kp o) in
  let c := eo_params (es_curve o) in
  let n := cp_n c in
  if negb (Z.sgn r =? 1) || negb (Z.sgn s =? 1) || (n <=? r) || (n <=? s) then Err VerificationFailed
  else
    let e := hash_to_bigint c (es_hash o) in
    match mod_inverse s n with
    | None => Err VerificationFailed
    | Some w =>
      let u1 := (e * w) mod n in
      let u2 := (w * r) mod n in
      match curve_scalar_base c u1, curve_scalar c (eq_x pk) (eq_y pk) u2 with
      | Some (x1, y1), Some (x2, y2) =>
        match curve_add c x1 y1 x2 y2 with
        | Some (x, y) =>
          if negb (Z.sgn x =? 1) || negb (Z.sgn y =? 1) then Err VerificationFailed
          else if x mod n =? r then Ok tt else Err VerificationFailed
        | None => Err VerificationFailed
        end
      | _, _ => Err VerificationFailed
      end
    end.
(** ecdsa.rs:240-242 and 249-251: the digest of the message goes into [hash_buf]. *)
Definition ec_hash (o : ecdsa S) (msg : list Z) : ecdsa S :=
  let '(s, dg) := hash_run D (es_hf o) [msg] in mkEcdsa (es_curve o) s (es_kp o) (es_md o) (es_dbytes o) dg.
(** Signature::sign, ecdsa.rs:239-246. *)
Definition ecdsa_sign (fuel : nat) (o : ecdsa S) (ws : list Z) (c : sigc) (msg : list Z) : ecdsa S * list Z * sigc * res unit :=
  let o := ec_hash o msg in
  match ec_sign_inner fuel o ws with
  | (o, ws, Ok (r, s)) => (o, ws, sigc_set c r s, Ok tt)
  | (o, ws, Err e) => (o, ws, c, Err e)
  | (o, ws, Panic) => (o, ws, c, Panic)
  end.
(** Signature::verify, ecdsa.rs:248-255. *)
Definition ecdsa_verify (o : ecdsa S) (c : sigc) (msg : list Z) : ecdsa S * res unit :=
  let o := ec_hash o msg in
  match sigc_to_bigint c with
  | Ok (r, s) => (o, ec_verify_inner o r s)
  | Err e => (o, Err e)
  | Panic => (o, Panic)
  end.
End Ecdsa.
