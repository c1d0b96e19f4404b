(** Model of src/elliptic/elliptic.rs and src/elliptic/key_pair.rs.
    rmath's BigInt and Nat are [Z]; NaN arguments are not modelled.  [rem_euclid_assign] by a positive modulus is [Z.modulo],
    [<<] is a multiplication by a power of two, [signnum] is [Z.sgn] and [mod_inverse] is the inverse or NaN ([None]). *)
From Coq Require Import String.
From Verif Require Import Base HashModel NumTheory RsaModel RsaEncModel.

(** CurveParams, elliptic.rs:8-23. *)
Record curve := mkCurve { cp_p : Z; cp_n : Z; cp_b : Z; cp_gx : Z; cp_gy : Z; cp_bits : nat; cp_name : string }.

(** is_on_curve, elliptic.rs:51-68. *)
Definition is_on_curve (c : curve) (x y : Z) : bool :=
  let x3 := x * x in let y2 := y * y in
  let y2 := y2 mod cp_p c in
  let x3 := x3 * x in
  let three_x := x * 2 in
  let three_x := three_x + x in
  let x3 := x3 - three_x in
  let x3 := x3 + cp_b c in
  let x3 := x3 mod cp_p c in
  x3 =? y2.

(** The recurring [if v.signnum() == Some(-1) { v += p }]. *)
Definition fix_neg (p v : Z) : Z := if Z.sgn v =? -1 then v + p else v.

(** double_jacobian, elliptic.rs:297-352. *)
Definition double_jacobian (p x y z : Z) : Z * Z * Z :=
  let delta := (z * z) mod p in let gamma := (y * y) mod p in
  let alpha := fix_neg p (x - delta) in let alpha2 := x + delta in
  let alpha := alpha * alpha2 in
  let alpha2 := alpha in
  let alpha := alpha * 2 in
  let alpha := alpha + alpha2 in
  let beta := x * gamma in
  let x3 := alpha * alpha in
  let beta8 := (beta * 8) mod p in
  let x3 := fix_neg p (x3 - beta8) in
  let x3 := x3 mod p in
  let z3 := y + z in
  let z3 := z3 * z3 in
  let z3 := fix_neg p (z3 - gamma) in
  let z3 := fix_neg p (z3 - delta) in
  let z3 := z3 mod p in
  let beta := beta * 4 in
  let beta := fix_neg p (beta - x3) in
  let y3 := alpha * beta in
  let gamma := gamma * gamma in
  let gamma := gamma * 8 in
  let gamma := gamma mod p in
  let y3 := fix_neg p (y3 - gamma) in
  let y3 := y3 mod p in
  (x3, y3, z3).

(** add_jacobian, elliptic.rs:230-294. *)
Definition add_jacobian (p x1 y1 z1 x2 y2 z2 : Z) : Z * Z * Z :=
  if Z.sgn z1 =? 0 then (x2, y2, z2)
  else if Z.sgn z2 =? 0 then (x1, y1, z1)
  else
    let z1z1 := (z1 * z1) mod p in let z2z2 := (z2 * z2) mod p in
    let u1 := (x1 * z2z2) mod p in let u2 := (x2 * z1z1) mod p in
    let h := u2 - u1 in
    let x_equal := Z.sgn h =? 0 in
    let h := fix_neg p h in
    let i := h * 2 in
    let i := i * i in
    let j := h * i in
    let s1 := y1 * z2 in let s2 := y2 * z1 in
    let s1 := (s1 * z2z2) mod p in
    let s2 := (s2 * z1z1) mod p in
    let r := fix_neg p (s2 - s1) in
    let y_equal := Z.sgn r =? 0 in
    if x_equal && y_equal then double_jacobian p x1 y1 z1
    else
      let r := r * 2 in
      let v := u1 * i in
      let x3 := r * r in
      let x3 := x3 - j in
      let x3 := x3 - v in
      let x3 := x3 - v in
      let x3 := x3 mod p in
      let v := v - x3 in
      let y3 := r * v in
      let s1 := s1 * j in
      let s1 := s1 * 2 in
      let y3 := y3 - s1 in
      let y3 := y3 mod p in
      let z3 := z1 + z2 in
      let z3 := z3 * z3 in
      let z3 := z3 - z1z1 in
      let z3 := z3 - z2z2 in
      let z3 := z3 * h in
      let z3 := z3 mod p in
      (x3, y3, z3).

(** z_for_affine, elliptic.rs:202-210. *)
Definition z_for_affine (x y : Z) : Z := if negb (Z.sgn x =? 0) || negb (Z.sgn y =? 0) then 1 else 0.

(** affine_from_jacobian, elliptic.rs:213-228; [None] is a pair of NaNs. *)
Definition affine_from_jacobian (p x y z : Z) : option (Z * Z) :=
  if Z.sgn z =? 0 then Some (0, 0)
  else
    match mod_inverse z p with
    | None => None
    | Some zinv =>
      let zinvsq := zinv * zinv in
      let xout := (x * zinvsq) mod p in
      let zinvsq := zinvsq * zinv in
      let yout := (y * zinvsq) mod p in
      Some (xout, yout)
    end.

(** add, elliptic.rs:70-79. *)
Definition curve_add (c : curve) (x1 y1 x2 y2 : Z) : option (Z * Z) :=
  let z1 := z_for_affine x1 y1 in let z2 := z_for_affine x2 y2 in
  let '(x, y, z) := add_jacobian (cp_p c) x1 y1 z1 x2 y2 z2 in
  affine_from_jacobian (cp_p c) x y z.
(** double, elliptic.rs:81-90. *)
Definition curve_double (c : curve) (x y : Z) : option (Z * Z) :=
  let z1 := z_for_affine x y in
  let '(x, y, z) := double_jacobian (cp_p c) x y z1 in
  affine_from_jacobian (cp_p c) x y z.

(** elliptic.rs:184-193: the eight steps for one byte of the scalar. *)
Fixpoint scalar_bits (p x y : Z) (n : nat) (byte : Z) (b : Z * Z * Z) : Z * Z * Z :=
  match n with
  | O => b
  | S n =>
    let '(bx, by_, bz) := b in
    let '(bx, by_, bz) := double_jacobian p bx by_ bz in
    let '(bx, by_, bz) := if Z.land byte 128 =? 128 then add_jacobian p x y 1 bx by_ bz else (bx, by_, bz) in
    scalar_bits p x y n ((byte * 2) mod 256) (bx, by_, bz)
  end.
(** scalar_inner, elliptic.rs:179-197. *)
Definition scalar_inner (c : curve) (x y : Z) (k : list Z) : option (Z * Z) :=
  let '(bx, by_, bz) := fold_left (fun b e => scalar_bits (cp_p c) x y 8 e b) k (0, 0, 0) in
  affine_from_jacobian (cp_p c) bx by_ bz.
(** scalar, elliptic.rs:92-100. *)
Definition curve_scalar (c : curve) (x y k : Z) : option (Z * Z) := scalar_inner c x y (to_be_bytes k).
(** scalar_base_point, elliptic.rs:102-109. *)
Definition curve_scalar_base (c : curve) (k : Z) : option (Z * Z) := curve_scalar c (cp_gx c) (cp_gy c) k.

(** ** Keys *)
(** PublicKey, key_pair.rs:5-9. *)
Record ec_pub := mkEpub { eq_x : Z; eq_y : Z }.
(** PrivateKey, key_pair.rs:11-14. *)
Record ec_priv := mkEpriv { ed_pk : ec_pub; ed_d : Z }.
(** KeyPair, key_pair.rs:16-19 and 63-80: made from one of the two. *)
Definition ec_kp := (ec_pub + ec_priv)%type.
(** KeyPair::public_key and private_key, key_pair.rs:82-94. *)
Definition ekp_public (k : ec_kp) : ec_pub := match k with inl p => p | inr s => ed_pk s end.
Definition ekp_private (k : ec_kp) : option ec_priv := match k with inl _ => None | inr s => Some s end.

(** generate_key, elliptic.rs:138: the mask of the first byte. *)
Definition MASK : list Z := [255; 1; 3; 7; 15; 31; 63; 127].
(** elliptic.rs:145-160: the bytes of one candidate, made from the words drawn; [None] when [priv_key[1]] is out of bounds. *)
Definition key_bytes (bits : nat) (ws : list Z) : option (list Z) :=
  let b_len := ((bits + 7) / 8)%nat in
  match firstn b_len (flat_map (be_bytes 4) ws) with
  | b0 :: b1 :: r => Some (Z.land b0 (nth (bits mod 8) MASK 0) :: Z.lxor b1 66 :: r)
  | _ => None
  end.
(** generate_key, elliptic.rs:137-177.  [draws] lists the words the source yields in each round; running out of rounds stands for
    a loop that does not end. *)
Fixpoint ec_generate_key (c : curve) (draws : list (list Z)) : res ec_priv :=
  match draws with
  | [] => Panic
  | ws :: draws =>
    match key_bytes (bits_len (cp_n c)) ws with
    | None => Panic
    | Some priv_key =>
      let key := be_val priv_key in
      if key <? cp_n c then
        match scalar_inner c (cp_gx c) (cp_gy c) priv_key with
        | Some (qx, qy) => Ok (mkEpriv (mkEpub qx qy) key)
        | None => ec_generate_key c draws
        end
      else ec_generate_key c draws
    end
  end.

(** ** The four curves *)
(** p224, elliptic.rs:357-382. *)
Definition p224 : curve := mkCurve
  26959946667150639794667015087019630673557916260026308143510066298881
  26959946667150639794667015087019625940457807714424391721682722368061
  0xb4050a850c04b3abf54132565044b0b7d7bfd8ba270b39432355ffb4
  0xb70e0cbd6bb4bf7f321390b94a03c1d356c21122343280d6115c1d21
  0xbd376388b5f723fb4c22dfe6cd4375a05a07476444d5819985007e34 224 "P-224".
(** p256, elliptic.rs:387-412. *)
Definition p256 : curve := mkCurve
  115792089210356248762697446949407573530086143415290314195533631308867097853951
  115792089210356248762697446949407573529996955224135760342422259061068512044369
  0x5ac635d8aa3a93e7b3ebbd55769886bc651d06b0cc53b0f63bce3c3e27d2604b
  0x6b17d1f2e12c4247f8bce6e563a440f277037d812deb33a0f4a13945d898c296
  0x4fe342e2fe1a7f9b8ee7eb4a7c0f9e162bce33576b315ececbb6406837bf51f5 256 "P-256".
(** p384, elliptic.rs:417-442. *)
Definition p384 : curve := mkCurve
  39402006196394479212279040100143613805079739270465446667948293404245721771496870329047266088258938001861606973112319
  39402006196394479212279040100143613805079739270465446667946905279627659399113263569398956308152294913554433653942643
  0xb3312fa7e23ee7e4988e056be3f82d19181d9c6efe8141120314088f5013875ac656398d8a2ed19d2a85c8edd3ec2aef
  0xaa87ca22be8b05378eb1c71ef320ad746e1d3b628ba79b9859f741e082542a385502f25dbf55296c3a545e3872760ab7
  0x3617de4a96262c6f5d9e98bf9292dc29f8f41dbd289a147ce9da3113b5f0b8c00a60b1ce1d7e819d7a431d7c90ea0e5f 384 "P-384".
(** p521, elliptic.rs:447-472. *)
Definition p521 : curve := mkCurve
  6864797660130609714981900799081393217269435300143305409394463459185543183397656052122559640661454554977296311391480858037121987999716643812574028291115057151
  6864797660130609714981900799081393217269435300143305409394463459185543183397655394245057746333217197532963996371363321113864768612440380340372808892707005449
  0x051953eb9618e1c9a1f929a21a0b68540eea2da725b99b315f3b8b489918ef109e156193951ec7e937b1652c0bd3bb1bf073573df883d2c34f1ef451fd46b503f00
  0xc6858e06b70404e9cd9e3ecb662395b4429c648139053fb521f828af606b4d3dbaa14b5e77efe75928fe1dc127a2ffa8de3348b3c1856a429bf97e7e31c2e5bd66
  0x11839296a789a3bc0045c8a5fb42c7d1bd998f54449579b446817afbd17273e662c97ee72995ef42640c550b9013fad0761353c7086a272c24088be94769fd16650 512 "P-512".
