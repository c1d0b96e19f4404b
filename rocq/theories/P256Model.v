(** Model of src/elliptic/p256.rs.  A field element is a list of nine u32 limbs, alternately of 29 and 28 bits, least significant first,
    in Montgomery form with R = 2^257.  Functions that write to an [out] argument return it.  The variants whose name ends in [_a]
    only make references out of raw pointers, so that [out] may be one of the inputs; every routine reads what it needs of an input
    before it overwrites it (C66, InplaceModel.v), so they are the same functions of values.
    The arithmetic on limbs uses wrapping operations except for the three subtractions [x - 1] and the one [(x >> 1) - 1] of
    p256_reduce_degree.  They wrap in a build without overflow checks and panic in one with them: [dbg] says which build it is, and
    [None] is a panic.  The remaining unmarked operations (shifts by constants, [31-i+j], [tableoffset += ..]) cannot overflow.
    rmath's BigInt and Nat are [Z]; NaN arguments are not modelled.  p256_from_bigint reads the first 32-bit word of a number
    that may be 0; it is taken to be 0 then. *)
From Verif Require Import Base Words HashModel NumTheory RsaModel RsaEncModel EllModel P224Model.

Notation "'let?' x := a 'in' b" := (match a with Some x => b | None => None end) (at level 200, x pattern, b at level 200).

(** p256.rs:28-31. *)
Definition BOT29 : Z := 0x1fffffff.
Definition BOT28 : Z := 0xfffffff.
Definition P256_ONE : list Z := [2; 0; 0; 0xffff800; 0x1fffffff; 0xfffffff; 0x1fbfffff; 0x1ffffff; 0].
(** [[0u32; P256_LIMBS]]. *)
Definition fz : list Z := repeat 0 9.
(** p256.rs:69-130. *)
Definition P256_PRECOMPUTED : list Z := [
  0x11522878; 0xe730d41; 0xdb60179; 0x4afe2ff; 0x12883add; 0xcaddd88; 0x119e7edc; 0xd4a6eab; 0x3120bee;
  0x1d2aac15; 0xf25357c; 0x19e45cdd; 0x5c721d0; 0x1992c5a5; 0xa237487; 0x154ba21; 0x14b10bb; 0xae3fe3;
  0xd41a576; 0x922fc51; 0x234994f; 0x60b60d3; 0x164586ae; 0xce95f18; 0x1fe49073; 0x3fa36cc; 0x5ebcd2c;
  0xb402f2f; 0x15c70bf; 0x1561925c; 0x5a26704; 0xda91e90; 0xcdc1c7f; 0x1ea12446; 0xe1ade1e; 0xec91f22;
  0x26f7778; 0x566847e; 0xa0bec9e; 0x234f453; 0x1a31f21a; 0xd85e75c; 0x56c7109; 0xa267a00; 0xb57c050;
  0x98fb57; 0xaa837cc; 0x60c0792; 0xcfa5e19; 0x61bab9e; 0x589e39b; 0xa324c5; 0x7d6dee7; 0x2976e4b;
  0x1fc4124a; 0xa8c244b; 0x1ce86762; 0xcd61c7e; 0x1831c8e0; 0x75774e1; 0x1d96a5a9; 0x843a649; 0xc3ab0fa;
  0x6e2e7d5; 0x7673a2a; 0x178b65e8; 0x4003e9b; 0x1a1f11c2; 0x7816ea; 0xf643e11; 0x58c43df; 0xf423fc2;
  0x19633ffa; 0x891f2b2; 0x123c231c; 0x46add8c; 0x54700dd; 0x59e2b17; 0x172db40f; 0x83e277d; 0xb0dd609;
  0xfd1da12; 0x35c6e52; 0x19ede20c; 0xd19e0c0; 0x97d0f40; 0xb015b19; 0x449e3f5; 0xe10c9e; 0x33ab581;
  0x56a67ab; 0x577734d; 0x1dddc062; 0xc57b10d; 0x149b39d; 0x26a9e7b; 0xc35df9f; 0x48764cd; 0x76dbcca;
  0xca4b366; 0xe9303ab; 0x1a7480e7; 0x57e9e81; 0x1e13eb50; 0xf466cf3; 0x6f16b20; 0x4ba3173; 0xc168c33;
  0x15cb5439; 0x6a38e11; 0x73658bd; 0xb29564f; 0x3f6dc5b; 0x53b97e; 0x1322c4c0; 0x65dd7ff; 0x3a1e4f6;
  0x14e614aa; 0x9246317; 0x1bc83aca; 0xad97eed; 0xd38ce4a; 0xf82b006; 0x341f077; 0xa6add89; 0x4894acd;
  0x9f162d5; 0xf8410ef; 0x1b266a56; 0xd7f223; 0x3e0cb92; 0xe39b672; 0x6a2901a; 0x69a8556; 0x7e7c0;
  0x9b7d8d3; 0x309a80; 0x1ad05f7f; 0xc2fb5dd; 0xcbfd41d; 0x9ceb638; 0x1051825c; 0xda0cf5b; 0x812e881;
  0x6f35669; 0x6a56f2c; 0x1df8d184; 0x345820; 0x1477d477; 0x1645db1; 0xbe80c51; 0xc22be3e; 0xe35e65a;
  0x1aeb7aa0; 0xc375315; 0xf67bc99; 0x7fdd7b9; 0x191fc1be; 0x61235d; 0x2c184e9; 0x1c5a839; 0x47a1e26;
  0xb7cb456; 0x93e225d; 0x14f3c6ed; 0xccc1ac9; 0x17fe37f3; 0x4988989; 0x1a90c502; 0x2f32042; 0xa17769b;
  0xafd8c7c; 0x8191c6e; 0x1dcdb237; 0x16200c0; 0x107b32a1; 0x66c08db; 0x10d06a02; 0x3fc93; 0x5620023;
  0x16722b27; 0x68b5c59; 0x270fcfc; 0xfad0ecc; 0xe5de1c2; 0xeab466b; 0x2fc513c; 0x407f75c; 0xbaab133;
  0x9705fe9; 0xb88b8e7; 0x734c993; 0x1e1ff8f; 0x19156970; 0xabd0f00; 0x10469ea7; 0x3293ac0; 0xcdc98aa;
  0x1d843fd; 0xe14bfe8; 0x15be825f; 0x8b5212; 0xeb3fb67; 0x81cbd29; 0xbc62f16; 0x2b6fcc7; 0xf5a4e29;
  0x13560b66; 0xc0b6ac2; 0x51ae690; 0xd41e271; 0xf3e9bd4; 0x1d70aab; 0x1029f72; 0x73e1c35; 0xee70fbc;
  0xad81baf; 0x9ecc49a; 0x86c741e; 0xfe6be30; 0x176752e7; 0x23d416; 0x1f83de85; 0x27de188; 0x66f70b8;
  0x181cd51f; 0x96b6e4c; 0x188f2335; 0xa5df759; 0x17a77eb6; 0xfeb0e73; 0x154ae914; 0x2f3ec51; 0x3826b59;
  0xb91f17d; 0x1c72949; 0x1362bf0a; 0xe23fddf; 0xa5614b0; 0xf7d8f; 0x79061; 0x823d9d2; 0x8213f39;
  0x1128ae0b; 0xd095d05; 0xb85c0c2; 0x1ecb2ef; 0x24ddc84; 0xe35e901; 0x18411a4a; 0xf5ddc3d; 0x3786689;
  0x52260e8; 0x5ae3564; 0x542b10d; 0x8d93a45; 0x19952aa4; 0x996cc41; 0x1051a729; 0x4be3499; 0x52b23aa;
  0x109f307e; 0x6f5b6bb; 0x1f84e1e7; 0x77a0cfa; 0x10c4df3f; 0x25a02ea; 0xb048035; 0xe31de66; 0xc6ecaa3;
  0x28ea335; 0x2886024; 0x1372f020; 0xf55d35; 0x15e4684c; 0xf2a9e17; 0x1a4a7529; 0xcb7beb1; 0xb2a78a1;
  0x1ab21f1f; 0x6361ccf; 0x6c9179d; 0xb135627; 0x1267b974; 0x4408bad; 0x1cbff658; 0xe3d6511; 0xc7d76f;
  0x1cc7a69; 0xe7ee31b; 0x54fab4f; 0x2b914f; 0x1ad27a30; 0xcd3579e; 0xc50124c; 0x50daa90; 0xb13f72;
  0xb06aa75; 0x70f5cc6; 0x1649e5aa; 0x84a5312; 0x329043c; 0x41c4011; 0x13d32411; 0xb04a838; 0xd760d2d;
  0x1713b532; 0xbaa0c03; 0x84022ab; 0x6bcf5c1; 0x2f45379; 0x18ae070; 0x18c9e11e; 0x20bca9a; 0x66f496b;
  0x3eef294; 0x67500d2; 0xd7f613c; 0x2dbbeb; 0xb741038; 0xe04133f; 0x1582968d; 0xbe985f7; 0x1acbc1a;
  0x1a6a939f; 0x33e50f6; 0xd665ed4; 0xb4b7bd6; 0x1e5a3799; 0x6b33847; 0x17fa56ff; 0x65ef930; 0x21dc4a;
  0x2b37659; 0x450fe17; 0xb357b65; 0xdf5efac; 0x15397bef; 0x9d35a7f; 0x112ac15f; 0x624e62e; 0xa90ae2f;
  0x107eecd2; 0x1f69bbe; 0x77d6bce; 0x5741394; 0x13c684fc; 0x950c910; 0x725522b; 0xdc78583; 0x40eeabb;
  0x1fde328a; 0xbd61d96; 0xd28c387; 0x9e77d89; 0x12550c40; 0x759cb7d; 0x367ef34; 0xae2a960; 0x91b8bdc;
  0x93462a9; 0xf469ef; 0xb2e9aef; 0xd2ca771; 0x54e1f42; 0x7aaa49; 0x6316abb; 0x2413c8e; 0x5425bf9;
  0x1bed3e3a; 0xf272274; 0x1f5e7326; 0x6416517; 0xea27072; 0x9cedea7; 0x6e7633; 0x7c91952; 0xd806dce;
  0x8e2a7e1; 0xe421e1a; 0x418c9e1; 0x1dbc890; 0x1b395c36; 0xa1dc175; 0x1dc4ef73; 0x8956f34; 0xe4b5cf2;
  0x1b0d3a18; 0x3194a36; 0x6c2641f; 0xe44124c; 0xa2f4eaa; 0xa8c25ba; 0xf927ed7; 0x627b614; 0x7371cca;
  0xba16694; 0x417bc03; 0x7c0a7e3; 0x9c35c19; 0x1168a205; 0x8b6b00d; 0x10e3edc9; 0x9c19bf2; 0x5882229;
  0x1b2b4162; 0xa5cef1a; 0x1543622b; 0x9bd433e; 0x364e04d; 0x7480792; 0x5c9b5b3; 0xe85ff25; 0x408ef57;
  0x1814cfa4; 0x121b41b; 0xd248a0f; 0x3b05222; 0x39bb16a; 0xc75966d; 0xa038113; 0xa4a1769; 0x11fbc6c;
  0x917e50e; 0xeec3da8; 0x169d6eac; 0x10c1699; 0xa416153; 0xf724912; 0x15cd60b7; 0x4acbad9; 0x5efc5fa;
  0xf150ed7; 0x122b51; 0x1104b40a; 0xcb7f442; 0xfbb28ff; 0x6ac53ca; 0x196142cc; 0x7bf0fa9; 0x957651;
  0x4e0f215; 0xed439f8; 0x3f46bd5; 0x5ace82f; 0x110916b6; 0x6db078; 0xffd7d57; 0xf2ecaac; 0xca86dec;
  0x15d6b2da; 0x965ecc9; 0x1c92b4c2; 0x1f3811; 0x1cb080f5; 0x2d8b804; 0x19d1c12d; 0xf20bd46; 0x1951fa7;
  0xa3656c3; 0x523a425; 0xfcd0692; 0xd44ddc8; 0x131f0f5b; 0xaf80e4a; 0xcd9fc74; 0x99bb618; 0x2db944c;
  0xa673090; 0x1c210e1; 0x178c8d23; 0x1474383; 0x10b8743d; 0x985a55b; 0x2e74779; 0x576138; 0x9587927;
  0x133130fa; 0xbe05516; 0x9f4d619; 0xbb62570; 0x99ec591; 0xd9468fe; 0x1d07782d; 0xfc72e0b; 0x701b298;
  0x1863863b; 0x85954b8; 0x121a0c36; 0x9e7fedf; 0xf64b429; 0x9b9d71e; 0x14e2f5d8; 0xf858d3a; 0x942eea8;
  0xda5b765; 0x6edafff; 0xa9d18cc; 0xc65e4ba; 0x1c747e86; 0xe4ea915; 0x1981d7a1; 0x8395659; 0x52ed4e2;
  0x87d43b7; 0x37ab11b; 0x19d292ce; 0xf8d4692; 0x18c3053f; 0x8863e13; 0x4c146c0; 0x6bdf55a; 0x4e4457d;
  0x16152289; 0xac78ec2; 0x1a59c5a2; 0x2028b97; 0x71c2d01; 0x295851f; 0x404747b; 0x878558d; 0x7d29aa4;
  0x13d8341f; 0x8daefd7; 0x139c972d; 0x6b7ea75; 0xd4a9dde; 0xff163d8; 0x81d55d7; 0xa5bef68; 0xb7b30d8;
  0xbe73d6f; 0xaa88141; 0xd976c81; 0x7e7a9cc; 0x18beb771; 0xd773cbd; 0x13f51951; 0x9d0c177; 0x1c49a78].
(** p256.rs:132-140. *)
Definition P256ZERO31 : list Z := [2147483640; 1073741820; 2147483644; 1073750012; 2147483644; 1073741820; 2164260860; 939524092; 2147483644].
(** r_inv, p256.rs:163. *)
Definition R_INV : Z := 0x7fffffff00000001fffffffe8000000100000000ffffffff0000000180000000.

(** p256_get_scalar, p256.rs:178-189, on [out] = 32 zero bytes. *)
Definition p256_get_scalar (n : Z) : list Z :=
  let a := if cp_n p256 <=? n then to_be_bytes (n mod cp_n p256) else to_be_bytes n in
  rev a ++ repeat 0 (32 - length a).

(** non_zero_to_all_ones, p256.rs:196-198. *)
Definition nz_mask (x : Z) : Z := sub32 (shr (sub32 x 1) 31) 1.

(** p256_reduce_carry, p256.rs:205-224. *)
Definition p256_reduce_carry (o : list Z) (carry : Z) : list Z :=
  let m := nz_mask carry in
  let o := upd o 0 (add32 o.[0] (shl32 carry 1)) in
  let o := upd o 3 (add32 o.[3] (Z.land 0x10000000 m)) in
  let o := upd o 3 (sub32 o.[3] (shl32 carry 11)) in
  let o := upd o 4 (add32 o.[4] (Z.land (0x20000000 - 1) m)) in
  let o := upd o 5 (add32 o.[5] (Z.land (0x10000000 - 1) m)) in
  let o := upd o 6 (add32 o.[6] (Z.land (0x20000000 - 1) m)) in
  let o := upd o 6 (sub32 o.[6] (shl32 carry 22)) in
  let o := upd o 7 (sub32 o.[7] (Z.land 1 m)) in
  upd o 7 (add32 o.[7] (shl32 carry 25)).

(** The loops of p256_sum, p256_diff and p256_scalar3: [out[i] = xs[i] + carry; carry = out[i] >> w; out[i] &= 2^w - 1] with
    w alternately 29 and 28; the limbs and the last carry. *)
Fixpoint carry_chain (even : bool) (carry : Z) (xs : list Z) : list Z * Z :=
  match xs with
  | [] => ([], carry)
  | x :: xs =>
    let o := add32 x carry in
    let (os, c) := carry_chain (negb even) (if even then shr o 29 else shr o 28) xs in
    ((if even then Z.land o BOT29 else Z.land o BOT28) :: os, c)
  end.
(** p256_sum, p256.rs:233-253. *)
Definition p256_sum (a b : list Z) : list Z :=
  let (o, c) := carry_chain true 0 (zip_with add32 a b) in p256_reduce_carry o c.
(** p256_diff, p256.rs:267-290. *)
Definition p256_diff (a b : list Z) : list Z :=
  let (o, c) := carry_chain true 0 (zip_with add32 (zip_with sub32 a b) P256ZERO31) in p256_reduce_carry o c.
(** p256_scalar3, p256.rs:723-744. *)
Definition p256_scalar3 (a : list Z) : list Z :=
  let (o, c) := carry_chain true 0 (map (fun x => (x * 3) mod M32) a) in p256_reduce_carry o c.
(** The loops of p256_scalar4 and p256_scalar8: a shift by [s]. *)
Fixpoint shift_chain (s : Z) (even : bool) (carry : Z) (xs : list Z) : list Z * Z :=
  match xs with
  | [] => ([], carry)
  | x :: xs =>
    let next_carry := if even then shr x (29 - s) else shr x (28 - s) in
    let o := shl32 x s in
    let o := if even then Z.land o BOT29 else Z.land o BOT28 in
    let o := add32 o carry in
    let carry := add32 next_carry (if even then shr o 29 else shr o 28) in
    let (os, c) := shift_chain s (negb even) carry xs in
    ((if even then Z.land o BOT29 else Z.land o BOT28) :: os, c)
  end.
(** p256_scalar4, p256.rs:750-776. *)
Definition p256_scalar4 (a : list Z) : list Z := let (o, c) := shift_chain 2 true 0 a in p256_reduce_carry o c.
(** p256_scalar8, p256.rs:782-807. *)
Definition p256_scalar8 (a : list Z) : list Z := let (o, c) := shift_chain 3 true 0 a in p256_reduce_carry o c.

(** uint32, p256.rs:293-295. *)
Definition u32 (n : Z) : Z := Z.land n 0xffffffff.
(** p256_reduce_degree, p256.rs:305-489.  Lines 318-324: the first two words of tmp2 and the carry ... *)
Definition spread_first (tmp : list Z) : list Z * Z :=
  let t0 := Z.land (u32 tmp.[0]) BOT29 in
  let t1 := shr (u32 tmp.[0]) 29 in
  let t1 := Z.lor t1 (Z.land (shl32 (u32 (shr tmp.[0] 32)) 3) BOT28) in
  let t1 := add32 t1 (Z.land (u32 tmp.[1]) BOT28) in
  ([t0; Z.land t1 BOT28], shr t1 28).
(** ... lines 328-334 for an even [i] ... *)
Definition spread_even (tmp : list Z) (i : nat) (carry : Z) : Z * Z :=
  let t := shr (u32 (shr tmp.[i - 2] 32)) 25 in
  let t := add32 t (shr (u32 tmp.[i - 1]) 28) in
  let t := add32 t (Z.land (shl32 (u32 (shr tmp.[i - 1] 32)) 4) BOT29) in
  let t := add32 t (Z.land (u32 tmp.[i]) BOT29) in
  let t := add32 t carry in
  (Z.land t BOT29, shr t 29).
(** ... lines 340-346 for an odd [i] ... *)
Definition spread_odd (tmp : list Z) (i : nat) (carry : Z) : Z * Z :=
  let t := shr (u32 (shr tmp.[i - 2] 32)) 25 in
  let t := add32 t (shr (u32 tmp.[i - 1]) 29) in
  let t := add32 t (Z.land (shl32 (u32 (shr tmp.[i - 1] 32)) 3) BOT28) in
  let t := add32 t (Z.land (u32 tmp.[i]) BOT28) in
  let t := add32 t carry in
  (Z.land t BOT28, shr t 28).
Definition spread_step (tmp : list Z) (tc : list Z * Z) (i : nat) : list Z * Z :=
  let (t2, carry) := tc in
  let (t, carry) := if Nat.even i then spread_even tmp i carry else spread_odd tmp i carry in (t2 ++ [t], carry).
(** ... lines 350-353 ... *)
Definition spread_last (tmp : list Z) (carry : Z) : Z :=
  let t := shr (u32 (shr tmp.[15] 32)) 25 in
  let t := add32 t (shr (u32 tmp.[16]) 29) in
  let t := add32 t (shl32 (u32 (shr tmp.[16] 32)) 3) in
  add32 t carry.
(** ... so, lines 312-353, the eighteen words of tmp2. *)
Definition spread (tmp : list Z) : list Z :=
  let (t2, carry) := fold_left (spread_step tmp) (seq 2 15) (spread_first tmp) in t2 ++ [spread_last tmp carry].
(** Lines 366-431: the upper half of the elimination loop. *)
Definition elim_top (dbg : bool) (t : list Z) (i : nat) : option (list Z) :=
  let t := upd t (i + 1) (add32 t.[i + 1] (shr t.[i] 29)) in
  let x := Z.land t.[i] BOT29 in
  let m := nz_mask x in
  let t := upd t i 0 in
  if dbg && ((x <? 1) || (shr x 1 <? 1)) then None else
  let t := upd t (i + 3) (add32 t.[i + 3] (Z.land (shl32 x 10) BOT28)) in
  let t := upd t (i + 4) (add32 t.[i + 4] (shr x 18)) in
  let t := upd t (i + 6) (add32 t.[i + 6] (Z.land (shl32 x 21) BOT29)) in
  let t := upd t (i + 7) (add32 t.[i + 7] (shr x 8)) in
  let t := upd t (i + 7) (add32 t.[i + 7] (Z.land 0x10000000 m)) in
  let t := upd t (i + 8) (add32 t.[i + 8] (Z.land (sub32 x 1) m)) in
  let t := upd t (i + 7) (sub32 t.[i + 7] (Z.land (shl32 x 24) BOT28)) in
  let t := upd t (i + 8) (sub32 t.[i + 8] (shr x 4)) in
  let t := upd t (i + 8) (add32 t.[i + 8] (Z.land 0x20000000 m)) in
  let t := upd t (i + 8) (sub32 t.[i + 8] x) in
  let t := upd t (i + 8) (add32 t.[i + 8] (Z.land (shl32 x 28) BOT29)) in
  Some (upd t (i + 9) (add32 t.[i + 9] (Z.land (sub32 (shr x 1) 1) m))).
(** Lines 436-458: the lower half. *)
Definition elim_bottom (dbg : bool) (t : list Z) (i : nat) : option (list Z) :=
  let t := upd t (i + 2) (add32 t.[i + 2] (shr t.[i + 1] 28)) in
  let x := Z.land t.[i + 1] BOT28 in
  let m := nz_mask x in
  let t := upd t (i + 1) 0 in
  if dbg && (x <? 1) then None else
  let t := upd t (i + 4) (add32 t.[i + 4] (Z.land (shl32 x 11) BOT29)) in
  let t := upd t (i + 5) (add32 t.[i + 5] (shr x 18)) in
  let t := upd t (i + 7) (add32 t.[i + 7] (Z.land (shl32 x 21) BOT28)) in
  let t := upd t (i + 8) (add32 t.[i + 8] (shr x 7)) in
  let t := upd t (i + 8) (add32 t.[i + 8] (Z.land 0x20000000 m)) in
  let t := upd t (i + 9) (add32 t.[i + 9] (Z.land (sub32 x 1) m)) in
  let t := upd t (i + 8) (sub32 t.[i + 8] (Z.land (shl32 x 25) BOT29)) in
  let t := upd t (i + 9) (sub32 t.[i + 9] (shr x 4)) in
  let t := upd t (i + 9) (add32 t.[i + 9] (Z.land 0x10000000 m)) in
  let t := upd t (i + 9) (sub32 t.[i + 9] x) in
  Some (upd t (i + 10) (add32 t.[i + 10] (Z.land (sub32 x 1) m))).
(** Lines 365-459: the elimination loop. *)
Definition elim_loop (dbg : bool) (t : list Z) : option (list Z) :=
  fold_left (fun ot i => let? t := ot in let? t := elim_top dbg t i in if Nat.eqb (i + 1) 9 then Some t else elim_bottom dbg t i)
    [0; 2; 4; 6; 8]%nat (Some t).
(** Lines 463-481: one round of the loop that shifts down by 257 bits. *)
Definition shift_step (t : list Z) (oc : list Z * Z) (i : nat) : list Z * Z :=
  let (out, carry) := oc in
  let o := t.[i + 9] in
  let o := add32 o carry in
  let o := add32 o (Z.land (shl32 t.[i + 10] 28) BOT29) in
  let carry := shr o 29 in
  let o := Z.land o BOT29 in
  let o1 := shr t.[i + 10] 1 in
  let o1 := add32 o1 carry in
  (out ++ [o; Z.land o1 BOT28], shr o1 28).
(** Lines 463-488. *)
Definition shift_down (t : list Z) : list Z :=
  let (out, carry) := fold_left (shift_step t) [0; 2; 4; 6]%nat ([], 0) in
  let o := add32 t.[17] carry in
  p256_reduce_carry (out ++ [Z.land o BOT29]) (shr o 29).
Definition p256_reduce_degree (dbg : bool) (tmp : list Z) : option (list Z) :=
  let? t := elim_loop dbg (spread tmp) in Some (shift_down t).

(** u64 wrapping_mul. *)
Definition mul64 (a b : Z) : Z := (a * b) mod M64.
(** p256_square, p256.rs:503-554. *)
Definition square_tmp (a : list Z) : list Z :=
  [ mul64 a.[0] a.[0];
    mul64 a.[0] (shl64 a.[1] 1);
    add64 (mul64 a.[0] (shl64 a.[2] 1)) (mul64 a.[1] (shl64 a.[1] 1));
    add64 (mul64 a.[0] (shl64 a.[3] 1)) (mul64 a.[1] (shl64 a.[2] 1));
    add64 (add64 (mul64 a.[0] (shl64 a.[4] 1)) (mul64 a.[1] (shl64 a.[3] 2))) (mul64 a.[2] a.[2]);
    add64 (add64 (mul64 a.[0] (shl64 a.[5] 1)) (mul64 a.[1] (shl64 a.[4] 1))) (mul64 a.[2] (shl64 a.[3] 1));
    add64 (add64 (add64 (mul64 a.[0] (shl64 a.[6] 1)) (mul64 a.[1] (shl64 a.[5] 2))) (mul64 a.[2] (shl64 a.[4] 1))) (mul64 a.[3] (shl64 a.[3] 1));
    add64 (add64 (add64 (mul64 a.[0] (shl64 a.[7] 1)) (mul64 a.[1] (shl64 a.[6] 1))) (mul64 a.[2] (shl64 a.[5] 1))) (mul64 a.[3] (shl64 a.[4] 1));
    add64 (add64 (add64 (add64 (mul64 a.[0] (shl64 a.[8] 1)) (mul64 a.[1] (shl64 a.[7] 2))) (mul64 a.[2] (shl64 a.[6] 1))) (mul64 a.[3] (shl64 a.[5] 2))) (mul64 a.[4] a.[4]);
    add64 (add64 (add64 (mul64 a.[1] (shl64 a.[8] 1)) (mul64 a.[2] (shl64 a.[7] 1))) (mul64 a.[3] (shl64 a.[6] 1))) (mul64 a.[4] (shl64 a.[5] 1));
    add64 (add64 (add64 (mul64 a.[2] (shl64 a.[8] 1)) (mul64 a.[3] (shl64 a.[7] 2))) (mul64 a.[4] (shl64 a.[6] 1))) (mul64 a.[5] (shl64 a.[5] 1));
    add64 (add64 (mul64 a.[3] (shl64 a.[8] 1)) (mul64 a.[4] (shl64 a.[7] 1))) (mul64 a.[5] (shl64 a.[6] 1));
    add64 (add64 (mul64 a.[4] (shl64 a.[8] 1)) (mul64 a.[5] (shl64 a.[7] 2))) (mul64 a.[6] a.[6]);
    add64 (mul64 a.[5] (shl64 a.[8] 1)) (mul64 a.[6] (shl64 a.[7] 1));
    add64 (mul64 a.[6] (shl64 a.[8] 1)) (mul64 a.[7] (shl64 a.[7] 1));
    mul64 a.[7] (shl64 a.[8] 1);
    mul64 a.[8] a.[8] ].
Definition p256_square (dbg : bool) (a : list Z) : option (list Z) := p256_reduce_degree dbg (square_tmp a).
(** p256_mul, p256.rs:564-651. *)
Definition mul_tmp (a b : list Z) : list Z :=
  [ mul64 a.[0] b.[0];
    add64 (mul64 a.[0] (shl64 b.[1] 0)) (mul64 a.[1] (shl64 b.[0] 0));
    add64 (add64 (mul64 a.[0] (shl64 b.[2] 0)) (mul64 a.[1] (shl64 b.[1] 1))) (mul64 a.[2] (shl64 b.[0] 0));
    add64 (add64 (add64 (mul64 a.[0] (shl64 b.[3] 0)) (mul64 a.[1] (shl64 b.[2] 0))) (mul64 a.[2] (shl64 b.[1] 0))) (mul64 a.[3] (shl64 b.[0] 0));
    add64 (add64 (add64 (add64 (mul64 a.[0] (shl64 b.[4] 0)) (mul64 a.[1] (shl64 b.[3] 1))) (mul64 a.[2] (shl64 b.[2] 0))) (mul64 a.[3] (shl64 b.[1] 1))) (mul64 a.[4] (shl64 b.[0] 0));
    add64 (add64 (add64 (add64 (add64 (mul64 a.[0] (shl64 b.[5] 0)) (mul64 a.[1] (shl64 b.[4] 0))) (mul64 a.[2] (shl64 b.[3] 0))) (mul64 a.[3] (shl64 b.[2] 0))) (mul64 a.[4] (shl64 b.[1] 0))) (mul64 a.[5] (shl64 b.[0] 0));
    add64 (add64 (add64 (add64 (add64 (add64 (mul64 a.[0] (shl64 b.[6] 0)) (mul64 a.[1] (shl64 b.[5] 1))) (mul64 a.[2] (shl64 b.[4] 0))) (mul64 a.[3] (shl64 b.[3] 1))) (mul64 a.[4] (shl64 b.[2] 0))) (mul64 a.[5] (shl64 b.[1] 1))) (mul64 a.[6] (shl64 b.[0] 0));
    add64 (add64 (add64 (add64 (add64 (add64 (add64 (mul64 a.[0] (shl64 b.[7] 0)) (mul64 a.[1] (shl64 b.[6] 0))) (mul64 a.[2] (shl64 b.[5] 0))) (mul64 a.[3] (shl64 b.[4] 0))) (mul64 a.[4] (shl64 b.[3] 0))) (mul64 a.[5] (shl64 b.[2] 0))) (mul64 a.[6] (shl64 b.[1] 0))) (mul64 a.[7] (shl64 b.[0] 0));
    add64 (add64 (add64 (add64 (add64 (add64 (add64 (add64 (mul64 a.[0] (shl64 b.[8] 0)) (mul64 a.[1] (shl64 b.[7] 1))) (mul64 a.[2] (shl64 b.[6] 0))) (mul64 a.[3] (shl64 b.[5] 1))) (mul64 a.[4] (shl64 b.[4] 0))) (mul64 a.[5] (shl64 b.[3] 1))) (mul64 a.[6] (shl64 b.[2] 0))) (mul64 a.[7] (shl64 b.[1] 1))) (mul64 a.[8] (shl64 b.[0] 0));
    add64 (add64 (add64 (add64 (add64 (add64 (add64 (mul64 a.[1] (shl64 b.[8] 0)) (mul64 a.[2] (shl64 b.[7] 0))) (mul64 a.[3] (shl64 b.[6] 0))) (mul64 a.[4] (shl64 b.[5] 0))) (mul64 a.[5] (shl64 b.[4] 0))) (mul64 a.[6] (shl64 b.[3] 0))) (mul64 a.[7] (shl64 b.[2] 0))) (mul64 a.[8] (shl64 b.[1] 0));
    add64 (add64 (add64 (add64 (add64 (add64 (mul64 a.[2] (shl64 b.[8] 0)) (mul64 a.[3] (shl64 b.[7] 1))) (mul64 a.[4] (shl64 b.[6] 0))) (mul64 a.[5] (shl64 b.[5] 1))) (mul64 a.[6] (shl64 b.[4] 0))) (mul64 a.[7] (shl64 b.[3] 1))) (mul64 a.[8] (shl64 b.[2] 0));
    add64 (add64 (add64 (add64 (add64 (mul64 a.[3] (shl64 b.[8] 0)) (mul64 a.[4] (shl64 b.[7] 0))) (mul64 a.[5] (shl64 b.[6] 0))) (mul64 a.[6] (shl64 b.[5] 0))) (mul64 a.[7] (shl64 b.[4] 0))) (mul64 a.[8] (shl64 b.[3] 0));
    add64 (add64 (add64 (add64 (mul64 a.[4] (shl64 b.[8] 0)) (mul64 a.[5] (shl64 b.[7] 1))) (mul64 a.[6] (shl64 b.[6] 0))) (mul64 a.[7] (shl64 b.[5] 1))) (mul64 a.[8] (shl64 b.[4] 0));
    add64 (add64 (add64 (mul64 a.[5] (shl64 b.[8] 0)) (mul64 a.[6] (shl64 b.[7] 0))) (mul64 a.[7] (shl64 b.[6] 0))) (mul64 a.[8] (shl64 b.[5] 0));
    add64 (add64 (mul64 a.[6] (shl64 b.[8] 0)) (mul64 a.[7] (shl64 b.[7] 1))) (mul64 a.[8] (shl64 b.[6] 0));
    add64 (mul64 a.[7] (shl64 b.[8] 0)) (mul64 a.[8] (shl64 b.[7] 0));
    mul64 a.[8] (shl64 b.[8] 0) ].
Definition p256_mul (dbg : bool) (a b : list Z) : option (list Z) := p256_reduce_degree dbg (mul_tmp a b).

(** [(0..n).for_each(|_| p256_square_a(&mut f, &f))]. *)
Fixpoint squares (dbg : bool) (n : nat) (f : list Z) : option (list Z) :=
  match n with O => Some f | S n => let? f := p256_square dbg f in squares dbg n f end.
(** p256_invert, p256.rs:663-717. *)
Definition p256_invert (dbg : bool) (a : list Z) : option (list Z) :=
  let? f := p256_square dbg a in
  let? f := p256_mul dbg a f in
  let e2 := f in
  let? f := p256_square dbg f in
  let? f := p256_square dbg f in
  let? f := p256_mul dbg f e2 in
  let e4 := f in
  let? f := p256_square dbg f in
  let? f := p256_square dbg f in
  let? f := p256_square dbg f in
  let? f := p256_square dbg f in
  let? f := p256_mul dbg f e4 in
  let e8 := f in
  let? f := squares dbg 8 f in
  let? f := p256_mul dbg f e8 in
  let e16 := f in
  let? f := squares dbg 16 f in
  let? f := p256_mul dbg f e16 in
  let e32 := f in
  let? f := squares dbg 32 f in
  let e64 := f in
  let? f := p256_mul dbg f a in
  let? f := squares dbg 192 f in
  let? g := p256_mul dbg e64 e32 in
  let? g := squares dbg 16 g in
  let? g := p256_mul dbg g e16 in
  let? g := squares dbg 8 g in
  let? g := p256_mul dbg g e8 in
  let? g := squares dbg 4 g in
  let? g := p256_mul dbg g e4 in
  let? g := p256_square dbg g in
  let? g := p256_square dbg g in
  let? g := p256_mul dbg g e2 in
  let? g := p256_square dbg g in
  let? g := p256_square dbg g in
  let? g := p256_mul dbg g a in
  p256_mul dbg g f.

(** A point in Jacobian coordinates. *)
Definition jac : Type := list Z * list Z * list Z.
(** p256_point_double, p256.rs:824-853. *)
Definition p256_point_double (dbg : bool) (q : jac) : option jac :=
  let '(x, y, z) := q in
  let? delta := p256_square dbg z in
  let? gamma := p256_square dbg y in
  let? beta := p256_mul dbg x gamma in
  let tmp := p256_sum x delta in
  let tmp2 := p256_diff x delta in
  let? alpha := p256_mul dbg tmp tmp2 in
  let alpha := p256_scalar3 alpha in
  let tmp := p256_sum y z in
  let? tmp := p256_square dbg tmp in
  let tmp := p256_diff tmp gamma in
  let zout := p256_diff tmp delta in
  let beta := p256_scalar4 beta in
  let? xout := p256_square dbg alpha in
  let xout := p256_diff xout beta in
  let xout := p256_diff xout beta in
  let tmp := p256_diff beta xout in
  let? tmp := p256_mul dbg alpha tmp in
  let? tmp2 := p256_square dbg gamma in
  let tmp2 := p256_scalar8 tmp2 in
  let yout := p256_diff tmp tmp2 in
  Some (xout, yout, zout).
(** p256_point_add_mixed, p256.rs:870-900. *)
Definition p256_point_add_mixed (dbg : bool) (q : jac) (x2 y2 : list Z) : option jac :=
  let '(x1, y1, z1) := q in
  let? z1z1 := p256_square dbg z1 in
  let tmp := p256_sum z1 z1 in
  let? u2 := p256_mul dbg x2 z1z1 in
  let? z1z1z1 := p256_mul dbg z1 z1z1 in
  let? s2 := p256_mul dbg y2 z1z1z1 in
  let h := p256_diff u2 x1 in
  let i := p256_sum h h in
  let? i := p256_square dbg i in
  let? j := p256_mul dbg h i in
  let r := p256_diff s2 y1 in
  let r := p256_sum r r in
  let? v := p256_mul dbg x1 i in
  let? zout := p256_mul dbg tmp h in
  let? rr := p256_square dbg r in
  let xout := p256_diff rr j in
  let xout := p256_diff xout v in
  let xout := p256_diff xout v in
  let tmp := p256_diff v xout in
  let? yout := p256_mul dbg tmp r in
  let? tmp := p256_mul dbg y1 j in
  let yout := p256_diff yout tmp in
  let yout := p256_diff yout tmp in
  Some (xout, yout, zout).
(** p256_point_add, p256.rs:909-948. *)
Definition p256_point_add (dbg : bool) (q1 q2 : jac) : option jac :=
  let '(x1, y1, z1) := q1 in let '(x2, y2, z2) := q2 in
  let? z1z1 := p256_square dbg z1 in
  let? z2z2 := p256_square dbg z2 in
  let? u1 := p256_mul dbg x1 z2z2 in
  let tmp := p256_sum z1 z2 in
  let? tmp := p256_square dbg tmp in
  let tmp := p256_diff tmp z1z1 in
  let tmp := p256_diff tmp z2z2 in
  let? z2z2z2 := p256_mul dbg z2 z2z2 in
  let? s1 := p256_mul dbg y1 z2z2z2 in
  let? u2 := p256_mul dbg x2 z1z1 in
  let? z1z1z1 := p256_mul dbg z1 z1z1 in
  let? s2 := p256_mul dbg y2 z1z1z1 in
  let h := p256_diff u2 u1 in
  let i := p256_sum h h in
  let? i := p256_square dbg i in
  let? j := p256_mul dbg h i in
  let r := p256_diff s2 s1 in
  let r := p256_sum r r in
  let? v := p256_mul dbg u1 i in
  let? zout := p256_mul dbg tmp h in
  let? rr := p256_square dbg r in
  let xout := p256_diff rr j in
  let xout := p256_diff xout v in
  let xout := p256_diff xout v in
  let tmp := p256_diff v xout in
  let? yout := p256_mul dbg tmp r in
  let? tmp := p256_mul dbg s1 j in
  let yout := p256_diff yout tmp in
  let yout := p256_diff yout tmp in
  Some (xout, yout, zout).

(** p256_copy_conditional, p256.rs:953-957, on one element and on the three of a point. *)
Definition p256_copy (out a : list Z) (mask : Z) : list Z := zip_with (fun x y => Z.lxor x (Z.land mask (Z.lxor y x))) out a.
Definition copy_point (q r : jac) (mask : Z) : jac :=
  let '(x1, y1, z1) := q in let '(x2, y2, z2) := r in (p256_copy x1 x2 mask, p256_copy y1 y2 mask, p256_copy z1 z2 mask).
(** The mask of p256.rs:966-970: all ones for [i = index]. *)
Definition affine_mask (i index : Z) : Z :=
  let m := Z.lxor i index in
  let m := Z.lor m (shr m 2) in
  let m := Z.lor m (shr m 1) in
  let m := Z.land m 1 in
  sub32 m 1.
(** p256_select_affine_point, p256.rs:961-980; the entry [i] of the table is at 18(i - 1). *)
Definition p256_select_affine (table : list Z) (index : Z) : list Z * list Z :=
  fold_left (fun xy i =>
      let mask := affine_mask (Z.of_nat i) index in
      let t := skipn (18 * (i - 1)) table in
      (zip_with (fun x t => Z.lor x (Z.land t mask)) (fst xy) (firstn 9 t),
       zip_with (fun y t => Z.lor y (Z.land t mask)) (snd xy) (firstn 9 (skipn 9 t)))) (seq 1 15) (fz, fz).
(** The mask of p256.rs:994-997. *)
Definition jacobian_mask (i index : Z) : Z :=
  let m := Z.lxor i index in
  let m := Z.lor m (shr m 2) in
  let m := Z.lor m (shr m 1) in
  if Z.land m 1 =? 1 then 0 else M32 - 1.
(** p256_select_jacobian_point, p256.rs:985-1008. *)
Definition p256_select_jacobian (table : list jac) (index : Z) : jac :=
  fold_left (fun q i =>
      let mask := jacobian_mask (Z.of_nat i) index in
      let '(x, y, z) := q in let '(tx, ty, tz) := nth i table (fz, fz, fz) in
      (zip_with (fun x t => Z.lor x (Z.land t mask)) x tx, zip_with (fun x t => Z.lor x (Z.land t mask)) y ty,
       zip_with (fun x t => Z.lor x (Z.land t mask)) z tz)) (seq 1 15) (fz, fz, fz).
(** p256_get_bit, p256.rs:1010-1013. *)
Definition p256_get_bit (scalar : list Z) (bit : Z) : Z := Z.land (shr scalar.[Z.to_nat (shr bit 3)] (Z.land bit 7)) 1.

(** Lines 1042-1048 and 1135-1136: the results of an addition [t] and of the table [q] are copied to [out]; the mask [nm] says
    whether [out] still is infinity.  It is returned updated. *)
Definition window_copy (out q t : jac) (index nm : Z) : jac * Z :=
  let out := copy_point out q nm in
  let pm := nz_mask index in
  let out := copy_point out t (Z.land pm (not32 nm)) in
  (out, Z.land nm (not32 pm)).
(** p256_scalar_base_mult, p256.rs:1018-1068: the body of the loop on [j], for bit [31 - i + j] and the table at [off]. *)
Definition base_step (dbg : bool) (scalar : list Z) (b : Z) (off : nat) (s : jac * Z) : option (jac * Z) :=
  let (out, nm) := s in
  let bit0 := p256_get_bit scalar b in
  let bit1 := p256_get_bit scalar (b + 64) in
  let bit2 := p256_get_bit scalar (b + 128) in
  let bit3 := p256_get_bit scalar (b + 192) in
  let index := Z.lor (Z.lor (Z.lor bit0 (shl32 bit1 1)) (shl32 bit2 2)) (shl32 bit3 3) in
  let (px, py) := p256_select_affine (skipn off P256_PRECOMPUTED) index in
  let? t := p256_point_add_mixed dbg out px py in
  Some (window_copy out (px, py, P256_ONE) t index nm).
(** ... one round of the loop on [i] ... *)
Definition base_round (dbg : bool) (scalar : list Z) (os : option (jac * Z)) (i : nat) : option (jac * Z) :=
  let? (out, nm) := os in
  let? out := if Nat.eqb i 0 then Some out else p256_point_double dbg out in
  let? s := base_step dbg scalar (31 - Z.of_nat i) 0 (out, nm) in
  base_step dbg scalar (31 - Z.of_nat i + 32) 270 s.
Definition p256_scalar_base_mult (dbg : bool) (scalar : list Z) : option jac :=
  let? (out, _) := fold_left (base_round dbg scalar) (seq 0 32) (Some ((fz, fz, fz), M32 - 1)) in Some out.

(** p256_point_to_affine, p256.rs:1072-1079. *)
Definition p256_point_to_affine (dbg : bool) (q : jac) : option (list Z * list Z) :=
  let '(x, y, z) := q in
  let? zinv := p256_invert dbg z in
  let? zinvsq := p256_square dbg zinv in
  let? xout := p256_mul dbg x zinvsq in
  let? zinv := p256_mul dbg zinv zinvsq in
  let? yout := p256_mul dbg y zinv in
  Some (xout, yout).
(** p256_to_bigint, p256.rs:1081-1097. *)
Definition p256_to_bigint (a : list Z) : Z :=
  let result := fold_left (fun r i => Z.shiftl r (if Nat.even i then 29 else 28) + a.[i]) [7; 6; 5; 4; 3; 2; 1; 0]%nat a.[8] in
  (result * R_INV) mod cp_p p256.
(** p256_to_affine, p256.rs:1099-1103. *)
Definition p256_to_affine (dbg : bool) (q : jac) : option (Z * Z) :=
  let? (x, y) := p256_point_to_affine dbg q in Some (p256_to_bigint x, p256_to_bigint y).

(** p256_scalar_mult, p256.rs:1105-1158: the table of lines 1113-1121, as the list of its entries; the next two are 2i and 2i + 1 ... *)
Definition precomp_step (dbg : bool) (x y : list Z) (ot : option (list jac)) (i : nat) : option (list jac) :=
  let? t := ot in
  let? d := p256_point_double dbg (nth (i / 2) t (fz, fz, fz)) in
  let? a := p256_point_add_mixed dbg d x y in
  Some (t ++ [d; a]).
Definition precomp (dbg : bool) (x y : list Z) : option (list jac) :=
  fold_left (precomp_step dbg x y) [2; 4; 6; 8; 10; 12; 14]%nat (Some [(fz, fz, fz); (x, y, P256_ONE)]).
(** ... one round of the loop of lines 1129-1157. *)
Definition window_round (dbg : bool) (table : list jac) (scalar : list Z) (os : option (jac * Z)) (i : nat) : option (jac * Z) :=
  let? (out, nm) := os in
  let? out := if Nat.eqb i 0 then Some out else
    let? out := p256_point_double dbg out in
    let? out := p256_point_double dbg out in
    let? out := p256_point_double dbg out in
    p256_point_double dbg out in
  let index := scalar.[31 - i / 2] in
  let index := if Nat.odd i then Z.land index 15 else shr index 4 in
  let q := p256_select_jacobian table index in
  let? t := p256_point_add dbg out q in
  Some (window_copy out q t index nm).
Definition p256_scalar_mult (dbg : bool) (x y : list Z) (scalar : list Z) : option jac :=
  let? table := precomp dbg x y in
  let? (out, _) := fold_left (window_round dbg table scalar) (seq 0 64) (Some ((fz, fz, fz), M32 - 1)) in Some out.

(** p256_from_bigint, p256.rs:1160-1180. *)
Fixpoint from_limbs (n : nat) (even : bool) (tmp : Z) : list Z :=
  match n with
  | O => []
  | S n => if even then Z.land (tmp mod M32) BOT29 :: from_limbs n false (Z.shiftr tmp 29)
           else Z.land (tmp mod M32) BOT28 :: from_limbs n true (Z.shiftr tmp 28)
  end.
Definition p256_from_bigint (a : Z) : list Z := from_limbs 9 true ((Z.shiftl a 257) mod cp_p p256).

(** The EllipticCurve implementation of CurveP256, p256.rs:1183-1230: is_on_curve, add and double are those of the parameters ... *)
Definition c256_is_on_curve (x y : Z) : bool := is_on_curve p256 x y.
Definition c256_add (x1 y1 x2 y2 : Z) : option (Z * Z) := curve_add p256 x1 y1 x2 y2.
Definition c256_double (x y : Z) : option (Z * Z) := curve_double p256 x y.
(** ... scalar, p256.rs:1200-1215 ... *)
Definition c256_scalar (dbg : bool) (x y k : Z) : option (Z * Z) :=
  let? q := p256_scalar_mult dbg (p256_from_bigint x) (p256_from_bigint y) (p256_get_scalar k) in p256_to_affine dbg q.
(** ... and scalar_base_point, p256.rs:1217-1229. *)
Definition c256_scalar_base (dbg : bool) (k : Z) : option (Z * Z) :=
  let? q := p256_scalar_base_mult dbg (p256_get_scalar k) in p256_to_affine dbg q.
