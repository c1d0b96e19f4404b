(** Model of src/rsa/rsa.rs.
    rmath's BigInt is not available: numbers are [Z], a NaN is [None] where the code can meet one.
    Assumed of rmath: [exp(e,n)] is the power modulo n, [mod_inverse] the inverse in [0,n) or NaN, [rem_euclid]
    the remainder, [bits_len] the bit length, [random] a number the caller supplies here as a draw. *)
From Coq Require Import Zpow_facts.
From Verif Require Import Base NumTheory.

(** BigInt::bits_len, used in rsa.rs:135-137, 450 and 470. *)
Definition bits_len (x : Z) : nat := if x <=? 0 then 0%nat else Z.to_nat (Z.log2 x + 1).
(** BigInt::exp, used in rsa.rs:163 and 282-319 (square and multiply, as [Zpow_mod] of the standard library). *)
Definition powmod (a e n : Z) : Z := Zpow_mod a e n.
(** BigInt::mod_inverse, used in rsa.rs:277, 477, 519 and 526 ([None] is NaN). *)
Definition mod_inverse (a n : Z) : option Z := inv_mod a n.

(** rsa.rs:12-17.  A NaN modulus or exponent is not modelled. *)
Record pubkey := mkPub { pk_n : Z; pk_e : Z }.
(** rsa.rs:29-36; [None] is a NaN coefficient. *)
Record crtval := mkCrt { cv_exp : Z; cv_coeff : option Z; cv_r : Z }.
(** rsa.rs:48-61; [None] is a NaN inverse. *)
Record precomp := mkPre { pc_dp : Z; pc_dq : Z; pc_qinv : option Z; pc_crt : list crtval }.
(** rsa.rs:74-84; [sk_pre = None] is PrecomputedValues::nan() (541-549). *)
Record privkey := mkPriv { sk_pk : pubkey; sk_d : Z; sk_primes : list Z; sk_pre : option precomp }.

(** PublicKey::from_nat, rsa.rs:109-120. *)
Definition pub_from_nat (n e : Z) : res pubkey :=
  if (n <=? e) || (e <? 3) then Err InvalidParameter else Ok (mkPub n e).
(** PublicKey::from_bigint, rsa.rs:101-107; [None] is NaN ([signnum() = None]). *)
Definition pub_from_bigint (n e : option Z) : res pubkey :=
  match n, e with
  | Some n, Some e => if negb (Z.sgn n =? 1) || negb (Z.sgn e =? 1) then Err InvalidParameter else pub_from_nat n e
  | _, _ => Err InvalidParameter
  end.
(** PublicKey::from_be_bytes, rsa.rs:123-126, for non-empty slices. *)
Definition pub_from_be_bytes (n e : list Z) : res pubkey := pub_from_nat (be_val n) (be_val e).
(** PublicKey::from_le_bytes, rsa.rs:129-132, for non-empty slices. *)
Definition pub_from_le_bytes (n e : list Z) : res pubkey := pub_from_nat (le_val n) (le_val e).
(** PublicKey::modulus_len, rsa.rs:135-137. *)
Definition modulus_len (k : pubkey) : nat := ((bits_len (pk_n k) + 7) / 8)%nat.
(** PublicKey::is_valid, rsa.rs:148-158 (the NaN test cannot fail here). *)
Definition pub_is_valid (k : pubkey) : res unit :=
  if pk_e k <? 2 then Err InvalidPublicKey else if 2 ^ 31 - 1 <? pk_e k then Err InvalidPublicKey else Ok tt.
(** PublicKey::encrypt, rsa.rs:162-164. *)
Definition pub_encrypt (k : pubkey) (m : Z) : Z := powmod m (pk_e k) (pk_n k).

(** KeyPair, rsa.rs:167-210: a public key or a private one. *)
Definition keypair := (pubkey + privkey)%type.
Definition kp_private (k : keypair) : option privkey := match k with inl _ => None | inr s => Some s end.
Definition kp_public (k : keypair) : pubkey := match k with inl p => p | inr s => sk_pk s end.

(** PrivateKey::from_bigint_uncheck, rsa.rs:232-244. *)
Definition priv_from_bigint_uncheck (n e : option Z) (d : Z) (primes : list Z) : res privkey :=
  rbind (pub_from_bigint n e) (fun pk => Ok (mkPriv pk d primes None)).

(** PrecomputedValues::new, rsa.rs:514-537: the loop over the further primes. *)
Fixpoint crt_values (d r : Z) (primes : list Z) : list crtval :=
  match primes with
  | [] => []
  | p :: ps => mkCrt (d mod (p - 1)) (mod_inverse r p) r :: crt_values d (r * p) ps
  end.
Definition precompute (p q d : Z) (primes : list Z) : precomp :=
  mkPre (d mod (p - 1)) (d mod (q - 1)) (mod_inverse q p) (crt_values d (p * q) primes).

(** The blinding loop, rsa.rs:267-280: [draws] are the numbers [n.random(rnd)] yields; running out of them stands for
    the loop not ending. *)
Fixpoint blind_loop (n : Z) (draws : list Z) : option (Z * Z) :=
  match draws with
  | [] => None
  | r :: rs =>
    let r := if r =? 0 then 1 else r in
    match mod_inverse r n with Some ir => Some (r, ir) | None => blind_loop n rs end
  end.

(** The loop over further primes, rsa.rs:301-312.  A NaN difference makes [signnum().unwrap()] panic. *)
Fixpoint crt_loop (c m1 : Z) (vs : list crtval) (primes : list Z) : res Z :=
  match vs, primes with
  | v :: vs, p :: ps =>
    match cv_coeff v with
    | None => Panic
    | Some coeff =>
      let mi := ((powmod c (cv_exp v) p - m1) * coeff) mod p in
      let mi := if mi <? 0 then mi + p else mi in
      crt_loop c (m1 + mi * cv_r v) vs ps
    end
  | _, _ => Ok m1
  end.
(** The second private key representation, rsa.rs:286-315.  [self.primes[0]], [self.primes[1]] panic when missing; a NaN
    [q_inv] makes the result NaN, which is modelled as [Panic] as well: no number is returned. *)
Definition crt_decrypt (pc : precomp) (primes : list Z) (c : Z) : res Z :=
  match primes with
  | p0 :: p1 :: ps =>
    match pc_qinv pc with
    | None => Panic
    | Some qinv =>
      let m1 := powmod c (pc_dp pc) p0 in
      let m2 := powmod c (pc_dq pc) p1 in
      let m1 := m1 - m2 in
      let m1 := if m1 <? 0 then m1 + p0 else m1 in
      let m1 := (m1 * qinv) mod p0 in
      crt_loop c (m1 * p1 + m2) (pc_crt pc) ps
    end
  | _ => Panic
  end.
(** rsa.rs:282-316. *)
Definition raw_decrypt (k : privkey) (c : Z) : res Z :=
  match sk_pre k with
  | None => Ok (powmod c (sk_d k) (pk_n (sk_pk k)))
  | Some pc => crt_decrypt pc (sk_primes k) c
  end.
(** PrivateKey::decrypt, rsa.rs:248-337. *)
Definition priv_decrypt (k : privkey) (c : Z) (rd : option (list Z)) : res Z :=
  let n := pk_n (sk_pk k) in
  if n <? c then Err InvalidParameter
  else if n =? 0 then Err InvalidPrivateKey
  else match rd with
       | None => raw_decrypt k c
       | Some draws =>
         match blind_loop n draws with
         | None => Panic
         | Some (r, ir) =>
           rbind (raw_decrypt k ((powmod r (pk_e (sk_pk k)) n * c) mod n)) (fun m => Ok ((m * ir) mod n))
         end
       end.
(** PrivateKey::decrypt_and_check, rsa.rs:341-351. *)
Definition priv_decrypt_check (k : privkey) (c : Z) (rd : option (list Z)) : res Z :=
  rbind (priv_decrypt k c rd) (fun m => if c =? pub_encrypt (sk_pk k) m then Ok m else Err InnerErr).

(** PrivateKey::is_valid, rsa.rs:354-386: the product loop (358-364) and the exponent loop (377-383). *)
Fixpoint valid_primes (acc : Z) (primes : list Z) : option Z :=
  match primes with [] => Some acc | p :: ps => if p <=? 1 then None else valid_primes (acc * p) ps end.
Definition priv_is_valid (k : privkey) : res unit :=
  rbind (pub_is_valid (sk_pk k)) (fun _ =>
    match valid_primes 1 (sk_primes k) with
    | None => Err InvalidPrivateKey
    | Some modulus =>
      if negb (modulus =? pk_n (sk_pk k)) then Err InvalidPrivateKey
      else if forallb (fun p => (sk_d k * pk_e (sk_pk k)) mod (p - 1) =? 1) (sk_primes k) then Ok tt else Err InvalidPrivateKey
    end).

(** ** Key generation, rsa.rs:412-510 *)
(** Vec::dedup, used in rsa.rs:456: removes consecutive repetitions. *)
Fixpoint dedup (l : list Z) : list Z :=
  match l with
  | a :: (b :: _) as t => if a =? b then dedup t else a :: dedup t
  | _ => l
  end.
(** One set of primes, rsa.rs:442-453: [gen i bits] is what [Nat::generate_prime] returns for the i-th prime of this
    attempt; [None] is its error.  [cbits -= prime.bits_len()] must not underflow. *)
Fixpoint gen_primes (gen : nat -> nat -> option Z) (n_primes i todo cbits : nat) : res (list Z) :=
  match todo with
  | O => Ok []
  | S todo =>
    match gen i (cbits / (n_primes - i))%nat with
    | None => Err OuterErr
    | Some p =>
      if (cbits <? bits_len p)%nat then Panic
      else rbind (gen_primes gen n_primes (S i) todo (cbits - bits_len p)) (fun ps => Ok (p :: ps))
    end
  end.
(** The retry loop, rsa.rs:437-483: [gens] are the attempts; running out of them stands for the loop not ending. *)
Fixpoint gen_loop (n_primes bits : nat) (gens : list (nat -> nat -> option Z)) : res privkey :=
  match gens with
  | [] => Panic
  | gen :: gens =>
    let cbits := if (7 <=? n_primes)%nat then (bits + (n_primes - 2) / 5)%nat else bits in
    rbind (gen_primes gen n_primes 0 n_primes cbits) (fun primes =>
      let primes := dedup primes in
      if negb (length primes =? n_primes)%nat then gen_loop n_primes bits gens
      else
        let n := fold_left Z.mul primes 1 in
        let totient := fold_left (fun t p => t * (p - 1)) primes 1 in
        if negb (bits_len n =? bits)%nat then gen_loop n_primes bits gens
        else match mod_inverse 65537 totient with
             | None => gen_loop n_primes bits gens
             | Some d =>
               match primes with
               | p :: q :: ps => Ok (mkPriv (mkPub n 65537) d primes (Some (precompute p q d ps)))
               | _ => Panic
               end
             end)
  end.
(** PrivateKey::generate_multi_prime_key, rsa.rs:412-510.  [few] is the outcome of the floating point test of
    lines 417-431; which outcomes it can have is modelled in RsaSizeModel.v. *)
Definition generate_multi_prime_key (n_primes bits : nat) (few : bool) (gens : list (nat -> nat -> option Z)) : res privkey :=
  if (n_primes <? 2)%nat then Err InvalidParameter
  else if (bits <? 64)%nat && few then Err InvalidParameter
  else gen_loop n_primes bits gens.
(** PrivateKey::generate_key, rsa.rs:393-395. *)
Definition generate_key (bits : nat) (few : bool) (gens : list (nat -> nat -> option Z)) : res privkey :=
  generate_multi_prime_key 2 bits few gens.
