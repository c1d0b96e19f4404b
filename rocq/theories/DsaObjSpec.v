(** What is assumed of a random source and said of histories of DSA objects. *)
From Coq Require Import Znumtheory.
From Verif Require Import Base HashModel RsaModel RsaEncModel DsaModel DsaObjModel.

(** [random] gives natural numbers, [generate_prime] primes of the wanted length, and the primality test accepts primes only. *)
Definition source_ok {R} (src : rsrc R) : Prop :=
  (forall r q r' x, rs_random src r q = (r', x) -> 0 <= x) /\
  (forall r n t r' q, rs_prime src r n t = (r', Some q) -> prime q /\ 2 ^ (Z.of_nat n - 1) <= q < 2 ^ Z.of_nat n) /\
  (forall r x t r', rs_test src r x t = (r', true) -> prime x).
(** The numbers [l] are drawn one after the other, with the bound [q], from the source in state [r], which ends in state [r']. *)
Inductive drawn {R} (src : rsrc R) (q : Z) : R -> list Z -> R -> Prop :=
| drawn_nil r : drawn src q r [] r
| drawn_cons r k r1 l r2 : rs_random src r q = (r1, k) -> drawn src q r1 l r2 -> drawn src q r (k :: l) r2.
(** What a call returns on an object with the hash object [s0] that was just made, when the source yields [draws] (DsaModel.v). *)
Definition fresh_outcome {S} (D : digest S) (kp : dsa_kp) (s0 : S) (draws : list Z) (op : dsa_op) : sigc * res unit :=
  match op with
  | DSign c msg => let '(_, c', r) := dsa_sign D kp s0 draws c msg in (c', r)
  | DVerify c msg => (c, snd (dsa_verify D kp s0 c msg))
  end.
(** Messages are byte strings shorter than the hash function's limit. *)
Definition dop_ok (limit : Z) (op : dsa_op) : Prop :=
  match op with DSign _ msg | DVerify _ msg => bytes msg /\ Z.of_nat (length msg) < limit end.
(** The standard sizes and the constructors named after them. *)
Definition named {R} (src : rsrc R) (fuel hfuel : nat) {S : Type} :
  list (Z * Z * (R -> R * res dsa_dp) * (S -> R -> res (dsa_obj (R := R) (S := S)))) :=
  [ (1024, 160, l1024_n160 src fuel hfuel, new_with_l1024_n160 src fuel hfuel);
    (2048, 224, l2048_n224 src fuel hfuel, new_with_l2048_n224 src fuel hfuel);
    (2048, 256, l2048_n256 src fuel hfuel, new_with_l2048_n256 src fuel hfuel);
    (3072, 256, l3072_n256 src fuel hfuel, new_with_l3072_n256 src fuel hfuel) ].
