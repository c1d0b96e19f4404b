(** The floating point size estimate of RSA key generation, rsa.rs:417-431.

    An f64 value is modelled by the real number it stands for.  Each f64 operation returns a value whose relative error is
    at most 2^-50, whatever the rounding mode and the platform's logarithm (IEEE 754 asks for 2^-53, and the usual libm
    logarithms are within one unit in the last place); the theorems hold for every choice of the rounded values. *)
From Coq Require Import Reals ZArith.
Open Scope R_scope.

(** [x] is an f64 result of an operation whose exact result is [y]. *)
Definition rounds (x y : R) : Prop := Rabs (x - y) <= Rabs y * / 2 ^ 50.

(** [pi] of rsa.rs:418-427, as computed: [prime_limit] is a power of two below 2^32 and so is exact (line 418); [ln]
    and the subtraction and division of line 420; the divisions of lines 424 and 427. *)
Definition estimate (n_primes bits : nat) (pi : R) : Prop :=
  exists lnl den q a : R,
    let prime_limit := 2 ^ (bits / n_primes) in
    rounds lnl (ln prime_limit) /\ rounds den (lnl - 1) /\ rounds q (prime_limit / den) /\ rounds a (q / 4) /\ rounds pi (a / 2).
(** The test of rsa.rs:428. *)
Definition too_few (n_primes bits : nat) (few : bool) : Prop :=
  exists pi, estimate n_primes bits pi /\ (few = true <-> pi <= INR n_primes).
