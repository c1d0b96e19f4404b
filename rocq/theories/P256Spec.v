(** What the limbs of src/elliptic/p256.rs stand for.  Nothing here refers to the model. *)
From Verif Require Import Base EllSpec.

(** The prime of the curve P-256. *)
Definition P256 : Z := 2 ^ 256 - 2 ^ 224 + 2 ^ 192 + 2 ^ 96 - 1.
(** The number written with limbs alternately of 29 and 28 bits, least significant first. *)
Fixpoint mixed (even : bool) (l : list Z) : Z :=
  match l with [] => 0 | x :: l => x + (if even then 2 ^ 29 else 2 ^ 28) * mixed (negb even) l end.
Definition val256 : list Z -> Z := mixed true.
(** Nine limbs, with one bit to spare in each but the last. *)
Definition element (l : list Z) : Prop :=
  length l = 9%nat /\ forall i, (i < 9)%nat -> 0 <= nth i l 0 < if Nat.even i && Nat.ltb i 8 then 2 ^ 30 else 2 ^ 29.
(** An element stands for [x] when it is [x] times 2^257 modulo p. *)
Definition stands256 (l : list Z) (x : Z) : Prop := cong P256 (val256 l) (x * 2 ^ 257).
(** The bounds written in the comments of the source: the last limb may have a bit to spare as well. *)
Definition documented (l : list Z) : Prop := length l = 9%nat /\ forall i, (i < 9)%nat -> 0 <= nth i l 0 < if Nat.even i then 2 ^ 30 else 2 ^ 29.
