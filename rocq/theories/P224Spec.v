(** What the limbs of src/elliptic/p224.rs stand for.  Nothing here refers to the model. *)
From Verif Require Import Base EllSpec.

(** The prime of the curve P-224. *)
Definition P224 : Z := 2 ^ 224 - 2 ^ 96 + 1.
(** The number written with limbs of 28 bits, least significant first. *)
Fixpoint val28 (l : list Z) : Z := match l with [] => 0 | x :: l => x + 2 ^ 28 * val28 l end.
(** Eight limbs below [B] that stand for the residue class of [x]. *)
Definition limbs_below (B : Z) (l : list Z) : Prop := length l = 8%nat /\ Forall (fun x => 0 <= x < B) l.
Definition stands_for (l : list Z) (x : Z) : Prop := cong P224 (val28 l) x.
(** The coordinates that come back wrong, and what comes back instead. *)
Definition bad_coordinate (x : Z) : bool := (x =? P224 - 1) || ((x <? 2 ^ 96 - 1) && (x mod 2 ^ 28 =? 2 ^ 28 - 1)).
Definition returned (x : Z) : Z := if bad_coordinate x then (x + 2 ^ 28) mod P224 else x.
