(** Specification of the group of a curve y^2 = x^3 - 3x + b modulo p, in textbook form.
    A point is [None] (infinity) or a pair of integers taken modulo p.  Nothing here refers to the model. *)
From Coq Require Import Znumtheory.
From Verif Require Import Base.

Definition cong (p x y : Z) : Prop := (p | x - y).
Definition pt : Type := option (Z * Z).
(** The interface writes infinity as (0, 0). *)
Definition decode (xy : Z * Z) : pt := if (fst xy =? 0) && (snd xy =? 0) then None else Some xy.
Definition on_curve (p b : Z) (P : pt) : Prop :=
  match P with None => True | Some (x, y) => cong p (y * y) (x * x * x - 3 * x + b) end.
Definition same_point (p : Z) (P Q : pt) : Prop :=
  match P, Q with
  | None, None => True
  | Some (x1, y1), Some (x2, y2) => cong p x1 x2 /\ cong p y1 y2
  | _, _ => False
  end.
(** R = P + Q. *)
Inductive ec_sum (p : Z) : pt -> pt -> pt -> Prop :=
| sum_zero_l Q R : same_point p Q R -> ec_sum p None Q R
| sum_zero_r P R : same_point p P R -> ec_sum p P None R
| sum_opposite x1 y1 x2 y2 : cong p x1 x2 -> cong p y1 (- y2) -> ec_sum p (Some (x1, y1)) (Some (x2, y2)) None
| sum_chord l x1 y1 x2 y2 x3 y3 : ~ cong p x1 x2 -> cong p (l * (x2 - x1)) (y2 - y1) ->
    cong p x3 (l * l - x1 - x2) -> cong p y3 (l * (x1 - x3) - y1) ->
    ec_sum p (Some (x1, y1)) (Some (x2, y2)) (Some (x3, y3))
| sum_tangent l x1 y1 x2 y2 x3 y3 : cong p x1 x2 -> cong p y1 y2 -> ~ cong p y1 0 -> cong p (l * (2 * y1)) (3 * (x1 * x1) - 3) ->
    cong p x3 (l * l - x1 - x2) -> cong p y3 (l * (x1 - x3) - y1) ->
    ec_sum p (Some (x1, y1)) (Some (x2, y2)) (Some (x3, y3)).
(** What the laws need of p and b: the curve is not singular, and (0, 0) is not one of its points. *)
Definition sound_curve (p b : Z) : Prop := prime p /\ 3 < p /\ ~ cong p b 0 /\ ~ cong p (b * b) 4.
