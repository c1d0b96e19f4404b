(** FIPS 202: Keccak-p, the sponge construction, SHA-3 and SHAKE, on bit strings. *)
From Verif Require Import Base.

(** Bit arrays [A x y z] with [x, y < 5], [z < w]. *)
Definition barr := nat -> nat -> nat -> bool.
Section Steps.
Variable w : nat.
(** 3.2.1 *)
Definition TH_C (A : barr) (x z : nat) : bool := xorb (A x 0%nat z) (xorb (A x 1%nat z) (xorb (A x 2%nat z) (xorb (A x 3%nat z) (A x 4%nat z)))).
Definition TH_D (A : barr) (x z : nat) : bool := xorb (TH_C A ((x + 4) mod 5)%nat z) (TH_C A ((x + 1) mod 5)%nat ((z + (w - 1)) mod w)%nat).
Definition THETA (A : barr) : barr := fun x y z => xorb (A x y z) (TH_D A x z).
(** 3.2.2, with the offsets of table 2. *)
Definition RHO_offsets : list (nat * nat * Z) :=
  [(3, 2, 153%Z); (4, 2, 231%Z); (0, 2, 3%Z); (1, 2, 10%Z); (2, 2, 171%Z);
   (3, 1, 55%Z); (4, 1, 276%Z); (0, 1, 36%Z); (1, 1, 300%Z); (2, 1, 6%Z);
   (3, 0, 28%Z); (4, 0, 91%Z); (0, 0, 0%Z); (1, 0, 1%Z); (2, 0, 190%Z);
   (3, 4, 120%Z); (4, 4, 78%Z); (0, 4, 210%Z); (1, 4, 66%Z); (2, 4, 253%Z);
   (3, 3, 21%Z); (4, 3, 136%Z); (0, 3, 105%Z); (1, 3, 45%Z); (2, 3, 15%Z)]%nat.
Definition RHO_off (x y : nat) : Z :=
  match find (fun '(a, b, _) => (a =? x)%nat && (b =? y)%nat) RHO_offsets with Some (_, _, o) => o | None => 0 end.
Definition RHO (A : barr) : barr := fun x y z => A x y (Z.to_nat ((Z.of_nat z - RHO_off x y) mod Z.of_nat w)).
(** 3.2.3 *)
Definition PI (A : barr) : barr := fun x y z => A ((x + 3 * y) mod 5)%nat x z.
(** 3.2.4 *)
Definition CHI (A : barr) : barr :=
  fun x y z => xorb (A x y z) (andb (negb (A ((x + 1) mod 5)%nat y z)) (A ((x + 2) mod 5)%nat y z)).
End Steps.
(** 3.2.5, algorithm 5: one step of the shift register on eight bits. *)
Definition RC_step (R : list bool) : list bool :=
  match R with
  | [r0; r1; r2; r3; r4; r5; r6; r7] => [r7; r0; r1; r2; xorb r3 r7; xorb r4 r7; xorb r5 r7; r6]
  | _ => R
  end.
Definition RC_bit (t : Z) : bool :=
  hd false (Nat.iter (Z.to_nat (t mod 255)) RC_step [true; false; false; false; false; false; false; false]).
(** Algorithm 6. *)
Definition RC_lane (l : nat) (ir : Z) (z : nat) : bool :=
  existsb (fun j => (z =? 2 ^ j - 1)%nat && RC_bit (Z.of_nat j + 7 * ir)) (seq 0 (l + 1)).
Definition IOTA (l : nat) (ir : Z) (A : barr) : barr :=
  fun x y z => if (x =? 0)%nat && (y =? 0)%nat then xorb (A x y z) (RC_lane l ir z) else A x y z.
(** 3.1.2, 3.1.3: strings and arrays. *)
Definition to_array (w : nat) (S : list bool) : barr := fun x y z => nth (w * (5 * y + x) + z) S false.
Definition to_string (w : nat) (A : barr) : list bool :=
  flat_map (fun y => flat_map (fun x => map (fun z => A x y z) (seq 0 w)) (seq 0 5)) (seq 0 5).
(** 3.3, algorithm 7, for width [25 * 2^l]. *)
Definition RND (l : nat) (ir : Z) (A : barr) : barr :=
  let w := (2 ^ l)%nat in IOTA l ir (CHI (PI (RHO w (THETA w A)))).
Definition KECCAK_p (l nr : nat) (S : list bool) : list bool :=
  let w := (2 ^ l)%nat in
  to_string w (fold_left (fun A i => RND l (12 + 2 * Z.of_nat l - Z.of_nat nr + Z.of_nat i) A) (seq 0 nr) (to_array w S)).

(** 4 and 5.1: the sponge construction and multi-rate padding. *)
Definition pad10s1 (r m : nat) : list bool := [true] ++ repeat false (Z.to_nat ((- Z.of_nat m - 2) mod Z.of_nat r)) ++ [true].
Definition bxor (a b : list bool) : list bool := map (fun '(x, y) => xorb x y) (combine a b).
Definition blocks {A} (n : nat) (l : list A) : list (list A) := map (fun i => firstn n (skipn (i * n) l)) (seq 0 (length l / n)).
Definition SPONGE (f : list bool -> list bool) (b r : nat) (N : list bool) (d : nat) : list bool :=
  let P := N ++ pad10s1 r (length N) in
  let S := fold_left (fun S Pi => f (bxor S (Pi ++ repeat false (b - r)))) (blocks r P) (repeat false b) in
  firstn d (flat_map (fun i => firstn r (Nat.iter i f S)) (seq 0 (d / r + 1))).
(** 5.2, 6: KECCAK[c], SHA-3 and SHAKE. *)
Definition KECCAK_c (c : nat) (N : list bool) (d : nat) : list bool := SPONGE (KECCAK_p 6 24) 1600 (1600 - c) N d.
Definition SHA3_bits (d : nat) (M : list bool) : list bool := KECCAK_c (2 * d) (M ++ [false; true]) d.
Definition SHAKE_bits (strength : nat) (M : list bool) (d : nat) : list bool := KECCAK_c (2 * strength) (M ++ [true; true; true; true]) d.
Definition RawSHAKE_bits (strength : nat) (M : list bool) (d : nat) : list bool := KECCAK_c (2 * strength) (M ++ [true; true]) d.
(** B.1: byte strings, first bit lowest; a trailing partial byte is filled with zeros. *)
Definition h2b (m : list Z) : list bool := flat_map (fun e => map (fun i => Z.testbit e (Z.of_nat i)) (seq 0 8)) m.
Definition bits_val (l : list bool) : Z := fold_right (fun c acc => Z.b2z c + 2 * acc) 0 l.
Definition b2h (l : list bool) : list Z := map (fun i => bits_val (firstn 8 (skipn (8 * i) l))) (seq 0 ((length l + 7) / 8)).
Definition SHA3_hash (d : nat) (m : list Z) : list Z := b2h (SHA3_bits d (h2b m)).
Definition SHAKE_hash (strength d : nat) (m : list Z) : list Z := b2h (SHAKE_bits strength (h2b m) d).
Definition RawSHAKE_hash (strength d : nat) (m : list Z) : list Z := b2h (RawSHAKE_bits strength (h2b m) d).
