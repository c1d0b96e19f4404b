(** Specifications of the message authentication codes. *)
From Verif Require Import Base HashSpec.

(** ** FIPS 198-1: HMAC over a hash [H] with block length [B] *)
Definition HMAC_K0 (H : list Z -> list Z) (B : nat) (K : list Z) : list Z :=
  let k := if (length K <=? B)%nat then K else H K in k ++ repeat 0 (B - length k).
Definition HMAC_value (H : list Z -> list Z) (B : nat) (K m : list Z) : list Z :=
  let K0 := HMAC_K0 H B K in
  H (map (fun x => Z.lxor x 0x5c) K0 ++ H (map (fun x => Z.lxor x 0x36) K0 ++ m)).

(** ** SP 800-38B: CMAC over a block cipher [E] with block length [b] bytes and constant [R] *)
(** Doubling in GF(2^(8b)) with reduction constant [R], on big-endian blocks. *)
Definition gf_double (b : nat) (R : Z) (X : list Z) : list Z :=
  let v := 2 * be_val X in
  be_bytes b (if v <? 256 ^ Z.of_nat b then v else Z.lxor (v - 256 ^ Z.of_nat b) R).
Definition CMAC_K1 (E : list Z -> list Z) (b : nat) (R : Z) : list Z := gf_double b R (E (repeat 0 b)).
Definition CMAC_K2 (E : list Z -> list Z) (b : nat) (R : Z) : list Z := gf_double b R (CMAC_K1 E b R).
Definition CMAC_value (E : list Z -> list Z) (b : nat) (R : Z) (m : list Z) : list Z :=
  let complete := (0 <? length m)%nat && (length m mod b =? 0)%nat in
  let k := if complete then (length m - b)%nat else (length m / b * b)%nat in
  let r := skipn k m in
  let last := if complete then xorl r (CMAC_K1 E b R) else xorl (r ++ [0x80] ++ repeat 0 (b - length r - 1)) (CMAC_K2 E b R) in
  E (xorl (fold_left (fun C M => E (xorl C M)) (chunks b (firstn k m)) (repeat 0 b)) last).
(** The reduction constants: SP 800-38B 5.3 for 64 and 128 bits; for the other lengths the library's table (low
    terms of a polynomial of minimal weight). *)
Definition CMAC_R (b : nat) : option Z :=
  match b with 8%nat => Some 0x1b | 16%nat => Some 0x87 | _ => None end.

(** ** A MAC object
    Writes collect a message; a write after [checksum] starts a new one; [reset] forgets; [set_key] changes the key
    and forgets. *)
Inductive mop := MWrite (d : list Z) | MChecksum | MReset | MSetKey (k : list Z).
Fixpoint mac_run (MAC : list Z -> list Z -> list Z) (key m : list Z) (fin : bool) (os : list mop) : list (list Z) :=
  match os with
  | [] => []
  | MWrite d :: os => mac_run MAC key (if fin then d else m ++ d) false os
  | MChecksum :: os => MAC key m :: mac_run MAC key m true os
  | MReset :: os => mac_run MAC key [] false os
  | MSetKey k :: os => mac_run MAC k [] false os
  end.
Definition mop_size (o : mop) : nat := match o with MWrite d => length d | MSetKey k => length k | _ => 0 end.
Definition mop_bytes (o : mop) : Prop := match o with MWrite d => bytes d | MSetKey k => bytes k | _ => True end.
Definition total_size (os : list mop) : nat := list_sum (map mop_size os).
