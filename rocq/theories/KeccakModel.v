(** Model of src/keccak/keccak.rs, src/sha3/sha3.rs and src/sha3/shake.rs. *)
From Verif Require Import Base HashModel.

(** ** The state array (keccak.rs:20-101)
    [state[x][y][z]], cells holding 0 or 1.  The Rust lanes always have 64 cells, of which only the first [w] are ever
    read or written; the model's lanes have [w] cells. *)
Definition sarr := list (list (list Z)).
Definition sget (s : sarr) (x y z : nat) : Z := nth z (nth y (nth x s []) []) 0.
Definition tab2 {A} (n w : nat) (f : nat -> nat -> A) : list (list A) := map (fun x => map (f x) (seq 0 w)) (seq 0 n).
(** [for x in 0..5 { for y in 0..5 { for z in 0..w { out[(x,y,z)] = f(x,y,z) } } }] in any order of the loops. *)
Definition tab3 (w : nat) (f : nat -> nat -> nat -> Z) : sarr := map (fun x => tab2 5 w (f x)) (seq 0 5).
(** keccak.rs:28-30. *)
Definition zero_arr (w : nat) : sarr := tab3 w (fun _ _ _ => 0).
(** keccak.rs:32-43, [cvt_from_slice]. *)
Definition cvt_from_slice (s : list Z) (w : nat) : sarr :=
  tab3 w (fun x y z =>
    let idx := (w * (5 * y + x) + z)%nat in
    let num := (idx / 8)%nat in let rom := (7 - idx mod 8)%nat in
    Z.land (Z.shiftr (nth (length s - num - 1) s 0) (Z.of_nat rom)) 1).
(** keccak.rs:47-66, [cvt_to_slice]: eight cells to a byte, first cell lowest; the rest to a last byte.  The Rust code
    works in place, writing cell [i] after reading cells [8i..8i+7]. *)
Fixpoint pack_cells (l : list Z) (sh : Z) : Z :=
  match l with [] => 0 | c :: l => Z.lor (Z.shiftl c sh) (pack_cells l (sh + 1)) end.
Definition cvt_to_slice (res : list Z) : list Z :=
  let len := (length res / 8)%nat in
  map (fun i => pack_cells (firstn 8 (skipn (8 * i) res)) 0) (seq 0 len) ++
  (if (8 * len <? length res)%nat then [pack_cells (skipn (8 * len) res) 0] else []).
(** keccak.rs:68-76, [finish]. *)
Definition finish (s : sarr) (w : nat) : list Z :=
  flat_map (fun y => flat_map (fun x => map (fun z => sget s x y z) (seq 0 w)) (seq 0 5)) (seq 0 5).

(** ** Step mappings on (input, output) buffers *)
(** keccak.rs:195-206. *)
Definition minus_rem_euclid (lhs rhs modulus : nat) : nat :=
  if (lhs <? rhs)%nat then
    let tmp := ((rhs - lhs) mod modulus)%nat in if (0 <? tmp)%nat then (modulus - tmp)%nat else 0%nat
  else ((lhs - rhs) mod modulus)%nat.
(** keccak.rs:209-234. *)
Definition theta (w : nat) (a : sarr) : sarr :=
  let c := tab2 5 w (fun x z => Z.lxor (Z.lxor (Z.lxor (Z.lxor (sget a x 0 z) (sget a x 1 z)) (sget a x 2 z)) (sget a x 3 z)) (sget a x 4 z)) in
  let g x z := nth z (nth x c []) 0 in
  let d := tab2 5 w (fun x z =>
    Z.lxor (g (if (x <? 1)%nat then 4%nat else ((x - 1) mod 5)%nat) z)
           (g ((x + 1) mod 5)%nat (if (z <? 1)%nat then (w - 1)%nat else ((z - 1) mod w)%nat))) in
  tab3 w (fun x y z => Z.lxor (sget a x y z) (nth z (nth x d []) 0)).
(** keccak.rs:237-254: the lanes are written one after the other into the output buffer. *)
Definition set_nth {A} (l : list A) (i : nat) (v : A) : list A := firstn i l ++ v :: skipn (S i) l.
Definition set_lane (s : sarr) (x y : nat) (lane : list Z) : sarr := set_nth s x (set_nth (nth x s []) y lane).
Definition rho_step (w : nat) (a : sarr) (st : nat * nat * sarr) (t : nat) : nat * nat * sarr :=
  let '(x, y, out) := st in
  (y, ((2 * x + 3 * y) mod 5)%nat,
   set_lane out x y (map (fun z => sget a x y (minus_rem_euclid z ((t + 1) * (t + 2) / 2) w)) (seq 0 w))).
Definition rho (w : nat) (a out : sarr) : sarr :=
  let out := set_lane out 0 0 (map (fun z => sget a 0 0 z) (seq 0 w)) in
  snd (fold_left (rho_step w a) (seq 0 24) (1%nat, 0%nat, out)).
(** keccak.rs:257-268. *)
Definition pi (w : nat) (a : sarr) : sarr := tab3 w (fun x y z => sget a ((x + 3 * y) mod 5) x z).
(** keccak.rs:271-284. *)
Definition chi (w : nat) (a : sarr) : sarr :=
  tab3 w (fun x y z => Z.lxor (sget a x y z) (Z.land (Z.lxor (sget a ((x + 1) mod 5) y z) 1) (sget a ((x + 2) mod 5) y z))).
(** keccak.rs:286-305: [t & 0xffffffff] keeps the low 32 bits of the two's complement value. *)
Definition rc_step (r : list Z) (i : nat) : list Z :=
  let x j (r : list Z) := set_nth r (i - j) (Z.lxor (nth (i - j) r 0) (nth (i - 8) r 0)) in
  x 6%nat (x 5%nat (x 4%nat (x 0%nat r))).
Definition rc (t : Z) : Z :=
  let u := Z.to_nat (Z.land t 0xffffffff mod 255) in
  let t := if 0 <=? t then u else if (0 <? u)%nat then (255 - u)%nat else 0%nat in
  if (t =? 0)%nat then 1 else
  nth (7 + t) (fold_left rc_step (seq 8 t) (set_nth (repeat 0 262) 7 1)) 0.
(** keccak.rs:308-323, in place on the input buffer. *)
Definition iota (w l : nat) (ir : Z) (a : sarr) : sarr :=
  let rcs := fold_left (fun rcs j => set_nth rcs (2 ^ j - 1) (rc (Z.of_nat j + 7 * ir))) (seq 0 (l + 1)) (repeat 0 64) in
  set_lane a 0 0 (map (fun z => Z.lxor (sget a 0 0 z) (nth z rcs 0)) (seq 0 w)).

(** ** The double buffer (keccak.rs:104-148) *)
Record keccak := mkKeccak { k_b : nat; k_w : nat; k_l : nat; k_nr : nat; k_buf0 : sarr; k_buf1 : sarr; k_flag : bool }.
Definition k_in (k : keccak) : sarr := if k_flag k then k_buf1 k else k_buf0 k.
Definition k_out (k : keccak) : sarr := if k_flag k then k_buf0 k else k_buf1 k.
(** Writing through [guard.output] and dropping the guard, which flips the flag. *)
Definition k_put_out (k : keccak) (s : sarr) : keccak :=
  if k_flag k then mkKeccak (k_b k) (k_w k) (k_l k) (k_nr k) s (k_buf1 k) false
  else mkKeccak (k_b k) (k_w k) (k_l k) (k_nr k) (k_buf0 k) s true.
(** Writing through [guard.input] and dropping the guard. *)
Definition k_put_in (k : keccak) (s : sarr) : keccak :=
  if k_flag k then mkKeccak (k_b k) (k_w k) (k_l k) (k_nr k) (k_buf0 k) s false
  else mkKeccak (k_b k) (k_w k) (k_l k) (k_nr k) s (k_buf1 k) true.
Definition k_flip (k : keccak) : keccak := mkKeccak (k_b k) (k_w k) (k_l k) (k_nr k) (k_buf0 k) (k_buf1 k) (negb (k_flag k)).
(** keccak.rs:12-14 and 159-182. *)
Definition KECCAK_WIDTHS : list nat := [25; 50; 100; 200; 400; 800; 1600]%nat.
Fixpoint trailing_zeros (fuel n : nat) : nat :=
  match fuel with O => 0 | S f => if Nat.odd n then 0 else S (trailing_zeros f (n / 2)) end%nat.
Definition keccak_new (b nr : nat) : res keccak :=
  if existsb (Nat.eqb b) KECCAK_WIDTHS then
    let w := (b / 25)%nat in Ok (mkKeccak b w (trailing_zeros 64 w) nr (zero_arr w) (zero_arr w) false)
  else Err InvalidParameter.
(** keccak.rs:326-332. *)
Definition k_rnd (k : keccak) (ir : Z) : keccak :=
  let w := k_w k in
  let k := k_put_out k (theta w (k_in k)) in
  let k := k_put_out k (rho w (k_in k) (k_out k)) in
  let k := k_put_out k (pi w (k_in k)) in
  let k := k_put_out k (chi w (k_in k)) in
  let k := k_put_in k (iota w (k_l k) ir (k_in k)) in
  k_flip k.
(** keccak.rs:347-352. *)
Definition permutation_inner (k : keccak) : keccak :=
  let l := Z.of_nat (k_l k) in
  fold_left k_rnd (map (fun i => 12 + 2 * l - Z.of_nat (k_nr k) + Z.of_nat i) (seq 0 (k_nr k))) k.
(** keccak.rs:358-375. *)
Definition permutation (k : keccak) (data : list Z) : keccak * res (list Z) :=
  let len := ((k_b k + 7) / 8)%nat in
  if (length data <? len)%nat then (k, Err InvalidParameter)
  else
    let k := k_put_out k (cvt_from_slice data (k_w k)) in
    let k := permutation_inner k in
    (k_flip k, Ok (cvt_to_slice (finish (k_in k) (k_w k)))).

(** ** The sponge (keccak.rs:385-509) *)
Record sponge := mkSponge { sp_rate : nat; sp_k : keccak; sp_buf : list Z }.
(** keccak.rs:395-406. *)
Definition sponge_new (k : keccak) (rate : nat) : res sponge :=
  if (0 <? rate)%nat || (rate <? k_b k)%nat then Ok (mkSponge rate k []) else Err InvalidParameter.
Definition clear_buf (s : sponge) : sponge := mkSponge (sp_rate s) (sp_k s) [].
(** keccak.rs:421-429. *)
Definition byte_bits (e : Z) : list Z := map (fun i => Z.land (Z.shiftr e (Z.of_nat i)) 1) (seq 0 8).
Definition write_to_buf (s : sponge) (data : list Z) (bits_len : nat) : sponge :=
  mkSponge (sp_rate s) (sp_k s) (sp_buf s ++ firstn bits_len (flat_map byte_bits data)).
(** keccak.rs:451-470: xor of one padded block into the state. *)
Definition absorb (w rate : nat) (blk : list Z) (a : sarr) : sarr :=
  tab3 w (fun x y z =>
    let idx := (w * (5 * y + x) + z)%nat in
    if (rate <=? idx)%nat then Z.lxor (sget a x y z) 0 else Z.lxor (sget a x y z) (nth idx blk 0)).
(** keccak.rs:473-491, the squeezing loop; each turn appends at least one cell, so [want + 1] turns suffice. *)
Fixpoint squeeze (fuel : nat) (rate want : nat) (results : list Z) (k : keccak) : keccak * list Z :=
  match fuel with
  | O => (k, results)
  | S fuel =>
      let old_len := length results in
      let results := firstn (old_len + rate) (results ++ finish (k_in k) (k_w k)) in
      let k := k_flip k in
      if (want <=? length results)%nat then (k, firstn want results)
      else squeeze fuel rate want results (permutation_inner (k_flip k))
  end.
(** keccak.rs:434-494.  [rate = 0] panics in [pad] ([% 0]). *)
Definition sponge_buf (s : sponge) (want : nat) : res (sponge * list Z) :=
  let rate := sp_rate s in let w := k_w (sp_k s) in
  if (rate =? 0)%nat then Panic else
  let bits_len := length (sp_buf s) in
  let pad_j := minus_rem_euclid 0 (bits_len + 2) rate in
  let buf := sp_buf s ++ [1] ++ repeat 0 pad_j ++ [1] in
  let n := (length buf / rate)%nat in
  let k := k_put_out (sp_k s) (zero_arr w) in
  let k := fold_left (fun k i => permutation_inner (k_put_out k (absorb w rate (skipn (i * rate) buf) (k_in k)))) (seq 0 n) k in
  let '(k, results) := squeeze (S want) rate want [] k in
  Ok (mkSponge rate k buf, cvt_to_slice results).
(** keccak.rs:502-509. *)
Definition sponge_call (s : sponge) (data : list Z) (bits_len want : nat) : res (sponge * list Z) :=
  if (bits_len <=? 8 * length data)%nat then sponge_buf (write_to_buf (clear_buf s) data bits_len) want else Panic.

(** ** SHA-3 (sha3.rs:110-186) *)
Record sha3st := mkSha3 { s3_digest : list Z; s3_sponge : sponge; s3_checked : bool }.
(** [Keccak::new(1600, 24).unwrap().sponge(rate).unwrap()]; the [unwrap]s do not panic. *)
Definition k1600 : keccak := mkKeccak 1600 64 6 24 (zero_arr 64) (zero_arr 64) false.
Definition sha3_init (bits : nat) : sha3st := mkSha3 [] (mkSponge (1600 - 2 * bits) k1600 []) false.
Definition sha3_write_bit (s : sha3st) (bit : Z) : sha3st := mkSha3 (s3_digest s) (write_to_buf (s3_sponge s) [bit] 1) false.
Definition sha3_write (s : sha3st) (data : list Z) : sha3st :=
  mkSha3 (s3_digest s) (write_to_buf (s3_sponge s) data (8 * length data)) false.
(** The common part of the two [checksum] functions: write the suffix, squeeze, clear.  A panic of [sponge_buf] cannot
    occur at these rates; the model then leaves the object as it is. *)
Definition absorb_suffix (sp : sponge) (suffix : Z) (suffix_len want : nat) : sponge * list Z :=
  match sponge_buf (write_to_buf sp [suffix] suffix_len) want with
  | Ok (sp, d) => (clear_buf sp, d)
  | _ => (sp, [])
  end.
Definition sha3_checksum (bits : nat) (s : sha3st) : sha3st * list Z :=
  if s3_checked s then (s, s3_digest s)
  else let '(sp, d) := absorb_suffix (s3_sponge s) 2 2 bits in (mkSha3 d sp true, d).
Definition sha3_reset (s : sha3st) : sha3st := mkSha3 [] (clear_buf (s3_sponge s)) false.
Definition SHA3 (bits : nat) : digest sha3st :=
  mkDigest (Some ((1600 - 2 * bits) / 8)%nat) bits sha3_write (sha3_checksum bits) sha3_reset.

(** ** SHAKE (shake.rs:15-90) *)
Record shakest := mkShake { sk_digest : list Z; sk_sponge : sponge; sk_want : nat; sk_suffix : Z; sk_slen : nat; sk_checked : bool }.
Definition shake_new (strength want : nat) : shakest := mkShake [] (mkSponge (1600 - 2 * strength) k1600 []) want 15 4 false.
Definition to_raw_shake (s : shakest) : shakest := mkShake (sk_digest s) (sk_sponge s) (sk_want s) 3 2 (sk_checked s).
Definition shake_write (s : shakest) (data : list Z) : shakest :=
  mkShake (sk_digest s) (write_to_buf (sk_sponge s) data (8 * length data)) (sk_want s) (sk_suffix s) (sk_slen s) false.
Definition shake_checksum (s : shakest) : shakest * list Z :=
  if sk_checked s then (s, sk_digest s)
  else let '(sp, d) := absorb_suffix (sk_sponge s) (sk_suffix s) (sk_slen s) (sk_want s) in
       (mkShake d sp (sk_want s) (sk_suffix s) (sk_slen s) true, d).
Definition shake_reset (s : shakest) : shakest :=
  mkShake [] (clear_buf (sk_sponge s)) (sk_want s) (sk_suffix s) (sk_slen s) false.
Definition set_digest_len (s : shakest) (want : nat) : shakest :=
  shake_reset (mkShake (sk_digest s) (sk_sponge s) want (sk_suffix s) (sk_slen s) (sk_checked s)).
