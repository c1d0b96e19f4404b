(** Model of the DSA objects of src/dsa/dsa.rs: the constructors of the four standard sizes and objects that are used for any
    number of calls.  Unlike in DsaModel.v the random source is a value that every call takes and returns. *)
From Verif Require Import Base HashModel RsaModel RsaEncModel DsaModel.

(** What the code asks of its [IterSource<u32>]: [BigInt::random] below a bound, the next word of [iter_mut], [Nat::generate_prime]
    (bits, rounds) and [probably_prime_test] (rounds).  rmath computes the first, third and fourth from the words. *)
Record rsrc (R : Type) := mkSrc {
  rs_random : R -> Z -> R * Z;
  rs_next : R -> R * option Z;
  rs_prime : R -> nat -> nat -> R * option Z;
  rs_test : R -> Z -> nat -> R * bool
}.
Arguments rs_random {R}. Arguments rs_next {R}. Arguments rs_prime {R}. Arguments rs_test {R}. Arguments mkSrc {R}.

Section Obj.
Context {R : Type}.
Variable src : rsrc R.

(** ** Construction.  [fuel] bounds the loops; running out stands for a loop not ending and is [Panic]. *)
(** dsa.rs:75-83: [n] is [l_len >> 3]; the source may end early. *)
Fixpoint draw_bytes (fuel n : nat) (r : R) (acc : list Z) : R * list Z :=
  match fuel with
  | O => (r, acc)
  | S fuel =>
    match rs_next src r with
    | (r, None) => (r, acc)
    | (r, Some e) => let acc := acc ++ be_bytes 4 e in if (n <=? length acc)%nat then (r, acc) else draw_bytes fuel n r acc
    end
  end.
(** dsa.rs:73-103; lines 85-86 index the last and the first byte. *)
Fixpoint try_p_r (l_len trt : nat) (q : Z) (rounds : nat) (r : R) : R * res (option Z) :=
  match rounds with
  | O => (r, Ok None)
  | S rounds =>
    let n := (l_len / 8)%nat in
    let '(r, bs) := draw_bytes n n r [] in
    let bs := firstn n bs in
    if (n =? 0)%nat || (length bs <? n)%nat then (r, Panic)
    else
      let p := p_adjust (be_val (or_first (or_last bs))) q in
      if (bits_len p <? l_len)%nat then try_p_r l_len trt q rounds r
      else match rs_test src r p trt with
           | (r, true) => (r, Ok (Some p))
           | (r, false) => try_p_r l_len trt q rounds r
           end
  end.
(** generate_parameters_inner, dsa.rs:66-126. *)
Fixpoint gen_params (fuel hfuel l_len n_len trt : nat) (r : R) : R * res dsa_dp :=
  match fuel with
  | O => (r, Panic)
  | S fuel =>
    match rs_prime src r n_len trt with
    | (r, None) => (r, Err OuterErr)
    | (r, Some q) =>
      match try_p_r l_len trt q (4 * l_len) r with
      | (r, Ok None) => gen_params fuel hfuel l_len n_len trt r
      | (r, Ok (Some p)) => (r, match find_g hfuel 2 ((p - 1) / q) p with Some g => Ok (mkDp p q g) | None => Panic end)
      | (r, Err e) => (r, Err e)
      | (r, Panic) => (r, Panic)
      end
    end
  end.
(** generate_key_inner, dsa.rs:128-147. *)
Fixpoint gen_key (fuel : nat) (dp : dsa_dp) (r : R) : R * res dsa_priv :=
  match fuel with
  | O => (r, Panic)
  | S fuel =>
    let '(r, x) := rs_random src r (dp_q dp) in
    if negb (x =? 0) && (x <? dp_q dp) then (r, Ok (mkDpriv (mkDpub dp (powmod (dp_g dp) x (dp_p dp))) x)) else gen_key fuel dp r
  end.
(** dsa.rs:355-359. *)
Definition test_round_times : nat := 64.
Variables fuel hfuel : nat.
(** dsa.rs:160-163, 171-174, 182-185, 193-196. *)
Definition l1024_n160 : R -> R * res dsa_dp := gen_params fuel hfuel 1024 160 test_round_times.
Definition l2048_n224 : R -> R * res dsa_dp := gen_params fuel hfuel 2048 224 test_round_times.
Definition l2048_n256 : R -> R * res dsa_dp := gen_params fuel hfuel 2048 256 test_round_times.
Definition l3072_n256 : R -> R * res dsa_dp := gen_params fuel hfuel 3072 256 test_round_times.
(** dsa.rs:165-168, 176-179, 187-190, 198-201. *)
Definition with_key (dps : R -> R * res dsa_dp) (r : R) : R * res dsa_priv :=
  match dps r with
  | (r, Ok dp) => gen_key fuel dp r
  | (r, Err e) => (r, Err e)
  | (r, Panic) => (r, Panic)
  end.

(** ** Objects: DSA, dsa.rs:57-61. *)
Context {S : Type}.
Variable D : digest S.
Record dsa_obj := mkDsa { do_hf : S; do_rd : R; do_kp : dsa_kp }.
(** new_uncheck, dsa.rs:226-234. *)
Definition dsa_new_uncheck (hf : S) (rd : R) (kp : dsa_kp) : res dsa_obj := Ok (mkDsa hf rd kp).
(** dsa.rs:236-254, with KeyPair::from a private key (dsa.rs:503-510). *)
Definition new_with (key : R -> R * res dsa_priv) (hf : S) (rd : R) : res dsa_obj :=
  match key rd with
  | (rd, Ok sk) => dsa_new_uncheck hf rd (inr sk)
  | (_, Err e) => Err e
  | (_, Panic) => Panic
  end.
Definition new_with_l1024_n160 := new_with (with_key l1024_n160).
Definition new_with_l2048_n224 := new_with (with_key l2048_n224).
Definition new_with_l2048_n256 := new_with (with_key l2048_n256).
Definition new_with_l3072_n256 := new_with (with_key l3072_n256).
(** digest_func, dsa.rs:210-214; rand_source, dsa.rs:219-221; key_pair, dsa.rs:203-205. *)
Definition digest_func (o : dsa_obj) : S := d_reset D (do_hf o).
Definition rand_source (o : dsa_obj) : R := do_rd o.

(** dsa.rs:276-281. *)
Fixpoint next_k_r (fuel : nat) (q : Z) (r : R) : R * option Z :=
  match fuel with
  | O => (r, None)
  | Datatypes.S fuel => let '(r, k) := rs_random src r q in if Z.sgn k =? 1 then (r, Some k) else next_k_r fuel q r
  end.
(** dsa.rs:275-306. *)
Fixpoint sign_loop_r (tries : nat) (dp : dsa_dp) (x z : Z) (rd : R) : R * res (Z * Z) :=
  match tries with
  | O => (rd, Err InvalidPrivateKey)
  | Datatypes.S tries =>
    match next_k_r fuel (dp_q dp) rd with
    | (rd, None) => (rd, Panic)
    | (rd, Some k) =>
      let r := powmod (dp_g dp) k (dp_p dp) mod dp_q dp in
      if negb (Z.sgn r =? 1) then sign_loop_r tries dp x z rd
      else
        let kinv := fermat_inverse k (dp_q dp) in
        let s := (((x * r + z) mod dp_q dp) * kinv) mod dp_q dp in
        if Z.sgn s =? 1 then (rd, Ok (r, s)) else sign_loop_r tries dp x z rd
    end
  end.
(** sign_inner, dsa.rs:258-307, and Signature::sign, dsa.rs:535-539. *)
Definition obj_sign_inner (o : dsa_obj) (msg : list Z) : dsa_obj * res (Z * Z) :=
  match dkp_private (do_kp o) with
  | None => (o, Err InvalidPrivateKey)
  | Some sk =>
    let dp := dk_dp (ds_pk sk) in
    let n := bits_len (dp_q dp) in
    if negb (Z.sgn (dp_q dp) =? 1) || negb (Z.sgn (dp_p dp) =? 1) || negb (Z.sgn (dp_g dp) =? 1) || negb (Z.sgn (ds_x sk) =? 1) || negb (n mod 8 =? 0)%nat
    then (o, Err InvalidPrivateKey)
    else
      let '(s', hm) := hash_run D (do_hf o) [msg] in
      let tmp := Nat.min (hlen D) (n / 8) in
      if (length hm <? tmp)%nat then (mkDsa s' (do_rd o) (do_kp o), Panic)
      else let '(rd, r) := sign_loop_r 10 dp (ds_x sk) (be_val (firstn tmp hm)) (do_rd o) in (mkDsa s' rd (do_kp o), r)
  end.
Definition obj_sign (o : dsa_obj) (c : sigc) (msg : list Z) : dsa_obj * sigc * res unit :=
  match obj_sign_inner o msg with
  | (o, Ok (r, v)) => (o, sigc_set c r v, Ok tt)
  | (o, Err e) => (o, c, Err e)
  | (o, Panic) => (o, c, Panic)
  end.
(** Signature::verify, dsa.rs:541-544. *)
Definition obj_verify (o : dsa_obj) (c : sigc) (msg : list Z) : dsa_obj * res unit :=
  let '(s, r) := dsa_verify D (do_kp o) (do_hf o) c msg in (mkDsa s (do_rd o) (do_kp o), r).

(** ** Histories.  A caller signs into the signature content [c], verifies, or asks for a fresh digest object. *)
Inductive dsa_op := DSign (c : sigc) (msg : list Z) | DVerify (c : sigc) (msg : list Z).
(** What a call returns: the content after the call and the result. *)
Definition obj_call (o : dsa_obj) (op : dsa_op) : dsa_obj * (sigc * res unit) :=
  match op with
  | DSign c msg => let '(o, c, r) := obj_sign o c msg in (o, (c, r))
  | DVerify c msg => let '(o, r) := obj_verify o c msg in (o, (c, r))
  end.
(** All that is returned; a panic ends the history. *)
Fixpoint obj_results (o : dsa_obj) (ops : list dsa_op) : list (sigc * res unit) :=
  match ops with
  | [] => []
  | op :: ops => let '(o, x) := obj_call o op in x :: match snd x with Panic => [] | _ => obj_results o ops end
  end.
(** The object after a history. *)
Definition obj_after (o : dsa_obj) (ops : list dsa_op) : dsa_obj := fold_left (fun o op => fst (obj_call o op)) ops o.
End Obj.
Arguments mkDsa {R S}. Arguments do_hf {R S}. Arguments do_rd {R S}. Arguments do_kp {R S}.
