(** What is said of histories of calls on an ECDSA object. *)
From Verif Require Import Base HashModel RsaModel RsaEncModel DsaModel EllModel EcdsaModel EcdsaObjModel.

(** Words a signing call takes from the source: half the size of the field, at most 32 bytes, in whole words and at least one. *)
Definition sign_words (bits : nat) : nat := Nat.max 1 ((Nat.min 32 ((bits + 7) / 16) + 3) / 4).
(** The part of the source that belongs to each call, when a signing call takes [m] words and verification none. *)
Fixpoint segments (m : nat) (ws : list Z) (ops : list ec_op) : list (list Z) :=
  match ops with
  | [] => []
  | ESign _ _ _ :: ops => firstn m ws :: segments m (skipn m ws) ops
  | EVerify _ _ :: ops => [] :: segments m ws ops
  end.
(** Up to the first panic. *)
Fixpoint until_panic {A} (l : list (A * res unit)) : list (A * res unit) :=
  match l with
  | [] => []
  | x :: l => x :: match snd x with Panic => [] | _ => until_panic l end
  end.
(** What a call returns on an object that was just made, whose source yields [seg] and then ends. *)
Definition fresh_call {S} (D : digest S) (hf : S) (eo : ec_obj) (kp : ec_kp) (seg : list Z) (op : ec_op) : sigc * res unit :=
  snd (ec_call D (ecdsa_new hf eo kp, seg) op).
(** Messages are byte strings shorter than the hash function's limit. *)
Definition eop_ok (limit : Z) (op : ec_op) : Prop :=
  match op with ESign _ _ msg | EVerify _ msg => bytes msg /\ Z.of_nat (length msg) < limit end.
