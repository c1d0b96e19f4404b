(** Histories of calls on an ECDSA object of src/ecdsa/ecdsa.rs, with its random source, and its accessors.
    The object and the source are those of EcdsaModel.v: the source is the list of the words it still yields. *)
From Verif Require Import Base HashModel RsaModel RsaEncModel DsaModel EllModel EcdsaModel.

Section Obj.
Context {S : Type}.
Variable D : digest S.
(** ECDSA, ecdsa.rs:11-19, with the random source [rd]. *)
Definition ec_state : Type := ecdsa S * list Z.
(** digest_func, ecdsa.rs:23-27. *)
Definition ec_digest_func (st : ec_state) : S := d_reset D (es_hf (fst st)).
(** rand_source, ecdsa.rs:32-34: a clone of the source in its current state. *)
Definition ec_rand_source (st : ec_state) : list Z := snd st.
(** curve, ecdsa.rs:39-41. *)
Definition ec_curve (st : ec_state) : ec_obj := es_curve (fst st).
(** public_key, ecdsa.rs:46-48. *)
Definition ec_public_key (st : ec_state) : ec_pub := ekp_public (es_kp (fst st)).

(** A caller signs into the signature content [c], or verifies (Signature, ecdsa.rs:234-256); [fuel] bounds the rounds of the loop of
    ecdsa.rs:170-193. *)
Inductive ec_op := ESign (fuel : nat) (c : sigc) (msg : list Z) | EVerify (c : sigc) (msg : list Z).
(** What a call returns: the content after the call and the result. *)
Definition ec_call (st : ec_state) (op : ec_op) : ec_state * (sigc * res unit) :=
  match op with
  | ESign fuel c msg => let '(o, ws, c, r) := ecdsa_sign D fuel (fst st) (snd st) c msg in ((o, ws), (c, r))
  | EVerify c msg => let '(o, r) := ecdsa_verify D (fst st) c msg in ((o, snd st), (c, r))
  end.
(** All that is returned; a panic ends the history. *)
Fixpoint ec_results (st : ec_state) (ops : list ec_op) : list (sigc * res unit) :=
  match ops with
  | [] => []
  | op :: ops => let '(st, x) := ec_call st op in x :: match snd x with Panic => [] | _ => ec_results st ops end
  end.
(** The object after a history. *)
Definition ec_after (st : ec_state) (ops : list ec_op) : ec_state := fold_left (fun st op => fst (ec_call st op)) ops st.
End Obj.
