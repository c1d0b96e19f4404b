(** Client histories of the mode objects, and what it means for a destination-passing cipher to compute a cipher of ModesModel.v. *)
From Verif Require Import Base ModesModel ScratchModel.

(** [dc] computes [c]: whatever the destination vector held and whatever it hides, a successful call leaves exactly the result in the
    destination and returns its length; otherwise the destination is as it was. *)
Definition computes {H} (f : H -> list Z -> list Z -> H * list Z * res nat) (g : list Z -> res (list Z)) : Prop :=
  forall h dst b, exists h',
    f h dst b = match g b with
                | Ok t => (h', t, Ok (length t))
                | Err e => (h', dst, Err e)
                | Panic => (h', dst, Panic)
                end.
Definition implements {H} (dc : dcipher H) (c : cipher) : Prop :=
  dblk dc = blk c /\ computes (denc dc) (enc c) /\ computes (ddec dc) (dec c).

(** Calls on a stream object; after a successful [write] or [finish] the client draws off the pond if [draw].  A pond that [finish]
    returned is emptied in any case when it is dropped (pond.rs:31-37). *)
Inductive call :=
  | Encrypt (dst m : list Z) | Decrypt (dst m : list Z)
  | Write (d : list Z) (draw : bool) | Finish (draw : bool) | Reset.
(** What the client sees: the destination vector and the result, or the result and the bytes drawn. *)
Inductive seen := Dst (dst : list Z) (r : res nat) | Drawn (r : res unit) (out : list Z) | Done.
Definition stop (x : seen) : bool := match x with Dst _ Panic | Drawn Panic _ => true | _ => false end.
Definition step {St} (o : obj St) (s : St) (x : call) : St * seen :=
  match x with
  | Encrypt dst m => let '(s, (d, r)) := o_enc o s dst m in (s, Dst d r)
  | Decrypt dst m => let '(s, (d, r)) := o_dec o s dst m in (s, Dst d r)
  | Write d draw =>
      match o_write o s d with
      | (s, Ok _) => if draw then (o_drain o s, Drawn (Ok tt) (o_pond o s)) else (s, Drawn (Ok tt) [])
      | (s, r) => (s, Drawn r [])
      end
  | Finish draw =>
      match o_finish o s with
      | (s, Ok _) => (o_drain o s, Drawn (Ok tt) (if draw then o_pond o s else []))
      | (s, r) => (s, Drawn r [])
      end
  | Reset => (o_reset o s, Done)
  end.
(** Everything seen in a history of calls; a panic ends it. *)
Fixpoint trace {St} (o : obj St) (s : St) (h : list call) : list seen :=
  match h with
  | [] => []
  | x :: h' => let '(s', v) := step o s x in v :: (if stop v then [] else trace o s' h')
  end.

(** Calls on a mode object itself.  [Clone]: the client goes on with a clone instead. *)
Inductive bcall := BEncrypt (dst m : list Z) | BDecrypt (dst m : list Z) | BSetIv (iv : list Z) | BClone.
Inductive bseen := BDst (dst : list Z) (r : res nat) | BSet (r : res unit).
Definition bstop (x : bseen) : bool := match x with BDst _ Panic | BSet Panic => true | _ => false end.
Fixpoint btrace {St} (o : bobj St) (s : St) (h : list bcall) : list bseen :=
  match h with
  | [] => []
  | BEncrypt dst m :: h' => let '(s, (d, r)) := b_enc o s dst m in BDst d r :: (if bstop (BDst d r) then [] else btrace o s h')
  | BDecrypt dst m :: h' => let '(s, (d, r)) := b_dec o s dst m in BDst d r :: (if bstop (BDst d r) then [] else btrace o s h')
  | BSetIv iv :: h' => let '(s, r) := b_set o s iv in BSet r :: (if bstop (BSet r) then [] else btrace o s h')
  | BClone :: h' => btrace o (b_clone o s) h'
  end.
Definition not_clone (x : bcall) : bool := match x with BClone => false | _ => true end.
