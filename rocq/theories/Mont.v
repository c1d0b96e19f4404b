(** Modular arithmetic for the curve constants, on limbs of 28 bits held in the machine integers of Coq's standard
    library (Uint63), fast enough for the kernel.  Nothing here models the code: it only serves to check facts
    about constants.  Every function answers [None] when an intermediate value does not fit. *)
From Coq Require Import Uint63 Znumtheory.
From Verif Require Import Base.

Local Open Scope uint63_scope.
Definition lb : int := 268435456. (* 2^28 *)
Definition lmask : int := 268435455.
Local Open Scope Z_scope.
Definition LB : Z := 268435456.
Fixpoint lval (l : list int) : Z := match l with [] => 0 | x :: r => to_Z x + LB * lval r end.
Definition lims (l : list int) : Prop := Forall (fun x => to_Z x < LB) l.

(** t + a * b + m * p + c, the last limb being the carry *)
Fixpoint mrow (t : list int) (a : int) (b : list int) (m : int) (p : list int) (c : int) : option (list int) :=
  match t, b, p with
  | [], [], [] => if (c <? lb)%uint63 then Some [c] else None
  | x :: t, y :: b, z :: p =>
      let v := (x + a * y + m * z + c)%uint63 in
      match mrow t a b m p (v >> 28)%uint63 with Some r => Some ((v land lmask)%uint63 :: r) | None => None end
  | _, _, _ => None
  end.
Fixpoint addrow (a b : list int) (c : int) : option (list int) :=
  match a, b with
  | [], [] => if (c =? 0)%uint63 then Some [] else None
  | x :: a, y :: b =>
      let v := (x + y + c)%uint63 in
      match addrow a b (v >> 28)%uint63 with Some r => Some ((v land lmask)%uint63 :: r) | None => None end
  | _, _ => None
  end.
(** a + k - b, where every limb of k is at least that of b *)
Fixpoint subrow (a k b : list int) (c : int) : option (list int) :=
  match a, k, b with
  | [], [], [] => if (c =? 0)%uint63 then Some [] else None
  | x :: a, w :: k, y :: b =>
      if (y <=? w)%uint63 && (w <? 1073741824)%uint63 then
        let v := (x + (w - y) + c)%uint63 in
        match subrow a k b (v >> 28)%uint63 with Some r => Some ((v land lmask)%uint63 :: r) | None => None end
      else None
  | _, _, _ => None
  end.

Lemma LB_ok : to_Z lb = LB. Proof. reflexivity. Qed.
Lemma wB_val : wB = 9223372036854775808. Proof. reflexivity. Qed.
Lemma land_mask v : to_Z (v land lmask)%uint63 = to_Z v mod LB.
Proof.
  rewrite land_spec'. change (to_Z lmask) with (Z.ones 28). rewrite Z.land_ones by lia. reflexivity.
Qed.
Lemma shr28 v : to_Z (v >> 28)%uint63 = to_Z v / LB.
Proof. rewrite lsr_spec. reflexivity. Qed.
Lemma split28 v : to_Z (v land lmask)%uint63 + LB * to_Z (v >> 28)%uint63 = to_Z v.
Proof. rewrite land_mask, shr28. rewrite (Z.div_mod (to_Z v) LB) at 3 by (unfold LB; lia). ring. Qed.
Lemma land_small v : to_Z (v land lmask)%uint63 < LB.
Proof. rewrite land_mask. apply Z.mod_pos_bound. unfold LB; lia. Qed.
Lemma ltb28 c : (c <? lb)%uint63 = true -> to_Z c < LB.
Proof. intro H. apply Uint63.ltb_spec in H. exact H. Qed.
Lemma zero_small : to_Z 0%uint63 <= 2 ^ 60. Proof. change (0 <= 2 ^ 60). lia. Qed.
Lemma eqb_0 c : (c =? 0)%uint63 = true -> to_Z c = 0.
Proof. intro H. apply Uint63.eqb_spec in H. subst c. reflexivity. Qed.
Lemma nn v : 0 <= to_Z v. Proof. pose proof (to_Z_bounded v). lia. Qed.
Lemma lval_nonneg l : 0 <= lval l.
Proof. induction l as [|x l IH]; cbn [lval]; [lia|]. pose proof (nn x). unfold LB. lia. Qed.

Lemma mrow_ok a m : to_Z a < LB -> to_Z m < LB -> forall t b p c r, lims t -> lims b -> lims p -> to_Z c <= 2 ^ 60 ->
  mrow t a b m p c = Some r -> lims r /\ length r = S (length t) /\ length b = length t /\ length p = length t /\
    lval r = lval t + to_Z a * lval b + to_Z m * lval p + to_Z c.
Proof.
  intros Ha Hm. induction t as [|x t IH]; intros [|y b] [|z p] c r Ht Hb Hp Hc E; cbn [mrow] in E; try discriminate.
  - destruct (c <? lb)%uint63 eqn:C; [|discriminate]. apply ltb28 in C. injection E as <-. cbn [lval length].
    split; [constructor; [exact C|constructor]|]. lia.
  - set (v := (x + a * y + m * z + c)%uint63) in *.
    destruct (mrow t a b m p (v >> 28)%uint63) as [r'|] eqn:E'; [|discriminate]. injection E as <-.
    inversion Ht as [|? ? X T]; inversion Hb as [|? ? Y BB]; inversion Hp as [|? ? ZZ P]; subst.
    pose proof (nn x); pose proof (nn y); pose proof (nn z); pose proof (nn a); pose proof (nn m); pose proof (nn c).
    assert (to_Z a * to_Z y < 2 ^ 56) as B1 by (unfold LB in *; nia).
    assert (to_Z m * to_Z z < 2 ^ 56) as B2 by (unfold LB in *; nia).
    assert (0 <= to_Z a * to_Z y) by nia. assert (0 <= to_Z m * to_Z z) by nia.
    assert (to_Z v = to_Z x + to_Z a * to_Z y + to_Z m * to_Z z + to_Z c) as EV.
    { unfold v. repeat (rewrite add_spec || rewrite mul_spec). rewrite wB_val. unfold LB in *.
      change (2 ^ 56) with 72057594037927936 in *. change (2 ^ 60) with 1152921504606846976 in *.
      rewrite (Z.mod_small (to_Z a * to_Z y)) by lia. rewrite (Z.mod_small (to_Z m * to_Z z)) by lia.
      rewrite (Z.mod_small (to_Z x + _)) by lia. rewrite (Z.mod_small (to_Z x + _ + _)) by lia. apply Z.mod_small. lia. }
    pose proof (split28 v) as SP.
    assert (to_Z (v >> 28)%uint63 <= 2 ^ 60) as C'.
    { pose proof (nn (v land lmask)%uint63). pose proof (to_Z_bounded v) as VB. rewrite wB_val in VB. unfold LB in SP. change (2 ^ 60) with 1152921504606846976. lia. }
    destruct (IH b p _ r' T BB P C' E') as (R1 & R2 & R3 & R4 & R5).
    split; [constructor; [apply land_small|exact R1]|]. cbn [length lval]. split; [lia|]. split; [lia|]. split; [lia|].
    rewrite R5. transitivity (to_Z v + LB * (lval t + to_Z a * lval b + to_Z m * lval p)); [rewrite <- SP; ring|rewrite EV; ring].
Qed.
Lemma addrow_ok : forall a b c r, lims a -> lims b -> to_Z c <= 2 ^ 60 ->
  addrow a b c = Some r -> lims r /\ length r = length a /\ lval r = lval a + lval b + to_Z c.
Proof.
  induction a as [|x a IH]; intros [|y b] c r Ha Hb Hc E; cbn [addrow] in E; try discriminate.
  - destruct (c =? 0)%uint63 eqn:C; [|discriminate]. apply eqb_0 in C. injection E as <-. cbn [lval length]. split; [constructor|]. lia.
  - set (v := (x + y + c)%uint63) in *.
    destruct (addrow a b (v >> 28)%uint63) as [r'|] eqn:E'; [|discriminate]. injection E as <-.
    inversion Ha as [|? ? X T]; inversion Hb as [|? ? Y BB]; subst.
    pose proof (nn x); pose proof (nn y); pose proof (nn c).
    assert (to_Z v = to_Z x + to_Z y + to_Z c) as EV.
    { unfold v. rewrite !add_spec, wB_val. unfold LB in *. change (2 ^ 60) with 1152921504606846976 in *.
      rewrite (Z.mod_small (to_Z x + _)) by lia. apply Z.mod_small. lia. }
    pose proof (split28 v) as SP.
    assert (to_Z (v >> 28)%uint63 <= 2 ^ 60) as C'.
    { pose proof (nn (v land lmask)%uint63). pose proof (to_Z_bounded v) as VB. rewrite wB_val in VB. unfold LB in SP. change (2 ^ 60) with 1152921504606846976. lia. }
    destruct (IH b _ r' T BB C' E') as (R1 & R2 & R3).
    split; [constructor; [apply land_small|exact R1]|]. cbn [length lval]. split; [lia|].
    rewrite R3. transitivity (to_Z v + LB * (lval a + lval b)); [rewrite <- SP; ring|rewrite EV; ring].
Qed.
Lemma subrow_ok : forall a k b c r, lims a -> to_Z c <= 2 ^ 60 ->
  subrow a k b c = Some r -> lims r /\ length r = length a /\ lval r = lval a + lval k - lval b + to_Z c.
Proof.
  induction a as [|x a IH]; intros [|w k] [|y b] c r Ha Hc E; cbn [subrow] in E; try discriminate.
  - destruct (c =? 0)%uint63 eqn:C; [|discriminate]. apply eqb_0 in C. injection E as <-. cbn [lval length]. split; [constructor|]. lia.
  - destruct (y <=? w)%uint63 eqn:L1; [|discriminate]. destruct (w <? 1073741824)%uint63 eqn:L2; [|discriminate].
    cbn [andb] in E. apply Uint63.leb_spec in L1. apply Uint63.ltb_spec in L2. change (to_Z 1073741824) with 1073741824 in L2.
    set (v := (x + (w - y) + c)%uint63) in *.
    destruct (subrow a k b (v >> 28)%uint63) as [r'|] eqn:E'; [|discriminate]. injection E as <-.
    inversion Ha as [|? ? X T]; subst.
    pose proof (nn x); pose proof (nn y); pose proof (nn c); pose proof (nn w).
    assert (to_Z v = to_Z x + (to_Z w - to_Z y) + to_Z c) as EV.
    { unfold v. rewrite !add_spec, sub_spec, wB_val. unfold LB in *. change (2 ^ 60) with 1152921504606846976 in *.
      rewrite (Z.mod_small (to_Z w - _)) by lia. rewrite (Z.mod_small (to_Z x + _)) by lia. apply Z.mod_small. lia. }
    pose proof (split28 v) as SP.
    assert (to_Z (v >> 28)%uint63 <= 2 ^ 60) as C'.
    { pose proof (nn (v land lmask)%uint63). pose proof (to_Z_bounded v) as VB. rewrite wB_val in VB. unfold LB in SP. change (2 ^ 60) with 1152921504606846976. lia. }
    destruct (IH k b _ r' T C' E') as (R1 & R2 & R3).
    split; [constructor; [apply land_small|exact R1]|]. cbn [length lval]. split; [lia|].
    rewrite R3. transitivity (to_Z v + LB * (lval a + lval k - lval b)); [rewrite <- SP; ring|rewrite EV; ring].
Qed.

(** Limbs of an integer, with a check that the conversion is exact. *)
Fixpoint limbs_aux (n : nat) (z : Z) : list int := match n with O => [] | S n => of_Z (z mod LB) :: limbs_aux n (z / LB) end.
Definition small_limbs (l : list int) : bool := forallb (fun x => (x <? lb)%uint63) l.
Definition limbs (n : nat) (z : Z) : option (list int) :=
  let l := limbs_aux n z in if small_limbs l && (lval l =? z) then Some l else None.
Lemma small_limbs_ok l : small_limbs l = true -> lims l.
Proof. unfold small_limbs. rewrite forallb_forall. intro H. apply Forall_forall. intros x I. apply ltb28, H, I. Qed.
Lemma limbs_ok n z l : limbs n z = Some l -> lims l /\ lval l = z.
Proof.
  unfold limbs. destruct (small_limbs _) eqn:S; [|discriminate]. destruct (lval (limbs_aux n z) =? z) eqn:E; [|discriminate].
  intro H; injection H as <-. apply Z.eqb_eq in E. auto using small_limbs_ok.
Qed.

(** A modulus: its limbs, minus the inverse of its low limb modulo 2^28, and a multiple of it with big limbs. *)
Record mont := { mo_n : Z; mo_len : nat; mo_l : list int; mo_inv : int; mo_k : list int }.
Definition mont_ok (M : mont) : bool :=
  (1 <? mo_n M) && (lval (mo_l M) =? mo_n M) && small_limbs (mo_l M) && (lval (mo_k M) mod mo_n M =? 0) && (Nat.eqb (length (mo_l M)) (mo_len M)) && Z.odd (mo_n M).
Fixpoint mloop (M : mont) (t aa b : list int) : option (list int) :=
  match aa with
  | [] => Some t
  | a :: aa =>
      match t, b with
      | x :: _, y :: _ =>
          let m := ((((x + a * y) land lmask) * mo_inv M) land lmask)%uint63 in
          match mrow t a b m (mo_l M) 0%uint63 with
          | Some (z :: t') => if (z =? 0)%uint63 then mloop M t' aa b else None
          | _ => None
          end
      | _, _ => None
      end
  end.
Definition lzero (M : mont) : list int := repeat 0%uint63 (mo_len M).
Definition mmul (M : mont) (a b : list int) : option (list int) := mloop M (lzero M) a b.
Definition madd (M : mont) (a b : list int) : option (list int) := addrow a b 0%uint63.
Definition msub (M : mont) (a b : list int) : option (list int) := subrow a (mo_k M) b 0%uint63.
Definition good (M : mont) (l : list int) : Prop := lims l /\ length l = mo_len M.

Section Mont.
Variable M : mont.
Hypothesis OK : mont_ok M = true.
Notation N := (mo_n M).
Notation RR := (LB ^ Z.of_nat (mo_len M)).
Lemma ok_split : 1 < N /\ lval (mo_l M) = N /\ lims (mo_l M) /\ lval (mo_k M) mod N = 0 /\ length (mo_l M) = mo_len M /\ Z.odd N = true.
Proof.
  unfold mont_ok in OK. rewrite !Bool.andb_true_iff, Z.ltb_lt, !Z.eqb_eq, Nat.eqb_eq in OK. destruct OK as (((((A & B) & C) & D) & E) & F).
  auto 10 using small_limbs_ok.
Qed.
Lemma mloop_ok : forall aa t b r, lims aa -> lims t -> lims b -> length t = mo_len M -> mloop M t aa b = Some r ->
  lims r /\ length r = mo_len M /\ (N | lval r * LB ^ Z.of_nat (length aa) - (lval t + lval aa * lval b)).
Proof.
  destruct ok_split as (N1 & VL & SL & _ & LL & _).
  induction aa as [|a aa IH]; intros t b r Ha Ht Hb Hlen E; cbn [mloop] in E.
  - injection E as <-. split; [exact Ht|]. split; [exact Hlen|]. cbn [length lval]. exists 0. change (LB ^ Z.of_nat 0) with 1. ring.
  - destruct t as [|x t]; [discriminate|]. destruct b as [|y b]; [discriminate|].
    set (m := ((((x + a * y) land lmask) * mo_inv M) land lmask)%uint63) in *.
    destruct (mrow (x :: t) a (y :: b) m (mo_l M) 0%uint63) as [[|z t']|] eqn:E1; try discriminate.
    destruct (z =? 0)%uint63 eqn:Z0; [|discriminate]. apply eqb_0 in Z0.
    inversion Ha as [|? ? A1 A2]; subst.
    assert (to_Z m < LB) as Bm by apply land_small. clearbody m.
    destruct (mrow_ok a m A1 Bm _ _ _ _ _ Ht Hb SL zero_small E1) as (R1 & R2 & R3 & R4 & R5).
    cbn [length] in R2. inversion R1 as [|? ? _ R1']; subst.
    destruct (IH t' (y :: b) r A2 R1' Hb ltac:(cbn [length] in *; lia) E) as (Q1 & Q2 & [k Q3]).
    split; [exact Q1|]. split; [exact Q2|].
    assert (LB * lval t' = lval (x :: t) + to_Z a * lval (y :: b) + to_Z m * N) as R6.
    { rewrite <- VL. change (lval (z :: t')) with (to_Z z + LB * lval t') in R5. rewrite Z0 in R5. change (to_Z 0%uint63) with 0 in R5. lia. }
    exists (k * LB + to_Z m). cbn [length]. rewrite Nat2Z.inj_succ, Z.pow_succ_r by lia. change (lval (a :: aa)) with (to_Z a + LB * lval aa).
    transitivity (LB * (lval r * LB ^ Z.of_nat (length aa) - (lval t' + lval aa * lval (y :: b))) + to_Z m * N); [|rewrite Q3; ring].
    transitivity (LB * lval r * LB ^ Z.of_nat (length aa) - LB * lval t' - LB * lval aa * lval (y :: b) + to_Z m * N); [rewrite R6; ring|ring].
Qed.
Lemma lzero_good : good M (lzero M).
Proof. unfold good, lzero. split; [|apply repeat_length]. apply Forall_forall. intros x I. apply repeat_spec in I. subst x. reflexivity. Qed.
Lemma lzero_val : lval (lzero M) = 0.
Proof. unfold lzero. induction (mo_len M) as [|n IH]; [reflexivity|]. cbn [repeat lval]. rewrite IH. reflexivity. Qed.
Lemma mmul_ok a b r : good M a -> good M b -> mmul M a b = Some r -> good M r /\ (N | lval r * RR - lval a * lval b).
Proof.
  intros [A1 A2] [B1 B2] E. destruct lzero_good as [Z1 Z2]. destruct (mloop_ok a _ b r A1 Z1 B1 Z2 E) as (R1 & R2 & R3).
  split; [split; assumption|]. rewrite lzero_val, A2 in R3. exact R3.
Qed.
Lemma madd_ok a b r : good M a -> good M b -> madd M a b = Some r -> good M r /\ lval r = lval a + lval b.
Proof.
  intros [A1 A2] [B1 B2] E. destruct (addrow_ok a b 0%uint63 r A1 B1 zero_small E) as (R1 & R2 & R3).
  split; [split; [exact R1|congruence]|]. rewrite R3. change (to_Z 0%uint63) with 0. ring.
Qed.
Lemma msub_ok a b r : good M a -> msub M a b = Some r -> good M r /\ (N | lval r - (lval a - lval b)).
Proof.
  intros [A1 A2] E. destruct (subrow_ok a _ b 0%uint63 r A1 zero_small E) as (R1 & R2 & R3).
  split; [split; [exact R1|congruence]|]. rewrite R3. change (to_Z 0%uint63) with 0. destruct ok_split as (N1 & _ & _ & K & _).
  apply Z.mod_divide in K; [|lia]. destruct K as [k K]. exists k. rewrite K. ring.
Qed.
End Mont.
