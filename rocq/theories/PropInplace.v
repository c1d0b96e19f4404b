(** C66: the curve arithmetic of P-224 and P-256 with its outputs at the addresses of its inputs. *)
From Coq Require Import Lia.
From Verif Require Import Base Words HashModel NumTheory RsaModel RsaEncModel EllModel P224Model P256Model InplaceModel InplaceProofs InplaceGroup InplaceScalar.

(** ** Specification *)
(** A memory of field elements of [n] limbs, and an address in it. *)
Definition elements (n : nat) (m : mem) : Prop := forall a, In a (fst m) \/ In a (snd m) -> length a = n.
Definition valid (m : mem) (p : ptr) : Prop := match p with A i => (i < length (fst m))%nat | L i => (i < length (snd m))%nat end.
(** After the routine, [p] holds [v] and every other address holds what it held. *)
Definition only_writes (m m' : mem) (p : ptr) (v : list Z) : Prop :=
  length (fst m') = length (fst m) /\ length (snd m') = length (snd m) /\ get m' p = v /\ forall q, q <> p -> get m' q = get m q.
(** The same for three addresses of the caller's arrays. *)
Definition only_writes3 (ms ms' : list (list Z)) (x y z : nat) (q : list Z * list Z * list Z) : Prop :=
  length ms' = length ms /\ (nth x ms' [], nth y ms' [], nth z ms' []) = q /\ forall i, i <> x -> i <> y -> i <> z -> nth i ms' [] = nth i ms [].
Definition all_below (l : list nat) (n : nat) : Prop := forall i, In i l -> (i < n)%nat.
Definition limbs_each (n : nat) (ms : list (list Z)) : Prop := forall a, In a ms -> length a = n.
(** Both panic, or neither does and the results agree. *)
Definition same {X Y} (R : X -> Y -> Prop) (a : option X) (b : option Y) : Prop :=
  match a, b with Some x, Some y => R x y | None, None => True | _, _ => False end.

(** ** Glue *)
Lemma get_len n m p : elements n m -> valid m p -> length (get m p) = n.
Proof. intros H V. destruct p; apply H; [left|right]; apply nth_In; exact V. Qed.
Lemma set_only m p v : valid m p -> only_writes m (set m p v) p v.
Proof.
  intros V. split; [|split; [|split]].
  - destruct p; cbn in *; [apply put_length; exact V|reflexivity].
  - destruct p; cbn in *; [reflexivity|apply put_length; exact V].
  - apply get_set. exact V.
  - intros q Hq. apply get_set_other; auto.
Qed.
Lemma wf_of n ms : limbs_each n ms -> wf n ms.
Proof. intros H. apply Forall_forall. exact H. Qed.
Lemma wr3_only ms x y z q : (x < length ms)%nat -> (y < length ms)%nat -> (z < length ms)%nat -> x <> y -> x <> z -> y <> z -> only_writes3 ms (wr3 ms x y z q) x y z q.
Proof.
  intros Hx Hy Hz D1 D2 D3. destruct q as [[a b] c]. unfold wr3. split; [|split].
  - rewrite !put_length; repeat apply put_lt; auto.
  - rewrite put_same by (repeat apply put_lt; auto).
    rewrite (put_other _ z _ x) by (repeat apply put_lt; auto). rewrite (put_other _ z _ y) by (repeat apply put_lt; auto).
    rewrite (put_other _ y _ x) by (repeat apply put_lt; auto). rewrite !put_same by (repeat apply put_lt; auto). reflexivity.
  - intros i N1 N2 N3. rewrite !put_other; repeat apply put_lt; auto.
Qed.

Definition eqz (a b : list Z) : bool := if list_eq_dec Z.eq_dec a b then true else false.
Lemma eqz_true a b : eqz a b = true -> a = b.
Proof. unfold eqz. destruct (list_eq_dec _ _ _); [auto|discriminate]. Qed.
Lemma eqz_false a b : eqz a b = false -> a <> b.
Proof. unfold eqz. destruct (list_eq_dec _ _ _); [discriminate|auto]. Qed.

(** ** P-256: whatever addresses coincide, the value written is the one of the separate inputs. *)
Theorem C66_p256_sum out a b m : elements 9 m -> valid m out -> valid m a -> valid m b ->
  only_writes m (sum_m out a b m) out (p256_sum (get m a) (get m b)).
Proof. intros H Vo Va Vb. rewrite sum_spec; [|exact Vo|apply get_len; auto ..]. apply set_only. exact Vo. Qed.
Print Assumptions C66_p256_sum.
Theorem C66_p256_diff out a b m : elements 9 m -> valid m out -> valid m a -> valid m b ->
  only_writes m (diff_m out a b m) out (p256_diff (get m a) (get m b)).
Proof. intros H Vo Va Vb. rewrite diff_spec; [|exact Vo|apply get_len; auto ..]. apply set_only. exact Vo. Qed.
Print Assumptions C66_p256_diff.
Theorem C66_p256_mul dbg out a b m : elements 9 m -> valid m out -> valid m a -> valid m b ->
  same (fun m' v => only_writes m m' out v) (mul_m dbg out a b m) (p256_mul dbg (get m a) (get m b)).
Proof. intros H Vo Va Vb. rewrite mul_eq. destruct (p256_mul _ _ _); [|exact I]. apply set_only. exact Vo. Qed.
Print Assumptions C66_p256_mul.
Theorem C66_p256_square dbg out a m : elements 9 m -> valid m out -> valid m a ->
  same (fun m' v => only_writes m m' out v) (square_m dbg out a m) (p256_square dbg (get m a)).
Proof. intros H Vo Va. rewrite square_eq. destruct (p256_square _ _); [|exact I]. apply set_only. exact Vo. Qed.
Print Assumptions C66_p256_square.
(** r += r: all three addresses are one; p256.rs:888. *)
Example C66_sum_case : let m := ([P256_ONE; fz], [P256_ONE]) in elements 9 m /\ valid m (L 0) /\ get (sum_m (L 0) (L 0) (L 0) m) (L 0) = p256_sum P256_ONE P256_ONE /\
  get (diff_m (A 0) (A 1) (A 0) m) (A 0) = p256_diff fz P256_ONE /\ p256_diff fz P256_ONE <> fz.
Proof.
  cbv zeta. split; [|split; [|split; [|split]]].
  - intros a [H|H]; cbn in H; decompose [or] H; subst; try contradiction; reflexivity.
  - cbn. lia.
  - vm_compute. reflexivity.
  - vm_compute. reflexivity.
  - vm_compute. discriminate.
Qed.

Theorem C66_p256_double dbg xo yo zo x y z ms : limbs_each 9 ms -> all_below [xo; yo; zo; x; y; z] (length ms) -> NoDup [xo; yo; zo] ->
  same (fun ms' q => only_writes3 ms ms' xo yo zo q) (point_double_m dbg xo yo zo x y z ms) (p256_point_double dbg (nth x ms [], nth y ms [], nth z ms [])).
Proof.
  intros H B D. inversion D as [|? ? D1 D']; subst. inversion D' as [|? ? D2 _]; subst. cbn in D1, D2.
  rewrite point_double_ok; [|apply wf_of; exact H|apply B; cbn; tauto ..|intros ->; tauto|intros ->; tauto|intros ->; tauto].
  destruct (p256_point_double _ _); [|exact I]. apply wr3_only; try (apply B; cbn; tauto); intros ->; tauto.
Qed.
Print Assumptions C66_p256_double.
Theorem C66_p256_add dbg xo yo zo x1 y1 z1 x2 y2 z2 ms : limbs_each 9 ms -> all_below [xo; yo; zo; x1; y1; z1; x2; y2; z2] (length ms) -> NoDup [xo; yo; zo] ->
  same (fun ms' q => only_writes3 ms ms' xo yo zo q) (point_add_m dbg xo yo zo x1 y1 z1 x2 y2 z2 ms)
    (p256_point_add dbg (nth x1 ms [], nth y1 ms [], nth z1 ms []) (nth x2 ms [], nth y2 ms [], nth z2 ms [])).
Proof.
  intros H B D. inversion D as [|? ? D1 D']; subst. inversion D' as [|? ? D2 _]; subst. cbn in D1, D2.
  rewrite point_add_ok; [|apply wf_of; exact H|apply B; cbn; tauto ..|intros ->; tauto|intros ->; tauto|intros ->; tauto].
  destruct (p256_point_add _ _ _); [|exact I]. apply wr3_only; try (apply B; cbn; tauto); intros ->; tauto.
Qed.
Print Assumptions C66_p256_add.
(** The mixed addition needs the y coordinate of the first point to be apart from the outputs ... *)
Theorem C66_p256_add_mixed dbg xo yo zo x1 y1 z1 x2 y2 ms : limbs_each 9 ms -> all_below [xo; yo; zo; x1; y1; z1; x2; y2] (length ms) -> NoDup [xo; yo; zo; y1] ->
  same (fun ms' q => only_writes3 ms ms' xo yo zo q) (point_add_mixed_m dbg xo yo zo x1 y1 z1 x2 y2 ms)
    (p256_point_add_mixed dbg (nth x1 ms [], nth y1 ms [], nth z1 ms []) (nth x2 ms []) (nth y2 ms [])).
Proof.
  intros H B D. inversion D as [|? ? D1 D']; subst. inversion D' as [|? ? D2 D'']; subst. inversion D'' as [|? ? D3 _]; subst. cbn in D1, D2, D3.
  rewrite point_add_mixed_ok; [|apply wf_of; exact H|apply B; cbn; tauto ..|intros ->; tauto|intros ->; tauto|intros ->; tauto|intros ->; tauto|intros ->; tauto|intros ->; tauto].
  destruct (p256_point_add_mixed _ _ _ _); [|exact I]. apply wr3_only; try (apply B; cbn; tauto); intros ->; tauto.
Qed.
Print Assumptions C66_p256_add_mixed.
(** ... and is wrong when the sum goes to where the first point was: here G + (2^64)G, the first two entries of the table. *)
Definition tabG : list Z := firstn 9 P256_PRECOMPUTED.
Definition tabGy : list Z := firstn 9 (skipn 9 P256_PRECOMPUTED).
Definition tabH : list Z := firstn 9 (skipn 18 P256_PRECOMPUTED).
Definition tabHy : list Z := firstn 9 (skipn 27 P256_PRECOMPUTED).
Definition mixed_ms : list (list Z) := [tabG; tabGy; P256_ONE; tabH; tabHy].
Theorem C66_p256_add_mixed_in_place_refuted : limbs_each 9 mixed_ms /\ all_below [0; 1; 2; 3; 4]%nat (length mixed_ms) /\ NoDup [0; 1; 2]%nat /\
  exists ms' q, point_add_mixed_m false 0 1 2 0 1 2 3 4 mixed_ms = Some ms' /\ p256_point_add_mixed false (tabG, tabGy, P256_ONE) tabH tabHy = Some q /\
    nth 0 ms' [] = fst (fst q) /\ nth 1 ms' [] <> snd (fst q) /\ nth 2 ms' [] = snd q.
Proof.
  split; [|split; [|split]].
  - intros a H. cbn [mixed_ms In] in H. decompose [or] H; subst; try contradiction; vm_compute; reflexivity.
  - intros i H. cbn in *. lia.
  - repeat constructor; cbn; lia.
  - assert (T : match point_add_mixed_m false 0 1 2 0 1 2 3 4 mixed_ms, p256_point_add_mixed false (tabG, tabGy, P256_ONE) tabH tabHy with
                | Some ms', Some q => eqz (nth 0 ms' []) (fst (fst q)) && negb (eqz (nth 1 ms' []) (snd (fst q))) && eqz (nth 2 ms' []) (snd q)
                | _, _ => false end = true) by (vm_compute; reflexivity).
    destruct (point_add_mixed_m _ _ _ _ _ _ _ _ _ _) as [ms'|]; [|discriminate]. destruct (p256_point_add_mixed _ _ _ _) as [q|]; [|discriminate].
    exists ms', q. apply andb_prop in T. destruct T as [T T3]. apply andb_prop in T. destruct T as [T1 T2]. apply negb_true_iff in T2.
    split; [reflexivity|]. split; [reflexivity|]. split; [apply eqz_true; exact T1|]. split; [apply eqz_false; exact T2|apply eqz_true; exact T3].
Qed.
Print Assumptions C66_p256_add_mixed_in_place_refuted.
(** The whole scalar multiplication, with its table and its accumulator in memory and doubled in place; the outputs may hold anything before. *)
Theorem C66_p256_scalar_mult dbg x y scalar out : limbs_each 9 [x; y] -> limbs_each 9 out -> length out = 3%nat ->
  same (fun ms' q => ms' = [fst (fst q); snd (fst q); snd q]) (scalar_mult_m dbg x y scalar out) (p256_scalar_mult dbg x y scalar).
Proof.
  intros H Ho L. rewrite scalar_mult_ok; [|apply H; cbn; tauto|apply H; cbn; tauto|apply wf_of; exact Ho|exact L].
  destruct (p256_scalar_mult _ _ _ _) as [[[a b] c]|]; [reflexivity|exact I].
Qed.
Print Assumptions C66_p256_scalar_mult.
(** Doubling in place, of G. *)
Example C66_double_case : limbs_each 9 mixed_ms /\ all_below [0; 1; 2; 0; 1; 2]%nat (length mixed_ms) /\ NoDup [0; 1; 2]%nat /\
  exists ms', point_double_m false 0 1 2 0 1 2 mixed_ms = Some ms' /\ nth 0 ms' [] <> tabG /\ nth 3 ms' [] = tabH.
Proof.
  split; [exact (proj1 C66_p256_add_mixed_in_place_refuted)|]. split; [intros i H; cbn in *; lia|]. split; [repeat constructor; cbn; lia|].
  assert (T : match point_double_m false 0 1 2 0 1 2 mixed_ms with
              | Some ms' => negb (eqz (nth 0 ms' []) tabG) && eqz (nth 3 ms' []) tabH | None => false end = true) by (vm_compute; reflexivity).
  destruct (point_double_m _ _ _ _ _ _ _ _) as [ms'|]; [|discriminate]. exists ms'. apply andb_prop in T. destruct T as [T1 T2]. apply negb_true_iff in T1.
  split; [reflexivity|]. split; [apply eqz_false; exact T1|apply eqz_true; exact T2].
Qed.

(** ** P-224 *)
Theorem C66_p224_add out a b m : elements 8 m -> valid m out -> valid m a -> valid m b -> only_writes m (add224_m out a b m) out (p224_add (get m a) (get m b)).
Proof. intros H Vo Va Vb. rewrite add224_spec; [|exact Vo|apply get_len; auto ..]. apply set_only. exact Vo. Qed.
Print Assumptions C66_p224_add.
Theorem C66_p224_sub out a b m : elements 8 m -> valid m out -> valid m a -> valid m b -> only_writes m (sub224_m out a b m) out (p224_sub (get m a) (get m b)).
Proof. intros H Vo Va Vb. rewrite sub224_spec; [|exact Vo|apply get_len; auto ..]. apply set_only. exact Vo. Qed.
Print Assumptions C66_p224_sub.
Theorem C66_p224_mul out a b m : elements 8 m -> valid m out -> valid m a -> valid m b -> only_writes m (mul224_m out a b m) out (p224_mul (get m a) (get m b)).
Proof. intros H Vo Va Vb. rewrite mul224_spec by (apply get_len; auto). apply set_only. exact Vo. Qed.
Print Assumptions C66_p224_mul.
Theorem C66_p224_square out a m : elements 8 m -> valid m out -> valid m a -> only_writes m (square224_m out a m) out (p224_square (get m a)).
Proof. intros H Vo Va. rewrite square224_spec by (apply get_len; auto). apply set_only. exact Vo. Qed.
Print Assumptions C66_p224_square.
Theorem C66_p224_contract out a m : elements 8 m -> valid m out -> valid m a -> only_writes m (contract224_m out a m) out (p224_contract (get m a)).
Proof. intros H Vo Va. rewrite contract224_spec; [|exact Vo|apply get_len; auto ..]. apply set_only. exact Vo. Qed.
Print Assumptions C66_p224_contract.
Example C66_p224_case : let m := ([[1; 2; 3; 4; 5; 6; 7; 8]], [[9; 9; 9; 9; 9; 9; 9; 9]]) in elements 8 m /\ valid m (A 0) /\
  get (mul224_m (A 0) (A 0) (A 0) m) (A 0) = p224_square [1; 2; 3; 4; 5; 6; 7; 8] /\ get (sub224_m (L 0) (A 0) (L 0) m) (L 0) = p224_sub [1; 2; 3; 4; 5; 6; 7; 8] [9; 9; 9; 9; 9; 9; 9; 9].
Proof.
  cbv zeta. split; [|split; [|split]].
  - intros a [H|H]; cbn in H; decompose [or] H; subst; try contradiction; reflexivity.
  - cbn. lia.
  - vm_compute. reflexivity.
  - vm_compute. reflexivity.
Qed.
Theorem C66_p224_double xo yo zo x y z ms : limbs_each 8 ms -> all_below [xo; yo; zo; x; y; z] (length ms) -> NoDup [xo; yo; zo] ->
  exists ms', double224_m xo yo zo x y z ms = Some ms' /\ only_writes3 ms ms' xo yo zo (p224_double_jacobian (nth x ms []) (nth y ms []) (nth z ms [])).
Proof.
  intros H B D. inversion D as [|? ? D1 D']; subst. inversion D' as [|? ? D2 _]; subst. cbn in D1, D2.
  eexists. split; [apply double224_ok; [apply wf_of; exact H|apply B; cbn; tauto ..|intros ->; tauto|intros ->; tauto|intros ->; tauto]|].
  apply wr3_only; try (apply B; cbn; tauto); intros ->; tauto.
Qed.
Print Assumptions C66_p224_double.
Theorem C66_p224_add_jacobian xo yo zo x1 y1 z1 x2 y2 z2 ms : limbs_each 8 ms -> all_below [xo; yo; zo; x1; y1; z1; x2; y2; z2] (length ms) -> NoDup [xo; yo; zo] ->
  (forall i, In i [x1; y1; z1; x2; y2; z2] -> ~ In i [xo; yo; zo]) ->
  exists ms', add_jacobian_m xo yo zo x1 y1 z1 x2 y2 z2 ms = Some ms' /\
    only_writes3 ms ms' xo yo zo (p224_add_jacobian (nth x1 ms []) (nth y1 ms []) (nth z1 ms []) (nth x2 ms []) (nth y2 ms []) (nth z2 ms [])).
Proof.
  intros H B D S. inversion D as [|? ? D1 D']; subst. inversion D' as [|? ? D2 _]; subst. cbn in D1, D2.
  eexists. split; [apply add_jacobian_ok; [apply wf_of; exact H|apply B; cbn; tauto ..|intros ->; tauto|intros ->; tauto|intros ->; tauto|]|].
  - intros i Hi. specialize (S i Hi). cbn in S. repeat split; intros ->; tauto.
  - apply wr3_only; try (apply B; cbn; tauto); intros ->; tauto.
Qed.
Print Assumptions C66_p224_add_jacobian.
(** The addition is wrong when the sum goes to where the first point was and the second is infinity: the sum is not the first point. *)
Definition jac_ms : list (list Z) := [c224_gx; c224_gy; fe1; fe0; fe0; fe0].
Theorem C66_p224_add_in_place_refuted : limbs_each 8 jac_ms /\ all_below [0; 1; 2; 3; 4; 5]%nat (length jac_ms) /\ NoDup [0; 1; 2]%nat /\
  exists ms', add_jacobian_m 0 1 2 0 1 2 3 4 5 jac_ms = Some ms' /\ p224_add_jacobian c224_gx c224_gy fe1 fe0 fe0 fe0 = (c224_gx, c224_gy, fe1) /\
    p224_is_zero (nth 2 ms' []) = 1.
Proof.
  split; [|split; [|split]].
  - intros a H. cbn [jac_ms In] in H. decompose [or] H; subst; try contradiction; vm_compute; reflexivity.
  - intros i H. cbn in *. lia.
  - repeat constructor; cbn; lia.
  - assert (T : match add_jacobian_m 0 1 2 0 1 2 3 4 5 jac_ms with Some ms' => p224_is_zero (nth 2 ms' []) =? 1 | None => false end = true) by (vm_compute; reflexivity).
    destruct (add_jacobian_m _ _ _ _ _ _ _ _ _ _) as [ms'|]; [|discriminate]. exists ms'. apply Z.eqb_eq in T.
    split; [reflexivity|]. split; [vm_compute; reflexivity|exact T].
Qed.
Print Assumptions C66_p224_add_in_place_refuted.
Theorem C66_p224_scalar_mult x0 y0 z0 scalar out : limbs_each 8 [x0; y0; z0] -> limbs_each 8 out -> length out = 3%nat ->
  exists x y z, scalar224_m x0 y0 z0 scalar out = Some [x; y; z] /\ p224_scalar_mult x0 y0 z0 scalar = (x, y, z).
Proof.
  intros H Ho L. rewrite scalar224_ok; [|apply wf_of; exact H|apply wf_of; exact Ho|exact L].
  destruct (p224_scalar_mult x0 y0 z0 scalar) as [[x y] z]. exists x, y, z. split; reflexivity.
Qed.
Print Assumptions C66_p224_scalar_mult.
(** Doubling in place, of the base point. *)
Example C66_p224_double_case : limbs_each 8 jac_ms /\ all_below [0; 1; 2; 0; 1; 2]%nat (length jac_ms) /\
  exists ms', double224_m 0 1 2 0 1 2 jac_ms = Some ms' /\ nth 0 ms' [] <> c224_gx /\ nth 3 ms' [] = fe0.
Proof.
  split; [exact (proj1 C66_p224_add_in_place_refuted)|]. split; [intros i H; cbn in *; lia|].
  assert (T : match double224_m 0 1 2 0 1 2 jac_ms with
              | Some ms' => negb (eqz (nth 0 ms' []) c224_gx) && eqz (nth 3 ms' []) fe0 | None => false end = true) by (vm_compute; reflexivity).
  destruct (double224_m _ _ _ _ _ _ _) as [ms'|]; [|discriminate]. exists ms'. apply andb_prop in T. destruct T as [T1 T2]. apply negb_true_iff in T1.
  split; [reflexivity|]. split; [apply eqz_false; exact T1|apply eqz_true; exact T2].
Qed.
