(** Keccak-p on the double buffer, the sponge loop and the byte conversions. *)
From Verif Require Import Base KeccakModel KeccakSpec KeccakProofs.

(** ** Strings *)
Lemma flat_map_seq {A} (f : nat -> A) n m : flat_map (fun y => map (fun z => f (y * n + z)%nat) (seq 0 n)) (seq 0 m) = map f (seq 0 (m * n)).
Proof.
  induction m as [|m IH]; [reflexivity|]. rewrite seq_S, flat_map_app, IH. cbn [flat_map plus]. rewrite app_nil_r.
  replace (S m * n)%nat with (m * n + n)%nat by lia. rewrite seq_app, map_app. f_equal. cbn [plus].
  apply nth_ext with (d := f 0%nat) (d' := f 0%nat); [rewrite !map_length, !seq_length; reflexivity|].
  intros i Hi. rewrite map_length, seq_length in Hi. rewrite nth_map_seq by auto.
  rewrite (nth_indep _ _ (f (m * n)%nat)) by (rewrite map_length, seq_length; auto).
  rewrite (map_nth f (seq (m * n) n) (m * n)%nat), seq_nth by auto. reflexivity.
Qed.
Lemma flat_map_ext_in {A B} (f g : A -> list B) l : (forall x, In x l -> f x = g x) -> flat_map f l = flat_map g l.
Proof. induction l as [|a l IH]; intros H; cbn; [reflexivity|]. rewrite H, IH; auto using in_eq, in_cons. Qed.
Lemma flat_map_map_seq {A B} (g : nat -> list A) (h : A -> list B) l : flat_map h (flat_map g l) = flat_map (fun x => flat_map h (g x)) l.
Proof. induction l as [|a l IH]; cbn; [reflexivity|]. rewrite flat_map_app, IH. reflexivity. Qed.
Definition idx_arr {A} (w : nat) (f : nat -> nat -> nat -> A) (i : nat) : A := f ((i / w) mod 5)%nat (i / w / 5)%nat (i mod w)%nat.
Lemma string_map {A} w (f : nat -> nat -> nat -> A) : (0 < w)%nat ->
  flat_map (fun y => flat_map (fun x => map (fun z => f x y z) (seq 0 w)) (seq 0 5)) (seq 0 5) = map (idx_arr w f) (seq 0 (25 * w)).
Proof.
  intros Hw. rewrite <- (flat_map_seq (idx_arr w f) w 25).
  assert (E : seq 0 25 = flat_map (fun y => map (fun x => (y * 5 + x)%nat) (seq 0 5)) (seq 0 5)) by reflexivity.
  rewrite E, flat_map_map_seq. apply flat_map_ext_in. intros y Hy. apply in_seq in Hy.
  assert (M : forall (h : nat -> list A) l, flat_map h (map (fun x => (y * 5 + x)%nat) l) = flat_map (fun x => h (y * 5 + x)%nat) l)
    by (induction l as [|a l IH]; cbn [flat_map map]; [reflexivity|rewrite IH; reflexivity]).
  rewrite M. apply flat_map_ext_in. intros x Hx. apply in_seq in Hx. apply map_ext_in. intros z Hz. apply in_seq in Hz.
  unfold idx_arr. assert (D : (((y * 5 + x) * w + z) / w = y * 5 + x)%nat) by (rewrite Nat.div_add_l, (Nat.div_small z) by lia; lia).
  rewrite D. replace (((y * 5 + x) * w + z) mod w)%nat with z
    by (rewrite Nat.add_comm, Nat.mod_add, Nat.mod_small by lia; reflexivity).
  replace ((y * 5 + x) mod 5)%nat with x by (rewrite Nat.add_comm, Nat.mod_add, Nat.mod_small by lia; reflexivity).
  replace ((y * 5 + x) / 5)%nat with y by (rewrite Nat.div_add_l, (Nat.div_small x) by lia; lia). reflexivity.
Qed.
Lemma to_string_map w A : (0 < w)%nat -> to_string w A = map (idx_arr w A) (seq 0 (25 * w)).
Proof. intros H. unfold to_string. apply (string_map w A H). Qed.
Lemma finish_map w s : (0 < w)%nat -> finish s w = map (idx_arr w (sget s)) (seq 0 (25 * w)).
Proof. intros H. unfold finish. apply (string_map w (sget s) H). Qed.
Lemma to_string_length w A : (0 < w)%nat -> length (to_string w A) = (25 * w)%nat.
Proof. intros H. rewrite to_string_map, map_length, seq_length by auto. reflexivity. Qed.
Lemma idx_ranges w i : (0 < w)%nat -> (i < 25 * w)%nat -> ((i / w) mod 5 < 5 /\ i / w / 5 < 5 /\ i mod w < w /\ w * (5 * (i / w / 5) + (i / w) mod 5) + i mod w = i)%nat.
Proof.
  intros Hw Hi. assert (i / w < 25)%nat by (apply Nat.div_lt_upper_bound; lia).
  pose proof (Nat.div_mod i w ltac:(lia)). pose proof (Nat.div_mod (i / w) 5 ltac:(lia)). pose proof (m5 (i / w)).
  pose proof (Nat.mod_upper_bound i w ltac:(lia)). assert (i / w / 5 < 5)%nat by (apply Nat.div_lt_upper_bound; lia).
  repeat split; auto. nia.
Qed.
Lemma to_string_ext w A B : (0 < w)%nat -> aeq w A B -> to_string w A = to_string w B.
Proof.
  intros Hw H. rewrite !to_string_map by auto. apply map_ext_in. intros i Hi. apply in_seq in Hi.
  destruct (idx_ranges w i Hw ltac:(lia)) as (R1 & R2 & R3 & _). apply H; auto.
Qed.
Lemma to_array_string w A : (0 < w)%nat -> aeq w (to_array w (to_string w A)) A.
Proof.
  intros Hw x y z Hx Hy Hz. unfold to_array. rewrite to_string_map by auto. rewrite nth_map_seq by nia. unfold idx_arr.
  replace (w * (5 * y + x) + z)%nat with ((y * 5 + x) * w + z)%nat by lia.
  assert (D : (((y * 5 + x) * w + z) / w = y * 5 + x)%nat) by (rewrite Nat.div_add_l, (Nat.div_small z) by lia; lia).
  rewrite D. replace (((y * 5 + x) * w + z) mod w)%nat with z
    by (rewrite Nat.add_comm, Nat.mod_add, Nat.mod_small by lia; reflexivity).
  replace ((y * 5 + x) mod 5)%nat with x by (rewrite Nat.add_comm, Nat.mod_add, Nat.mod_small by lia; reflexivity).
  replace ((y * 5 + x) / 5)%nat with y by (rewrite Nat.div_add_l, (Nat.div_small x) by lia; lia). reflexivity.
Qed.
Lemma to_string_array w S : (0 < w)%nat -> length S = (25 * w)%nat -> to_string w (to_array w S) = S.
Proof.
  intros Hw HL. rewrite to_string_map by auto. apply nth_ext with (d := false) (d' := false); [rewrite map_length, seq_length; auto|].
  intros i Hi. rewrite map_length, seq_length in Hi. rewrite nth_map_seq by auto. unfold idx_arr, to_array.
  destruct (idx_ranges w i Hw ltac:(lia)) as (_ & _ & _ & ->). reflexivity.
Qed.
Lemma finish_odd w s : (0 < w)%nat -> map Z.odd (finish s w) = to_string w (ab s).
Proof. intros Hw. rewrite finish_map, to_string_map, map_map by auto. reflexivity. Qed.
Lemma finish_cells w s : (0 < w)%nat -> wf w s -> finish s w = map Z.b2z (to_string w (ab s)).
Proof.
  intros Hw H. rewrite finish_map, to_string_map, map_map by auto. apply map_ext. intros i. unfold idx_arr, ab.
  apply cell_odd. apply (sget_cell w). exact H.
Qed.

(** ** The permutation on the double buffer *)
Definition kwf (k : keccak) : Prop :=
  (k_l k <= 6)%nat /\ k_w k = (2 ^ k_l k)%nat /\ wf (k_w k) (k_buf0 k) /\ wf (k_w k) (k_buf1 k).
Definition kparams (k k' : keccak) : Prop := k_b k' = k_b k /\ k_w k' = k_w k /\ k_l k' = k_l k /\ k_nr k' = k_nr k.
Lemma kparams_refl k : kparams k k. Proof. repeat split. Qed.
Lemma kparams_trans a b c : kparams a b -> kparams b c -> kparams a c.
Proof. intros (?&?&?&?) (?&?&?&?). repeat split; congruence. Qed.
Lemma k_in_put_out k s : k_in (k_put_out k s) = s.
Proof. unfold k_in, k_put_out. destruct (k_flag k); reflexivity. Qed.
Lemma k_out_put_out k s : k_out (k_put_out k s) = k_in k.
Proof. unfold k_in, k_out, k_put_out. destruct (k_flag k); reflexivity. Qed.
Lemma k_put_in_flip k s : k_in (k_flip (k_put_in k s)) = s /\ k_out (k_flip (k_put_in k s)) = k_out k.
Proof. unfold k_in, k_out, k_put_in, k_flip. destruct (k_flag k); split; reflexivity. Qed.
Lemma k_flip_flip k : k_flip (k_flip k) = k.
Proof. destruct k. unfold k_flip. cbn. rewrite negb_involutive. reflexivity. Qed.
Lemma kwf_in k : kwf k -> wf (k_w k) (k_in k) /\ wf (k_w k) (k_out k).
Proof. intros (_ & _ & H0 & H1). unfold k_in, k_out. destruct (k_flag k); auto. Qed.
Lemma kwf_put_out k s : kwf k -> wf (k_w k) s -> kwf (k_put_out k s) /\ kparams k (k_put_out k s).
Proof. intros (H1 & H2 & H3 & H4) Hs. unfold k_put_out. destruct (k_flag k); (split; [repeat split|repeat split]); auto; apply H3 || apply H4 || apply Hs. Qed.
Lemma kwf_put_in k s : kwf k -> wf (k_w k) s -> kwf (k_put_in k s) /\ kparams k (k_put_in k s).
Proof. intros (H1 & H2 & H3 & H4) Hs. unfold k_put_in. destruct (k_flag k); (split; [repeat split|repeat split]); auto; apply H3 || apply H4 || apply Hs. Qed.
Lemma kwf_flip k : kwf k -> kwf (k_flip k) /\ kparams k (k_flip k).
Proof. intros H. split; [exact H|]. repeat split. Qed.
Lemma kw_pos k : kwf k -> (0 < k_w k)%nat.
Proof. intros (_ & -> & _). apply Nat.neq_0_lt_0, Nat.pow_nonzero. lia. Qed.
(** One round, with any round index. *)
Definition RNDm (w l : nat) (ir : Z) (a o : sarr) : sarr := iota w l ir (chi w (pi w (rho w (theta w a) o))).
Lemma rnd_in k ir : kwf k ->
  k_in (k_rnd k ir) = RNDm (k_w k) (k_l k) ir (k_in k) (k_in k) /\ kwf (k_rnd k ir) /\ kparams k (k_rnd k ir).
Proof.
  intros H. unfold k_rnd. pose proof (kw_pos k H) as Hw.
  destruct (kwf_in k H) as [Wi Wo].
  destruct (kwf_put_out k _ H (theta_wf _ _ Wi)) as [K1 P1]. set (k1 := k_put_out k (theta (k_w k) (k_in k))) in *.
  assert (I1 : k_in k1 = theta (k_w k) (k_in k)) by apply k_in_put_out. assert (O1 : k_out k1 = k_in k) by apply k_out_put_out.
  assert (W1 : k_w k1 = k_w k) by apply P1. rewrite I1, O1.
  assert (Wr : wf (k_w k1) (rho (k_w k) (theta (k_w k) (k_in k)) (k_in k))) by (rewrite W1; apply rho_wf; auto using theta_wf).
  destruct (kwf_put_out k1 _ K1 Wr) as [K2 P2]. set (k2 := k_put_out k1 _) in *.
  assert (I2 : k_in k2 = rho (k_w k) (theta (k_w k) (k_in k)) (k_in k)) by apply k_in_put_out.
  assert (W2 : k_w k2 = k_w k) by (rewrite <- W1; apply P2). rewrite I2. rewrite W1 in Wr.
  assert (Wp : wf (k_w k2) (pi (k_w k) (rho (k_w k) (theta (k_w k) (k_in k)) (k_in k)))) by (rewrite W2; apply pi_wf; auto).
  destruct (kwf_put_out k2 _ K2 Wp) as [K3 P3]. set (k3 := k_put_out k2 _) in *.
  assert (I3 : k_in k3 = pi (k_w k) (rho (k_w k) (theta (k_w k) (k_in k)) (k_in k))) by apply k_in_put_out.
  assert (W3 : k_w k3 = k_w k) by (rewrite <- W2; apply P3). rewrite I3. rewrite W2 in Wp.
  assert (Wc : wf (k_w k3) (chi (k_w k) (pi (k_w k) (rho (k_w k) (theta (k_w k) (k_in k)) (k_in k))))) by (rewrite W3; apply chi_wf; auto).
  destruct (kwf_put_out k3 _ K3 Wc) as [K4 P4]. set (k4 := k_put_out k3 _) in *.
  assert (I4 : k_in k4 = chi (k_w k) (pi (k_w k) (rho (k_w k) (theta (k_w k) (k_in k)) (k_in k)))) by apply k_in_put_out.
  assert (W4 : k_w k4 = k_w k) by (rewrite <- W3; apply P4). rewrite I4. rewrite W3 in Wc.
  assert (P : kparams k k4) by (eapply kparams_trans; [exact P1|]; eapply kparams_trans; [exact P2|]; eapply kparams_trans; [exact P3|exact P4]).
  assert (L4 : k_l k4 = k_l k) by apply P. rewrite L4.
  assert (Wt : wf (k_w k4) (iota (k_w k) (k_l k) ir (chi (k_w k) (pi (k_w k) (rho (k_w k) (theta (k_w k) (k_in k)) (k_in k)))))).
  { rewrite W4. apply iota_wf; auto. apply H. }
  destruct (kwf_put_in k4 _ K4 Wt) as [K5 P5]. split; [apply k_put_in_flip|]. split; [apply kwf_flip; exact K5|].
  eapply kparams_trans; [exact P|]. exact P5.
Qed.
Lemma RND_ext l ir A B : aeq (2 ^ l) A B -> aeq (2 ^ l) (RND l ir A) (RND l ir B).
Proof.
  intros H. unfold RND. apply IOTA_ext, CHI_ext, PI_ext, RHO_ext, THETA_ext, H. apply Nat.neq_0_lt_0, Nat.pow_nonzero. lia.
Qed.
Lemma RNDm_ok l ir a o : (l <= 6)%nat -> wf (2 ^ l) a -> wf (2 ^ l) o -> 0 <= ir < 2 ^ 28 ->
  aeq (2 ^ l) (ab (RNDm (2 ^ l) l ir a o)) (RND l ir (ab a)).
Proof.
  intros Hl Wa Wo Hi. assert (Hw : (0 < 2 ^ l)%nat) by (apply Nat.neq_0_lt_0, Nat.pow_nonzero; lia). unfold RNDm, RND.
  pose proof (theta_wf _ _ Wa) as W1. pose proof (rho_wf _ _ _ W1 Wo) as W2. pose proof (pi_wf _ _ W2) as W3. pose proof (chi_wf _ _ W3) as W4.
  eapply aeq_trans; [apply iota_ok; auto|]. apply IOTA_ext.
  eapply aeq_trans; [apply chi_ok|]. apply CHI_ext.
  eapply aeq_trans; [apply pi_ok|]. apply PI_ext.
  eapply aeq_trans; [apply rho_ok; auto|]. apply RHO_ext; auto. apply theta_ok.
Qed.
Lemma rounds_ok irs : forall k A, kwf k -> Forall (fun ir => 0 <= ir < 2 ^ 28) irs -> aeq (k_w k) (ab (k_in k)) A ->
  aeq (k_w k) (ab (k_in (fold_left k_rnd irs k))) (fold_left (fun A ir => RND (k_l k) ir A) irs A) /\
  kwf (fold_left k_rnd irs k) /\ kparams k (fold_left k_rnd irs k).
Proof.
  induction irs as [|ir irs IH]; intros k A H F E; cbn [fold_left]; [split; [exact E|split; [exact H|apply kparams_refl]]|].
  apply Forall_cons_iff in F as [F1 F2]. destruct (rnd_in k ir H) as (R & K & P). destruct (kwf_in k H) as [Wi _].
  assert (H' := H). destruct H' as (Hl & Hw & _ & _). assert (Pw : k_w (k_rnd k ir) = k_w k) by apply P. assert (Pl : k_l (k_rnd k ir) = k_l k) by apply P.
  destruct (IH (k_rnd k ir) (RND (k_l k) ir A) K F2) as (E2 & K2 & P2).
  - rewrite Pw, R, Hw. eapply aeq_trans; [apply RNDm_ok; auto; rewrite <- Hw; exact Wi|]. apply RND_ext. rewrite <- Hw. exact E.
  - rewrite Pw, Pl in E2. split; [exact E2|]. split; [exact K2|]. eapply kparams_trans; [exact P|exact P2].
Qed.
Definition str (k : keccak) : list bool := to_string (k_w k) (ab (k_in k)).
Lemma fold_left_map {A B C} (f : A -> C -> A) (g : B -> C) l : forall a, fold_left f (map g l) a = fold_left (fun a x => f a (g x)) l a.
Proof. induction l as [|x l IH]; intros a; cbn; auto. Qed.
Lemma perm_ok k : kwf k -> (k_nr k <= 12 + 2 * k_l k)%nat ->
  str (permutation_inner k) = KECCAK_p (k_l k) (k_nr k) (str k) /\ kwf (permutation_inner k) /\ kparams k (permutation_inner k).
Proof.
  intros H Hn. pose proof (kw_pos k H) as Hw. assert (H' := H). destruct H' as (Hl & Ew & _ & _).
  unfold permutation_inner.
  set (irs := map (fun i => 12 + 2 * Z.of_nat (k_l k) - Z.of_nat (k_nr k) + Z.of_nat i) (seq 0 (k_nr k))).
  assert (F : Forall (fun ir => 0 <= ir < 2 ^ 28) irs).
  { unfold irs. apply Forall_map, Forall_forall. intros i Hi. apply in_seq in Hi. lia. }
  assert (E : aeq (k_w k) (ab (k_in k)) (to_array (k_w k) (str k))) by (apply aeq_sym; unfold str; apply to_array_string; exact Hw).
  destruct (rounds_ok irs k _ H F E) as (E2 & K2 & P2). split; [|auto].
  unfold str at 1. assert (Pw : k_w (fold_left k_rnd irs k) = k_w k) by apply P2. rewrite Pw.
  rewrite (to_string_ext _ _ _ Hw E2). unfold KECCAK_p. rewrite <- Ew. f_equal. unfold irs. rewrite fold_left_map. reflexivity.
Qed.
Lemma KECCAK_p_length l nr S : length (KECCAK_p l nr S) = (25 * 2 ^ l)%nat.
Proof. unfold KECCAK_p. apply to_string_length. apply Nat.neq_0_lt_0, Nat.pow_nonzero. lia. Qed.

(** ** Bytes *)
Lemma lor_b2z c v : 0 <= v -> Z.lor (Z.b2z c) (2 * v) = Z.b2z c + 2 * v.
Proof. intros H. destruct v as [|v|v]; [destruct c; reflexivity| |lia]. destruct c; reflexivity. Qed.
Lemma bits_val_nonneg l : 0 <= bits_val l.
Proof. induction l as [|c l IH]; cbn [bits_val fold_right]; [lia|]. fold (bits_val l). destruct c; cbn [Z.b2z]; lia. Qed.
Lemma pack_ok l : forall sh, 0 <= sh -> pack_cells (map Z.b2z l) sh = Z.shiftl (bits_val l) sh.
Proof.
  induction l as [|c l IH]; intros sh Hs; cbn [map pack_cells]; [cbn; rewrite Z.shiftl_0_l; reflexivity|].
  rewrite IH by lia. cbn [bits_val fold_right]. fold (bits_val l). rewrite <- lor_b2z by apply bits_val_nonneg.
  rewrite Z.shiftl_lor. f_equal. rewrite Z.mul_comm, <- (Z.shiftl_mul_pow2 _ 1), Z.shiftl_shiftl by lia. f_equal. lia.
Qed.
Lemma cvt_to_slice_ok l : cvt_to_slice (map Z.b2z l) = b2h l.
Proof.
  unfold cvt_to_slice, b2h. rewrite map_length. set (n := length l). pose proof (Nat.div_mod n 8 ltac:(lia)) as D. pose proof (Nat.mod_upper_bound n 8 ltac:(lia)) as M.
  assert (G : forall i, pack_cells (firstn 8 (skipn (8 * i) (map Z.b2z l))) 0 = bits_val (firstn 8 (skipn (8 * i) l))).
  { intros i. rewrite skipn_map, firstn_map, pack_ok by lia. apply Z.shiftl_0_r. }
  rewrite (map_ext _ (fun i => bits_val (firstn 8 (skipn (8 * i) l))) G).
  destruct (Nat.ltb_spec (8 * (n / 8)) n) as [Q|Q].
  - replace ((n + 7) / 8)%nat with (S (n / 8)).
    + rewrite seq_S, map_app. f_equal. cbn [map plus]. f_equal. rewrite skipn_map, pack_ok, Z.shiftl_0_r by lia. f_equal.
      symmetry. apply firstn_all2. rewrite skipn_length. fold n. lia.
    + apply Nat.div_unique with (r := (n + 7 - 8 * S (n / 8))%nat); lia.
  - rewrite app_nil_r. f_equal. f_equal. apply Nat.div_unique with (r := 7%nat); lia.
Qed.
Lemma byte_bits_ok e : byte_bits e = map Z.b2z (map (fun i => Z.testbit e (Z.of_nat i)) (seq 0 8)).
Proof.
  unfold byte_bits. rewrite map_map. apply map_ext. intros i. change 1 with (Z.ones 1). rewrite Z.land_ones by lia.
  rewrite Z.shiftr_div_pow2 by lia. change (2 ^ 1) with 2. symmetry. apply Z.testbit_spec'. lia.
Qed.
Lemma flat_byte_bits m : flat_map byte_bits m = map Z.b2z (h2b m).
Proof. unfold h2b. induction m as [|e m IH]; cbn [flat_map]; [reflexivity|]. rewrite map_app, IH, byte_bits_ok. reflexivity. Qed.
Lemma h2b_length m : length (h2b m) = (8 * length m)%nat.
Proof. unfold h2b. induction m as [|e m IH]; cbn [flat_map]; [reflexivity|]. rewrite app_length, IH, map_length, seq_length. cbn [length]. lia. Qed.
Lemma h2b_app a b : h2b (a ++ b) = h2b a ++ h2b b.
Proof. apply flat_map_app. Qed.
Lemma map_b2z_odd l : map Z.odd (map Z.b2z l) = l.
Proof. rewrite map_map. rewrite <- (map_id l) at 2. apply map_ext. intros []; reflexivity. Qed.

(** ** Absorbing and squeezing *)
Lemma absorb_ok w rate blk s : (0 < w)%nat -> (0 < rate <= 25 * w)%nat -> (rate <= length blk)%nat ->
  to_string w (ab (absorb w rate (map Z.b2z blk) s)) = bxor (to_string w (ab s)) (firstn rate blk ++ repeat false (25 * w - rate)).
Proof.
  intros Hw Hr Hb.
  assert (L1 : length (to_string w (ab s)) = (25 * w)%nat) by (apply to_string_length; auto).
  assert (L2 : length (firstn rate blk ++ repeat false (25 * w - rate)) = (25 * w)%nat) by (rewrite app_length, firstn_length_le, repeat_length by lia; lia).
  apply nth_ext with (d := false) (d' := xorb false false).
  - unfold bxor. rewrite map_length, combine_length, L1, L2, to_string_length by auto. lia.
  - intros i Hi. rewrite to_string_length in Hi by auto. unfold bxor.
    rewrite (map_nth (fun '(x, y) => xorb x y) (combine (to_string w (ab s)) (firstn rate blk ++ repeat false (25 * w - rate))) (false, false) i).
    rewrite combine_nth by lia. rewrite !to_string_map, !nth_map_seq by auto. unfold idx_arr, ab.
    destruct (idx_ranges w i Hw Hi) as (R1 & R2 & R3 & E). unfold absorb. rewrite sget_tab3 by auto. rewrite E.
    destruct (Nat.leb_spec rate i) as [Q|Q]; rewrite odd_lxor; f_equal.
    + rewrite app_nth2 by (rewrite firstn_length_le; lia). rewrite firstn_length_le by lia.
      destruct (nth_in_or_default (i - rate) (repeat false (25 * w - rate)) false) as [I|I]; [apply repeat_spec in I|]; rewrite I; reflexivity.
    + rewrite app_nth1 by (rewrite firstn_length_le; lia). change 0 with (Z.b2z false). rewrite map_nth.
      rewrite <- (firstn_skipn rate blk) at 1. rewrite app_nth1 by (rewrite firstn_length_le; lia). destruct (nth i (firstn rate blk) false); reflexivity.
Qed.
Lemma absorb_wf w rate blk s : wf w s -> Forall cell blk -> wf w (absorb w rate blk s).
Proof.
  intros H F. unfold absorb. apply wf_tab3. intros x y z. cbv zeta. destruct (_ <=? _)%nat; apply cell_lxor; try apply (sget_cell w); auto using cell_0. apply nth_cell; auto.
Qed.
Lemma map_rep {A B} (f : A -> B) x n : map f (repeat x n) = repeat (f x) n.
Proof. induction n as [|n IH]; cbn; congruence. Qed.
Lemma cells_b2z l : Forall cell (map Z.b2z l).
Proof. apply Forall_map, Forall_forall. intros c _. apply cell_b2z. Qed.

Section Sponge.
Variables (k : keccak) (rate : nat).
Hypothesis Hk : kwf k.
Hypothesis Hb : k_b k = (25 * k_w k)%nat.
Hypothesis Hn : (k_nr k <= 12 + 2 * k_l k)%nat.
Hypothesis Hr : (0 < rate <= k_b k)%nat.
Notation f := (KECCAK_p (k_l k) (k_nr k)).

Lemma absorb_loop buf n : forall k0 S, kwf k0 -> kparams k k0 -> str k0 = S -> (n * rate <= length buf)%nat ->
  let k' := fold_left (fun k i => permutation_inner (k_put_out k (absorb (k_w k0) rate (skipn (i * rate) (map Z.b2z buf)) (k_in k)))) (seq 0 n) k0 in
  str k' = fold_left (fun S Pi => f (bxor S (Pi ++ repeat false (k_b k - rate)))) (map (fun i => firstn rate (skipn (i * rate) buf)) (seq 0 n)) S /\ kwf k' /\ kparams k k'.
Proof.
  intros k0 S0 K0 P0 E0. pose proof (kw_pos k Hk) as Hw. induction n as [|n IH]; intros HL; [cbn; auto|]. cbv zeta.
  rewrite seq_S, map_app, !fold_left_app. cbn [fold_left map plus]. destruct IH as (E1 & K1 & P1); [nia|].
  set (k1 := fold_left _ (seq 0 n) k0) in *. rewrite <- E1.
  assert (W1 : k_w k1 = k_w k) by apply P1. assert (W0 : k_w k0 = k_w k) by apply P0. rewrite W0.
  destruct (kwf_put_out k1 (absorb (k_w k) rate (skipn (n * rate) (map Z.b2z buf)) (k_in k1)) K1) as [K2 P2].
  { rewrite W1. apply absorb_wf; [rewrite <- W1; apply kwf_in; exact K1|]. rewrite skipn_map. apply cells_b2z. }
  set (k2 := k_put_out k1 _) in *. assert (P2' : kparams k k2) by (eapply kparams_trans; eauto).
  assert (N2 : k_nr k2 = k_nr k) by apply P2'. assert (L2 : k_l k2 = k_l k) by apply P2'. assert (W2 : k_w k2 = k_w k) by apply P2'.
  destruct (perm_ok k2 K2) as (E3 & K3 & P3); [rewrite N2, L2; exact Hn|]. rewrite N2, L2 in E3.
  split; [|split; [exact K3|eapply kparams_trans; eauto]]. rewrite E3. f_equal. unfold str at 1. rewrite W2.
  unfold k2 at 1. rewrite k_in_put_out. rewrite skipn_map. rewrite absorb_ok; [|exact Hw|lia|rewrite skipn_length; nia].
  rewrite Hb. f_equal. unfold str. rewrite W1. reflexivity.
Qed.
Definition Zs (S : list bool) (i : nat) : list bool := flat_map (fun j => firstn rate (Nat.iter j f S)) (seq 0 i).
Lemma Zs_S S i : Zs S (Datatypes.S i) = Zs S i ++ firstn rate (Nat.iter i f S).
Proof. unfold Zs. rewrite seq_S, flat_map_app. cbn [flat_map plus]. rewrite app_nil_r. reflexivity. Qed.
Lemma kb_eq : k_b k = (25 * 2 ^ k_l k)%nat.
Proof. rewrite Hb. destruct Hk as (_ & -> & _). reflexivity. Qed.
Lemma iter_len S i : length S = k_b k -> length (Nat.iter i f S) = k_b k.
Proof. intros H. destruct i; [exact H|]. cbn [Nat.iter nat_rect]. rewrite KECCAK_p_length, kb_eq. reflexivity. Qed.
Lemma Zs_length S i : length S = k_b k -> length (Zs S i) = (i * rate)%nat.
Proof.
  intros H. induction i as [|i IH]; [reflexivity|]. rewrite Zs_S, app_length, IH, firstn_length_le; [lia|]. rewrite iter_len by auto. lia.
Qed.
Lemma Zs_prefix S i j d : length S = k_b k -> (i <= j)%nat -> (d <= i * rate)%nat -> firstn d (Zs S i) = firstn d (Zs S j).
Proof.
  intros H Hij Hd. induction j as [|j IH]; [assert (i = 0)%nat by lia; subst; reflexivity|].
  destruct (Nat.eq_dec i (Datatypes.S j)) as [->|N]; [reflexivity|]. rewrite IH by lia. rewrite Zs_S, firstn_app, Zs_length by auto.
  replace (d - j * rate)%nat with 0%nat by nia. rewrite firstn_O, app_nil_r. reflexivity.
Qed.
Lemma squeeze_ok S : length S = k_b k -> forall fuel want i k0, kwf k0 -> kparams k k0 -> str k0 = Nat.iter i f S ->
  (i = 0 \/ i * rate < want)%nat -> (want < i + fuel)%nat ->
  let '(k', r) := squeeze fuel rate want (map Z.b2z (Zs S i)) k0 in
  r = map Z.b2z (firstn want (Zs S (want / rate + 1))) /\ kwf k' /\ kparams k k'.
Proof.
  intros HS. pose proof (kw_pos k Hk) as Hw. induction fuel as [|fuel IH]; intros want i k0 K0 P0 E0 Hi Hf; [nia|]. cbn [squeeze].
  assert (W0 : k_w k0 = k_w k) by apply P0.
  assert (F : finish (k_in k0) (k_w k0) = map Z.b2z (Nat.iter i f S)).
  { rewrite finish_cells; [|rewrite W0; exact Hw|apply kwf_in; exact K0]. rewrite <- E0. reflexivity. }
  assert (T : firstn (length (map Z.b2z (Zs S i)) + rate) (map Z.b2z (Zs S i) ++ finish (k_in k0) (k_w k0)) = map Z.b2z (Zs S (Datatypes.S i))).
  { rewrite firstn_app_2, F. rewrite firstn_map, <- map_app, Zs_S. reflexivity. }
  rewrite T, map_length, Zs_length by auto.
  destruct (Nat.leb_spec want (Datatypes.S i * rate)) as [Q|Q].
  - split; [|split; [apply kwf_flip; exact K0|eapply kparams_trans; [exact P0|apply kwf_flip; exact K0]]].
    rewrite firstn_map. f_equal. apply Zs_prefix; auto.
    assert (i <= want / rate)%nat; [|lia]. destruct Hi as [->|Hi]; [apply Nat.le_0_l|]. apply Nat.div_le_lower_bound; nia.
  - rewrite k_flip_flip. destruct (perm_ok k0 K0) as (E1 & K1 & P1); [assert (N : k_nr k0 = k_nr k) by apply P0; assert (L : k_l k0 = k_l k) by apply P0; rewrite N, L; exact Hn|].
    apply IH; auto.
    + eapply kparams_trans; eauto.
    + rewrite E1. assert (N : k_nr k0 = k_nr k) by apply P0; assert (L : k_l k0 = k_l k) by apply P0. rewrite N, L, E0. reflexivity.
    + lia.
Qed.
Lemma pad_len m : exists q, (m + 2 + minus_rem_euclid 0 (m + 2) rate = q * rate)%nat.
Proof.
  assert (0 < rate)%nat by lia. rewrite mre_spec by auto.
  pose proof (Z.mod_pos_bound (Z.of_nat 0 - Z.of_nat (m + 2)) (Z.of_nat rate) ltac:(lia)) as B.
  pose proof (Z.div_mod (Z.of_nat 0 - Z.of_nat (m + 2)) (Z.of_nat rate) ltac:(lia)) as D.
  exists (Z.to_nat (- ((Z.of_nat 0 - Z.of_nat (m + 2)) / Z.of_nat rate))).
  set (r := (Z.of_nat 0 - Z.of_nat (m + 2)) mod Z.of_nat rate) in *. set (q := (Z.of_nat 0 - Z.of_nat (m + 2)) / Z.of_nat rate) in *.
  assert (0 <= - q) by nia. nia.
Qed.
Lemma sponge_ok M want :
  exists sp, sponge_buf (mkSponge rate k (map Z.b2z M)) want = Ok (sp, b2h (SPONGE f (k_b k) rate M want)) /\
    sp_rate sp = rate /\ kwf (sp_k sp) /\ kparams k (sp_k sp).
Proof.
  pose proof (kw_pos k Hk) as Hw. unfold sponge_buf. cbn [sp_rate sp_k sp_buf]. rewrite (proj2 (Nat.eqb_neq rate 0)) by lia. rewrite map_length.
  assert (Pd : map Z.b2z M ++ [1] ++ repeat 0 (minus_rem_euclid 0 (length M + 2) rate) ++ [1] = map Z.b2z (M ++ pad10s1 rate (length M))).
  { rewrite map_app. f_equal. unfold pad10s1. rewrite !map_app. cbn [map app Z.b2z]. f_equal. f_equal. rewrite map_rep. cbn [Z.b2z]. f_equal.
    rewrite mre_spec by lia. f_equal. f_equal. lia. }
  rewrite Pd. set (P := M ++ pad10s1 rate (length M)). rewrite map_length.
  assert (PL : exists q, length P = (q * rate)%nat).
  { destruct (pad_len (length M)) as [q Hq]. exists q. rewrite <- Hq. rewrite mre_spec by lia. unfold P, pad10s1. rewrite !app_length, repeat_length. cbn [length].
    replace (Z.of_nat 0 - Z.of_nat (length M + 2)) with (- Z.of_nat (length M) - 2) by lia. lia. }
  destruct PL as [q PL].
  destruct (kwf_put_out k (zero_arr (k_w k)) Hk) as [K1 P1]; [apply wf_tab3; intros; exact cell_0|].
  set (k1 := k_put_out k (zero_arr (k_w k))) in *.
  assert (S1 : str k1 = repeat false (k_b k)).
  { unfold str. assert (W : k_w k1 = k_w k) by apply P1. rewrite W. unfold k1. rewrite k_in_put_out. rewrite Hb. rewrite to_string_map by auto.
    apply nth_ext with (d := false) (d' := false); [rewrite map_length, seq_length, repeat_length; reflexivity|].
    intros i Hi. rewrite map_length, seq_length in Hi. rewrite nth_map_seq by auto. rewrite nth_repeat. unfold idx_arr, ab.
    destruct (idx_ranges (k_w k) i Hw Hi) as (R1 & R2 & R3 & _). unfold zero_arr. rewrite sget_tab3 by auto. reflexivity. }
  assert (Dn : (length P / rate = q)%nat) by (rewrite PL; apply Nat.div_mul; lia). rewrite Dn.
  pose proof (absorb_loop P q k1 (repeat false (k_b k)) K1 P1 S1 ltac:(lia)) as A. cbv zeta in A.
  assert (W1 : k_w k1 = k_w k) by apply P1. rewrite W1 in A. destruct A as (E2 & K2 & P2).
  set (k2 := fold_left _ (seq 0 q) k1) in *.
  assert (L2 : length (str k2) = k_b k) by (unfold str; rewrite to_string_length; [assert (W : k_w k2 = k_w k) by apply P2; rewrite W, Hb; reflexivity|assert (W : k_w k2 = k_w k) by apply P2; lia]).
  pose proof (squeeze_ok (str k2) L2 (S want) want 0 k2 K2 P2 eq_refl (or_introl eq_refl) ltac:(lia)) as Q. cbn [Zs seq flat_map map] in Q.
  destruct (squeeze (S want) rate want [] k2) as [k3 r]. destruct Q as (-> & K3 & P3).
  exists (mkSponge rate k3 (map Z.b2z P)). split; [|cbn [sp_rate sp_k]; auto]. rewrite cvt_to_slice_ok. f_equal. f_equal. f_equal. unfold SPONGE, blocks. fold P. rewrite Dn, <- E2. reflexivity.
Qed.
End Sponge.
