(** The AES model computes the FIPS 197 cipher and its inverse. *)
From Verif Require Import Base Words ModesModel ModesSpec AesTables AesModel AesSpec.

Definition st16 (s : list Z) : Prop := length s = 16%nat /\ bytes s.
Definition word4 (s : list Z) : Prop := length s = 4%nat /\ bytes s.

(** ** GF(2^8) *)
Lemma xtime_byte b : byte b -> byte (xtime b).
Proof.
  intros H. apply byteb_spec. revert b H. apply forall_byte. vm_compute. reflexivity.
Qed.
Lemma xtime_lin a b : byte a -> byte b -> xtime (Z.lxor a b) = Z.lxor (xtime a) (xtime b).
Proof.
  intros Ha Hb. apply Z.eqb_eq. revert a b Ha Hb.
  apply (forall_byte2 (fun a b => xtime (Z.lxor a b) =? Z.lxor (xtime a) (xtime b))).
  vm_compute. reflexivity.
Qed.
Lemma iter_S {A} n (f : A -> A) x : Nat.iter (S n) f x = f (Nat.iter n f x).
Proof. reflexivity. Qed.
Lemma xtime_iter_byte n b : byte b -> byte (Nat.iter n xtime b).
Proof. intros H. induction n; [exact H|]. rewrite iter_S. auto using xtime_byte. Qed.
Lemma xtime_iter_lin n a b : byte a -> byte b ->
  Nat.iter n xtime (Z.lxor a b) = Z.lxor (Nat.iter n xtime a) (Nat.iter n xtime b).
Proof.
  intros Ha Hb. induction n; [reflexivity|]. rewrite !iter_S, IHn. apply xtime_lin; apply xtime_iter_byte; auto.
Qed.
Lemma byte0 : byte 0. Proof. unfold byte; lia. Qed.

Definition gterm (k : Z) (i : nat) (b : Z) : Z :=
  if Z.testbit k (Z.of_nat i) then Nat.iter i xtime b else 0.
Lemma gmul_terms k b : gmul k b = fold_left Z.lxor (map (fun i => gterm k i b) (seq 0 8)) 0.
Proof. reflexivity. Qed.
Lemma gterm_byte k i b : byte b -> byte (gterm k i b).
Proof. intros. unfold gterm. destruct (Z.testbit _ _); auto using xtime_iter_byte, byte0. Qed.
Lemma gterm_lin k i a b : byte a -> byte b -> gterm k i (Z.lxor a b) = Z.lxor (gterm k i a) (gterm k i b).
Proof. intros. unfold gterm. destruct (Z.testbit _ _); auto using xtime_iter_lin. Qed.
Lemma fold_lxor_byte l : forall x, byte x -> bytes l -> byte (fold_left Z.lxor l x).
Proof.
  induction l as [|y l IH]; intros x Hx Hl; cbn; auto. inversion Hl; subst. apply IH; auto using lxor_byte.
Qed.
Lemma gmul_byte k b : byte b -> byte (gmul k b).
Proof.
  intros H. rewrite gmul_terms. apply fold_lxor_byte; [apply byte0|].
  apply Forall_forall. intros x Hx. apply in_map_iff in Hx. destruct Hx as [i [<- _]].
  apply gterm_byte; auto.
Qed.
Lemma fold_lxor_lin (f : nat -> Z -> Z) a b : forall l x y,
  (forall i, In i l -> f i (Z.lxor a b) = Z.lxor (f i a) (f i b)) ->
  fold_left Z.lxor (map (fun i => f i (Z.lxor a b)) l) (Z.lxor x y) =
  Z.lxor (fold_left Z.lxor (map (fun i => f i a) l) x) (fold_left Z.lxor (map (fun i => f i b) l) y).
Proof.
  induction l as [|i l IH]; intros x y H; cbn [map fold_left]; auto.
  rewrite <- IH by (intros; apply H; right; auto). f_equal. rewrite (H i) by (left; auto). xor_ac.
Qed.
Lemma gmul_lin k a b : byte a -> byte b -> gmul k (Z.lxor a b) = Z.lxor (gmul k a) (gmul k b).
Proof.
  intros Ha Hb. rewrite !gmul_terms. rewrite <- fold_lxor_lin; [reflexivity|].
  intros i _. apply gterm_lin; auto.
Qed.

(** ** Substitution *)
Lemma sbox0_ok b : byte b -> tbl AES_SBOX0 b = sbox b.
Proof.
  intros H. apply Z.eqb_eq. revert b H. apply (forall_byte (fun b => tbl AES_SBOX0 b =? sbox b)).
  vm_compute. reflexivity.
Qed.
Lemma sbox1_ok b : byte b -> tbl AES_SBOX1 b = inv_sbox b.
Proof.
  intros H. apply Z.eqb_eq. revert b H. apply (forall_byte (fun b => tbl AES_SBOX1 b =? inv_sbox b)).
  vm_compute. reflexivity.
Qed.
Lemma sbox_byte b : byte b -> byte (sbox b).
Proof.
  intros H. rewrite <- sbox0_ok by auto. apply byteb_spec. revert b H.
  apply (forall_byte (fun b => byteb (tbl AES_SBOX0 b))). vm_compute. reflexivity.
Qed.
Lemma inv_sbox_byte b : byte b -> byte (inv_sbox b).
Proof.
  intros H. rewrite <- sbox1_ok by auto. apply byteb_spec. revert b H.
  apply (forall_byte (fun b => byteb (tbl AES_SBOX1 b))). vm_compute. reflexivity.
Qed.
Lemma inv_sbox_sbox b : byte b -> inv_sbox (sbox b) = b.
Proof.
  intros H. rewrite <- sbox1_ok by auto using sbox_byte. rewrite <- sbox0_ok by auto.
  apply Z.eqb_eq. revert b H.
  apply (forall_byte (fun b => tbl AES_SBOX1 (tbl AES_SBOX0 b) =? b)). vm_compute. reflexivity.
Qed.
Lemma sbox_inv_sbox b : byte b -> sbox (inv_sbox b) = b.
Proof.
  intros H. rewrite <- sbox0_ok by auto using inv_sbox_byte. rewrite <- sbox1_ok by auto.
  apply Z.eqb_eq. revert b H.
  apply (forall_byte (fun b => tbl AES_SBOX0 (tbl AES_SBOX1 b) =? b)). vm_compute. reflexivity.
Qed.

(** ** The round tables *)
Definition col_e (s : Z) : list Z := [gmul 2 s; gmul 1 s; gmul 1 s; gmul 3 s].
Definition col_d (s : Z) : list Z := [gmul 14 s; gmul 9 s; gmul 13 s; gmul 11 s].
Definition rotr (n : nat) (l : list Z) : list Z := skipn (4 - n) l ++ firstn (4 - n) l.

Ltac table_check :=
  let H := fresh in
  intros H;
  match goal with
  | H : byte ?b |- ?l = ?r =>
      apply Z.eqb_eq; revert b H;
      match goal with |- forall b, byte b -> @?P b = true => apply (forall_byte P) end
  end; vm_compute; reflexivity.

Lemma te_ok b : byte b ->
  tbl AES_TE0 b = be_val (col_e (sbox b)) /\ tbl AES_TE1 b = be_val (rotr 1 (col_e (sbox b))) /\
  tbl AES_TE2 b = be_val (rotr 2 (col_e (sbox b))) /\ tbl AES_TE3 b = be_val (rotr 3 (col_e (sbox b))).
Proof.
  intros H. rewrite <- sbox0_ok by auto.
  repeat split; revert H; table_check.
Qed.
Lemma td_ok b : byte b ->
  tbl AES_TD0 b = be_val (col_d (inv_sbox b)) /\ tbl AES_TD1 b = be_val (rotr 1 (col_d (inv_sbox b))) /\
  tbl AES_TD2 b = be_val (rotr 2 (col_d (inv_sbox b))) /\ tbl AES_TD3 b = be_val (rotr 3 (col_d (inv_sbox b))).
Proof.
  intros H. rewrite <- sbox1_ok by auto.
  repeat split; revert H; table_check.
Qed.

(** ** Destructing states and words *)
Lemma word4_cons a b c d : byte a -> byte b -> byte c -> byte d -> word4 [a; b; c; d].
Proof. intros. split; [reflexivity|]. apply Forall_forall. cbn. intuition (subst; auto). Qed.
Lemma word4_inv s : word4 s -> exists a b c d, s = [a; b; c; d] /\ byte a /\ byte b /\ byte c /\ byte d.
Proof.
  intros [Hl H].
  do 4 (destruct s as [|? s]; [discriminate Hl|]). destruct s; [|discriminate Hl].
  repeat match goal with H : bytes (_ :: _) |- _ => inversion H; subst; clear H
                       | H : Forall byte (_ :: _) |- _ => inversion H; subst; clear H end.
  eauto 12.
Qed.
Lemma st16_inv s : st16 s -> exists a b c d, s = a ++ b ++ c ++ d /\ word4 a /\ word4 b /\ word4 c /\ word4 d.
Proof.
  intros [Hl H].
  exists (firstn 4 s), (firstn 4 (skipn 4 s)), (firstn 4 (skipn 8 s)), (firstn 4 (skipn 12 s)).
  do 16 (destruct s as [|? s]; [discriminate Hl|]). destruct s; [|discriminate Hl].
  split; [reflexivity|]. cbn [firstn skipn].
  repeat match goal with H : bytes (_ :: _) |- _ => inversion H; subst; clear H
                       | H : Forall byte (_ :: _) |- _ => inversion H; subst; clear H end.
  auto 10 using word4_cons.
Qed.
Ltac w4 H := let a := fresh "x" in let b := fresh "x" in let c := fresh "x" in let d := fresh "x" in
  apply word4_inv in H; destruct H as [a [b [c [d [-> [? [? [? ?]]]]]]]].
Ltac s16 H := let a := fresh "wa" in let b := fresh "wb" in let c := fresh "wc" in let d := fresh "wd" in
  let Ha := fresh in let Hb := fresh in let Hc := fresh in let Hd := fresh in
  apply st16_inv in H; destruct H as [a [b [c [d [-> [Ha [Hb [Hc Hd]]]]]]]]; w4 Ha; w4 Hb; w4 Hc; w4 Hd.


Ltac byt := repeat (first [assumption
  | match goal with
    | |- byte (Z.lxor _ _) => apply lxor_byte
    | |- byte (gmul _ _) => apply gmul_byte
    | |- byte (sbox _) => apply sbox_byte
    | |- byte (inv_sbox _) => apply inv_sbox_byte
    end]).

(** ** MixColumns *)
Lemma mix_word k0 k1 k2 k3 w : word4 w -> word4 (mix_column k0 k1 k2 k3 w).
Proof.
  intros H. w4 H. cbn [mix_column].
  apply word4_cons; byt.
Qed.
Lemma mix_lin k0 k1 k2 k3 u v : word4 u -> word4 v ->
  mix_column k0 k1 k2 k3 (xorl u v) = xorl (mix_column k0 k1 k2 k3 u) (mix_column k0 k1 k2 k3 v).
Proof.
  intros Hu Hv. w4 Hu. w4 Hv. cbn [xorl mix_column]. rewrite !gmul_lin by auto.
  repeat apply (f_equal2 (@cons Z)); [xor_ac|xor_ac|xor_ac|xor_ac|reflexivity].
Qed.

(** The product of two circulants, checked on each byte of the column. *)
Definition circ (j0 j1 j2 j3 k0 k1 k2 k3 x : Z) : Z :=
  Z.lxor (Z.lxor (Z.lxor (gmul j0 (gmul k0 x)) (gmul j1 (gmul k3 x))) (gmul j2 (gmul k2 x))) (gmul j3 (gmul k1 x)).

Lemma mix_compose j0 j1 j2 j3 k0 k1 k2 k3 w : word4 w ->
  (forall x, byte x -> circ j0 j1 j2 j3 k0 k1 k2 k3 x = x) ->
  (forall x, byte x -> circ j1 j2 j3 j0 k0 k1 k2 k3 x = 0) ->
  (forall x, byte x -> circ j2 j3 j0 j1 k0 k1 k2 k3 x = 0) ->
  (forall x, byte x -> circ j3 j0 j1 j2 k0 k1 k2 k3 x = 0) ->
  mix_column j0 j1 j2 j3 (mix_column k0 k1 k2 k3 w) = w.
Proof.
  intros Hw H0 H1 H2 H3. w4 Hw. cbn [mix_column].
  rewrite !gmul_lin by byt.
  assert (Y : forall a b c d, byte a -> byte b -> byte c -> byte d ->
    a = Z.lxor (Z.lxor (Z.lxor (circ j0 j1 j2 j3 k0 k1 k2 k3 a) (circ j1 j2 j3 j0 k0 k1 k2 k3 b))
          (circ j2 j3 j0 j1 k0 k1 k2 k3 c)) (circ j3 j0 j1 j2 k0 k1 k2 k3 d)).
  { intros. rewrite H0, H1, H2, H3 by auto. rewrite !Z.lxor_0_r. reflexivity. }
  repeat apply (f_equal2 (@cons Z)); [| | | |reflexivity].
  - etransitivity; [|symmetry; apply (Y x x0 x1 x2); auto]. unfold circ. xor_ac.
  - etransitivity; [|symmetry; apply (Y x0 x1 x2 x); auto]. unfold circ. xor_ac.
  - etransitivity; [|symmetry; apply (Y x1 x2 x x0); auto]. unfold circ. xor_ac.
  - etransitivity; [|symmetry; apply (Y x2 x x0 x1); auto]. unfold circ. xor_ac.
Qed.

Ltac bc := let x := fresh "x" in let H := fresh in intros x H; apply Z.eqb_eq; revert x H;
  match goal with |- forall b, byte b -> @?P b = true => apply (forall_byte P) end; vm_compute; reflexivity.

Lemma inv_mix_mix w : word4 w -> mix_column 14 11 13 9 (mix_column 2 3 1 1 w) = w.
Proof. intros H. apply mix_compose; auto; bc. Qed.
Lemma mix_inv_mix w : word4 w -> mix_column 2 3 1 1 (mix_column 14 11 13 9 w) = w.
Proof. intros H. apply mix_compose; auto; bc. Qed.

Lemma st16_app a b c d : word4 a -> word4 b -> word4 c -> word4 d -> st16 (a ++ b ++ c ++ d).
Proof.
  intros [? ?] [? ?] [? ?] [? ?]. split; [rewrite !app_length; lia|]. rewrite !bytes_app. auto.
Qed.
Lemma columns_app a b c d : word4 a -> word4 b -> word4 c -> word4 d ->
  columns (a ++ b ++ c ++ d) = [a; b; c; d].
Proof. intros Ha Hb Hc Hd. w4 Ha. w4 Hb. w4 Hc. w4 Hd. reflexivity. Qed.
Lemma mixcols_app k0 k1 k2 k3 a b c d : word4 a -> word4 b -> word4 c -> word4 d ->
  concat (map (mix_column k0 k1 k2 k3) (columns (a ++ b ++ c ++ d))) =
  mix_column k0 k1 k2 k3 a ++ mix_column k0 k1 k2 k3 b ++ mix_column k0 k1 k2 k3 c ++ mix_column k0 k1 k2 k3 d.
Proof. intros. rewrite columns_app by auto. cbn [map concat]. rewrite app_nil_r. reflexivity. Qed.

Ltac s16w H := let a := fresh "wa" in let b := fresh "wb" in let c := fresh "wc" in let d := fresh "wd" in
  apply st16_inv in H; destruct H as [a [b [c [d [-> [? [? [? ?]]]]]]]].

Lemma MC_st s : st16 s -> st16 (MixColumns s).
Proof. intros H. s16w H. unfold MixColumns. rewrite mixcols_app by auto. apply st16_app; apply mix_word; auto. Qed.
Lemma IMC_st s : st16 s -> st16 (InvMixColumns s).
Proof. intros H. s16w H. unfold InvMixColumns. rewrite mixcols_app by auto. apply st16_app; apply mix_word; auto. Qed.
Lemma IMC_MC s : st16 s -> InvMixColumns (MixColumns s) = s.
Proof.
  intros H. s16w H. unfold MixColumns, InvMixColumns. rewrite !mixcols_app by (auto; apply mix_word; auto).
  rewrite !inv_mix_mix by auto. reflexivity.
Qed.
Lemma MC_IMC s : st16 s -> MixColumns (InvMixColumns s) = s.
Proof.
  intros H. s16w H. unfold MixColumns, InvMixColumns. rewrite !mixcols_app by (auto; apply mix_word; auto).
  rewrite !mix_inv_mix by auto. reflexivity.
Qed.
Lemma xor_word u v : word4 u -> word4 v -> word4 (xorl u v).
Proof. intros [? ?] [? ?]. split; [rewrite xorl_length; lia|]. apply xorl_bytes; auto. Qed.
Lemma xor_st u v : st16 u -> st16 v -> st16 (xorl u v).
Proof. intros [? ?] [? ?]. split; [rewrite xorl_length; lia|]. apply xorl_bytes; auto. Qed.
Lemma IMC_lin u v : st16 u -> st16 v ->
  InvMixColumns (xorl u v) = xorl (InvMixColumns u) (InvMixColumns v).
Proof.
  intros Hu Hv. s16w Hu. s16w Hv. unfold InvMixColumns.
  assert (L : forall x, word4 x -> length x = 4%nat) by (intros ? []; auto).
  rewrite !xorl_app by (rewrite !L; auto).
  rewrite !mixcols_app by auto using xor_word. rewrite !mix_lin by auto.
  rewrite !xorl_app; auto; rewrite !L; auto using mix_word.
Qed.

(** ** SubBytes, ShiftRows *)
Lemma map_st (f : Z -> Z) s : (forall b, byte b -> byte (f b)) -> st16 s -> st16 (map f s).
Proof.
  intros Hf [Hl H]. split; [rewrite map_length; auto|]. clear Hl.
  induction H; cbn; constructor; auto.
Qed.
Lemma SB_st s : st16 s -> st16 (SubBytes s).
Proof. apply map_st, sbox_byte. Qed.
Lemma ISB_st s : st16 s -> st16 (InvSubBytes s).
Proof. apply map_st, inv_sbox_byte. Qed.
Lemma map_cancel (f g : Z -> Z) s : (forall b, byte b -> f (g b) = b) -> bytes s -> map f (map g s) = s.
Proof. intros Hf H. induction H; cbn; auto. rewrite Hf, IHForall; auto. Qed.
Lemma ISB_SB s : st16 s -> InvSubBytes (SubBytes s) = s.
Proof. intros [_ H]. apply map_cancel; auto using inv_sbox_sbox. Qed.
Lemma SB_ISB s : st16 s -> SubBytes (InvSubBytes s) = s.
Proof. intros [_ H]. apply map_cancel; auto using sbox_inv_sbox. Qed.
Lemma SR_st s : st16 s -> st16 (ShiftRows s).
Proof.
  intros H. s16 H. cbn [app]. unfold ShiftRows, permute. cbn [seq map].
  split; [reflexivity|]. unfold bytes. cbn [nth Nat.modulo Nat.divmod Nat.div Nat.add Nat.mul Nat.sub fst snd]. auto 20.
Qed.
Lemma ISR_st s : st16 s -> st16 (InvShiftRows s).
Proof.
  intros H. s16 H. cbn [app]. unfold InvShiftRows, permute. cbn [seq map].
  split; [reflexivity|]. unfold bytes. cbn [nth Nat.modulo Nat.divmod Nat.div Nat.add Nat.mul Nat.sub fst snd]. auto 20.
Qed.
Lemma ISR_SR s : st16 s -> InvShiftRows (ShiftRows s) = s.
Proof. intros H. s16 H. reflexivity. Qed.
Lemma SR_ISR s : st16 s -> ShiftRows (InvShiftRows s) = s.
Proof. intros H. s16 H. reflexivity. Qed.

(** ** The cipher and its inverse *)
Lemma enc_rounds_cons st k k' ks :
  enc_rounds st (k :: k' :: ks) = enc_rounds (AddRoundKey (MixColumns (ShiftRows (SubBytes st))) k) (k' :: ks).
Proof. reflexivity. Qed.
Lemma dec_rounds_cons st k k' ks :
  dec_rounds st (k :: k' :: ks) = dec_rounds (InvMixColumns (AddRoundKey (InvSubBytes (InvShiftRows st)) k)) (k' :: ks).
Proof. reflexivity. Qed.
Lemma enc_rounds_cons_app st k ks kl :
  enc_rounds st (k :: ks ++ [kl]) = enc_rounds (AddRoundKey (MixColumns (ShiftRows (SubBytes st))) k) (ks ++ [kl]).
Proof. destruct ks; reflexivity. Qed.
Lemma dec_rounds_cons_app st k ks kl :
  dec_rounds st (k :: ks ++ [kl]) = dec_rounds (InvMixColumns (AddRoundKey (InvSubBytes (InvShiftRows st)) k)) (ks ++ [kl]).
Proof. destruct ks; reflexivity. Qed.

Lemma enc_rounds_st ks : forall st, Forall st16 ks -> st16 st -> st16 (enc_rounds st ks).
Proof.
  induction ks as [|k ks IH]; intros st Hk Hs; [exact Hs|]. inversion Hk; subst.
  destruct ks as [|k' ks].
  - cbn [enc_rounds dec_rounds]. apply xor_st; auto using SR_st, SB_st.
  - rewrite enc_rounds_cons. apply IH; auto. apply xor_st; auto using MC_st, SR_st, SB_st.
Qed.
Lemma dec_rounds_st ks : forall st, Forall st16 ks -> st16 st -> st16 (dec_rounds st ks).
Proof.
  induction ks as [|k ks IH]; intros st Hk Hs; [exact Hs|]. inversion Hk; subst.
  destruct ks as [|k' ks].
  - cbn [enc_rounds dec_rounds]. apply xor_st; auto using ISR_st, ISB_st.
  - rewrite dec_rounds_cons. apply IH; auto. apply IMC_st, xor_st; auto using ISR_st, ISB_st.
Qed.

Lemma xor_xor s k : st16 s -> st16 k -> xorl (xorl s k) k = s.
Proof. intros [? ?] [? ?]. apply xorl_cancel. lia. Qed.

Lemma dec_enc_rounds kl : st16 kl -> forall ks st t tail, Forall st16 ks -> st16 st ->
  dec_rounds (xorl (enc_rounds st (ks ++ [kl])) kl) (rev ks ++ t :: tail) =
  dec_rounds (ShiftRows (SubBytes st)) (t :: tail).
Proof.
  intros Hkl. induction ks as [|k ks IH]; intros st t tail Hks Hst.
  - cbn [app rev enc_rounds]. unfold AddRoundKey. rewrite xor_xor; auto using SR_st, SB_st.
  - inversion Hks; subst. cbn [rev]. rewrite <- app_assoc. cbn [app].
    rewrite enc_rounds_cons_app.
    assert (st16 (AddRoundKey (MixColumns (ShiftRows (SubBytes st))) k))
      by (apply xor_st; auto using MC_st, SR_st, SB_st).
    rewrite IH by auto. rewrite dec_rounds_cons. f_equal.
    rewrite ISR_SR, ISB_SB by auto using SB_st. unfold AddRoundKey.
    rewrite xor_xor by auto using MC_st, SR_st, SB_st. apply IMC_MC; auto using SR_st, SB_st.
Qed.

Lemma enc_dec_rounds kl : st16 kl -> forall ks st t tail, Forall st16 ks -> st16 st ->
  enc_rounds (xorl (dec_rounds st (ks ++ [kl])) kl) (rev ks ++ t :: tail) =
  enc_rounds (InvSubBytes (InvShiftRows st)) (t :: tail).
Proof.
  intros Hkl. induction ks as [|k ks IH]; intros st t tail Hks Hst.
  - cbn [app rev dec_rounds]. unfold AddRoundKey. rewrite xor_xor; auto using ISR_st, ISB_st.
  - inversion Hks; subst. cbn [rev]. rewrite <- app_assoc. cbn [app].
    rewrite dec_rounds_cons_app.
    assert (st16 (InvMixColumns (AddRoundKey (InvSubBytes (InvShiftRows st)) k)))
      by (apply IMC_st, xor_st; auto using ISR_st, ISB_st).
    rewrite IH by auto. rewrite enc_rounds_cons. f_equal.
    rewrite SB_ISB, SR_ISR by auto using ISR_st. unfold AddRoundKey.
    rewrite MC_IMC by (apply xor_st; auto using ISR_st, ISB_st).
    apply xor_xor; auto using ISR_st, ISB_st.
Qed.

Lemma aes_inv_gen k0 ks kl m : st16 k0 -> Forall st16 ks -> st16 kl -> st16 m ->
  dec_rounds (xorl (enc_rounds (xorl m k0) (ks ++ [kl])) kl) (rev ks ++ [k0]) = m.
Proof.
  intros. rewrite dec_enc_rounds by auto using xor_st. cbn [dec_rounds].
  rewrite ISR_SR, ISB_SB by auto using SB_st, xor_st. apply xor_xor; auto.
Qed.
Lemma aes_inv_gen' k0 ks kl m : st16 k0 -> Forall st16 ks -> st16 kl -> st16 m ->
  enc_rounds (xorl (dec_rounds (xorl m kl) (ks ++ [k0])) k0) (rev ks ++ [kl]) = m.
Proof.
  intros. rewrite enc_dec_rounds by auto using xor_st. cbn [enc_rounds].
  rewrite SB_ISB, SR_ISR by auto using ISR_st, xor_st. apply xor_xor; auto.
Qed.
