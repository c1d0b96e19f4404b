(** Property C72: weak and semi-weak DES keys, and TDES keys that are no better than one DES key.  The library refuses none of them. *)
From Verif Require Import Base ModesModel ModesSpec DesModel DesSpec DesProofs DesLink BlockApi PropDes.

(** ** Specification: the weak keys and the pairs of semi-weak keys of FIPS 74 / SP 800-67 section 3.3.2, and equality of two
    keys in the 56 bits that are used. *)
Definition weak_keys : list Z := [0x0101010101010101; 0xFEFEFEFEFEFEFEFE; 0xE0E0E0E0F1F1F1F1; 0x1F1F1F1F0E0E0E0E].
Definition semi_weak_keys : list (Z * Z) := [
  (0x01FE01FE01FE01FE, 0xFE01FE01FE01FE01); (0x1FE01FE00EF10EF1, 0xE01FE01FF10EF10E); (0x01E001E001F101F1, 0xE001E001F101F101);
  (0x1FFE1FFE0EFE0EFE, 0xFE1FFE1FFE0EFE0E); (0x011F011F010E010E, 0x1F011F010E010E01); (0xE0FEE0FEF1FEF1FE, 0xFEE0FEE0FEF1FEF1)].
Definition same_key (k k' : list Z) : Prop := map (fun b => b / 2) k = map (fun b => b / 2) k'.

Lemma lists_eqb (a b : list (list bool)) : (if list_eq_dec (list_eq_dec Bool.bool_dec) a b then true else false) = true -> a = b.
Proof. destruct (list_eq_dec _ a b); [auto|discriminate]. Qed.
Lemma weak_schedule w : In w weak_keys -> rev (round_keys (to_bits (be_bytes 8 w))) = round_keys (to_bits (be_bytes 8 w)).
Proof. intros H. apply lists_eqb. revert w H. apply forallb_forall. vm_compute. reflexivity. Qed.
Lemma semi_schedule p : In p semi_weak_keys -> rev (round_keys (to_bits (be_bytes 8 (fst p)))) = round_keys (to_bits (be_bytes 8 (snd p))).
Proof. intros H. apply lists_eqb. revert p H. apply forallb_forall. vm_compute. reflexivity. Qed.

(** Halves equal in the middle of a palindromic schedule. *)
Definition middle (a : list (list bool)) (w : list Z) : list Z :=
  let t := fold_left rnd (rev a) (to_bits w, to_bits w) in of_bits (perm IPinv (snd t ++ fst t)).
Lemma middle_block a w : length w = 4%nat ->
  bytes (middle a w) /\ length (middle a w) = 8%nat /\ fold_left rnd a (firstn 32 (perm IP (to_bits (middle a w))), skipn 32 (perm IP (to_bits (middle a w)))) = (to_bits w, to_bits w) /\
  perm IP (to_bits (middle a w)) = snd (fold_left rnd (rev a) (to_bits w, to_bits w)) ++ fst (fold_left rnd (rev a) (to_bits w, to_bits w)).
Proof.
  intros L. assert (Lb : length (to_bits w) = 32%nat) by (rewrite to_bits_length; lia).
  pose proof (rnd_undo (rev a) (to_bits w) (to_bits w) Lb Lb) as U. cbv zeta in U. rewrite rev_involutive in U.
  destruct (rnd_lengths (rev a) (to_bits w, to_bits w) Lb Lb) as [L1 L2]. unfold middle. cbv zeta. revert U L1 L2.
  generalize (fold_left rnd (rev a) (to_bits w, to_bits w)). intros [l r]. cbn [fst snd]. intros U L1 L2.
  assert (LL : length (r ++ l) = 64%nat) by (rewrite app_length; lia).
  destruct (to_of_bits 8 (perm IPinv (r ++ l))) as (C & B & A); [rewrite perm_length; reflexivity|]. rewrite C, IP_IPinv by exact LL.
  rewrite firstn_app, skipn_app, L2, Nat.sub_diag, firstn_O, app_nil_r, firstn_all2, skipn_all2 by lia. cbn [skipn app]. auto.
Qed.
Lemma palindrome_fixed a key : round_keys (to_bits key) = a ++ rev a ->
  (forall w, length w = 4%nat -> DES_enc key (middle a w) = middle a w) /\
  (forall w w', bytes w -> bytes w' -> length w = 4%nat -> length w' = 4%nat -> middle a w = middle a w' -> w = w') /\
  (forall b, bytes b -> length b = 8%nat -> DES_enc key b = b -> exists w, bytes w /\ length w = 4%nat /\ b = middle a w).
Proof.
  intros K. split; [|split].
  - intros w L. destruct (middle_block a w L) as (_ & _ & H & _). unfold DES_enc, feistel16. cbv zeta. rewrite K, fold_left_app, H. reflexivity.
  - intros w w' B B' L L' H. destruct (middle_block a w L) as (_ & _ & H1 & _). destruct (middle_block a w' L') as (_ & _ & H2 & _).
    rewrite H, H2 in H1. injection H1 as H1. rewrite <- (of_to_bits w), <- (of_to_bits w') by assumption. congruence.
  - intros b B L H. assert (Lx : length (perm IP (to_bits b)) = 64%nat) by (rewrite perm_length; reflexivity).
    assert (HX : perm IP (to_bits (DES_enc key b)) = perm IP (to_bits b)) by (rewrite H; reflexivity).
    assert (RE : of_bits (perm IPinv (perm IP (to_bits b))) = b) by (rewrite IPinv_IP by (rewrite to_bits_length; lia); apply of_to_bits; exact B).
    unfold DES_enc in HX. destruct (feistel_block (round_keys (to_bits key)) b B L) as (_ & _ & FB). rewrite FB in HX. clear FB.
    unfold feistel16 in HX. cbv zeta in HX. rewrite K, fold_left_app in HX. revert Lx HX RE. generalize (perm IP (to_bits b)). intros x Lx HX RE.
    assert (H1 : length (firstn 32 x) = 32%nat) by (rewrite firstn_length; lia). assert (H2 : length (skipn 32 x) = 32%nat) by (rewrite skipn_length; lia).
    pose proof (rnd_undo a _ _ H1 H2) as U. cbv zeta in U. destruct (rnd_lengths a (firstn 32 x, skipn 32 x) H1 H2) as [M1 M2].
    revert U HX M1 M2. generalize (fold_left rnd a (firstn 32 x, skipn 32 x)). intros [l r]. cbn [fst snd]. intros U HX M1 M2.
    destruct (rnd_lengths (rev a) (l, r) M1 M2) as [N1 N2]. pose proof (rnd_undo (rev a) l r M1 M2) as V. pose proof (rnd_undo (rev a) r l M2 M1) as W. cbv zeta in V, W.
    rewrite IP_IPinv in HX by (rewrite app_length; lia). rewrite U in W. cbn [fst snd] in W. rewrite rev_involutive in V, W.
    assert (EL : snd (fold_left rnd (rev a) (l, r)) = firstn 32 x) by (rewrite <- HX, firstn_app, N2, Nat.sub_diag, firstn_O, app_nil_r, firstn_all2 by lia; reflexivity).
    assert (ER : fst (fold_left rnd (rev a) (l, r)) = skipn 32 x) by (rewrite <- HX, skipn_app, N2, Nat.sub_diag, skipn_all2 by lia; reflexivity).
    rewrite EL, ER, W in V. injection V as V1 V2. subst r.
    destruct (to_of_bits 4 l) as (A3 & A2 & A1); [exact M1|]. exists (of_bits l). split; [exact A2|]. split; [exact A1|].
    unfold middle. cbv zeta. rewrite A3, EL, ER, firstn_skipn. symmetry. exact RE.
Qed.
Lemma weak_half w : In w weak_keys -> round_keys (to_bits (be_bytes 8 w)) = firstn 8 (round_keys (to_bits (be_bytes 8 w))) ++ rev (firstn 8 (round_keys (to_bits (be_bytes 8 w)))).
Proof. intros H. apply lists_eqb. revert w H. apply forallb_forall. vm_compute. reflexivity. Qed.

(** ** C72 *)
Theorem C72_weak : forall key w b, bytes key -> length key = 8%nat -> bytes b -> length b = 8%nat -> In w weak_keys -> same_key key (be_bytes 8 w) ->
  exists x, enc (des_new key) b = Ok x /\ enc (des_new key) x = Ok b /\ dec (des_new key) b = Ok x.
Proof.
  intros key w b Bk Lk Bb Lb W S.
  assert (SE : forall y, bytes y -> length y = 8%nat -> enc (des_new key) y = dec (des_new key) y).
  { intros y By Ly. destruct (C05_parity_ignored key (be_bytes 8 w) Lk (be_bytes_length 8 w) Bk (be_bytes_bytes 8 w) S y By) as [-> ->].
    destruct (C05_des_is_fips46 (be_bytes 8 w) y (be_bytes_bytes 8 w) (be_bytes_length 8 w) By Ly) as [-> ->].
    unfold DES_enc, DES_dec. rewrite (weak_schedule w W). reflexivity. }
  destruct (C04_des_roundtrip key b Bk Lk Bb Lb) as (x & y & H1 & H2 & H3 & H4). pose proof (SE b Bb Lb) as X. rewrite H1, H3 in X. injection X as ->.
  exists y. auto.
Qed.
Print Assumptions C72_weak.
Theorem C72_semi_weak : forall k1 k2 p b, bytes k1 -> length k1 = 8%nat -> bytes k2 -> length k2 = 8%nat -> bytes b -> length b = 8%nat -> In p semi_weak_keys ->
  same_key k1 (be_bytes 8 (fst p)) -> same_key k2 (be_bytes 8 (snd p)) ->
  exists x y, enc (des_new k1) b = Ok x /\ enc (des_new k2) x = Ok b /\ enc (des_new k2) b = Ok y /\ enc (des_new k1) y = Ok b.
Proof.
  intros k1 k2 p b B1 L1 B2 L2 Bb Lb P S1 S2.
  assert (EQ : forall y, bytes y -> length y = 8%nat -> enc (des_new k2) y = dec (des_new k1) y).
  { intros y By Ly. destruct (C05_parity_ignored k1 (be_bytes 8 (fst p)) L1 (be_bytes_length 8 _) B1 (be_bytes_bytes 8 _) S1 y By) as [_ ->].
    destruct (C05_parity_ignored k2 (be_bytes 8 (snd p)) L2 (be_bytes_length 8 _) B2 (be_bytes_bytes 8 _) S2 y By) as [-> _].
    destruct (C05_des_is_fips46 (be_bytes 8 (fst p)) y (be_bytes_bytes 8 _) (be_bytes_length 8 _) By Ly) as [_ ->].
    destruct (C05_des_is_fips46 (be_bytes 8 (snd p)) y (be_bytes_bytes 8 _) (be_bytes_length 8 _) By Ly) as [-> _].
    unfold DES_enc, DES_dec. rewrite <- (semi_schedule p P). reflexivity. }
  destruct (C04_des_roundtrip k1 b B1 L1 Bb Lb) as (x & y & H1 & H2 & H3 & H4). exists x, y.
  assert (X : bytes x /\ length x = 8%nat).
  { pose proof (des_good k1 B1 L1) as G. rewrite (gc_enc _ _ _ _ G b Lb) in H1. injection H1 as <-. destruct (gc_E _ _ _ _ G b Lb Bb); auto. }
  split; [exact H1|]. split; [rewrite EQ by apply X; exact H2|]. split; [rewrite EQ by auto; exact H3|exact H4].
Qed.
Print Assumptions C72_semi_weak.
(** A weak key leaves as many blocks unchanged as there are 4-byte strings: 2^32 of them, where a random permutation has one on average. *)
Theorem C72_weak_fixed_points : forall key w, bytes key -> length key = 8%nat -> In w weak_keys -> same_key key (be_bytes 8 w) ->
  exists f : list Z -> list Z,
    (forall v, bytes v -> length v = 4%nat -> bytes (f v) /\ length (f v) = 8%nat /\ enc (des_new key) (f v) = Ok (f v)) /\
    (forall v v', bytes v -> bytes v' -> length v = 4%nat -> length v' = 4%nat -> f v = f v' -> v = v') /\
    (forall b, bytes b -> length b = 8%nat -> enc (des_new key) b = Ok b -> exists v, bytes v /\ length v = 4%nat /\ b = f v).
Proof.
  intros key w Bk Lk W S. exists (middle (firstn 8 (round_keys (to_bits (be_bytes 8 w))))). destruct (palindrome_fixed _ _ (weak_half w W)) as (H1 & H2 & H3).
  assert (EQ : forall b, bytes b -> length b = 8%nat -> enc (des_new key) b = Ok (DES_enc (be_bytes 8 w) b)).
  { intros b Bb Lb. destruct (C05_parity_ignored key (be_bytes 8 w) Lk (be_bytes_length 8 w) Bk (be_bytes_bytes 8 w) S b Bb) as [-> _].
    apply (C05_des_is_fips46 (be_bytes 8 w) b (be_bytes_bytes 8 w) (be_bytes_length 8 w) Bb Lb). }
  split; [|split; [exact H2|]].
  - intros v Bv Lv. destruct (middle_block (firstn 8 (round_keys (to_bits (be_bytes 8 w)))) v Lv) as (M1 & M2 & _).
    split; [exact M1|]. split; [exact M2|]. rewrite EQ by assumption. rewrite H1 by exact Lv. reflexivity.
  - intros b Bb Lb Hb. rewrite EQ in Hb by assumption. injection Hb as Hb. apply H3; assumption.
Qed.
Print Assumptions C72_weak_fixed_points.
(** Two equal neighbours cancel: the three-key cipher is single DES under the remaining key. *)
Theorem C72_tdes_degenerate : forall k1 k2 k3 b, bytes k1 -> bytes k2 -> bytes k3 -> length k1 = 8%nat -> length k2 = 8%nat -> length k3 = 8%nat ->
  bytes b -> length b = 8%nat ->
  (same_key k1 k2 -> enc (tdes_new k1 k2 k3) b = enc (des_new k3) b /\ dec (tdes_new k1 k2 k3) b = dec (des_new k3) b) /\
  (same_key k2 k3 -> enc (tdes_new k1 k2 k3) b = enc (des_new k1) b /\ dec (tdes_new k1 k2 k3) b = dec (des_new k1) b).
Proof.
  intros k1 k2 k3 b B1 B2 B3 L1 L2 L3 Bb Lb.
  destruct (C05_tdes_is_sp800_67 k1 k2 k3 b B1 B2 B3 L1 L2 L3 Bb Lb) as [-> ->].
  destruct (C05_des_is_fips46 k1 b B1 L1 Bb Lb) as [-> ->]. destruct (C05_des_is_fips46 k3 b B3 L3 Bb Lb) as [-> ->].
  assert (SK : forall k k' y, bytes k -> length k = 8%nat -> bytes k' -> length k' = 8%nat -> same_key k k' -> bytes y -> length y = 8%nat ->
    DES_enc k y = DES_enc k' y /\ DES_dec k y = DES_dec k' y).
  { intros k k' y Bk Lk Bk' Lk' S By Ly. destruct (C05_parity_ignored k k' Lk Lk' Bk Bk' S y By) as [X Y].
    destruct (C05_des_is_fips46 k y Bk Lk By Ly) as [X1 Y1]. destruct (C05_des_is_fips46 k' y Bk' Lk' By Ly) as [X2 Y2]. split; congruence. }
  pose proof (fun k => DES_spec_valid k b Bb Lb) as VB. unfold TDES_enc, TDES_dec. split; intros S.
  - destruct (VB k1) as [[V1 V2] _]. destruct (VB k3) as [_ [V3 V4]]. split.
    + rewrite <- (proj2 (SK k1 k2 (DES_enc k1 b) B1 L1 B2 L2 S V2 V1)). rewrite (proj1 (DES_dec_enc k1 b Bb Lb)). reflexivity.
    + rewrite <- (proj1 (SK k1 k2 (DES_dec k3 b) B1 L1 B2 L2 S V4 V3)). rewrite (proj1 (DES_dec_enc k1 _ V4 V3)). reflexivity.
  - destruct (VB k1) as [[V1 V2] _]. destruct (VB k3) as [_ [V3 V4]]. split.
    + rewrite (proj2 (SK k2 k3 (DES_enc k1 b) B2 L2 B3 L3 S V2 V1)). rewrite (proj2 (DES_dec_enc k3 _ V2 V1)). reflexivity.
    + rewrite (proj1 (SK k2 k3 (DES_dec k3 b) B2 L2 B3 L3 S V4 V3)). rewrite (proj2 (DES_dec_enc k3 b Bb Lb)). reflexivity.
Qed.
Print Assumptions C72_tdes_degenerate.
(** The complementation property carries over to TDES. *)
Theorem C72_tdes_complementation : forall k1 k2 k3 b, bytes k1 -> bytes k2 -> bytes k3 -> length k1 = 8%nat -> length k2 = 8%nat -> length k3 = 8%nat ->
  bytes b -> length b = 8%nat ->
  exists x, enc (tdes_new k1 k2 k3) b = Ok x /\
    enc (tdes_new (map (fun v => 255 - v) k1) (map (fun v => 255 - v) k2) (map (fun v => 255 - v) k3)) (map (fun v => 255 - v) b) = Ok (map (fun v => 255 - v) x).
Proof.
  intros k1 k2 k3 b B1 B2 B3 L1 L2 L3 Bb Lb. set (neg := map (fun v => 255 - v)).
  assert (NB : forall l, bytes l -> bytes (neg l)) by (intros l Bl; unfold neg, bytes; apply Forall_map; revert Bl; apply Forall_impl; unfold byte; intros; lia).
  assert (NL : forall l, length l = 8%nat -> length (neg l) = 8%nat) by (intros l Ll; unfold neg; rewrite map_length; exact Ll).
  assert (CE : forall k y, bytes k -> length k = 8%nat -> bytes y -> length y = 8%nat -> DES_enc (neg k) (neg y) = neg (DES_enc k y)).
  { intros k y Bk Lk By Ly. destruct (C55_des_complementation k y Bk Lk By Ly) as (x & X1 & X2). fold neg in X2.
    rewrite (proj1 (C05_des_is_fips46 k y Bk Lk By Ly)) in X1. rewrite (proj1 (C05_des_is_fips46 (neg k) (neg y) (NB k Bk) (NL k Lk) (NB y By) (NL y Ly))) in X2. congruence. }
  assert (CD : forall k y, bytes k -> length k = 8%nat -> bytes y -> length y = 8%nat -> DES_dec (neg k) (neg y) = neg (DES_dec k y)).
  { intros k y Bk Lk By Ly. destruct (DES_spec_valid k y By Ly) as [_ [V1 V2]]. pose proof (CE k (DES_dec k y) Bk Lk V2 V1) as X.
    rewrite (proj2 (DES_dec_enc k y By Ly)) in X. rewrite <- X. exact (proj1 (DES_dec_enc (neg k) _ (NB _ V2) (NL _ V1))). }
  clearbody neg.
  pose proof (proj1 (C05_tdes_is_sp800_67 k1 k2 k3 b B1 B2 B3 L1 L2 L3 Bb Lb)) as T1.
  pose proof (proj1 (C05_tdes_is_sp800_67 (neg k1) (neg k2) (neg k3) (neg b) (NB _ B1) (NB _ B2) (NB _ B3) (NL _ L1) (NL _ L2) (NL _ L3) (NB _ Bb) (NL _ Lb))) as T2.
  exists (TDES_enc k1 k2 k3 b). split; [exact T1|]. refine (eq_trans T2 _). clear T1 T2.
  apply (f_equal (@Ok (list Z))). unfold TDES_enc. destruct (DES_spec_valid k1 b Bb Lb) as [[V1 V2] _]. destruct (DES_spec_valid k2 _ V2 V1) as [_ [W1 W2]].
  rewrite (CE k1) by assumption. rewrite (CD k2) by assumption. apply (CE k3); assumption.
Qed.
Print Assumptions C72_tdes_complementation.
Example C72_case : same_key (repeat 0 8) (be_bytes 8 0x0101010101010101) /\ In 0x0101010101010101 weak_keys /\
  enc (des_new (repeat 0 8)) [0x8c; 0xa6; 0x4d; 0xe9; 0xc1; 0xb1; 0x23; 0xa7] = Ok (repeat 0 8) /\
  enc (des_new (be_bytes 8 0xFE01FE01FE01FE01)) (be_bytes 8 0x0123456789ABCDEF) = dec (des_new (be_bytes 8 0x01FE01FE01FE01FE)) (be_bytes 8 0x0123456789ABCDEF).
Proof. split; [vm_compute; reflexivity|]. split; [left; reflexivity|]. vm_compute. auto. Qed.
