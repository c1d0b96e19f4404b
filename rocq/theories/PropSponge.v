(** Property C79: what equal SHA-3 and SHAKE outputs imply, and domain separation. *)
From Verif Require Import Base Words HashModel HashSpec HashApi MacModel MacSpec KeccakModel KeccakSpec KeccakProofs SpongeProofs Sha3Proofs KeccakApi KeccakBij PropKeccak.

(** ** Specification *)
(** The state after absorbing blocks of [r] bits, and the first [d] bits squeezed from a state (FIPS 202, section 4). *)
Definition ABS (f : list bool -> list bool) (b r : nat) (Ps : list (list bool)) : list bool :=
  fold_left (fun S Pi => f (bxor S (Pi ++ repeat false (b - r)))) Ps (repeat false b).
Definition SQ (f : list bool -> list bool) (r : nat) (S : list bool) (d : nat) : list bool :=
  firstn d (flat_map (fun i => firstn r (Nat.iter i f S)) (seq 0 (d / r + 1))).
(** The blocks a message (with its suffix bits) is absorbed in. *)
Definition PB (r : nat) (N : list bool) : list (list bool) := blocks r (N ++ pad10s1 r (length N)).
(** Two different sequences of blocks, all but the last blocks of the two messages, after which the [b - r] hidden bits of the states agree. *)
Definition inner_collision (f : list bool -> list bool) (b r : nat) (L1 L2 : list (list bool)) : Prop :=
  exists u1 x1 u2 x2, L1 = u1 ++ [x1] /\ L2 = u2 ++ [x2] /\ u1 <> u2 /\ skipn r (ABS f b r u1) = skipn r (ABS f b r u2).
(** Two different states from which the same [d] bits are squeezed. *)
Definition outer_collision (f : list bool -> list bool) (b r d : nat) (L1 L2 : list (list bool)) : Prop :=
  ABS f b r L1 <> ABS f b r L2 /\ SQ f r (ABS f b r L1) d = SQ f r (ABS f b r L2) d.

(** ** Lemmas *)
Lemma SPONGE_ABS f b r N d : SPONGE f b r N d = SQ f r (ABS f b r (PB r N)) d.
Proof. reflexivity. Qed.
Lemma bxor_length a b : length (bxor a b) = Nat.min (length a) (length b).
Proof. unfold bxor. rewrite map_length, combine_length. reflexivity. Qed.
Lemma bxor_cons x a y b : bxor (x :: a) (y :: b) = xorb x y :: bxor a b.
Proof. reflexivity. Qed.
Lemma bxor_cancel a b : (length a <= length b)%nat -> bxor (bxor a b) b = a.
Proof.
  revert b. induction a as [|x a IH]; intros [|y b] H; cbn [length] in H; try lia; [reflexivity..|]. rewrite !bxor_cons, IH by lia. f_equal. destruct x, y; reflexivity.
Qed.
Lemma bxor_app a b c d : length a = length c -> bxor (a ++ b) (c ++ d) = bxor a c ++ bxor b d.
Proof. revert c. induction a as [|x a IH]; intros [|y c] H; cbn [length] in H; try lia; [reflexivity|]. cbn [app]. rewrite !bxor_cons, IH by lia. reflexivity. Qed.
Lemma bxor_zeros a n : (length a <= n)%nat -> bxor a (repeat false n) = a.
Proof. revert n. induction a as [|x a IH]; intros n H; cbn [length] in H; [destruct n; reflexivity|]. destruct n as [|n]; [lia|]. cbn [repeat]. rewrite bxor_cons, IH by lia. destruct x; reflexivity. Qed.
Lemma bxor_comm a b : bxor a b = bxor b a.
Proof. revert b. induction a as [|x a IH]; intros [|y b]; try reflexivity. rewrite !bxor_cons, IH. destruct x, y; reflexivity. Qed.
(** Mixing a block in leaves the hidden part alone. *)
Lemma bxor_block S p b r : length S = b -> length p = r -> (r <= b)%nat -> bxor S (p ++ repeat false (b - r)) = bxor (firstn r S) p ++ skipn r S.
Proof.
  intros LS Lp H. rewrite <- (firstn_skipn r S) at 1. rewrite bxor_app by (rewrite firstn_length; lia). f_equal. apply bxor_zeros. rewrite skipn_length. lia.
Qed.
Lemma app_inj_len {A} (a b c d : list A) : length a = length c -> a ++ b = c ++ d -> a = c /\ b = d.
Proof. revert c. induction a as [|x a IH]; intros [|y c] L H; cbn [length] in L; try lia; [auto|]. cbn [app] in H. injection H as -> H. destruct (IH c ltac:(lia) H) as [-> ->]. auto. Qed.

(** ** Bytes *)
Lemma h2b_inj m1 : forall m2, bytes m1 -> bytes m2 -> h2b m1 = h2b m2 -> m1 = m2.
Proof.
  induction m1 as [|x m1 IH]; intros [|y m2] B1 B2 H; [reflexivity|exfalso; apply (f_equal (@length bool)) in H; rewrite !h2b_length in H; cbn in H; lia..|].
  inversion B1; inversion B2; subst. unfold h2b in H. cbn [flat_map] in H. apply app_inj_len in H; [|rewrite !map_length; reflexivity]. destruct H as [Hx Hm]. f_equal; [|apply IH; auto].
  assert (Q : forall i, (i < 8)%nat -> Z.testbit x (Z.of_nat i) = Z.testbit y (Z.of_nat i)).
  { intros i I. apply (f_equal (fun l => nth i l false)) in Hx. do 8 (destruct i as [|i]; [exact Hx|]). lia. }
  apply Z.bits_inj'. intros k K. destruct (Z.lt_ge_cases k 8) as [L|G].
  - specialize (Q (Z.to_nat k) ltac:(lia)). rewrite Z2Nat.id in Q by lia. exact Q.
  - unfold byte in *. rewrite <- (Z.mod_small x (2 ^ 8)), <- (Z.mod_small y (2 ^ 8)) by lia. rewrite !Z.mod_pow2_bits_high by lia. reflexivity.
Qed.
Lemma b2h_inj a b : length a = length b -> b2h a = b2h b -> a = b.
Proof. intros L H. rewrite <- (h2b_b2h a), <- (h2b_b2h b), H, L. reflexivity. Qed.
Lemma h2b_b2h_whole l : (length l mod 8 = 0)%nat -> h2b (b2h l) = l.
Proof.
  intros M. rewrite <- (h2b_b2h l) at 2. symmetry. apply firstn_all2. rewrite h2b_length, b2h_length. pose proof (Nat.div_mod (length l + 7) 8 ltac:(lia)). pose proof (Nat.mod_upper_bound (length l + 7) 8 ltac:(lia)).
  pose proof (Nat.div_mod (length l) 8 ltac:(lia)). rewrite M in *. assert (Q : ((length l + 7) mod 8 = 7)%nat). { rewrite <- Nat.add_mod_idemp_l, M by lia. reflexivity. } lia.
Qed.
Section Sponge.
Variables (f : list bool -> list bool) (b r : nat).
Hypothesis Hr : (0 < r <= b)%nat.
Hypothesis fL : forall S, length (f S) = b.
Hypothesis fI : forall S S', length S = b -> length S' = b -> f S = f S' -> S = S'.

Lemma ABS_length Ps : length (ABS f b r Ps) = b.
Proof. unfold ABS. destruct Ps as [|P Ps] using rev_ind; [cbn [fold_left]; apply repeat_length|]. rewrite fold_left_app. apply fL. Qed.
Lemma ABS_snoc Ps P : length P = r -> ABS f b r (Ps ++ [P]) = f (bxor (firstn r (ABS f b r Ps)) P ++ skipn r (ABS f b r Ps)).
Proof. intros L. unfold ABS at 1. rewrite fold_left_app. cbn [fold_left]. fold (ABS f b r Ps). rewrite bxor_block by (auto using ABS_length; lia). reflexivity. Qed.
Lemma blocks_lengths l : Forall (fun x => length x = r) (blocks r (l : list bool)).
Proof.
  unfold blocks. apply Forall_forall. intros x X. apply in_map_iff in X. destruct X as (i & <- & I). apply in_seq in I. rewrite firstn_length, skipn_length.
  pose proof (Nat.div_mod (length l) r ltac:(lia)). nia.
Qed.
Lemma blocks_app1 (a t : list bool) : length a = r -> blocks r (a ++ t) = a :: blocks r t.
Proof.
  intros L. unfold blocks. rewrite app_length, L. replace ((r + length t) / r)%nat with (S (length t / r)) by (rewrite <- (Nat.div_add_l 1 r) by lia; f_equal; lia).
  cbn [seq map Nat.mul skipn]. f_equal; [rewrite firstn_app, L, Nat.sub_diag, firstn_O, app_nil_r; apply firstn_all2; lia|].
  rewrite <- seq_shift, map_map. apply map_ext. intros i. cbn [Nat.mul]. f_equal. rewrite skipn_app, skipn_all2 by lia. cbn [app]. f_equal. lia.
Qed.
Lemma blocks_ind (P : list bool -> Prop) : P [] -> (forall a t, length a = r -> (length t mod r = 0)%nat -> P t -> P (a ++ t)) -> forall l, (length l mod r = 0)%nat -> P l.
Proof.
  intros P0 PS l. remember (length l) as k eqn:K. revert l K. induction k as [k IH] using lt_wf_ind. intros l K M.
  destruct l as [|x l']; [exact P0|]. set (l := x :: l') in *. assert (r <= k)%nat.
  { destruct (Nat.lt_ge_cases k r) as [H|H]; [|exact H]. rewrite Nat.mod_small in M by exact H. subst k. discriminate. }
  rewrite <- (firstn_skipn r l). assert (S : length (skipn r l) = (k - r)%nat) by (rewrite skipn_length; lia).
  assert (M' : ((k - r) mod r = 0)%nat) by (replace k with ((k - r) + 1 * r)%nat in M by lia; rewrite Nat.mod_add in M by lia; exact M).
  apply PS; [rewrite firstn_length; lia|rewrite S; exact M'|]. apply (IH (k - r)%nat); auto; lia.
Qed.
Lemma concat_blocks (l : list bool) : (length l mod r = 0)%nat -> concat (blocks r l) = l.
Proof.
  revert l. apply (blocks_ind (fun l => concat (blocks r l) = l)); [unfold blocks; cbn [length]; rewrite Nat.div_0_l by lia; reflexivity|]. intros a t L M IH. rewrite blocks_app1 by exact L. cbn [concat]. rewrite IH. reflexivity.
Qed.
Lemma blocks_app (a t : list bool) : (length a mod r = 0)%nat -> blocks r (a ++ t) = blocks r a ++ blocks r t.
Proof.
  revert a. apply (blocks_ind (fun a => blocks r (a ++ t) = blocks r a ++ blocks r t)); [unfold blocks at 2; cbn [length app]; rewrite Nat.div_0_l by lia; reflexivity|]. intros a u L M IH. rewrite <- app_assoc, (blocks_app1 a (u ++ t)), (blocks_app1 a u), IH by exact L. reflexivity.
Qed.
Lemma padded_length N : (length (N ++ pad10s1 r (length N)) mod r = 0)%nat.
Proof.
  unfold pad10s1. rewrite !app_length, repeat_length. cbn [length]. set (m := length N). apply Nat2Z.inj. rewrite Nat2Z.inj_mod, !Nat2Z.inj_add.
  rewrite Z2Nat.id by (apply Z.mod_pos_bound; lia). replace (Z.of_nat m + (Z.of_nat 1 + ((- Z.of_nat m - 2) mod Z.of_nat r + Z.of_nat 1))) with ((Z.of_nat m + 2) + (- Z.of_nat m - 2) mod Z.of_nat r) by lia.
  rewrite Z.add_mod_idemp_r by lia. replace (Z.of_nat m + 2 + (- Z.of_nat m - 2)) with 0 by lia. apply Z.mod_0_l. lia.
Qed.
Lemma pad_inj N1 N2 : N1 ++ pad10s1 r (length N1) = N2 ++ pad10s1 r (length N2) -> N1 = N2.
Proof.
  unfold pad10s1. generalize (Z.to_nat ((- Z.of_nat (length N1) - 2) mod Z.of_nat r)) (Z.to_nat ((- Z.of_nat (length N2) - 2) mod Z.of_nat r)). intros k1 k2 H.
  apply (f_equal (@rev bool)) in H. rewrite !rev_app_distr in H. cbn [rev app] in H. injection H as H.
  assert (RR : forall k, rev (repeat false k) = repeat false k). { induction k as [|k IH]; [reflexivity|]. cbn [repeat rev]. rewrite IH. clear. induction k as [|k IH]; [reflexivity|]. cbn [repeat app]. rewrite IH. reflexivity. }
  rewrite !RR in H. cbn [rev app] in H. rewrite <- !app_assoc in H. cbn [app] in H.
  assert (Q : forall k1 k2 x y, repeat false k1 ++ true :: x = repeat false k2 ++ true :: y -> x = y).
  { clear. induction k1 as [|k1 IH]; intros [|k2] x y H; cbn [repeat app] in H; try discriminate; injection H as H; auto. apply (IH k2). exact H. }
  apply Q in H. rewrite <- (rev_involutive N1), H. apply rev_involutive.
Qed.
Lemma PB_inj N1 N2 : PB r N1 = PB r N2 -> N1 = N2.
Proof. intros H. apply (f_equal (@concat bool)) in H. unfold PB in H. rewrite !concat_blocks in H by apply padded_length. apply pad_inj, H. Qed.
Lemma PB_snoc N : exists u x, PB r N = u ++ [x] /\ length x = r.
Proof.
  pose proof (blocks_lengths (N ++ pad10s1 r (length N))) as F. fold (PB r N) in F. destruct (PB r N) as [|p l] eqn:E using rev_ind; [|exists l, p; apply Forall_app in F; destruct F as [_ F]; inversion F; auto].
  exfalso. apply (f_equal (@concat bool)) in E. unfold PB in E. rewrite concat_blocks in E by apply padded_length. apply (f_equal (@length bool)) in E. unfold pad10s1 in E. rewrite !app_length in E. cbn in E. lia.
Qed.
Lemma sponge_collision N1 N2 d : N1 <> N2 -> SPONGE f b r N1 d = SPONGE f b r N2 d -> inner_collision f b r (PB r N1) (PB r N2) \/ outer_collision f b r d (PB r N1) (PB r N2).
Proof.
  intros NE H. rewrite !SPONGE_ABS in H. destruct (list_eq_dec Bool.bool_dec (ABS f b r (PB r N1)) (ABS f b r (PB r N2))) as [Q|Q]; [left|right; split; auto].
  assert (PE : PB r N1 <> PB r N2) by (intros X; apply NE, PB_inj, X).
  destruct (PB_snoc N1) as (u1 & x1 & E1 & L1). destruct (PB_snoc N2) as (u2 & x2 & E2 & L2). rewrite E1, E2 in *. exists u1, x1, u2, x2. split; [reflexivity|]. split; [reflexivity|].
  rewrite !ABS_snoc in Q by assumption. pose proof (ABS_length u1) as A1. pose proof (ABS_length u2) as A2.
  apply fI in Q; [|rewrite app_length, bxor_length, firstn_length, skipn_length; lia..].
  apply app_inj_len in Q; [|rewrite !bxor_length, !firstn_length; lia]. destruct Q as [Q1 Q2]. split; [|exact Q2].
  intros X. subst u2. apply PE. do 2 f_equal. apply (f_equal (fun l => bxor l (firstn r (ABS f b r u1)))) in Q1.
  rewrite !(bxor_comm (firstn r _)) in Q1. rewrite !bxor_cancel in Q1 by (rewrite firstn_length; lia). exact Q1.
Qed.
(** Conversely blocks [x1], [x2] exist that bring the two states together. *)
Lemma inner_joins U1 U2 : (length U1 mod r = 0)%nat -> (length U2 mod r = 0)%nat -> skipn r (ABS f b r (blocks r U1)) = skipn r (ABS f b r (blocks r U2)) ->
  exists delta, length delta = r /\ forall x2, length x2 = r ->
    forall w d, SPONGE f b r (U1 ++ bxor delta x2 ++ w) d = SPONGE f b r (U2 ++ x2 ++ w) d.
Proof.
  intros M1 M2 H. set (S1 := ABS f b r (blocks r U1)) in *. set (S2 := ABS f b r (blocks r U2)) in *. exists (bxor (firstn r S1) (firstn r S2)).
  pose proof (ABS_length (blocks r U1)) as A1. pose proof (ABS_length (blocks r U2)) as A2. fold S1 in A1. fold S2 in A2.
  split; [rewrite bxor_length, !firstn_length; lia|]. intros x2 L2. set (x1 := bxor (bxor (firstn r S1) (firstn r S2)) x2). intros w d.
  assert (L1 : length x1 = r) by (unfold x1; rewrite !bxor_length, !firstn_length; lia).
  rewrite !SPONGE_ABS. f_equal. unfold PB.
  assert (PL : pad10s1 r (length (U1 ++ x1 ++ w)) = pad10s1 r (length (U2 ++ x2 ++ w))).
  { unfold pad10s1. do 4 f_equal. rewrite !app_length, L1, L2. pose proof (Nat.div_mod (length U1) r ltac:(lia)) as D1. pose proof (Nat.div_mod (length U2) r ltac:(lia)) as D2. rewrite M1 in D1. rewrite M2 in D2.
    rewrite D1, D2. rewrite !Nat2Z.inj_add, !Nat2Z.inj_mul. 
    replace (- (Z.of_nat r * Z.of_nat (length U1 / r) + Z.of_nat 0 + (Z.of_nat r + Z.of_nat (length w))) - 2) with ((- Z.of_nat (length w) - 2) + (- Z.of_nat (length U1 / r) - 1) * Z.of_nat r) by lia.
    replace (- (Z.of_nat r * Z.of_nat (length U2 / r) + Z.of_nat 0 + (Z.of_nat r + Z.of_nat (length w))) - 2) with ((- Z.of_nat (length w) - 2) + (- Z.of_nat (length U2 / r) - 1) * Z.of_nat r) by lia.
    rewrite !Z.mod_add by lia. reflexivity. }
  rewrite PL. generalize (pad10s1 r (length (U2 ++ x2 ++ w))). intros p. rewrite <- !app_assoc. rewrite !(blocks_app U1), !(blocks_app U2), (blocks_app1 x1), (blocks_app1 x2) by assumption.
  generalize (blocks r (w ++ p)). intros t. replace (x1 :: t) with ([x1] ++ t) by reflexivity. replace (x2 :: t) with ([x2] ++ t) by reflexivity. rewrite !app_assoc.
  assert (E : ABS f b r (blocks r U1 ++ [x1]) = ABS f b r (blocks r U2 ++ [x2])).
  { rewrite !ABS_snoc by assumption. fold S1 S2. rewrite H. do 2 f_equal. unfold x1. 
    assert (XA : forall a c e, bxor a (bxor (bxor a c) e) = bxor (bxor (bxor c a) a) e).
    { clear. induction a as [|x a IH]; intros [|y c] [|z e]; try reflexivity. rewrite !bxor_cons, IH. f_equal. destruct x, y, z; reflexivity. }
    rewrite XA, bxor_cancel by (rewrite !firstn_length; lia). reflexivity. }
  unfold ABS in E |- *. rewrite !(fold_left_app _ (_ ++ _)), E. reflexivity.
Qed.
(** The same for byte messages, followed by suffix bits. *)
Lemma inner_bytes u1 u2 sfx : (r mod 8 = 0)%nat -> ((8 * length u1) mod r = 0)%nat -> ((8 * length u2) mod r = 0)%nat ->
  skipn r (ABS f b r (blocks r (h2b u1))) = skipn r (ABS f b r (blocks r (h2b u2))) ->
  exists x, length x = (r / 8)%nat /\ bytes x /\ forall w d, SPONGE f b r (h2b (u1 ++ x ++ w) ++ sfx) d = SPONGE f b r (h2b (u2 ++ repeat 0 (r / 8) ++ w) ++ sfx) d.
Proof.
  intros R8 M1 M2 HI. rewrite <- h2b_length in M1, M2. destruct (inner_joins (h2b u1) (h2b u2) M1 M2 HI) as (delta & LD & J). clear M1 M2 HI.
  pose proof (Nat.div_mod r 8 ltac:(lia)) as D. rewrite R8 in D.
  exists (b2h delta). split; [|split; [apply b2h_bytes|]].
  - rewrite b2h_length, LD. rewrite D at 1. replace (8 * (r / 8) + 0 + 7)%nat with (7 + (r / 8) * 8)%nat by lia. rewrite Nat.div_add by lia. reflexivity.
  - intros w d. rewrite !h2b_app, <- !app_assoc, h2b_b2h_whole by (rewrite LD; exact R8).
    assert (Z : forall k, h2b (repeat 0 k) = repeat false (8 * k)). { clear. induction k as [|k IH]; [reflexivity|]. replace (8 * S k)%nat with (8 + 8 * k)%nat by lia. change (h2b (repeat 0 (S k))) with (repeat false 8 ++ h2b (repeat 0 k)). rewrite IH, <- repeat_app. reflexivity. }
    rewrite Z. replace (8 * (r / 8))%nat with r by lia. rewrite <- (J (repeat false r)) by apply repeat_length. rewrite (bxor_zeros delta) by lia. reflexivity.
Qed.
End Sponge.

Definition F := KECCAK_p 6 24.
Lemma F_length S : length (F S) = 1600%nat.
Proof. unfold F. rewrite KECCAK_p_length. reflexivity. Qed.
Lemma F_inj S S' : length S = 1600%nat -> length S' = 1600%nat -> F S = F S' -> S = S'.
Proof. intros L L'. apply KECCAK_p_inj; assumption. Qed.
Lemma SQ_short f r S d : (d < r)%nat -> SQ f r S d = firstn d S.
Proof. intros H. unfold SQ. rewrite Nat.div_small by exact H. cbn [Nat.add seq flat_map Nat.iter]. rewrite app_nil_r, firstn_firstn. f_equal. lia. Qed.

(** ** C79 *)
(** SHA-3: two messages with one digest contain an inner collision, or end in two states that agree in the digest bits only. *)
Theorem C79_sha3 : forall bits ws1 ws2, In bits [224; 256; 384; 512]%nat -> Forall bytes ws1 -> Forall bytes ws2 ->
  let H ws := snd (d_checksum (SHA3 bits) (fold_left (d_write (SHA3 bits)) ws (sha3_init bits))) in
  let r := (1600 - 2 * bits)%nat in
  let P ws := PB r (h2b (concat ws) ++ [false; true]) in
  concat ws1 <> concat ws2 -> H ws1 = H ws2 ->
  inner_collision F 1600 r (P ws1) (P ws2) \/
  (ABS F 1600 r (P ws1) <> ABS F 1600 r (P ws2) /\ firstn bits (ABS F 1600 r (P ws1)) = firstn bits (ABS F 1600 r (P ws2))).
Proof.
  intros bits ws1 ws2 Hb B1 B2 H r P NE E. unfold H in E. rewrite !(proj1 (C30_sha3_chunking bits _ Hb)) in E.
  assert (Hr : (0 < r <= 1600)%nat /\ (bits < r)%nat /\ (0 < bits <= 512)%nat) by (unfold r; cbn [In] in Hb; destruct Hb as [<-|[<-|[<-|[<-|[]]]]]; lia). destruct Hr as (Hr & Hd & Hb').
  unfold SHA3_hash in E. apply b2h_inj in E; [|rewrite !SHA3_length by exact Hb'; reflexivity]. unfold SHA3_bits, KECCAK_c in E. fold r F in E.
  apply (sponge_collision F 1600 r Hr F_length F_inj) in E.
  - destruct E as [E|[E1 E2]]; [left; exact E|right]. split; [exact E1|]. rewrite !SQ_short in E2 by exact Hd. exact E2.
  - intros X. apply app_inv_tail in X. apply h2b_inj in X; [contradiction|apply bytes_concat; assumption..].
Qed.
Print Assumptions C79_sha3.
(** SHAKE and RawSHAKE, at every output length; and outputs of two functions with one capacity: SHAKE and RawSHAKE of one strength
    ([raw1], [raw2] may differ), whose suffix bits keep the messages apart even when they are equal. *)
Theorem C79_shake : forall strength d (raw1 raw2 : bool) ws1 ws2, In strength [128; 256]%nat -> Forall bytes ws1 -> Forall bytes ws2 ->
  let X (raw : bool) ws := snd (shake_checksum (fold_left shake_write ws (if raw then to_raw_shake (shake_new strength d) else shake_new strength d))) in
  let r := (1600 - 2 * strength)%nat in
  let P (raw : bool) ws := PB r (h2b (concat ws) ++ if raw then [true; true] else [true; true; true; true]) in
  raw1 <> raw2 \/ concat ws1 <> concat ws2 -> X raw1 ws1 = X raw2 ws2 ->
  inner_collision F 1600 r (P raw1 ws1) (P raw2 ws2) \/ outer_collision F 1600 r d (P raw1 ws1) (P raw2 ws2).
Proof.
  intros strength d raw1 raw2 ws1 ws2 Hs B1 B2 X r P NE E.
  assert (Q : forall raw ws, X raw ws = XOF strength raw d (h2b (concat ws))).
  { intros raw ws. destruct (C30_shake_chunking strength d ws Hs) as [A B]. unfold X, XOF. destruct raw; [exact B|exact A]. }
  assert (Hr : (0 < r <= 1600)%nat) by (unfold r; cbn [In] in Hs; destruct Hs as [<-|[<-|[]]]; lia).
  rewrite !Q, !XOF_sponge in E. fold r F in E. apply b2h_inj in E; [|rewrite !(SPONGE_length F 1600 r) by (try exact Hr; exact F_length); reflexivity].
  apply (sponge_collision F 1600 r Hr F_length F_inj) in E; [exact E|].
  intros Y. apply (fun p => conj p (f_equal (@length bool) p)) in Y. destruct Y as [Y L]. rewrite !app_length, !h2b_length in L.
  destruct raw1, raw2; cbn [length] in L; try lia; apply app_inv_tail in Y; apply h2b_inj in Y; try (apply bytes_concat; assumption); destruct NE as [NE|NE]; contradiction.
Qed.
Print Assumptions C79_shake.
(** SHA3-256 against SHAKE256 and RawSHAKE256, which have the same capacity. *)
Theorem C79_sha3_shake : forall (raw : bool) ws1 ws2,
  let H := snd (d_checksum (SHA3 256) (fold_left (d_write (SHA3 256)) ws1 (sha3_init 256))) in
  let X := snd (shake_checksum (fold_left shake_write ws2 (if raw then to_raw_shake (shake_new 256 256) else shake_new 256 256))) in
  let P1 := PB 1088 (h2b (concat ws1) ++ [false; true]) in
  let P2 := PB 1088 (h2b (concat ws2) ++ if raw then [true; true] else [true; true; true; true]) in
  H = X -> inner_collision F 1600 1088 P1 P2 \/ outer_collision F 1600 1088 256 P1 P2.
Proof.
  intros raw ws1 ws2 H X P1 P2 E.
  assert (Q : X = XOF 256 raw 256 (h2b (concat ws2))).
  { destruct (C30_shake_chunking 256 256 ws2 ltac:(cbn [In]; tauto)) as [A B]. unfold X, XOF. destruct raw; [exact B|exact A]. }
  assert (Hr : (0 < 1088 <= 1600)%nat) by lia.
  rewrite Q, XOF_sponge in E. unfold H in E. rewrite (proj1 (C30_sha3_chunking 256 ws1 ltac:(cbn [In]; tauto))) in E. unfold SHA3_hash, SHA3_bits, KECCAK_c in E.
  change (1600 - 2 * 256)%nat with 1088%nat in E. fold F in E. apply b2h_inj in E; [|rewrite !(SPONGE_length F 1600 1088) by (try exact Hr; exact F_length); reflexivity].
  apply (sponge_collision F 1600 1088 Hr F_length F_inj) in E; [exact E|].
  intros Y. apply (fun p => conj p (f_equal (@length bool) p)) in Y. destruct Y as [Y L]. rewrite !app_length, !h2b_length in L.
  destruct raw; cbn [length] in L; [|lia]. apply app_inj_len in Y; [|rewrite !h2b_length; lia]. destruct Y as [_ Y]. discriminate.
Qed.
Print Assumptions C79_sha3_shake.
(** Conversely an inner collision between messages of whole blocks gives colliding messages with every common continuation. *)
Theorem C79_inner_gives_collision : forall bits u1 u2, In bits [224; 256; 384; 512]%nat ->
  let r := (1600 - 2 * bits)%nat in
  ((8 * length u1) mod r = 0)%nat -> ((8 * length u2) mod r = 0)%nat ->
  skipn r (ABS F 1600 r (blocks r (h2b u1))) = skipn r (ABS F 1600 r (blocks r (h2b u2))) ->
  let H m := snd (d_checksum (SHA3 bits) (d_write (SHA3 bits) (sha3_init bits) m)) in
  exists x, length x = (r / 8)%nat /\ bytes x /\ forall w, H (u1 ++ x ++ w) = H (u2 ++ repeat 0 (r / 8) ++ w).
Proof.
  intros bits u1 u2 Hb r M1 M2 HI H.
  assert (Hr : (0 < r <= 1600)%nat /\ (r mod 8 = 0)%nat) by (clear M1 M2 HI; unfold r; cbn [In] in Hb; destruct Hb as [<-|[<-|[<-|[<-|[]]]]]; split; [lia|reflexivity|lia|reflexivity|lia|reflexivity|lia|reflexivity]). destruct Hr as (Hr & R8).
  destruct (inner_bytes F 1600 r Hr F_length F_inj u1 u2 [false; true] R8 M1 M2 HI) as (x & L & B & J). exists x. split; [exact L|]. split; [exact B|]. intros w.
  assert (G : forall m, H m = SHA3_hash bits m).
  { intros m. unfold H. pose proof (proj1 (C30_sha3_chunking bits [m] Hb)) as X. cbn [fold_left concat] in X. rewrite app_nil_r in X. exact X. }
  rewrite !G. unfold SHA3_hash, SHA3_bits, KECCAK_c. fold r F. rewrite J. reflexivity.
Qed.
Print Assumptions C79_inner_gives_collision.
(** Any sponge object over Keccak-p: width [25 * 2^l], [nr] rounds, any rate up to the width; [(data, n, want)] stands for writing the
    first [n] bits of [data] and asking for [want] bits. *)
Section AnySponge.
Variables (l nr rate : nat) (k : keccak) (s : sponge).
Hypothesis Hl : (l <= 6)%nat.
Hypothesis Hn : (nr <= 12 + 2 * l)%nat.
Hypothesis Hk : keccak_new (25 * 2 ^ l) nr = Ok k.
Hypothesis Hr : (0 < rate <= 25 * 2 ^ l)%nat.
Hypothesis Hs : sponge_new k rate = Ok s.
Let G := KECCAK_p l nr.
Let b := (25 * 2 ^ l)%nat.
Lemma G_length S : length (G S) = b.
Proof. apply KECCAK_p_length. Qed.
Lemma G_inj S S' : length S = b -> length S' = b -> G S = G S' -> S = S'.
Proof. apply KECCAK_p_inj. Qed.
Lemma call_value data n want : (n <= 8 * length data)%nat -> sponge_run s [(data, n, want)] = Ok [b2h (SPONGE G b rate (firstn n (h2b data)) want)].
Proof.
  intros H. destruct (C33_sponge l nr rate k [(data, n, want)] Hl Hn Hk Hr ltac:(constructor; [exact H|constructor])) as (s' & E & R). rewrite Hs in E. injection E as <-. exact R.
Qed.
Lemma sponge_collision_any data1 n1 data2 n2 want out : (n1 <= 8 * length data1)%nat -> (n2 <= 8 * length data2)%nat ->
  firstn n1 (h2b data1) <> firstn n2 (h2b data2) -> sponge_run s [(data1, n1, want)] = Ok [out] -> sponge_run s [(data2, n2, want)] = Ok [out] ->
  let P data n := PB rate (firstn n (h2b data)) in
  inner_collision G b rate (P data1 n1) (P data2 n2) \/ outer_collision G b rate want (P data1 n1) (P data2 n2).
Proof.
  intros L1 L2 NE E1 E2. rewrite call_value in E1, E2 by assumption. assert (E : b2h (SPONGE G b rate (firstn n1 (h2b data1)) want) = b2h (SPONGE G b rate (firstn n2 (h2b data2)) want)) by congruence.
  apply b2h_inj in E; [|rewrite !(SPONGE_length G b rate) by (try exact Hr; exact G_length); reflexivity].
  apply (sponge_collision G b rate Hr G_length G_inj) in E; [exact E|exact NE].
Qed.
Lemma inner_any U1 U2 : (length U1 mod rate = 0)%nat -> (length U2 mod rate = 0)%nat -> skipn rate (ABS G b rate (blocks rate U1)) = skipn rate (ABS G b rate (blocks rate U2)) ->
  exists delta, length delta = rate /\ forall x w want, length x = rate ->
    let M1 := U1 ++ bxor delta x ++ w in let M2 := U2 ++ x ++ w in
    sponge_run s [(b2h M1, length M1, want)] = sponge_run s [(b2h M2, length M2, want)].
Proof.
  intros M1 M2 H. destruct (inner_joins G b rate Hr G_length G_inj U1 U2 M1 M2 H) as (delta & LD & J). exists delta. split; [exact LD|]. intros x w want Lx N1 N2.
  assert (Q : forall N, (length N <= 8 * length (b2h N))%nat).
  { intros N. rewrite b2h_length. pose proof (Nat.div_mod (length N + 7) 8 ltac:(lia)). pose proof (Nat.mod_upper_bound (length N + 7) 8 ltac:(lia)). lia. }
  rewrite !call_value by apply Q. rewrite !h2b_b2h. unfold N1, N2. rewrite (J x Lx). reflexivity.
Qed.
End AnySponge.
Theorem C79_sponge : forall l nr rate k s, (l <= 6)%nat -> (nr <= 12 + 2 * l)%nat -> keccak_new (25 * 2 ^ l) nr = Ok k -> (0 < rate <= 25 * 2 ^ l)%nat -> sponge_new k rate = Ok s ->
  forall data1 n1 data2 n2 want out, (n1 <= 8 * length data1)%nat -> (n2 <= 8 * length data2)%nat ->
  firstn n1 (h2b data1) <> firstn n2 (h2b data2) -> sponge_run s [(data1, n1, want)] = Ok [out] -> sponge_run s [(data2, n2, want)] = Ok [out] ->
  let P data n := PB rate (firstn n (h2b data)) in
  inner_collision (KECCAK_p l nr) (25 * 2 ^ l) rate (P data1 n1) (P data2 n2) \/ outer_collision (KECCAK_p l nr) (25 * 2 ^ l) rate want (P data1 n1) (P data2 n2).
Proof. exact sponge_collision_any. Qed.
Print Assumptions C79_sponge.
Theorem C79_sponge_inner : forall l nr rate k s, (l <= 6)%nat -> (nr <= 12 + 2 * l)%nat -> keccak_new (25 * 2 ^ l) nr = Ok k -> (0 < rate <= 25 * 2 ^ l)%nat -> sponge_new k rate = Ok s ->
  forall U1 U2, (length U1 mod rate = 0)%nat -> (length U2 mod rate = 0)%nat ->
  skipn rate (ABS (KECCAK_p l nr) (25 * 2 ^ l) rate (blocks rate U1)) = skipn rate (ABS (KECCAK_p l nr) (25 * 2 ^ l) rate (blocks rate U2)) ->
  exists delta, length delta = rate /\ forall x w want, length x = rate ->
    let M1 := U1 ++ bxor delta x ++ w in let M2 := U2 ++ x ++ w in
    sponge_run s [(b2h M1, length M1, want)] = sponge_run s [(b2h M2, length M2, want)].
Proof. exact inner_any. Qed.
Print Assumptions C79_sponge_inner.
(** The library accepts a rate equal to the width, with no hidden part at all: every two strings of whole blocks then collide after one more block. *)
Theorem C79_full_rate_collides : forall l nr k, (l <= 6)%nat -> (nr <= 12 + 2 * l)%nat -> keccak_new (25 * 2 ^ l) nr = Ok k ->
  exists s, sponge_new k (25 * 2 ^ l) = Ok s /\
  forall U1 U2, (length U1 mod (25 * 2 ^ l) = 0)%nat -> (length U2 mod (25 * 2 ^ l) = 0)%nat ->
  exists delta, length delta = (25 * 2 ^ l)%nat /\ forall x w want, length x = (25 * 2 ^ l)%nat ->
    let M1 := U1 ++ bxor delta x ++ w in let M2 := U2 ++ x ++ w in
    sponge_run s [(b2h M1, length M1, want)] = sponge_run s [(b2h M2, length M2, want)].
Proof.
  intros l nr k Hl Hn Hk. set (b := (25 * 2 ^ l)%nat). assert (Hr : (0 < b <= 25 * 2 ^ l)%nat) by (unfold b; pose proof (Nat.pow_nonzero 2 l ltac:(lia)); lia).
  exists (mkSponge b k []). assert (Hs : sponge_new k b = Ok (mkSponge b k [])) by (apply (C33_every_rate_accepted _ _ k b Hk)). split; [exact Hs|]. intros U1 U2 M1 M2.
  apply (C79_sponge_inner l nr b k _ Hl Hn Hk Hr Hs U1 U2 M1 M2). rewrite !skipn_all2; [reflexivity|..]; apply Nat.eq_le_incl; apply ABS_length; intros; apply KECCAK_p_length.
Qed.
Print Assumptions C79_full_rate_collides.
(** The hypotheses are met: a sponge of width 25 with one round at rate 25, where 50 bits and 25 bits have the same 40 bits of output;
    one of rate 4, where [C79_sponge] applies to two messages with the same first bit of output; and SHAKE with no output at all. *)
Example C79_case : exists k s s4, keccak_new (25 * 2 ^ 0) 1 = Ok k /\ sponge_new k 25 = Ok s /\ sponge_new k 4 = Ok s4 /\
  (let M1 := repeat true 25 ++ KECCAK_p 0 1 (repeat true 25) in let M2 := repeat false 25 in
   M1 <> M2 /\ exists out, sponge_run s [(b2h M1, 50, 40)] = Ok [out] /\ sponge_run s [(b2h M2, 25, 40)] = Ok [out] /\ length out = 5)%nat /\
  (firstn 8 (h2b [1%Z]) <> firstn 8 (h2b [2%Z]) /\ exists out, sponge_run s4 [([1%Z], 8, 1)] = Ok [out] /\ sponge_run s4 [([2%Z], 8, 1)] = Ok [out])%nat.
Proof.
  eexists. eexists. eexists. split; [reflexivity|]. split; [reflexivity|]. split; [reflexivity|]. split.
  - cbv zeta. split; [vm_compute; discriminate|]. eexists. split; [vm_compute; reflexivity|]. split; vm_compute; reflexivity.
  - split; [vm_compute; discriminate|]. eexists. split; vm_compute; reflexivity.
Qed.
Example C79_shake_case : In 128%nat [128; 256]%nat /\ (true <> false \/ concat [[1; 2]] <> concat [[1]; [2]]) /\
  snd (shake_checksum (shake_write (to_raw_shake (shake_new 128 0)) [1; 2])) = snd (shake_checksum (fold_left shake_write [[1]; [2]] (shake_new 128 0))).
Proof.
  split; [cbn; tauto|]. split; [left; discriminate|].
  pose proof (proj2 (C30_shake_chunking 128 0 [[1; 2]] ltac:(cbn; tauto))) as A. pose proof (proj1 (C30_shake_chunking 128 0 [[1]; [2]] ltac:(cbn; tauto))) as B.
  cbn [fold_left] in A. rewrite A, B. reflexivity.
Qed.
