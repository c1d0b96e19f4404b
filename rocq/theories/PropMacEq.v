(** Property C75: which keys and messages can share an authentication code.
    Specification: MacSpec.v.  [hmac_tag D key df m t] and [cmac_tag c b m t]: a new object to which [m] is written returns
    [t]. *)
From Verif Require Import Base ModesModel ModesSpec AesModel AesSpec AesApi Sm4Model DesModel HashModel HashSpec MdProofs HashApi PropHash
  MacModel MacSpec MacProofs CmacProofs MacApi PropMac PropDes.

Definition hmac_tag {S} (D : digest S) (key : list Z) (df : S) (m t : list Z) : Prop :=
  exists s, hmac_new D key df = Ok s /\ snd (fold_left (hm_exec D) [MWrite m; MChecksum] (s, [])) = [t].
Definition cmac_tag (c : cipher) (b : nat) (m t : list Z) : Prop :=
  exists s s', cmac_new c = Ok s /\ fold_left (cm_exec c b) [HWrite m; HChecksum] (Ok (s, [])) = Ok (s', [t]).

(** ** HMAC keys *)
Lemma K0_zeros H B K j : (length K + j <= B)%nat -> HMAC_K0 H B (K ++ repeat 0 j) = HMAC_K0 H B K.
Proof.
  intros L. unfold HMAC_K0. rewrite app_length, repeat_length, (proj2 (Nat.leb_le _ _) L), (proj2 (Nat.leb_le (length K) B)) by lia.
  rewrite <- app_assoc, <- repeat_app, app_length, repeat_length. do 2 f_equal. lia.
Qed.
Lemma K0_hash H B K : (B < length K)%nat -> (length (H K) <= B)%nat -> HMAC_K0 H B (H K) = HMAC_K0 H B K.
Proof.
  intros L L'. unfold HMAC_K0. rewrite (proj2 (Nat.leb_gt _ _) L), (proj2 (Nat.leb_le _ _) L'). reflexivity.
Qed.
Lemma run_key H B K K' os : HMAC_K0 H B K = HMAC_K0 H B K' -> forall m fin,
  mac_run (HMAC_value H B) K m fin os = mac_run (HMAC_value H B) K' m fin os.
Proof.
  intros E. induction os as [|o os IH]; intros m fin; [reflexivity|]. destruct o; cbn [mac_run]; rewrite ?IH; try reflexivity.
  f_equal. unfold HMAC_value. rewrite E. reflexivity.
Qed.
(** Along every history objects under [key] and under [key] with zero bytes appended (up to the block length) answer alike;
    so do objects under a key longer than a block and under its digest. *)
Theorem C75_hmac_keys : forall (S : Type) (D : digest S) (I : S -> Prop) (H : list Z -> list Z) (limit : Z) (B : nat) key df os,
  DigestOk D I H limit -> I df -> d_block_size D = Some B -> (d_bits_len D / 8 <= B)%nat ->
  bytes key -> Forall mop_bytes os ->
  Z.of_nat (2 * B + length key + total_size os) < limit -> Z.of_nat (B + d_bits_len D / 8) < limit ->
  exists s, hmac_new D key df = Ok s /\
    (forall j, (length key + j <= B)%nat -> exists s', hmac_new D (key ++ repeat 0 j) df = Ok s' /\
       snd (fold_left (hm_exec D) os (s', [])) = snd (fold_left (hm_exec D) os (s, []))) /\
    ((B < length key)%nat -> exists s', hmac_new D (H key) df = Ok s' /\
       snd (fold_left (hm_exec D) os (s', [])) = snd (fold_left (hm_exec D) os (s, []))).
Proof.
  intros S D I H limit B key df os HG Hi HB HBl Hk Fo L1 L2.
  destruct (C28_hmac S D I H limit B key df os HG Hi HB HBl Hk Fo ltac:(lia) L2) as (s & E & R). exists s. split; [exact E|]. split.
  - intros j Hj. assert (Bk : bytes (key ++ repeat 0 j)) by (apply bytes_app; split; [exact Hk|apply bytes_repeat; unfold byte; lia]).
    destruct (C28_hmac S D I H limit B (key ++ repeat 0 j) df os HG Hi HB HBl Bk Fo ltac:(rewrite app_length, repeat_length; lia) L2) as (s' & E' & R').
    exists s'. split; [exact E'|]. rewrite R, R'. apply run_key, K0_zeros, Hj.
  - intros Hj. pose proof HG as [_ _ _ _ _ G6]. destruct (G6 key Hk ltac:(lia)) as [LH BH].
    destruct (C28_hmac S D I H limit B (H key) df os HG Hi HB HBl BH Fo ltac:(lia) L2) as (s' & E' & R').
    exists s'. split; [exact E'|]. rewrite R, R'. apply run_key, K0_hash; [exact Hj|lia].
Qed.
Print Assumptions C75_hmac_keys.

(** ** From one tag for two inputs to a collision of the hash *)
Lemma xor_const_inj k a : forall b, map (fun x => Z.lxor x k) a = map (fun x => Z.lxor x k) b -> a = b.
Proof.
  induction a as [|x a IH]; intros [|y b] E; cbn [map] in E; try discriminate E; [reflexivity|]. injection E as E1 E2. f_equal; [|apply IH, E2].
  apply (f_equal (fun z => Z.lxor z k)) in E1. rewrite !Z.lxor_assoc, !Z.lxor_nilpotent, !Z.lxor_0_r in E1. exact E1.
Qed.
Lemma K0_length H B K : (length (H K) <= B)%nat -> length (HMAC_K0 H B K) = B.
Proof.
  intros L. unfold HMAC_K0. rewrite app_length, repeat_length. destruct (Nat.leb_spec (length K) B); lia.
Qed.
Lemma app_cut {A} (a b c d : list A) : length a = length c -> a ++ b = c ++ d -> a = c /\ b = d.
Proof. intros L E. apply app_eq_app in E. destruct E as [l [[E1 E2]|[E1 E2]]]; subst; rewrite app_length in L; assert (l = []) by (destruct l; [reflexivity|cbn in L; lia]); subst; rewrite ?app_nil_r; auto. Qed.
(** Equal tags mean equal prepared keys and equal messages, or two different strings with one hash value among the
    inputs of the two inner and of the two outer hash computations. *)
Theorem C75_hmac_collision : forall (S : Type) (D : digest S) (I : S -> Prop) (H : list Z -> list Z) (limit : Z) (B : nat) k1 k2 df1 df2 m1 m2 t,
  DigestOk D I H limit -> I df1 -> I df2 -> d_block_size D = Some B -> (d_bits_len D / 8 <= B)%nat ->
  bytes k1 -> bytes k2 -> bytes m1 -> bytes m2 ->
  Z.of_nat (B + length k1 + length m1) < limit -> Z.of_nat (B + length k2 + length m2) < limit -> Z.of_nat (B + d_bits_len D / 8) < limit ->
  hmac_tag D k1 df1 m1 t -> hmac_tag D k2 df2 m2 t ->
  let inner k m := map (fun x => Z.lxor x 0x36) (HMAC_K0 H B k) ++ m in
  let outer k m := map (fun x => Z.lxor x 0x5c) (HMAC_K0 H B k) ++ H (inner k m) in
  (HMAC_K0 H B k1 = HMAC_K0 H B k2 /\ m1 = m2) \/
  (inner k1 m1 <> inner k2 m2 /\ H (inner k1 m1) = H (inner k2 m2)) \/
  (outer k1 m1 <> outer k2 m2 /\ H (outer k1 m1) = H (outer k2 m2)).
Proof.
  intros S D I H limit B k1 k2 df1 df2 m1 m2 t HG I1 I2 HB HBl K1 K2 M1 M2 L1 L2 L3 (s1 & E1 & T1) (s2 & E2 & T2) inner outer.
  assert (V : forall k df m s, I df -> bytes k -> bytes m -> Z.of_nat (B + length k + length m) < limit -> hmac_new D k df = Ok s ->
    snd (fold_left (hm_exec D) [MWrite m; MChecksum] (s, [])) = [H (outer k m)]).
  { intros k df m s Hi Bk Bm L E. destruct (C28_hmac S D I H limit B k df [MWrite m; MChecksum] HG Hi HB HBl Bk) as (s' & E' & R').
    - constructor; [exact Bm|constructor; [exact Logic.I|constructor]].
    - unfold total_size. cbn [map mop_size list_sum fold_right]. lia.
    - exact L3.
    - rewrite E in E'. injection E' as <-. rewrite R'. reflexivity. }
  rewrite (V k1 df1 m1 s1 I1 K1 M1 L1 E1) in T1. rewrite (V k2 df2 m2 s2 I2 K2 M2 L2 E2) in T2.
  assert (Q : H (outer k1 m1) = H (outer k2 m2)) by congruence. clear T1 T2 V.
  destruct (list_eq_dec Z.eq_dec (outer k1 m1) (outer k2 m2)) as [O|O]; [|right; right; auto].
  pose proof HG as [_ _ _ _ _ G6].
  assert (LK : forall k, bytes k -> Z.of_nat (length k) < limit -> length (HMAC_K0 H B k) = B).
  { intros k Bk L. apply K0_length. rewrite (proj1 (G6 k Bk L)). exact HBl. }
  pose proof (LK k1 K1 ltac:(lia)) as X1. pose proof (LK k2 K2 ltac:(lia)) as X2.
  apply app_cut in O; [|rewrite !map_length; congruence]. destruct O as [O1 O2]. apply xor_const_inj in O1.
  destruct (list_eq_dec Z.eq_dec (inner k1 m1) (inner k2 m2)) as [N|N]; [left|right; left; auto].
  split; [exact O1|]. apply app_cut in N; [|rewrite !map_length; congruence]. apply N.
Qed.
Print Assumptions C75_hmac_collision.
(** Short keys are prepared alike only when they differ by zero bytes at the end. *)
Theorem C75_short_keys : forall H B k1 k2, (length k1 <= length k2 <= B)%nat ->
  HMAC_K0 H B k1 = HMAC_K0 H B k2 <-> k2 = k1 ++ repeat 0 (length k2 - length k1).
Proof.
  intros H B k1 k2 L. split.
  - unfold HMAC_K0. rewrite (proj2 (Nat.leb_le (length k1) B)), (proj2 (Nat.leb_le (length k2) B)) by lia. intros E.
    replace (B - length k1)%nat with ((length k2 - length k1) + (B - length k2))%nat in E by lia. rewrite repeat_app, app_assoc in E.
    apply app_inv_tail in E. symmetry. exact E.
  - intros E. rewrite E. symmetry. apply K0_zeros. lia.
Qed.
Print Assumptions C75_short_keys.

(** ** CMAC: altering one block always alters the tag *)
Lemma xorl_inj_l a b k : (length a <= length k)%nat -> (length b <= length k)%nat -> xorl a k = xorl b k -> a = b.
Proof. intros A B E. apply (f_equal (fun x => xorl x k)) in E. rewrite !xorl_cancel in E by assumption. exact E. Qed.
Lemma xorl_inj_r a b k : (length a <= length k)%nat -> (length b <= length k)%nat -> xorl k a = xorl k b -> a = b.
Proof. intros A B E. rewrite !(xorl_comm k) in E. exact (xorl_inj_l a b k A B E). Qed.
Section Chain.
Variables (c : cipher) (b : nat) (E Dd : list Z -> list Z) (R : Z).
Hypothesis HG : GoodCipher c b E Dd.
Hypothesis HR : block_size_to_rb b = Some R.
Definition good (x : list Z) : Prop := length x = b /\ bytes x.
Notation step := (fun C M => E (xorl C M)).
Lemma xor_good x y : good x -> good y -> good (xorl x y).
Proof. intros [A B] [A' B']. split; [rewrite xorl_length; lia|apply xorl_bytes; assumption]. Qed.
Lemma step_good x y : good x -> good y -> good (step x y).
Proof using HG. intros X Y. destruct (xor_good x y X Y) as [L B]. apply (gc_E _ _ _ _ HG); assumption. Qed.
Lemma E_inj x y : good x -> good y -> E x = E y -> x = y.
Proof using HG.
  intros [A B] [A' B'] Q. apply (f_equal Dd) in Q. rewrite !(gc_DE _ _ _ _ HG) in Q by assumption. exact Q.
Qed.
Lemma fold_good bs : forall v, good v -> Forall good bs -> good (fold_left step bs v).
Proof using HG. induction bs as [|x bs IH]; intros v V F; [exact V|]. inversion F; subst. cbn [fold_left]. apply IH; auto using step_good. Qed.
Lemma fold_inj bs : forall v w, good v -> good w -> Forall good bs -> fold_left step bs v = fold_left step bs w -> v = w.
Proof using HG.
  induction bs as [|x bs IH]; intros v w V W F Q; [exact Q|]. inversion F as [|? ? X F']; subst. cbn [fold_left] in Q.
  apply IH in Q; auto using step_good. apply E_inj in Q; auto using xor_good. destruct V, W, X. apply xorl_inj_l in Q; [exact Q|lia|lia].
Qed.
Lemma one_block A x y C : Forall good A -> good x -> good y -> Forall good C ->
  fold_left step (A ++ [x] ++ C) (repeat 0 b) = fold_left step (A ++ [y] ++ C) (repeat 0 b) -> x = y.
Proof using HG.
  intros FA X Y FC Q. assert (Z0 : good (repeat 0 b)) by (split; [apply repeat_length|apply bytes_repeat; unfold byte; lia]).
  rewrite !fold_left_app in Q. pose proof (fold_good A _ Z0 FA) as G. cbn [fold_left] in Q.
  apply fold_inj in Q; auto using step_good. apply E_inj in Q; auto using xor_good. destruct X, Y, G. apply xorl_inj_r in Q; [exact Q|lia|lia].
Qed.
(** The blocks that are chained: the last one carries a subkey. *)
Definition last_blk (r : list Z) : list Z :=
  if (length r =? b)%nat then xorl r (CMAC_K1 E b R) else xorl (r ++ [0x80] ++ repeat 0 (b - length r - 1)) (CMAC_K2 E b R).
Lemma last_good r : (length r <= b)%nat -> bytes r -> good (last_blk r).
Proof.
  intros L B. destruct (sub_ok b E R) as (S1 & S2 & S3 & S4). unfold last_blk. destruct (Nat.eqb_spec (length r) b) as [Q|Q].
  - apply xor_good; split; auto.
  - apply xor_good; split; auto; [rewrite !app_length, repeat_length; cbn [length]; lia|].
    apply bytes_app; split; [exact B|]. apply bytes_app; split; [repeat constructor; unfold byte; lia|apply bytes_repeat; unfold byte; lia].
Qed.
Lemma last_inj r r' : length r = length r' -> (length r <= b)%nat -> last_blk r = last_blk r' -> r = r'.
Proof.
  intros L LB. destruct (sub_ok b E R) as (S1 & S2 & S3 & S4). unfold last_blk. rewrite <- L.
  destruct (Nat.eqb_spec (length r) b) as [Q|Q]; intros X.
  - apply xorl_inj_l in X; [exact X|lia|lia].
  - apply xorl_inj_l in X; [|rewrite !app_length, repeat_length; cbn [length]; lia|rewrite !app_length, repeat_length; cbn [length]; lia].
    apply app_inv_tail in X. exact X.
Qed.
(** A message: whole blocks, then a rest of at most one block, empty only when the message is. *)
Lemma value_split w r : (length w mod b = 0)%nat -> (length r <= b)%nat -> (r = [] -> w = []) ->
  CMAC_value E b R (w ++ r) = fold_left step (chunks b w ++ [last_blk r]) (repeat 0 b).
Proof using HG.
  intros M L N. pose proof (gc_pos _ _ _ _ HG) as P. pose proof (Nat.div_mod (length w) b ltac:(lia)) as DW.
  rewrite fold_left_app. cbn [fold_left]. unfold CMAC_value. rewrite app_length.
  set (comp := ((0 <? length w + length r)%nat && ((length w + length r) mod b =? 0)%nat)%bool).
  assert (LR : r <> [] -> (0 < length r)%nat) by (destruct r; [congruence|cbn; lia]).
  assert (CC : comp = (length r =? b)%nat).
  { unfold comp. destruct (Nat.eqb_spec (length r) b) as [Q|Q].
    - rewrite Q. rewrite (proj2 (Nat.ltb_lt 0 (length w + b))) by lia. cbn [andb]. apply Nat.eqb_eq. rewrite Nat.add_mod, M, Nat.mod_same by lia. apply Nat.mod_0_l. lia.
    - apply andb_false_iff. destruct r as [|z r].
      + left. rewrite (N eq_refl). reflexivity.
      + right. apply Nat.eqb_neq. rewrite Nat.add_mod, M, Nat.add_0_l, Nat.mod_mod, Nat.mod_small by lia. cbn [length]. lia. }
  assert (KK : (if comp then length w + length r - b else (length w + length r) / b * b)%nat = length w).
  { rewrite CC. destruct (Nat.eqb_spec (length r) b) as [Q|Q]; [lia|]. rewrite DW, M, Nat.add_0_r, (Nat.mul_comm b), Nat.div_add_l by lia.
    rewrite (Nat.div_small (length r)) by lia. lia. }
  rewrite KK. rewrite skipn_app, skipn_all, Nat.sub_diag, skipn_O. cbn [app]. rewrite firstn_app, firstn_all, Nat.sub_diag, firstn_O, app_nil_r.
  unfold last_blk. rewrite CC. reflexivity.
Qed.
Lemma chunks_good w : (length w mod b = 0)%nat -> bytes w -> Forall good (chunks b w).
Proof using HG.
  intros M B. pose proof (gc_pos _ _ _ _ HG) as P. pose proof (chunks_lengths b w ltac:(lia) M) as F1. pose proof (chunks_bytes b w P B) as F2.
  rewrite Forall_forall in *. intros x X. split; auto.
Qed.
(** Every message splits so. *)
Lemma split_message (m : list Z) : exists w r, m = w ++ r /\ (length w mod b = 0)%nat /\ (length r <= b)%nat /\ (r = [] -> w = []).
Proof using HG.
  pose proof (gc_pos _ _ _ _ HG) as P. destruct m as [|x m]; [exists [], []; repeat split; auto; [apply Nat.mod_0_l; lia|cbn; lia]|].
  set (l := x :: m). pose proof (Nat.div_mod (length l - 1) b ltac:(lia)) as D. pose proof (Nat.mod_upper_bound (length l - 1) b ltac:(lia)) as U.
  assert (L : (0 < length l)%nat) by (cbn; lia). clearbody l. set (k := (b * ((length l - 1) / b))%nat) in *.
  exists (firstn k l), (skipn k l). rewrite firstn_skipn, firstn_length_le, skipn_length by lia. split; [reflexivity|]. split.
  - unfold k. rewrite Nat.mul_comm. apply Nat.mod_mul. lia.
  - split; [lia|]. intros Q. apply (f_equal (@length Z)) in Q. rewrite skipn_length in Q. cbn in Q. lia.
Qed.
Lemma tag_value m t : bytes m -> cmac_tag c b m t -> t = CMAC_value E b R m.
Proof using HG HR.
  intros B (s & s' & E1 & E2). destruct (cmac_correct c b E Dd R HG HR [HWrite m; HChecksum]) as (s0 & s0' & F1 & F2).
  { constructor; [exact B|constructor; [exact Logic.I|constructor]]. }
  rewrite E1 in F1. injection F1 as <-. rewrite E2 in F2. injection F2 as _ ->. reflexivity.
Qed.
Lemma tag_exists m : bytes m -> cmac_tag c b m (CMAC_value E b R m).
Proof using HG HR.
  intros B. destruct (cmac_correct c b E Dd R HG HR [HWrite m; HChecksum]) as (s & s' & F1 & F2).
  { constructor; [exact B|constructor; [exact Logic.I|constructor]]. }
  exists s, s'. split; [exact F1|]. exact F2.
Qed.
End Chain.
(** Two messages of one length that differ only inside one block (the last one may be short) never have the same tag. *)
Theorem C75_cmac_one_block : forall c b E D R p x y q t1 t2, GoodCipher c b E D -> block_size_to_rb b = Some R ->
  bytes p -> bytes x -> bytes y -> bytes q -> (length p mod b = 0)%nat -> length x = length y ->
  length x = b \/ (q = [] /\ (length x < b)%nat) -> x <> y ->
  cmac_tag c b (p ++ x ++ q) t1 -> cmac_tag c b (p ++ y ++ q) t2 -> t1 <> t2.
Proof.
  intros c b E D R p x y q t1 t2 HG HR Bp Bx By Bq MP LX CS N T1 T2 Q. apply N. pose proof (gc_pos _ _ _ _ HG) as P.
  apply (tag_value c b E D R HG HR) in T1; [|repeat (apply bytes_app; split); assumption].
  apply (tag_value c b E D R HG HR) in T2; [|repeat (apply bytes_app; split); assumption]. subst t2. rewrite T1 in Q. clear T1.
  assert (NE : x <> []) by (destruct x, y; try discriminate LX; congruence).
  assert (NEy : y <> []) by (destruct x, y; try discriminate LX; congruence).
  destruct q as [|z q].
  - rewrite !app_nil_r in Q. rewrite !(value_split c b E D R HG) in Q by (first [assumption | lia | (intros ?; contradiction)]).
    apply (one_block c b E D HG (chunks b p) _ _ []) in Q; auto using (chunks_good c b E D HG), (last_good b E R).
    + apply (last_inj b E R) in Q; [exact Q|exact LX|lia].
    + apply (last_good b E R); [lia|exact Bx].
    + apply (last_good b E R); [lia|exact By].
  - destruct CS as [LB|[CS _]]; [|discriminate CS]. set (l := z :: q) in *. assert (NL : l <> []) by discriminate. clearbody l.
    destruct (split_message c b E D HG l) as (w & r & EL & MW & LR & RW).
    assert (NR : r <> []) by (intros ->; rewrite RW in EL by reflexivity; exact (NL EL)).
    subst l. apply bytes_app in Bq. destruct Bq as [Bw Br].
    assert (SP : forall u, length u = b -> chunks b (p ++ u ++ w) = chunks b p ++ [u] ++ chunks b w).
    { intros u U. rewrite chunks_app_mult by (auto; lia). f_equal. apply chunks_app; assumption. }
    assert (SM : forall u, length u = b -> (length (p ++ u ++ w) mod b = 0)%nat).
    { intros u U. rewrite !app_length, U. rewrite Nat.add_mod, MP, Nat.add_0_l, Nat.mod_mod by lia.
      rewrite Nat.add_mod, Nat.mod_same, MW by lia. apply Nat.mod_0_l. lia. }
    assert (AS : forall u, p ++ u ++ w ++ r = (p ++ u ++ w) ++ r) by (intros u; rewrite <- !app_assoc; reflexivity).
    rewrite !AS in Q. rewrite !(value_split c b E D R HG) in Q by (first [assumption | (apply SM; lia) | (intros ?; contradiction)]).
    rewrite !SP in Q by lia. rewrite <- !app_assoc in Q.
    apply (one_block c b E D HG (chunks b p) x y (chunks b w ++ [last_blk b E R r])) in Q; [exact Q|..].
    + apply (chunks_good c b E D HG); assumption.
    + split; [exact LB|exact Bx].
    + split; [lia|exact By].
    + apply Forall_app. split; [apply (chunks_good c b E D HG); assumption|]. constructor; [|constructor]. apply (last_good b E R); assumption.
Qed.
Print Assumptions C75_cmac_one_block.

(** ** CMAC: a message and its padded form
    Bit [i] of a fixed point of the doubling is the parity of the bits of the constant up to [i]. *)
Fixpoint par (k : nat) (R : Z) : bool := xorb (Z.testbit R (Z.of_nat k)) (match k with O => false | Datatypes.S k => par k R end).
Lemma par_0 k R : R < 2 ^ 32 -> 0 <= R -> (32 <= k)%nat -> par k R = par 31 R.
Proof.
  intros H H0 L. induction k as [|k IH]; [lia|]. destruct (Nat.eq_dec (Datatypes.S k) 32) as [Q|Q].
  - assert (K : k = 31%nat) by lia. subst k. change (par 32 R) with (xorb (Z.testbit R (Z.of_nat 32)) (par 31 R)).
    replace (Z.testbit R (Z.of_nat 32)) with false; [apply xorb_false_l|].
    symmetry. destruct (Z.eq_dec R 0) as [->|N]; [apply Z.bits_0|]. apply Z.bits_above_log2; [exact H0|]. apply Z.log2_lt_pow2; lia.
  - change (par (Datatypes.S k) R) with (xorb (Z.testbit R (Z.of_nat (Datatypes.S k))) (par k R)).
    rewrite IH by lia. replace (Z.testbit R (Z.of_nat (Datatypes.S k))) with false; [apply xorb_false_l|].
    symmetry. destruct (Z.eq_dec R 0) as [->|N]; [apply Z.bits_0|]. apply Z.bits_above_log2; [exact H0|].
    apply Z.log2_lt_pow2; [lia|]. apply (Z.lt_le_trans _ (2 ^ 32)); [exact H|]. apply Z.pow_le_mono_r; lia.
Qed.
Lemma rb_even b R : block_size_to_rb b = Some R -> Z.odd R = true /\ par (8 * b - 1) R = false.
Proof.
  unfold block_size_to_rb. intros H. destruct (find _ rb_table) as [e|] eqn:F; [|discriminate H]. injection H as <-.
  apply find_some in F as [I Q]. apply Z.eqb_eq in Q.
  assert (G : forallb (fun e => Z.odd (snd e) && (4 <=? fst e) && (snd e <? 2 ^ 32) && (0 <=? snd e) && negb (par 31 (snd e))) rb_table = true) by (vm_compute; reflexivity).
  rewrite forallb_forall in G. specialize (G e I). rewrite !andb_true_iff in G. destruct G as ((((G1 & G2) & G3) & G4) & G5).
  split; [exact G1|]. apply Z.leb_le in G2, G4. apply Z.ltb_lt in G3. apply negb_true_iff in G5.
  destruct (Nat.eq_dec b 4) as [->|N]; [exact G5|]. rewrite par_0 by lia. exact G5.
Qed.
Lemma zero_val b : be_val (repeat 0 b) = 0.
Proof. induction b as [|b IH]; [reflexivity|]. cbn [repeat be_val fold_left]. exact IH. Qed.
Lemma zero_bytes b : length (repeat 0 b) = b /\ bytes (repeat 0 b).
Proof. split; [apply repeat_length|apply bytes_repeat; unfold byte; lia]. Qed.
Lemma val_zero b X : length X = b -> bytes X -> be_val X = 0 -> X = repeat 0 b.
Proof.
  intros L B V. destruct (zero_bytes b) as [ZL ZB]. rewrite <- (be_bytes_val X B), <- (be_bytes_val (repeat 0 b) ZB), V, zero_val, L, ZL. reflexivity.
Qed.
Lemma double_fixed b R X : block_size_to_rb b = Some R -> length X = b -> bytes X -> gf_double b R X = X -> X = repeat 0 b.
Proof.
  intros HR L B Q. destruct (rb_even b R HR) as [OD PA]. destruct (rb_ok b R HR) as (P & RB & _).
  pose proof (be_val_bound X B) as V. rewrite L in V. set (N := 256 ^ Z.of_nat b) in *.
  assert (E : be_val X = 0).
  { unfold gf_double in Q. apply (f_equal be_val) in Q. fold N in Q. destruct (Z.ltb_spec (2 * be_val X) N) as [C|C].
    - rewrite be_val_bytes, Z.mod_small in Q by (fold N; lia). lia.
    - exfalso. set (v := be_val X) in *. rewrite be_val_bytes in Q. fold N in Q.
      assert (EN : N = 2 ^ Z.of_nat (8 * b)). { unfold N. change 256 with (2 ^ 8). rewrite <- Z.pow_mul_r by lia. f_equal. lia. }
      assert (U : 2 * v - N = (2 * v) mod N). { apply Z.mod_unique_pos with (q := 1); lia. }
      assert (T : forall k, (k < 8 * b)%nat -> Z.testbit v (Z.of_nat k) = par k R).
      { assert (T0 : forall k, (k < 8 * b)%nat -> Z.testbit v (Z.of_nat k) = xorb (Z.testbit (2 * v) (Z.of_nat k)) (Z.testbit R (Z.of_nat k))).
        { intros k K. rewrite <- Q at 1. rewrite U, EN. rewrite Z.mod_pow2_bits_low by lia. rewrite Z.lxor_spec, Z.mod_pow2_bits_low by lia. reflexivity. }
        induction k as [|k IH]; intros K; rewrite T0 by exact K; cbn [par].
        - change (Z.of_nat 0) with 0. rewrite Z.testbit_even_0, xorb_false_l, xorb_false_r. reflexivity.
        - rewrite Nat2Z.inj_succ, Z.double_bits_succ, IH by lia. apply xorb_comm. }
      specialize (T (8 * b - 1)%nat ltac:(lia)). rewrite PA in T.
      assert (T1 : Z.testbit v (Z.of_nat (8 * b - 1)) = true).
      { apply Z.testbit_true; [lia|]. assert (PW : 2 ^ Z.of_nat (8 * b) = 2 * 2 ^ Z.of_nat (8 * b - 1)).
        { replace (Z.of_nat (8 * b)) with (Z.succ (Z.of_nat (8 * b - 1))) by lia. apply Z.pow_succ_r. lia. }
        replace (v / 2 ^ Z.of_nat (8 * b - 1)) with 1; [reflexivity|]. apply Z.div_unique_pos with (r := v - 2 ^ Z.of_nat (8 * b - 1)); lia. }
      congruence. }
  exact (val_zero b X L B E).
Qed.

Lemma double_zero b R X : block_size_to_rb b = Some R -> length X = b -> bytes X -> gf_double b R X = repeat 0 b -> X = repeat 0 b.
Proof.
  intros HR L B Q. destruct (rb_even b R HR) as [OD _]. destruct (rb_ok b R HR) as (P & RB & _). pose proof (be_val_bound X B) as V. rewrite L in V.
  apply (val_zero b X L B). unfold gf_double in Q. apply (f_equal be_val) in Q. rewrite be_val_bytes, zero_val in Q.
  destruct (Z.ltb_spec (2 * be_val X) (256 ^ Z.of_nat b)) as [C|C].
  - rewrite Z.mod_small in Q by lia. lia.
  - exfalso. assert (EN : 256 ^ Z.of_nat b = 2 ^ Z.of_nat (8 * b)). { change 256 with (2 ^ 8). rewrite <- Z.pow_mul_r by lia. f_equal. lia. }
    apply (f_equal (fun z => Z.testbit z 0)) in Q. rewrite EN, Z.mod_pow2_bits_low in Q by lia. rewrite Z.lxor_spec, Z.bits_0 in Q.
    rewrite !Z.bit0_odd, OD in Q. replace (Z.odd (2 * be_val X - 2 ^ Z.of_nat (8 * b))) with false in Q; [discriminate Q|].
    replace (Z.of_nat (8 * b)) with (Z.succ (Z.of_nat (8 * b - 1))) by lia. rewrite Z.pow_succ_r by lia.
    rewrite <- Z.mul_sub_distr_l, Z.odd_mul. reflexivity.
Qed.
(** A message that ends inside a block, and the same message with the padding written out, have different tags unless the
    cipher maps the zero block to itself. *)
Theorem C75_cmac_padded : forall c b E D R m t1 t2, GoodCipher c b E D -> block_size_to_rb b = Some R -> bytes m ->
  m = [] \/ (length m mod b <> 0)%nat ->
  cmac_tag c b m t1 -> cmac_tag c b (m ++ [0x80] ++ repeat 0 (b - length m mod b - 1)) t2 ->
  t1 = t2 <-> E (repeat 0 b) = repeat 0 b.
Proof.
  intros c b E D R m t1 t2 HG HR Bm CS T1 T2. pose proof (gc_pos _ _ _ _ HG) as P.
  set (pd := [0x80] ++ repeat 0 (b - length m mod b - 1)) in *.
  assert (Bp : bytes pd) by (apply bytes_app; split; [repeat constructor; unfold byte; lia|apply bytes_repeat; unfold byte; lia]).
  apply (tag_value c b E D R HG HR) in T1; [|exact Bm]. apply (tag_value c b E D R HG HR) in T2; [|apply bytes_app; split; assumption].
  destruct (split_message c b E D HG m) as (w & r & EM & MW & LR & RW).
  assert (RM : (length m mod b = length r)%nat /\ (length r < b)%nat).
  { rewrite EM. rewrite app_length, Nat.add_mod, MW, Nat.add_0_l, Nat.mod_mod by lia. destruct CS as [CS|CS].
    - subst m. assert (r = []) by (destruct w, r; [reflexivity|discriminate EM|discriminate EM|discriminate EM]). subst r. cbn. rewrite Nat.mod_0_l by lia. lia.
    - destruct (Nat.eq_dec (length r) b) as [Q|Q]; [|rewrite Nat.mod_small by lia; lia]. exfalso. apply CS. rewrite EM, app_length, Q, Nat.add_mod, MW, Nat.mod_same by lia. apply Nat.mod_0_l. lia. }
  destruct RM as [RM RL]. assert (LP : length (r ++ pd) = b) by (unfold pd; rewrite !app_length, repeat_length, RM; cbn [length]; lia).
  rewrite EM in T1, T2. rewrite <- app_assoc in T2.
  rewrite (value_split c b E D R HG) in T1 by assumption.
  rewrite (value_split c b E D R HG) in T2 by (first [assumption | lia | (intros Q; rewrite Q in LP; cbn in LP; lia)]).
  assert (BM : bytes w /\ bytes r) by (rewrite EM in Bm; apply bytes_app in Bm; exact Bm). destruct BM as [Bw Br].
  destruct (sub_ok b E R) as (S1 & S2 & S3 & S4).
  assert (ZG : length (repeat 0 b) = b) by apply repeat_length. assert (ZB : bytes (repeat 0 b)) by (apply bytes_repeat; unfold byte; lia).
  destruct (gc_E _ _ _ _ HG (repeat 0 b) ZG ZB) as [EL EB].
  assert (L1 : last_blk b E R r = xorl (r ++ pd) (CMAC_K2 E b R)).
  { unfold last_blk. rewrite (proj2 (Nat.eqb_neq (length r) b)) by lia. unfold pd. rewrite RM. reflexivity. }
  assert (L2 : last_blk b E R (r ++ pd) = xorl (r ++ pd) (CMAC_K1 E b R)) by (unfold last_blk; rewrite LP, Nat.eqb_refl; reflexivity).
  assert (K : t1 = t2 <-> CMAC_K1 E b R = CMAC_K2 E b R).
  { split; intros Q.
    - rewrite T1, T2 in Q. apply (one_block c b E D HG (chunks b w) _ _ []) in Q.
      + rewrite L1, L2 in Q. apply xorl_inj_r in Q; [symmetry; exact Q|lia|lia].
      + apply (chunks_good c b E D HG); assumption.
      + apply (last_good b E R); [lia|exact Br].
      + apply (last_good b E R); [lia|apply bytes_app; split; assumption].
      + constructor.
    - rewrite T1, T2, L1, L2, Q. reflexivity. }
  rewrite K. split; intros Q.
  - unfold CMAC_K2 in Q. symmetry in Q. apply (double_fixed b R _ HR S2 S1) in Q. exact (double_zero b R _ HR EL EB Q).
  - assert (Z1 : CMAC_K1 E b R = repeat 0 b).
    { unfold CMAC_K1, gf_double. rewrite Q. pose proof (zero_val b) as Z0.
      rewrite Z0, Z.mul_0_r, (proj2 (Z.ltb_lt 0 (256 ^ Z.of_nat b))) by (apply Z.pow_pos_nonneg; lia).
      pose proof (be_bytes_val (repeat 0 b) ZB) as X. rewrite Z0, ZG in X. exact X. }
    unfold CMAC_K2. rewrite Z1 at 2. rewrite <- Q. fold (CMAC_K1 E b R). reflexivity.
Qed.
Print Assumptions C75_cmac_padded.

(** Cases: HMAC with SHA-256 under keys of 3 and 5 bytes; CMAC with AES-128 on two messages of 40 bytes. *)
Example C75_case : forall os, Forall mop_bytes os -> Z.of_nat (total_size os) < 2 ^ 62 ->
  exists s s', hmac_new SHA256 [1; 2; 3] sha256_init = Ok s /\ hmac_new SHA256 [1; 2; 3; 0; 0] sha256_init = Ok s' /\
    snd (fold_left (hm_exec SHA256) os (s', [])) = snd (fold_left (hm_exec SHA256) os (s, [])).
Proof.
  intros os F L. assert (Q : 2 ^ 62 + 1000 < M64) by reflexivity.
  pose proof (good_ok _ _ _ (facts_good _ _ _ _ sha256_facts)) as G.
  destruct (C75_hmac_keys mdst SHA256 (fun _ => True) (mk_hash SHA256_std) M64 64 [1; 2; 3] sha256_init os G Logic.I eq_refl) as (s & E & H & _).
  - vm_compute. lia.
  - repeat constructor; unfold byte; lia.
  - exact F.
  - cbn [length]. lia.
  - vm_compute. reflexivity.
  - destruct (H 2%nat ltac:(cbn [length]; lia)) as (s' & E' & R). exists s, s'. auto.
Qed.
Example C75_case_cmac : exists c E D t1 t2, GoodCipher c 16 E D /\ block_size_to_rb 16 = Some 0x87 /\
  cmac_tag c 16 (repeat 1 16 ++ repeat 2 16 ++ repeat 3 8) t1 /\ cmac_tag c 16 (repeat 1 16 ++ repeat 4 16 ++ repeat 3 8) t2 /\ t1 <> t2.
Proof.
  destruct (proj1 C07_all_are_block_permutations (repeat 7 16) ltac:(apply bytes_forallb; reflexivity) ltac:(cbn; tauto)) as (a & E & D & _ & G).
  set (c := aes_cipher a) in G. clearbody c.
  assert (B : forall x k, 0 <= x < 256 -> bytes (repeat x k)) by (intros; apply bytes_repeat; unfold byte; lia).
  assert (T : forall x, 0 <= x < 256 -> cmac_tag c 16 (repeat 1 16 ++ repeat x 16 ++ repeat 3 8) (CMAC_value E 16 0x87 (repeat 1 16 ++ repeat x 16 ++ repeat 3 8))).
  { intros x X. apply (tag_exists c 16 E D 0x87 G eq_refl). repeat (apply bytes_app; split); apply B; lia. }
  exists c, E, D. eexists. eexists. split; [exact G|]. split; [reflexivity|]. split; [exact (T 2 ltac:(lia))|]. split; [exact (T 4 ltac:(lia))|].
  eapply (C75_cmac_one_block c 16 E D 0x87 (repeat 1 16) (repeat 2 16) (repeat 4 16) (repeat 3 8)); [exact G|reflexivity|..|exact (T 2 ltac:(lia))|exact (T 4 ltac:(lia))];
    try (apply B; lia); try reflexivity; [left; reflexivity|discriminate].
Qed.
