(** ZUCCipher and ZUCMac of the model against 128-EEA3 and 128-EIA3. *)
From Verif Require Import Base Words HashSpec HashModel WordW ZucModel ZucSpec ZucProofs.

(** ** Keystream bytes *)
Lemma Zstream_length k v p n : length (Zstream k v p n) = n.
Proof. unfold Zstream. rewrite map_length, seq_length. reflexivity. Qed.
Lemma Zstream_app k v p a b : Zstream k v p (a + b) = Zstream k v p a ++ Zstream k v (p + a) b.
Proof. unfold Zstream. rewrite seq_app, map_app. reflexivity. Qed.
Lemma Zstream_firstn k v p a n : (a <= n)%nat -> firstn a (Zstream k v p n) = Zstream k v p a.
Proof.
  intros H. replace n with (a + (n - a))%nat by lia. rewrite Zstream_app, firstn_app, Zstream_length, Nat.sub_diag, firstn_O, app_nil_r.
  apply firstn_all2. rewrite Zstream_length. lia.
Qed.
Lemma Zstream_skipn k v p a n : (a <= n)%nat -> skipn a (Zstream k v p n) = Zstream k v (p + a) (n - a).
Proof.
  intros H. replace n with (a + (n - a))%nat at 1 by lia. rewrite Zstream_app, skipn_app, Zstream_length, Nat.sub_diag, skipn_O.
  rewrite skipn_all2 by (rewrite Zstream_length; lia). reflexivity.
Qed.
Lemma Zstream_word k v w : Zstream k v (4 * w) 4 = be_bytes 4 (Zword k v w).
Proof.
  unfold Zstream. cbn [seq map]. unfold Zbyte.
  replace ((4 * w) mod 4)%nat with 0%nat by (rewrite Nat.mul_comm, Nat.mod_mul; lia).
  replace (S (4 * w) mod 4)%nat with 1%nat by (replace (S (4 * w)) with (1 + w * 4)%nat by lia; rewrite Nat.mod_add by lia; reflexivity).
  replace (S (S (4 * w)) mod 4)%nat with 2%nat by (replace (S (S (4 * w))) with (2 + w * 4)%nat by lia; rewrite Nat.mod_add by lia; reflexivity).
  replace (S (S (S (4 * w))) mod 4)%nat with 3%nat by (replace (S (S (S (4 * w)))) with (3 + w * 4)%nat by lia; rewrite Nat.mod_add by lia; reflexivity).
  replace (4 * w / 4)%nat with w by (rewrite Nat.mul_comm, Nat.div_mul; lia).
  replace (S (4 * w) / 4)%nat with w by (replace (S (4 * w)) with (1 + w * 4)%nat by lia; rewrite Nat.div_add by lia; reflexivity).
  replace (S (S (4 * w)) / 4)%nat with w by (replace (S (S (4 * w))) with (2 + w * 4)%nat by lia; rewrite Nat.div_add by lia; reflexivity).
  replace (S (S (S (4 * w))) / 4)%nat with w by (replace (S (S (S (4 * w)))) with (3 + w * 4)%nat by lia; rewrite Nat.div_add by lia; reflexivity).
  pose proof (be_bytes_length 4 (Zword k v w)) as L. revert L. generalize (be_bytes 4 (Zword k v w)).
  intros l L. do 4 (destruct l as [|? l]; [discriminate L|]). destruct l; [reflexivity|discriminate L].
Qed.
Lemma Zstream_words k v n : forall w, Zstream k v (4 * w) (4 * n) = flat_map (be_bytes 4) (map (Zword k v) (seq w n)).
Proof.
  induction n as [|n IH]; intros w; [reflexivity|].
  replace (4 * S n)%nat with (4 + 4 * n)%nat by lia. rewrite Zstream_app, Zstream_word.
  cbn [seq map flat_map]. f_equal. replace (4 * w + 4)%nat with (4 * S w)%nat by lia. apply IH.
Qed.

Lemma xor_all_ok ks : forall data, (length ks <= length data)%nat ->
  xor_all ks data = Some (xorl ks data, skipn (length ks) data).
Proof.
  induction ks as [|k ks IH]; intros data H; [reflexivity|].
  destruct data as [|d data]; [cbn in H; lia|]. cbn [xor_all length skipn xorl].
  rewrite IH by (cbn in H; lia). reflexivity.
Qed.
Lemma xor_last_nil ks : xor_last ks [] = ([], ks).
Proof. induction ks as [|k ks IH]; [reflexivity|]. cbn [xor_last]. rewrite IH. reflexivity. Qed.
Lemma xor_last_ok ks : forall data, (length data <= length ks)%nat ->
  xor_last ks data = (xorl ks data, skipn (length data) ks).
Proof.
  induction ks as [|k ks IH]; intros [|d data] H; try reflexivity.
  - rewrite xor_last_nil. reflexivity.
  - cbn [xor_last length skipn xorl]. rewrite IH by (cbn in H; lia). reflexivity.
Qed.
Lemma xorl_firstn_r a b : xorl a b = xorl (firstn (length b) a) b.
Proof. rewrite xorl_firstn. symmetry. apply firstn_all2. rewrite xorl_length. lia. Qed.
Lemma xorl_short_l a b c : length b = length a -> xorl a (b ++ c) = xorl a b.
Proof.
  intros L. rewrite (xorl_trunc a (b ++ c)). rewrite <- L, firstn_app, Nat.sub_diag, firstn_O, app_nil_r.
  f_equal. apply firstn_all2. lia.
Qed.

(** ** The cipher object after [pos] bytes *)
Definition left_over (pos : nat) : nat := ((4 - pos mod 4) mod 4)%nat.
Definition zc_at (ck iv : list Z) (c : zcipher) (pos : nat) : Prop :=
  zc_ck c = ck /\ zc_iv c = iv /\ zrel (zc_zuc c) (zstate_at ck iv ((pos + 3) / 4)) /\
  zc_key c = Zstream ck iv pos (left_over pos).

Lemma left_align pos : ((pos + left_over pos) mod 4 = 0 /\ (pos + left_over pos) / 4 = (pos + 3) / 4 /\ left_over pos < 4)%nat.
Proof.
  unfold left_over.
  pose proof (Nat.div_mod pos 4 ltac:(lia)) as E. pose proof (Nat.mod_upper_bound pos 4 ltac:(lia)) as U.
  set (q := (pos / 4)%nat) in *. set (r := (pos mod 4)%nat) in *. clearbody q r. subst pos.
  destruct r as [|[|[|[|r]]]]; [..|lia].
  - change ((4 - 0) mod 4)%nat with 0%nat. replace (4 * q + 0 + 0)%nat with (q * 4)%nat by lia.
    rewrite Nat.mod_mul, Nat.div_mul by lia. replace (4 * q + 0 + 3)%nat with (3 + q * 4)%nat by lia.
    rewrite Nat.div_add by lia. cbn. lia.
  - change ((4 - 1) mod 4)%nat with 3%nat. replace (4 * q + 1 + 3)%nat with ((q + 1) * 4)%nat by lia.
    rewrite Nat.mod_mul, Nat.div_mul by lia. lia.
  - change ((4 - 2) mod 4)%nat with 2%nat. replace (4 * q + 2 + 2)%nat with ((q + 1) * 4)%nat by lia.
    rewrite Nat.mod_mul, Nat.div_mul by lia. replace (4 * q + 2 + 3)%nat with (1 + (q + 1) * 4)%nat by lia.
    rewrite Nat.div_add by lia. cbn. lia.
  - change ((4 - 3) mod 4)%nat with 1%nat. replace (4 * q + 3 + 1)%nat with ((q + 1) * 4)%nat by lia.
    rewrite Nat.mod_mul, Nat.div_mul by lia. replace (4 * q + 3 + 3)%nat with (2 + (q + 1) * 4)%nat by lia.
    rewrite Nat.div_add by lia. cbn. lia.
Qed.
Lemma left_sub pos n : (n <= left_over pos)%nat ->
  left_over (pos + n) = (left_over pos - n)%nat /\ ((pos + n + 3) / 4 = (pos + 3) / 4)%nat.
Proof.
  intros H. destruct (left_align pos) as (A & B & C). destruct (left_align (pos + n)) as (A' & B' & C').
  set (l := left_over pos) in *. set (l' := left_over (pos + n)) in *. clearbody l l'.
  assert (E : ((pos + n + l') = (pos + l))%nat).
  { pose proof (Nat.div_mod (pos + l) 4 ltac:(lia)). pose proof (Nat.div_mod (pos + n + l') 4 ltac:(lia)). lia. }
  split; [lia|]. rewrite <- B', E. exact B.
Qed.
Lemma left_words q m : (0 < m)%nat -> let w := ((m + 3) / 4)%nat in
  (4 * (w - 1) < m <= 4 * w /\ left_over (4 * q + m) = 4 * w - m /\ (4 * q + m + 3) / 4 = q + w)%nat.
Proof.
  intros Hm. cbn zeta. destruct (left_align (4 * q + m)) as (A & B & C).
  pose proof (Nat.div_mod (m + 3) 4 ltac:(lia)) as D. pose proof (Nat.mod_upper_bound (m + 3) 4 ltac:(lia)) as U.
  assert (F : ((4 * q + m + 3) / 4 = q + (m + 3) / 4)%nat).
  { replace (4 * q + m + 3)%nat with (m + 3 + q * 4)%nat by lia. rewrite Nat.div_add by lia. lia. }
  rewrite F in B. pose proof (Nat.div_mod (4 * q + m + left_over (4 * q + m)) 4 ltac:(lia)) as G.
  rewrite A, B in G. set (w := ((m + 3) / 4)%nat) in *. clearbody w. lia.
Qed.

(** The result of one call: the data xored with the keystream at the current position. *)
Definition zc_ret (pos n : nat) : Z := if (n <=? left_over pos)%nat then 0 else Z.of_nat n.

Lemma zc_encrypt_ok ck iv c pos data : zc_at ck iv c pos ->
  exists c', zc_encrypt c data = Ok (c', xorl data (Zstream ck iv pos (length data)), zc_ret pos (length data)) /\
             zc_at ck iv c' (pos + length data).
Proof.
  intros (Ck & Ci & R & K). unfold zc_encrypt. cbn zeta. rewrite K, Zstream_length. rewrite Ck, Ci.
  unfold zc_ret. destruct (Nat.leb_spec (length data) (left_over pos)) as [H|H].
  - rewrite Nat.min_r by lia. rewrite skipn_all.
    destruct (left_sub pos (length data) H) as [Q1 Q2].
    assert (S : Zstream ck iv pos (left_over pos) =
                Zstream ck iv pos (length data) ++ Zstream ck iv (pos + length data) (left_over pos - length data)).
    { rewrite <- Zstream_app. f_equal. lia. }
    eexists. split; [f_equal; f_equal; f_equal|].
    + rewrite S, xorl_comm. apply xorl_short_l. apply Zstream_length.
    + unfold zc_at. cbn [zc_ck zc_iv zc_zuc zc_key]. refine (conj eq_refl (conj eq_refl (conj _ _))).
      * rewrite Q2. exact R.
      * rewrite Q1, S, skipn_app, Zstream_length, Nat.sub_diag, skipn_O.
        rewrite skipn_all2 by (rewrite Zstream_length; lia). reflexivity.
  - rewrite Nat.min_l by lia. destruct (left_align pos) as (A & B & C).
    set (n := left_over pos) in *. set (q := ((pos + 3) / 4)%nat) in *.
    assert (Hq : (pos + n = 4 * q)%nat) by (pose proof (Nat.div_mod (pos + n) 4 ltac:(lia)); lia).
    assert (Lr : length (skipn n data) = (length data - n)%nat) by apply skipn_length.
    assert (Hd : data = firstn n data ++ skipn n data) by (symmetry; apply firstn_skipn).
    destruct (skipn n data) as [|d0 r0]; [cbn [length] in Lr; exfalso; clear - H Lr; lia|]. cbv iota beta.
    set (rest := d0 :: r0) in *. clearbody rest.
    set (m := length rest) in *. clearbody n q.
    destruct (left_words q m ltac:(lia)) as (W1 & W2 & W3). set (w := ((m + 3) / 4)%nat) in *.
    clearbody w.
    destruct (take_at ck iv (w - 1) (zc_zuc c) q R) as (z1 & E1 & R1). rewrite E1.
    rewrite <- Zstream_words. rewrite xor_all_ok by (rewrite Zstream_length; fold m; lia).
    rewrite Zstream_length.
    destruct (next_at z1 ck iv (q + (w - 1)) R1) as (z2 & E2 & R2 & _). rewrite E2.
    rewrite <- Zstream_word.
    rewrite xor_last_ok by (rewrite Zstream_length, skipn_length; fold m; lia).
    rewrite skipn_length. fold m.
    assert (O : xorl (Zstream ck iv pos n) data ++
                xorl (Zstream ck iv (4 * q) (4 * (w - 1))) rest ++
                xorl (Zstream ck iv (4 * (q + (w - 1))) 4) (skipn (4 * (w - 1)) rest) =
                xorl data (Zstream ck iv pos (length data))).
    { rewrite (xorl_comm data). replace (length data) with (n + m)%nat by (unfold m; lia).
      rewrite Zstream_app, Hq.
      replace (xorl (Zstream ck iv pos n) data) with (xorl (Zstream ck iv pos n) (firstn n data)).
      2:{ rewrite (xorl_trunc _ data), Zstream_length. reflexivity. }
      rewrite Hd at 2.
      rewrite xorl_app by (rewrite Zstream_length, firstn_length; lia).
      f_equal.
      replace m with (4 * (w - 1) + (m - 4 * (w - 1)))%nat by lia.
      rewrite Zstream_app.
      rewrite <- (firstn_skipn (4 * (w - 1)) rest) at 3.
      rewrite xorl_app by (rewrite Zstream_length, firstn_length; fold m; lia).
      f_equal.
      - rewrite (xorl_trunc _ rest), Zstream_length. reflexivity.
      - replace (4 * (q + (w - 1)))%nat with (4 * q + 4 * (w - 1))%nat by lia.
        rewrite xorl_firstn_r, skipn_length. fold m. f_equal.
        apply Zstream_firstn. lia. }
    rewrite O.
    eexists. split; [f_equal; f_equal|].
    + f_equal. rewrite xorl_length, Zstream_length. lia.
    + unfold zc_at. cbn [zc_ck zc_iv zc_zuc zc_key]. refine (conj eq_refl (conj eq_refl (conj _ _))).
      * replace (pos + length data)%nat with (4 * q + m)%nat by (unfold m; lia). rewrite W3.
        replace (q + w)%nat with (S (q + (w - 1)))%nat by lia. exact R2.
      * replace (pos + length data)%nat with (4 * q + m)%nat by (unfold m; lia). rewrite W2.
        rewrite skipn_all2 by (rewrite Zstream_length; lia). cbn [app].
        rewrite Zstream_skipn by lia.
        f_equal; lia.
Qed.

Lemma zrel_l17 z st : zrel z st -> length (z_lfsr z) = 17%nat.
Proof. intros R. apply R. Qed.
Lemma zc_reset_at ck iv c pos : zc_at ck iv c pos -> length ck = 16%nat -> length iv = 16%nat -> bytes ck -> bytes iv ->
  exists c', zc_reset c = Ok c' /\ zc_at ck iv c' 0.
Proof.
  intros (Ck & Ci & R & K) Lk Lv Bk Bv. unfold zc_reset. rewrite Ck, Ci.
  rewrite set_slice_fresh by (apply (zrel_l17 _ _ R)).
  destruct (from_slice_ok ck iv Lk Lv Bk Bv) as (z & -> & R0).
  eexists. split; [reflexivity|]. unfold zc_at. cbn [zc_ck zc_iv zc_zuc zc_key]. auto.
Qed.

(** ** The IV *)
Lemma shl8_mul x k : 0 <= k -> shl8 x k = (x * 2 ^ k) mod 256.
Proof. intros. unfold shl8. rewrite Z.shiftl_mul_pow2 by lia. reflexivity. Qed.
Lemma bearer8 b : byte b -> shl8 b 3 = 8 * (b mod 32).
Proof.
  intros. rewrite shl8_mul by lia. change (2 ^ 3) with 8. change 256 with (32 * 8).
  rewrite Z.mul_mod_distr_r by lia. ring.
Qed.
Lemma zc_iv_ok count bearer dir : byte bearer ->
  zc_iv_of count bearer dir = EEA3_iv count (bearer mod 32) (bool8 dir).
Proof.
  intros B. unfold zc_iv_of, EEA3_iv. cbn zeta.
  assert (L : length (be_bytes 4 count) = 4%nat) by apply be_bytes_length.
  revert L. generalize (be_bytes 4 count). intros c L.
  do 4 (destruct c as [|? c]; [discriminate L|]). destruct c; [|discriminate L].
  assert (E : Z.lor (shl8 bearer 3) (shl8 (bool8 dir) 2) = 8 * (bearer mod 32) + 4 * bool8 dir).
  { rewrite bearer8 by assumption. rewrite Z.mul_comm.
    rewrite (lor_add_split 8 3 (bearer mod 32)); [destruct dir; change (2 ^ 3) with 8; cbn; ring|lia|destruct dir; split; reflexivity || (cbn; lia)]. }
  rewrite E. generalize (8 * (bearer mod 32) + 4 * bool8 dir). intros y. reflexivity.
Qed.
Lemma EEA3_iv_ok count bearer dir : byte bearer ->
  length (EEA3_iv count (bearer mod 32) (bool8 dir)) = 16%nat /\ bytes (EEA3_iv count (bearer mod 32) (bool8 dir)).
Proof.
  intros B. unfold EEA3_iv. cbn zeta. split.
  - rewrite !app_length, be_bytes_length. reflexivity.
  - assert (Q : bytes (be_bytes 4 count ++ [8 * (bearer mod 32) + 4 * bool8 dir; 0; 0; 0])).
    { apply bytes_app. split; [apply be_bytes_bytes|].
      pose proof (Z.mod_pos_bound bearer 32 ltac:(lia)).
      repeat constructor; unfold byte; try lia; destruct dir; cbn [bool8]; lia. }
    apply bytes_app. split; exact Q.
Qed.
Lemma zc_new_ok count bearer dir ck : byte bearer -> length ck = 16%nat -> bytes ck ->
  let iv := EEA3_iv count (bearer mod 32) (bool8 dir) in
  exists c, zc_from_slice count bearer dir ck = Ok c /\ zc_at ck iv c 0.
Proof.
  intros B Lk Bk. cbn zeta. unfold zc_from_slice. rewrite Lk. cbn [Nat.eqb negb].
  rewrite zc_iv_ok by assumption. destruct (EEA3_iv_ok count bearer dir B) as [Lv Bv].
  set (iv := EEA3_iv count (bearer mod 32) (bool8 dir)) in *. clearbody iv.
  destruct (from_slice_ok ck iv Lk Lv Bk Bv) as (z & -> & R0).
  eexists. split; [reflexivity|]. unfold zc_at. cbn [zc_ck zc_iv zc_zuc zc_key]. auto.
Qed.

(** ** Histories of a cipher object *)
Inductive zc_op := ZEnc (m : list Z) | ZDec (m : list Z) | ZReset.
(** Runs a history; every call returns its output and its return value ([reset] returns nothing). *)
Definition zc_step (c : zcipher) (o : zc_op) : res (zcipher * (list Z * Z)) :=
  match o with
  | ZEnc m | ZDec m => rbind (zc_encrypt c m) (fun '(c, out, n) => Ok (c, (out, n)))
  | ZReset => rbind (zc_reset c) (fun c => Ok (c, ([], 0)))
  end.
Fixpoint zc_run (c : zcipher) (ops : list zc_op) : res (zcipher * list (list Z * Z)) :=
  match ops with
  | [] => Ok (c, [])
  | o :: ops => rbind (zc_step c o) (fun '(c, x) => rbind (zc_run c ops) (fun '(c, xs) => Ok (c, x :: xs)))
  end.
(** What the history should return, given the position in the keystream. *)
Fixpoint zc_expect (ck iv : list Z) (pos : nat) (ops : list zc_op) : list (list Z * Z) :=
  match ops with
  | [] => []
  | ZEnc m :: ops | ZDec m :: ops =>
      (xorl m (Zstream ck iv pos (length m)), zc_ret pos (length m)) :: zc_expect ck iv (pos + length m) ops
  | ZReset :: ops => ([], 0) :: zc_expect ck iv 0 ops
  end.
Fixpoint zc_pos (pos : nat) (ops : list zc_op) : nat :=
  match ops with
  | [] => pos
  | ZEnc m :: ops | ZDec m :: ops => zc_pos (pos + length m) ops
  | ZReset :: ops => zc_pos 0 ops
  end.
Lemma zc_run_ok ck iv : length ck = 16%nat -> length iv = 16%nat -> bytes ck -> bytes iv ->
  forall ops c pos, zc_at ck iv c pos ->
  exists c', zc_run c ops = Ok (c', zc_expect ck iv pos ops) /\ zc_at ck iv c' (zc_pos pos ops).
Proof.
  intros Lk Lv Bk Bv. induction ops as [|o ops IH]; intros c pos H.
  - exists c. auto.
  - destruct o as [m|m|].
    + destruct (zc_encrypt_ok ck iv c pos m H) as (c1 & E1 & H1). destruct (IH c1 _ H1) as (c2 & E2 & H2).
      exists c2. cbn [zc_run zc_step]. rewrite E1. cbn [rbind]. rewrite E2. auto.
    + destruct (zc_encrypt_ok ck iv c pos m H) as (c1 & E1 & H1). destruct (IH c1 _ H1) as (c2 & E2 & H2).
      exists c2. cbn [zc_run zc_step]. rewrite E1. cbn [rbind]. rewrite E2. auto.
    + destruct (zc_reset_at ck iv c pos H Lk Lv Bk Bv) as (c1 & E1 & H1). destruct (IH c1 _ H1) as (c2 & E2 & H2).
      exists c2. cbn [zc_run zc_step]. rewrite E1. cbn [rbind]. rewrite E2. auto.
Qed.

Lemma xorl_stream_app ck iv p a b :
  xorl (a ++ b) (Zstream ck iv p (length (a ++ b))) =
  xorl a (Zstream ck iv p (length a)) ++ xorl b (Zstream ck iv (p + length a) (length b)).
Proof. rewrite app_length, Zstream_app. apply xorl_app. rewrite Zstream_length. reflexivity. Qed.

Lemma expect_chunks ck iv ms : forall pos,
  concat (map fst (zc_expect ck iv pos (map ZEnc ms))) = xorl (concat ms) (Zstream ck iv pos (length (concat ms))).
Proof.
  induction ms as [|m ms IH]; intros pos; [reflexivity|].
  cbn [map zc_expect fst concat]. rewrite IH, xorl_stream_app. reflexivity.
Qed.
Lemma expect_chunks_dec ck iv ms : forall pos,
  concat (map fst (zc_expect ck iv pos (map ZDec ms))) = xorl (concat ms) (Zstream ck iv pos (length (concat ms))).
Proof.
  induction ms as [|m ms IH]; intros pos; [reflexivity|].
  cbn [map zc_expect fst concat]. rewrite IH, xorl_stream_app. reflexivity.
Qed.
Lemma EEA3_involutive ck iv p m : xorl (xorl m (Zstream ck iv p (length m))) (Zstream ck iv p (length m)) = m.
Proof. apply xorl_cancel. rewrite Zstream_length. lia. Qed.

(** ** The MAC *)
Lemma horner_spec (b : nat -> bool) n : forall k, 0 <= k ->
  Z.testbit (fold_left (fun acc j => 2 * acc + (if b j then 1 else 0)) (seq 0 n) 0) k =
  if k <? Z.of_nat n then b (n - 1 - Z.to_nat k)%nat else false.
Proof.
  induction n as [|n IH]; intros k Hk.
  - cbn [seq fold_left]. rewrite Z.bits_0. destruct (k <? Z.of_nat 0) eqn:E; [lia|reflexivity].
  - rewrite seq_S, fold_left_app. cbn [fold_left].
    set (a := fold_left _ (seq 0 n) 0) in *. cbn [Nat.add].
    destruct (Z.eq_dec k 0) as [->|N].
    + replace (0 <? Z.of_nat (S n)) with true by lia. replace (S n - 1 - Z.to_nat 0)%nat with n by lia.
      rewrite Z.add_comm. destruct (b n).
      * rewrite Z.add_comm. apply Z.testbit_odd_0.
      * rewrite Z.add_0_l. apply Z.testbit_even_0.
    + replace k with (Z.succ (k - 1)) at 1 by lia.
      assert (T : Z.testbit (2 * a + (if b n then 1 else 0)) (Z.succ (k - 1)) = Z.testbit a (k - 1)).
      { destruct (b n); [apply Z.testbit_odd_succ; lia|rewrite Z.add_0_r; apply Z.testbit_even_succ; lia]. }
      rewrite T, IH by lia.
      replace (k <? Z.of_nat (S n)) with (k - 1 <? Z.of_nat n) by lia.
      destruct (k - 1 <? Z.of_nat n) eqn:E; [|reflexivity]. f_equal. lia.
Qed.

Lemma Zword_ww ck iv i : length ck = 16%nat -> length iv = 16%nat -> bytes ck -> bytes iv -> ww 32 (Zword ck iv i).
Proof.
  intros Lk Lv Bk Bv. destruct (from_slice_ok ck iv Lk Lv Bk Bv) as (z & _ & R).
  destruct (take_at ck iv i z 0 R) as (z' & _ & R'). destruct (next_at _ _ _ _ R') as (_ & _ & _ & W). exact W.
Qed.

Section Mac.
Variables ck iv : list Z.
Hypothesis Lk : length ck = 16%nat.
Hypothesis Lv : length iv = 16%nat.
Hypothesis Bk : bytes ck.
Hypothesis Bv : bytes iv.

Lemma Zwin_bits i k : 0 <= k -> Z.testbit (Zwin ck iv i) k = if k <? 32 then Zbit ck iv (i + (31 - Z.to_nat k)) else false.
Proof. intros Hk. unfold Zwin. rewrite (horner_spec (fun j => Zbit ck iv (i + j)) 32 k Hk). reflexivity. Qed.

Lemma Zwin_nonneg i : 0 <= Zwin ck iv i.
Proof.
  unfold Zwin. generalize (seq 0 32). intros l.
  assert (G : forall a, 0 <= a -> 0 <= fold_left (fun acc j => 2 * acc + (if Zbit ck iv (i + j) then 1 else 0)) l a).
  { induction l as [|j l IH]; intros a Ha; [exact Ha|]. cbn [fold_left]. apply IH. destruct (Zbit ck iv (i + j)); lia. }
  apply G. lia.
Qed.
Lemma Zwin_ww i : ww 32 (Zwin ck iv i).
Proof.
  apply ww_bits; [lia|apply Zwin_nonneg|]. intros k Hk. rewrite Zwin_bits by lia.
  destruct (Z.ltb_spec k 32); [lia|reflexivity].
Qed.

Lemma Zbit_at q r : (r < 32)%nat -> Zbit ck iv (32 * q + r) = Z.testbit (Zword ck iv q) (31 - Z.of_nat r).
Proof.
  intros H. unfold Zbit. replace (32 * q + r)%nat with (r + q * 32)%nat by lia.
  rewrite Nat.div_add, Nat.mod_add by lia. rewrite Nat.div_small, Nat.mod_small by lia. reflexivity.
Qed.
Lemma Zwin_word q : Zwin ck iv (32 * q) = Zword ck iv q.
Proof.
  apply (ww_eq 32); [lia|apply Zwin_ww|apply Zword_ww; assumption|].
  intros i Hi. rewrite Zwin_bits by lia. destruct (Z.ltb_spec i 32); [|lia].
  rewrite Zbit_at by lia. f_equal. lia.
Qed.
Lemma shl32_bits x k i : 0 <= k -> 0 <= i < 32 -> Z.testbit (shl32 x k) i = if i <? k then false else Z.testbit x (i - k).
Proof.
  intros Hk Hi. unfold shl32. change M32 with (2 ^ 32). rewrite Z.mod_pow2_bits_low by lia.
  destruct (Z.ltb_spec i k); [apply Z.shiftl_spec_low; lia|apply Z.shiftl_spec; lia].
Qed.
Lemma straddle_win q r : (0 < r < 32)%nat ->
  straddle (Zword ck iv q) (Zword ck iv (S q)) (Z.of_nat r) = Zwin ck iv (32 * q + r).
Proof.
  intros Hr. pose proof (Zword_ww ck iv (S q) Lk Lv Bk Bv) as W1.
  apply (ww_eq 32); [lia| |apply Zwin_ww|].
  - unfold straddle. apply ww_lor; [lia| |].
    + unfold shl32, ww. apply Z.mod_pos_bound. reflexivity.
    + rewrite Z.shiftr_div_pow2 by lia. apply (ww_SHR 32 (32 - Z.of_nat r)); [lia|exact W1].
  - intros i Hi. rewrite Zwin_bits by lia. destruct (Z.ltb_spec i 32); [|lia].
    unfold straddle. rewrite Z.lor_spec, shl32_bits, Z.shiftr_spec by lia.
    destruct (Z.ltb_spec i (Z.of_nat r)).
    + rewrite Bool.orb_false_l.
      replace (32 * q + r + (31 - Z.to_nat i))%nat with (32 * S q + (r - 1 - Z.to_nat i))%nat by lia.
      rewrite Zbit_at by lia. f_equal. lia.
    + rewrite (ww_high 32 (Zword ck iv (S q)) (i + (32 - Z.of_nat r))) by (try exact W1; lia).
      rewrite Bool.orb_false_r.
      replace (32 * q + r + (31 - Z.to_nat i))%nat with (32 * q + (r + 31 - Z.to_nat i))%nat by lia.
      rewrite Zbit_at by lia. f_equal. lia.
Qed.

Lemma land_pow2 x t : 0 <= t -> Z.land x (2 ^ t) = if Z.testbit x t then 2 ^ t else 0.
Proof.
  intros Ht. apply Z.bits_inj'. intros n Hn. rewrite Z.land_spec, Z.pow2_bits_eqb by lia.
  destruct (Z.eqb_spec t n) as [<-|N].
  - destruct (Z.testbit x t) eqn:E; cbn [andb]; [rewrite Z.pow2_bits_eqb by lia; lia|rewrite Z.bits_0; reflexivity].
  - rewrite Bool.andb_false_r. destruct (Z.testbit x t); [rewrite Z.pow2_bits_eqb by lia; lia|rewrite Z.bits_0; reflexivity].
Qed.
Lemma is_one_ok data i : is_one data i = Mbit data i.
Proof.
  unfold is_one, Mbit. pose proof (Nat.mod_upper_bound i 8 ltac:(lia)).
  set (t := 7 - Z.of_nat (i mod 8)). assert (0 <= t < 8) by lia.
  assert (E : shl8 1 t = 2 ^ t).
  { rewrite shl8_mul, Z.mul_1_l by lia. apply Z.mod_small. split; [apply Z.pow_nonneg; lia|].
    change 256 with (2 ^ 8). apply Z.pow_lt_mono_r; lia. }
  rewrite E, land_pow2 by lia. destruct (Z.testbit _ t); [|reflexivity].
  apply Z.ltb_lt. apply Z.pow_pos_nonneg; lia.
Qed.

Lemma XORs_snoc l x : XORs (l ++ [x]) = Z.lxor (XORs l) x.
Proof. unfold XORs. rewrite fold_left_app. reflexivity. Qed.

Definition part_sum (off : nat) (m : list Z) (n : nat) : Z :=
  XORs (map (fun i => if Mbit m i then Zwin ck iv (off + i) else 0) (seq 0 n)).
Lemma part_sum_S off m n : part_sum off m (S n) = Z.lxor (part_sum off m n) (if Mbit m n then Zwin ck iv (off + n) else 0).
Proof. unfold part_sum. rewrite seq_S, map_app. cbn [map Nat.add]. apply XORs_snoc. Qed.

Lemma mac_loop m z p t : zrel z (zstate_at ck iv (p + 2)) ->
  forall n, exists z',
    fold_left (mac_bit m) (seq 0 n) (z, Zword ck iv p, Zword ck iv (S p), t) =
      (z', Zword ck iv (p + n / 32), Zword ck iv (S (p + n / 32)), Z.lxor t (part_sum (32 * p) m n)) /\
    zrel z' (zstate_at ck iv (p + n / 32 + 2)).
Proof.
  intros R. induction n as [|n (z1 & E1 & R1)].
  - exists z. cbn [seq fold_left]. change (0 / 32)%nat with 0%nat. rewrite Nat.add_0_r.
    unfold part_sum, XORs. cbn [seq map fold_left]. rewrite Z.lxor_0_r. auto.
  - rewrite seq_S, fold_left_app. cbn [Nat.add]. rewrite E1. cbn [fold_left]. unfold mac_bit.
    rewrite is_one_ok.
    pose proof (Nat.div_mod n 32 ltac:(lia)) as D. pose proof (Nat.mod_upper_bound n 32 ltac:(lia)) as U.
    assert (T : (if Mbit m n
                 then if (n mod 32 =? 0)%nat then Z.lxor (Z.lxor t (part_sum (32 * p) m n)) (Zword ck iv (p + n / 32))
                      else Z.lxor (Z.lxor t (part_sum (32 * p) m n))
                             (straddle (Zword ck iv (p + n / 32)) (Zword ck iv (S (p + n / 32))) (Z.of_nat (n mod 32)))
                 else Z.lxor t (part_sum (32 * p) m n)) = Z.lxor t (part_sum (32 * p) m (S n))).
    { rewrite part_sum_S. destruct (Mbit m n); [|rewrite Z.lxor_0_r; reflexivity].
      assert (P : (32 * p + n = 32 * (p + n / 32) + n mod 32)%nat) by lia. rewrite P.
      rewrite <- Z.lxor_assoc.
      destruct (Nat.eqb_spec (n mod 32) 0) as [Z0|N0].
      - rewrite Z0, Nat.add_0_r, Zwin_word. reflexivity.
      - rewrite straddle_win by lia. reflexivity. }
    rewrite T.
    destruct (Nat.eqb_spec (n mod 32) 31) as [E|N].
    + destruct (next_at _ _ _ _ R1) as (z2 & E2 & R2 & _). rewrite E2. exists z2.
      assert (Q : (S n / 32 = S (n / 32))%nat) by (symmetry; apply (Nat.div_unique (S n) 32 (S (n / 32)) 0); lia).
      rewrite Q. replace (p + S (n / 32))%nat with (S (p + n / 32)) by lia.
      split; [|replace (S (p + n / 32) + 2)%nat with (S (p + n / 32 + 2)) by lia; exact R2].
      replace (p + n / 32 + 2)%nat with (S (S (p + n / 32))) by lia. reflexivity.
    + exists z1. assert (Q : (S n / 32 = n / 32)%nat) by (symmetry; apply (Nat.div_unique (S n) 32 (n / 32) (S (n mod 32))); lia).
      rewrite Q. auto.
Qed.

(** A MAC object that has consumed [w] keystream words. *)
Definition zm_at (m : zmac) (w : nat) (t len : Z) (k0 k1 : Z) : Prop :=
  zm_ck m = ck /\ zm_iv m = iv /\ zm_is_check m = false /\ zm_t m = t /\ zm_length m = len /\
  zm_key0 m = k0 /\ zm_key1 m = k1 /\ zrel (zm_zuc m) (zstate_at ck iv w).

Lemma zm_write_at m w t len k0 k1 data : zm_at m w t len k0 k1 ->
  let w' := (w + length data / 4 + 2)%nat in
  zm_at (zm_write m data) w' (Z.lxor t (EIA3_sum ck iv (32 * w) data)) (len + 8 * Z.of_nat (length data))
        (Zword ck iv (w' - 2)) (Zword ck iv (w' - 1)).
Proof.
  intros (Ek & Ev & Ec & Et & El & _ & _ & R). cbn zeta. unfold zm_write. rewrite Ec. cbn zeta.
  destruct (next_at _ _ _ _ R) as (z1 & E1 & R1 & _). rewrite E1.
  destruct (next_at _ _ _ _ R1) as (z2 & E2 & R2 & _). rewrite E2.
  replace (S (S w)) with (w + 2)%nat in R2 by lia.
  destruct (mac_loop data z2 w (zm_t m) R2 (8 * length data)) as (z3 & E3 & R3). rewrite E3.
  assert (Q : (8 * length data / 32 = length data / 4)%nat).
  { replace 32%nat with (8 * 4)%nat by lia. apply Nat.div_mul_cancel_l; lia. }
  rewrite Q in *. unfold zm_at. cbn [zm_ck zm_iv zm_is_check zm_t zm_length zm_key0 zm_key1 zm_zuc].
  rewrite Ek, Ev, Et, El. refine (conj eq_refl (conj eq_refl (conj Ec (conj eq_refl (conj _ (conj _ (conj _ R3))))))).
  - lia.
  - f_equal. lia.
  - f_equal. lia.
Qed.

Lemma mod32_nat n : Z.of_nat n mod 32 = Z.of_nat (n mod 32).
Proof. rewrite Nat2Z.inj_mod. reflexivity. Qed.

Lemma zm_checksum_at m w t n : zm_at m w t (Z.of_nat n) (Zword ck iv (w - 2)) (Zword ck iv (w - 1)) -> (2 <= w)%nat ->
  snd (zm_checksum m) =
    be_bytes 4 (Z.lxor (Z.lxor t (Zwin ck iv (32 * (w - 2) + n mod 32)))
                       (Zwin ck iv (32 * (if (n mod 32 =? 0)%nat then w - 1 else w)))).
Proof.
  intros (Ek & Ev & Ec & Et & El & E0 & E1 & R) Hw. unfold zm_checksum. rewrite Ec, El, Et, E0, E1.
  rewrite mod32_nat. pose proof (Nat.mod_upper_bound n 32 ltac:(lia)).
  destruct (Nat.eqb_spec (n mod 32) 0) as [Z0|N0].
  - rewrite Z0. cbn [Z.of_nat Z.eqb snd]. rewrite Nat.add_0_r, !Zwin_word. reflexivity.
  - destruct (Z.eqb_spec (Z.of_nat (n mod 32)) 0); [lia|].
    destruct (next_at _ _ _ _ R) as (z' & EN & _ & _). rewrite EN. cbn [snd].
    rewrite Zwin_word. replace (w - 1)%nat with (S (w - 2)) by lia.
    rewrite straddle_win by lia. reflexivity.
Qed.
End Mac.

(** What a sequence of writes adds up to: the sum of the chunks, each taken two words after the end of the last. *)
Fixpoint chunk_sum (ck iv : list Z) (w : nat) (ms : list (list Z)) : Z :=
  match ms with
  | [] => 0
  | m :: ms => Z.lxor (EIA3_sum ck iv (32 * w) m) (chunk_sum ck iv (w + length m / 4 + 2) ms)
  end.
Fixpoint chunk_words (ms : list (list Z)) : nat :=
  match ms with [] => 0 | m :: ms => length m / 4 + 2 + chunk_words ms end%nat.
Definition chunked_mac (ck iv : list Z) (ms : list (list Z)) : list Z :=
  let w := chunk_words ms in
  let n := (8 * length (concat ms))%nat in
  be_bytes 4 (Z.lxor (Z.lxor (chunk_sum ck iv 0 ms) (Zwin ck iv (32 * (w - 2) + n mod 32)))
                     (Zwin ck iv (32 * (if (n mod 32 =? 0)%nat then w - 1 else w)))).

Lemma writes_at ck iv : length ck = 16%nat -> length iv = 16%nat -> bytes ck -> bytes iv ->
  forall ms m w t n k0 k1, ms <> [] -> zm_at ck iv m w t (Z.of_nat n) k0 k1 ->
  let w' := (w + chunk_words ms)%nat in
  zm_at ck iv (fold_left zm_write ms m) w' (Z.lxor t (chunk_sum ck iv w ms)) (Z.of_nat (n + 8 * length (concat ms)))
        (Zword ck iv (w' - 2)) (Zword ck iv (w' - 1)).
Proof.
  intros Lk Lv Bk Bv. induction ms as [|a ms IH]; intros m w t n k0 k1 NE H; [congruence|].
  cbn zeta. cbn [fold_left concat chunk_words chunk_sum].
  pose proof (zm_write_at ck iv Lk Lv Bk Bv m w t (Z.of_nat n) k0 k1 a H) as H1. cbn zeta in H1.
  replace (Z.of_nat n + 8 * Z.of_nat (length a)) with (Z.of_nat (n + 8 * length a)) in H1 by lia.
  destruct ms as [|b ms].
  - cbn [fold_left concat chunk_words chunk_sum]. rewrite app_nil_r, Z.lxor_0_r, Nat.add_0_r.
    replace (w + (length a / 4 + 2))%nat with (w + length a / 4 + 2)%nat by lia. exact H1.
  - apply IH in H1; [|discriminate]. cbn zeta in H1.
    replace (w + (length a / 4 + 2 + chunk_words (b :: ms)))%nat with (w + length a / 4 + 2 + chunk_words (b :: ms))%nat by lia.
    rewrite app_length. replace (n + 8 * (length a + length (concat (b :: ms))))%nat with (n + 8 * length a + 8 * length (concat (b :: ms)))%nat by lia.
    rewrite <- Z.lxor_assoc. exact H1.
Qed.

Lemma zm_iv_ok count bearer dir : byte bearer ->
  zm_iv_of count bearer dir = EIA3_iv count (bearer mod 32) (bool8 dir) .
Proof.
  intros B. unfold zm_iv_of, EIA3_iv. cbn zeta.
  assert (L : length (be_bytes 4 count) = 4%nat) by apply be_bytes_length.
  revert L. generalize (be_bytes 4 count). intros c L.
  do 4 (destruct c as [|? c]; [discriminate L|]). destruct c; [|discriminate L].
  rewrite bearer8 by assumption. generalize (8 * (bearer mod 32)). intros y. destruct dir; reflexivity.
Qed.
Lemma EIA3_iv_ok count bearer dir : byte bearer ->
  length (EIA3_iv count (bearer mod 32) (bool8 dir)) = 16%nat /\ bytes (EIA3_iv count (bearer mod 32) (bool8 dir)).
Proof.
  intros B. unfold EIA3_iv. cbn zeta.
  pose proof (be_bytes_length 4 count) as L. pose proof (be_bytes_bytes 4 count) as C.
  revert L C. generalize (be_bytes 4 count). intros c L C.
  do 4 (destruct c as [|? c]; [discriminate L|]). destruct c; [|discriminate L].
  split; [reflexivity|]. pose proof (Z.mod_pos_bound bearer 32 ltac:(lia)).
  repeat (apply Forall_cons_iff in C as [? C]).
  assert (byte (8 * (bearer mod 32))) by (unfold byte; lia).
  assert (byte (128 * bool8 dir)) by (unfold byte; destruct dir; cbn; lia).
  assert (byte 0) by (unfold byte; lia).
  assert (byte (Z.lxor z (128 * bool8 dir))) by (apply lxor_byte; assumption).
  cbn [app tl nth]. repeat (apply Forall_cons; [assumption|]). constructor.
Qed.
Lemma zm_new_ok count bearer dir ck : byte bearer -> length ck = 16%nat -> bytes ck ->
  let iv := EIA3_iv count (bearer mod 32) (bool8 dir) in
  exists m, zm_from_slice count bearer dir ck = Ok m /\ zm_at ck iv m 0 0 (Z.of_nat 0) 0 0.
Proof.
  intros B Lk Bk. cbn zeta. unfold zm_from_slice. rewrite Lk. cbn [Nat.eqb negb].
  rewrite zm_iv_ok by assumption. destruct (EIA3_iv_ok count bearer dir B) as [Lv Bv].
  set (iv := EIA3_iv count (bearer mod 32) (bool8 dir)) in *. clearbody iv.
  destruct (from_slice_ok ck iv Lk Lv Bk Bv) as (z & -> & R0).
  eexists. split; [reflexivity|]. unfold zm_at. cbn [zm_ck zm_iv zm_is_check zm_t zm_length zm_key0 zm_key1 zm_zuc]. auto 10.
Qed.

Lemma chunked_single ck iv m :
  chunked_mac ck iv [m] =
  let len := (8 * length m)%nat in
  be_bytes 4 (Z.lxor (Z.lxor (EIA3_sum ck iv 0 m) (Zwin ck iv len)) (Zwin ck iv (32 * ((len + 31) / 32 + 2 - 1)))).
Proof.
  unfold chunked_mac. cbn zeta. cbn [chunk_words chunk_sum concat]. rewrite app_nil_r, Z.lxor_0_r, Nat.add_0_r.
  change (32 * 0)%nat with 0%nat.
  set (n := (8 * length m)%nat).
  assert (Q : (length m / 4 = n / 32)%nat).
  { unfold n. replace 32%nat with (8 * 4)%nat by lia. rewrite Nat.div_mul_cancel_l; lia. }
  rewrite Q. replace (n / 32 + 2 - 2)%nat with (n / 32)%nat by lia.
  pose proof (Nat.div_mod n 32 ltac:(lia)) as D. pose proof (Nat.mod_upper_bound n 32 ltac:(lia)) as U.
  rewrite <- D.
  replace (if (n mod 32 =? 0)%nat then (n / 32 + 2 - 1)%nat else (n / 32 + 2)%nat) with ((n + 31) / 32 + 2 - 1)%nat; [reflexivity|].
  destruct (Nat.eqb_spec (n mod 32) 0) as [Z0|N0].
  - replace ((n + 31) / 32)%nat with (n / 32)%nat; [reflexivity|]. apply (Nat.div_unique (n + 31) 32 (n / 32) 31); lia.
  - replace ((n + 31) / 32)%nat with (S (n / 32))%nat; [lia|]. apply (Nat.div_unique (n + 31) 32 (S (n / 32)) (n mod 32 - 1)); lia.
Qed.

(** Any history of writes, checksums and resets, then a reset, is the fresh object. *)
Inductive zm_op := MWrite (m : list Z) | MSum | MReset.
Definition zm_exec (m : zmac) (o : zm_op) : zmac :=
  match o with MWrite d => zm_write m d | MSum => fst (zm_checksum m) | MReset => zm_reset m end.
Definition zm_inv (ck iv : list Z) (m : zmac) : Prop :=
  zm_ck m = ck /\ zm_iv m = iv /\ zm_is_check m = false /\ exists w, zrel (zm_zuc m) (zstate_at ck iv w).

Lemma zm_reset_fresh count bearer dir ck m0 m : byte bearer -> length ck = 16%nat -> bytes ck ->
  zm_from_slice count bearer dir ck = Ok m0 ->
  zm_inv ck (EIA3_iv count (bearer mod 32) (bool8 dir)) m -> zm_reset m = m0.
Proof.
  intros B Lk Bk E (Ek & Ev & Ec & w & R). unfold zm_from_slice in E. rewrite Lk in E. cbn [Nat.eqb negb] in E.
  rewrite zm_iv_ok in E by assumption.
  set (iv := EIA3_iv count (bearer mod 32) (bool8 dir)) in *. clearbody iv.
  unfold zm_reset. rewrite Ek, Ev, Ec. rewrite set_slice_fresh by (apply (zrel_l17 _ _ R)).
  destruct (zuc_from_slice ck iv); cbn [rbind] in E; congruence.
Qed.
Lemma zm_exec_inv ck iv m o : length ck = 16%nat -> length iv = 16%nat -> bytes ck -> bytes iv ->
  zm_inv ck iv m -> zm_inv ck iv (zm_exec m o).
Proof.
  intros Lk Lv Bk Bv (Ek & Ev & Ec & w & R). destruct o as [d| |]; cbn [zm_exec].
  - assert (A : zm_at ck iv m w (zm_t m) (zm_length m) (zm_key0 m) (zm_key1 m)) by (unfold zm_at; auto 10).
    pose proof (zm_write_at ck iv Lk Lv Bk Bv m w _ _ _ _ d A) as (A1 & A2 & A3 & _ & _ & _ & _ & A4).
    unfold zm_inv. eauto.
  - unfold zm_checksum. rewrite Ec.
    destruct (zm_length m mod 32 =? 0).
    + unfold zm_inv. cbn. eauto 6.
    + destruct (next_at _ _ _ _ R) as (z' & EN & R' & _). rewrite EN. unfold zm_inv. cbn [fst zm_ck zm_iv zm_is_check zm_zuc]. eauto 6.
  - unfold zm_reset. rewrite Ek, Ev. rewrite set_slice_fresh by (apply (zrel_l17 _ _ R)).
    destruct (from_slice_ok ck iv Lk Lv Bk Bv) as (z & -> & R0). unfold zm_inv. cbn [zm_ck zm_iv zm_is_check zm_zuc].
    refine (conj eq_refl (conj eq_refl (conj Ec _))). exists 0%nat. exact R0.
Qed.
Lemma zm_run_inv ck iv ops : length ck = 16%nat -> length iv = 16%nat -> bytes ck -> bytes iv ->
  forall m, zm_inv ck iv m -> zm_inv ck iv (fold_left zm_exec ops m).
Proof.
  intros Lk Lv Bk Bv. induction ops as [|o ops IH]; intros m H; [exact H|]. cbn [fold_left].
  apply IH. apply zm_exec_inv; assumption.
Qed.
