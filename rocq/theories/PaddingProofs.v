(** Lemmas about src/cipher_mode/padding.rs. *)
From Verif Require Import Base ModesModel ModesSpec.

Lemma resize0_ge k l : (length l <= k)%nat -> resize0 k l = l ++ repeat 0 (k - length l).
Proof. intros H. unfold resize0. rewrite firstn_all2 by lia. reflexivity. Qed.

Lemma default_pad_eq n m : (0 < n)%nat -> default_pad n m = pad10 n m.
Proof.
  intros Hn. unfold default_pad, pad10. rewrite app_length. cbn [length].
  pose proof (Nat.mod_upper_bound (length m + 1) n ltac:(lia)) as Hu.
  assert (G : forall k, (length m + 1 <= k)%nat -> (k - (length m + 1) = n - (length m + 1) mod n)%nat ->
     resize0 k (m ++ [128]) = m ++ 128 :: repeat 0 (n - (length m + 1) mod n)).
  { intros k Hk E. rewrite resize0_ge; rewrite app_length; cbn [length]; [|lia].
    rewrite E, <- app_assoc. reflexivity. }
  destruct (Nat.ltb_spec n (length m + 1)) as [H1|H1].
  - apply G; lia.
  - destruct (Nat.ltb_spec (length m + 1) n) as [H2|H2].
    + apply G; [lia|]. rewrite Nat.mod_small by lia. lia.
    + assert (E : (length m + 1 = n)%nat) by lia. apply G; [lia|]. rewrite E, Nat.mod_same by lia. lia.
Qed.

Lemma pad10_length n m : (0 < n)%nat ->
  length (pad10 n m) = (length m + 1 + (n - (length m + 1) mod n))%nat.
Proof. intros Hn. unfold pad10. rewrite app_length. cbn [length]. rewrite repeat_length. lia. Qed.

Lemma pad10_mod n m : (0 < n)%nat -> (length (pad10 n m) mod n = 0)%nat.
Proof.
  intros Hn. rewrite pad10_length by auto.
  pose proof (Nat.div_mod (length m + 1) n ltac:(lia)) as Hd.
  pose proof (Nat.mod_upper_bound (length m + 1) n ltac:(lia)) as Hu.
  set (q := ((length m + 1) / n)%nat) in *. set (r := ((length m + 1) mod n)%nat) in *.
  replace (length m + 1 + (n - r))%nat with ((q + 1) * n)%nat by lia.
  apply Nat.mod_mul. lia.
Qed.

Lemma pad10_bytes n m : bytes m -> bytes (pad10 n m).
Proof.
  intros H. unfold pad10. apply bytes_app. split; auto. constructor; [unfold byte; lia|].
  apply bytes_repeat. unfold byte; lia.
Qed.

Lemma pad10_app n a m : (0 < n)%nat -> (length a mod n = 0)%nat -> pad10 n (a ++ m) = a ++ pad10 n m.
Proof.
  intros Hn Ha. unfold pad10. rewrite <- app_assoc, app_length.
  replace ((length a + length m + 1) mod n)%nat with ((length m + 1) mod n)%nat; [reflexivity|].
  replace (length a + length m + 1)%nat with (length a + (length m + 1))%nat by lia.
  rewrite (Nat.add_mod (length a)) by lia. rewrite Ha. cbn [Nat.add].
  rewrite Nat.mod_mod by lia. reflexivity.
Qed.

(** [unpad_scan] over the reversed suffix [t] that contains no 0x80. *)
Definition zeros (t : list Z) : nat := length (filter (Z.eqb 0) t).

Lemma unpad_scan_none r k : ~ In 128 r -> unpad_scan r k = None.
Proof.
  revert k; induction r as [|e r IH]; intros k H; cbn; auto.
  destruct (Z.eqb_spec e 0); [apply IH; intros ?; apply H; right; auto|].
  destruct (Z.eqb_spec e 128) as [->|]; [exfalso; apply H; left; auto|].
  apply IH; intros ?; apply H; right; auto.
Qed.

Lemma unpad_scan_some t a k : ~ In 128 t ->
  unpad_scan (t ++ 128 :: a) k = Some (k + zeros t)%nat.
Proof.
  revert k; induction t as [|e t IH]; intros k H.
  - cbn. f_equal. lia.
  - cbn [app unpad_scan]. unfold zeros. cbn [filter]. rewrite (Z.eqb_sym 0 e).
    destruct (Z.eqb_spec e 0) as [->|].
    + rewrite IH by (intros ?; apply H; right; auto). unfold zeros. cbn [length]. f_equal. lia.
    + destruct (Z.eqb_spec e 128) as [->|]; [exfalso; apply H; left; auto|].
      rewrite IH by (intros ?; apply H; right; auto). reflexivity.
Qed.

Lemma zeros_rev t : zeros (rev t) = zeros t.
Proof.
  unfold zeros. induction t as [|e t IH]; auto.
  cbn [rev]. rewrite filter_app, app_length, IH. cbn [filter].
  destruct (0 =? e); cbn [length]; lia.
Qed.

Lemma zeros_le t : (zeros t <= length t)%nat.
Proof.
  unfold zeros. induction t as [|e t IH]; auto. cbn [filter].
  destruct (0 =? e); cbn [length]; lia.
Qed.

Lemma default_unpad_found a t : ~ In 128 t ->
  let keep := (length a + (length t - zeros t))%nat in
  default_unpad (a ++ 128 :: t) = (firstn keep (a ++ 128 :: t), Ok keep).
Proof.
  intros H keep. unfold default_unpad.
  rewrite rev_app_distr. cbn [rev]. rewrite <- app_assoc. cbn [app].
  rewrite unpad_scan_some by (rewrite <- in_rev; auto). rewrite zeros_rev. cbv zeta.
  pose proof (zeros_le t) as Hz.
  assert (E : (length (a ++ 128%Z :: t) - (0 + zeros t) - 1 = keep)%nat).
  { rewrite app_length. cbn [length]. unfold keep. lia. }
  rewrite E. f_equal. f_equal. rewrite firstn_length, app_length. cbn [length]. unfold keep. lia.
Qed.

Lemma default_unpad_missing buf : ~ In 128 buf -> default_unpad buf = (buf, Err UnpaddingNotMatch).
Proof.
  intros H. unfold default_unpad. rewrite unpad_scan_none; auto. rewrite <- in_rev. auto.
Qed.

Lemma zeros_repeat k : zeros (repeat 0 k) = k.
Proof. unfold zeros. induction k; cbn in *; auto. Qed.

Lemma in_repeat_0 x k : In x (repeat 0 k) -> x = 0.
Proof. intros H. apply repeat_spec in H. auto. Qed.

Lemma unpad_10 a k : default_unpad (a ++ 128 :: repeat 0 k) = (a, Ok (length a)).
Proof.
  rewrite default_unpad_found.
  - rewrite repeat_length, zeros_repeat, Nat.sub_diag, Nat.add_0_r.
    rewrite firstn_app, firstn_all, Nat.sub_diag. cbn [firstn]. rewrite app_nil_r. reflexivity.
  - intros H. apply in_repeat_0 in H. lia.
Qed.

Lemma unpad_pad10 n m : default_unpad (pad10 n m) = (m, Ok (length m)).
Proof. apply unpad_10. Qed.

(** Every string containing 0x80 has a last occurrence. *)
Lemma last_occ buf : In 128 buf -> exists a t, buf = a ++ 128 :: t /\ ~ In 128 t.
Proof.
  induction buf as [|e buf IH]; intros H; [inversion H|].
  destruct (in_dec Z.eq_dec 128 buf) as [Hin|Hnin].
  - destruct (IH Hin) as (a & t & -> & Ht). exists (e :: a), t. auto.
  - destruct H as [->|H]; [|contradiction]. exists [], buf. auto.
Qed.

(** When does the result equal what a strict unpadding would return? *)
Lemma unpad_strict_iff a t : ~ In 128 t ->
  (fst (default_unpad (a ++ 128 :: t)) = a <-> t = repeat 0 (length t)).
Proof.
  intros H. rewrite default_unpad_found by auto. cbn [fst]. split; intros E.
  - apply (f_equal (@length Z)) in E. rewrite firstn_length, app_length in E. cbn [length] in E.
    pose proof (zeros_le t) as Hz.
    assert (Ez : zeros t = length t) by lia. clear E H Hz.
    unfold zeros in Ez. induction t as [|e t IH]; auto. cbn [filter length repeat] in *.
    destruct (Z.eqb_spec 0 e) as [<-|].
    + cbn [length] in Ez. rewrite <- IH by lia. reflexivity.
    + pose proof (zeros_le t) as Hz. unfold zeros in Hz. lia.
  - rewrite E, zeros_repeat, repeat_length, Nat.sub_diag, Nat.add_0_r.
    rewrite firstn_app, firstn_all, Nat.sub_diag. cbn [firstn]. apply app_nil_r.
Qed.
