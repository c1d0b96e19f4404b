(** Common vocabulary of the model: results, bytes, byte strings, integers as
    byte strings.  No property of the repository is stated here. *)
From Coq Require Export List Arith ZArith Lia Bool.
From Coq Require Export ZifyBool ZifyNat.
Export ListNotations.
Open Scope Z_scope.

(** src/crypto_err.rs: [CryptoErrorKind] (the message string is dropped). *)
Inductive err :=
| InvalidParameter | NotSupportUsage | RandError | UnpaddingNotMatch
| InvalidPublicKey | InvalidPrivateKey | VerificationFailed | OuterErr | InnerErr.

(** [Result<A, CryptoError>], with a third value for a Rust panic (or a loop
    that would not terminate). *)
Inductive res (A : Type) := Ok (a : A) | Err (e : err) | Panic.
Arguments Ok {A} a.
Arguments Err {A} e.
Arguments Panic {A}.

Definition rbind {A B} (r : res A) (f : A -> res B) : res B :=
  match r with Ok a => f a | Err e => Err e | Panic => Panic end.
Definition rmap {A B} (f : A -> B) (r : res A) : res B :=
  match r with Ok a => Ok (f a) | Err e => Err e | Panic => Panic end.

Definition err_eqb (a b : err) : bool :=
  match a, b with
  | InvalidParameter, InvalidParameter | NotSupportUsage, NotSupportUsage
  | RandError, RandError | UnpaddingNotMatch, UnpaddingNotMatch
  | InvalidPublicKey, InvalidPublicKey | InvalidPrivateKey, InvalidPrivateKey
  | VerificationFailed, VerificationFailed | OuterErr, OuterErr | InnerErr, InnerErr => true
  | _, _ => false
  end.

(** A byte is an integer in [0,256); a byte string is a list of bytes. *)
Definition byte (b : Z) : Prop := 0 <= b < 256.
Definition bytes (l : list Z) : Prop := Forall byte l.
Definition byteb (b : Z) : bool := (0 <=? b) && (b <? 256).

Lemma byteb_spec b : byteb b = true <-> byte b.
Proof. unfold byteb, byte. lia. Qed.
Lemma bytes_check l : forallb byteb l = true -> bytes l.
Proof. intros H. apply Forall_forall. intros x Hx. rewrite forallb_forall in H. apply byteb_spec; auto. Qed.

Lemma bytes_forallb l : forallb byteb l = true -> bytes l.
Proof.
  intros H. apply Forall_forall. intros x Hx.
  apply byteb_spec. apply (proj1 (forallb_forall byteb l) H x Hx).
Qed.

Lemma bytes_app l1 l2 : bytes (l1 ++ l2) <-> bytes l1 /\ bytes l2.
Proof. apply Forall_app. Qed.

Lemma bytes_firstn n l : bytes l -> bytes (firstn n l).
Proof.
  revert n. induction l as [|x l IH]; intros [|n] H; cbn; try constructor.
  - inversion H; auto.
  - inversion H; apply IH; auto.
Qed.

Lemma bytes_skipn n l : bytes l -> bytes (skipn n l).
Proof.
  revert n. induction l as [|x l IH]; intros [|n] H; cbn; auto.
  inversion H; auto.
Qed.

Lemma bytes_repeat n b : byte b -> bytes (repeat b n).
Proof. intros H; induction n; cbn; constructor; auto. Qed.

Lemma bytes_rev l : bytes l -> bytes (rev l).
Proof.
  intros H. apply Forall_forall. intros x Hx. apply in_rev in Hx.
  exact (proj1 (Forall_forall byte l) H x Hx).
Qed.

Lemma bytes_concat ll : Forall bytes ll -> bytes (concat ll).
Proof. induction 1; cbn; [constructor|]. apply bytes_app; auto. Qed.

(** ** Bitwise facts on [Z] *)

Lemma lxor_range n a b : 0 <= n -> 0 <= a < 2 ^ n -> 0 <= b < 2 ^ n -> 0 <= Z.lxor a b < 2 ^ n.
Proof.
  intros Hn Ha Hb.
  assert (Hnn : 0 <= Z.lxor a b) by (apply Z.lxor_nonneg; lia).
  split; [exact Hnn|].
  destruct (Z.eq_dec (Z.lxor a b) 0) as [E|E]; [rewrite E; apply Z.pow_pos_nonneg; lia|].
  apply Z.log2_lt_pow2; [lia|].
  assert (Ha' : a = 0 \/ Z.log2 a < n).
  { destruct (Z.eq_dec a 0); [left; auto|right; apply Z.log2_lt_pow2; lia]. }
  assert (Hb' : b = 0 \/ Z.log2 b < n).
  { destruct (Z.eq_dec b 0); [left; auto|right; apply Z.log2_lt_pow2; lia]. }
  destruct Ha' as [->|Ha']; destruct Hb' as [->|Hb'].
  - rewrite Z.lxor_0_l in E; congruence.
  - rewrite Z.lxor_0_l; auto.
  - rewrite Z.lxor_0_r; auto.
  - eapply Z.le_lt_trans; [apply Z.log2_lxor; lia|]. lia.
Qed.

Lemma lxor_byte a b : byte a -> byte b -> byte (Z.lxor a b).
Proof. intros Ha Hb. apply (lxor_range 8); unfold byte in *; cbn; lia. Qed.

Lemma lxor_cancel a b : Z.lxor (Z.lxor a b) b = a.
Proof. rewrite Z.lxor_assoc, Z.lxor_nilpotent, Z.lxor_0_r. reflexivity. Qed.

Lemma lxor_cancel_l a b : Z.lxor b (Z.lxor b a) = a.
Proof. rewrite <- Z.lxor_assoc, Z.lxor_nilpotent, Z.lxor_0_l. reflexivity. Qed.

(** ** Byte-string exclusive or ([iter().zip()], so truncating to the shorter) *)
Fixpoint xorl (a b : list Z) : list Z :=
  match a, b with
  | x :: a', y :: b' => Z.lxor x y :: xorl a' b'
  | _, _ => []
  end.

Lemma xorl_length a b : length (xorl a b) = Nat.min (length a) (length b).
Proof. revert b; induction a as [|x a IH]; intros [|y b]; cbn; auto. Qed.

Lemma xorl_comm a b : xorl a b = xorl b a.
Proof. revert b; induction a as [|x a IH]; intros [|y b]; cbn; auto. rewrite Z.lxor_comm, IH; auto. Qed.

Lemma xorl_assoc a b c : xorl (xorl a b) c = xorl a (xorl b c).
Proof.
  revert b c; induction a as [|x a IH]; intros [|y b] [|z c]; cbn; auto.
  rewrite Z.lxor_assoc, IH; auto.
Qed.

Lemma xorl_bytes a b : bytes a -> bytes b -> bytes (xorl a b).
Proof.
  revert b; induction a as [|x a IH]; intros [|y b] Ha Hb; cbn; try constructor.
  - inversion Ha; inversion Hb; apply lxor_byte; auto.
  - inversion Ha; inversion Hb; apply IH; auto.
Qed.

Lemma xorl_cancel a b : (length a <= length b)%nat -> xorl (xorl a b) b = a.
Proof.
  revert b; induction a as [|x a IH]; intros [|y b] H; cbn in *; auto; try lia.
  rewrite lxor_cancel, IH; auto; lia.
Qed.

Lemma xorl_cancel_l a b : (length a <= length b)%nat -> xorl b (xorl b a) = a.
Proof. intros H. rewrite (xorl_comm b (xorl b a)), (xorl_comm b a). apply xorl_cancel; auto. Qed.

Lemma xorl_app a b c d : length a = length c -> xorl (a ++ b) (c ++ d) = xorl a c ++ xorl b d.
Proof.
  revert c; induction a as [|x a IH]; intros [|y c] H; cbn in *; try lia; auto.
  rewrite IH; auto.
Qed.

Lemma xorl_firstn a b n : xorl (firstn n a) b = firstn n (xorl a b).
Proof.
  revert b n; induction a as [|x a IH]; intros [|y b] [|n]; cbn; auto.
  rewrite IH; auto.
Qed.

Lemma xorl_trunc a b : xorl a b = xorl a (firstn (length a) b).
Proof.
  revert b; induction a as [|x a IH]; intros [|y b]; cbn; auto. rewrite <- IH; auto.
Qed.

(** ** Big- and little-endian integers *)

(** Value of a big-endian byte string. *)
Definition be_val (l : list Z) : Z := fold_left (fun acc b => acc * 256 + b) l 0.
(** Value of a little-endian byte string. *)
Fixpoint le_val (l : list Z) : Z :=
  match l with [] => 0 | b :: l' => b + 256 * le_val l' end.
(** The [n] low-order bytes of [x], little-endian. *)
Fixpoint le_bytes (n : nat) (x : Z) : list Z :=
  match n with O => [] | S n' => x mod 256 :: le_bytes n' (x / 256) end.
(** The [n] low-order bytes of [x], big-endian. *)
Definition be_bytes (n : nat) (x : Z) : list Z := rev (le_bytes n x).

Lemma le_bytes_length n x : length (le_bytes n x) = n.
Proof. revert x; induction n; intros; cbn; auto. Qed.

Lemma be_bytes_length n x : length (be_bytes n x) = n.
Proof. unfold be_bytes. rewrite rev_length. apply le_bytes_length. Qed.

Lemma le_bytes_bytes n x : bytes (le_bytes n x).
Proof.
  revert x; induction n as [|n IH]; intros x; cbn; constructor.
  - unfold byte. apply Z.mod_pos_bound. lia.
  - apply IH.
Qed.

Lemma be_bytes_bytes n x : bytes (be_bytes n x).
Proof. apply bytes_rev, le_bytes_bytes. Qed.

Lemma be_val_rev l : be_val l = le_val (rev l).
Proof.
  unfold be_val. rewrite <- fold_left_rev_right.
  induction (rev l) as [|b r IH]; cbn [fold_right le_val]; [auto|]. rewrite IH. ring.
Qed.

Lemma le_val_rev l : le_val l = be_val (rev l).
Proof. rewrite be_val_rev, rev_involutive. reflexivity. Qed.

Lemma le_val_app a b : le_val (a ++ b) = le_val a + 256 ^ Z.of_nat (length a) * le_val b.
Proof.
  induction a as [|x a IH].
  - cbn [app length]. change (Z.of_nat 0) with 0. rewrite Z.pow_0_r. cbn [le_val]. lia.
  - cbn [app le_val length]. rewrite IH, Nat2Z.inj_succ, Z.pow_succ_r by lia. ring.
Qed.

Lemma be_val_app a b : be_val (a ++ b) = be_val a * 256 ^ Z.of_nat (length b) + be_val b.
Proof.
  rewrite !be_val_rev, rev_app_distr, le_val_app, rev_length. ring.
Qed.

Lemma le_val_bound l : bytes l -> 0 <= le_val l < 256 ^ Z.of_nat (length l).
Proof.
  induction 1 as [|b l Hb Hl IH]; [cbn; lia|].
  cbn [le_val length]. rewrite Nat2Z.inj_succ, Z.pow_succ_r by lia.
  unfold byte in Hb. nia.
Qed.

Lemma be_val_bound l : bytes l -> 0 <= be_val l < 256 ^ Z.of_nat (length l).
Proof.
  intros H. rewrite be_val_rev, <- (rev_length l). apply le_val_bound, bytes_rev, H.
Qed.

Lemma le_val_bytes n x : le_val (le_bytes n x) = x mod 256 ^ Z.of_nat n.
Proof.
  revert x; induction n as [|n IH]; intros x.
  - cbn. rewrite Z.mod_1_r. reflexivity.
  - cbn [le_bytes le_val]. rewrite IH, Nat2Z.inj_succ, Z.pow_succ_r by lia.
    rewrite Z.rem_mul_r; lia.
Qed.

Lemma be_val_bytes n x : be_val (be_bytes n x) = x mod 256 ^ Z.of_nat n.
Proof. unfold be_bytes. rewrite be_val_rev, rev_involutive. apply le_val_bytes. Qed.

Lemma le_bytes_val l : bytes l -> le_bytes (length l) (le_val l) = l.
Proof.
  induction 1 as [|b l Hb Hl IH]; cbn [length le_bytes le_val]; [reflexivity|].
  unfold byte in Hb.
  replace ((b + 256 * le_val l) mod 256) with b.
  2:{ rewrite Z.mul_comm, Z.mod_add, Z.mod_small; lia. }
  replace ((b + 256 * le_val l) / 256) with (le_val l).
  2:{ rewrite Z.mul_comm, Z.div_add, Z.div_small; lia. }
  rewrite IH; reflexivity.
Qed.

Lemma be_bytes_val l : bytes l -> be_bytes (length l) (be_val l) = l.
Proof.
  intros H. unfold be_bytes. rewrite be_val_rev, <- (rev_length l).
  rewrite le_bytes_val by (apply bytes_rev; auto). apply rev_involutive.
Qed.

Lemma be_val_inj a b : bytes a -> bytes b -> length a = length b -> be_val a = be_val b -> a = b.
Proof.
  intros Ha Hb Hl He. rewrite <- (be_bytes_val a Ha), <- (be_bytes_val b Hb), Hl, He. reflexivity.
Qed.

Lemma skipn_skipn {A} x y (l : list A) : skipn x (skipn y l) = skipn (x + y) l.
Proof.
  revert l; induction y as [|y IH]; intros l.
  - rewrite Nat.add_0_r. reflexivity.
  - rewrite Nat.add_succ_r. destruct l; cbn; [apply skipn_nil|apply IH].
Qed.

(** ** Splitting a byte string into blocks of [n] (the last one may be short). *)
Definition nblocks (n len : nat) : nat := ((len + n - 1) / n)%nat.
Definition block (n i : nat) (m : list Z) : list Z := firstn n (skipn (i * n) m).
Definition chunks (n : nat) (m : list Z) : list (list Z) :=
  map (fun i => block n i m) (seq 0 (nblocks n (length m))).

Lemma chunks_nil n : (0 < n)%nat -> chunks n [] = [].
Proof.
  intros H. unfold chunks, nblocks. cbn [length].
  replace ((0 + n - 1) / n)%nat with 0%nat; [reflexivity|].
  symmetry. apply Nat.div_small. lia.
Qed.

Lemma nblocks_step n len : (0 < n)%nat -> (n <= len)%nat -> nblocks n len = S (nblocks n (len - n)).
Proof.
  intros Hn Hl. unfold nblocks.
  replace (len + n - 1)%nat with ((len - n + n - 1) + 1 * n)%nat by lia.
  rewrite Nat.div_add by lia. lia.
Qed.

Lemma chunks_step n m : (0 < n)%nat -> (n <= length m)%nat ->
  chunks n m = firstn n m :: chunks n (skipn n m).
Proof.
  intros Hn Hl. unfold chunks. rewrite skipn_length, (nblocks_step n _ Hn Hl).
  cbn [seq map]. f_equal. rewrite <- seq_shift, map_map. apply map_ext. intros i.
  unfold block. f_equal. rewrite skipn_skipn. f_equal. lia.
Qed.

Lemma chunks_app n b m : (0 < n)%nat -> length b = n -> chunks n (b ++ m) = b :: chunks n m.
Proof.
  intros Hn Hb. rewrite chunks_step; auto.
  - rewrite firstn_app, skipn_app, Hb, Nat.sub_diag. cbn [firstn skipn].
    rewrite firstn_all2, skipn_all2 by lia. rewrite app_nil_r. reflexivity.
  - rewrite app_length. lia.
Qed.

Lemma chunks_short n m : (0 < length m < n)%nat -> chunks n m = [m].
Proof.
  intros H. unfold chunks, nblocks.
  replace ((length m + n - 1) / n)%nat with 1%nat.
  - cbn. unfold block. cbn. rewrite firstn_all2; auto; lia.
  - apply (Nat.div_unique _ _ _ (length m - 1)); lia.
Qed.

(** Induction principle: a byte string is whole blocks followed by a short tail. *)
Lemma block_ind (n : nat) (P : list Z -> Prop) : (0 < n)%nat ->
  (forall m, (length m < n)%nat -> P m) ->
  (forall b m, length b = n -> P m -> P (b ++ m)) ->
  forall m, P m.
Proof.
  intros Hn H0 H1 m. remember (length m) as k eqn:E. revert m E.
  induction k as [k IH] using lt_wf_ind. intros m E.
  destruct (Nat.lt_ge_cases (length m) n) as [Hl|Hl]; [apply H0; auto|].
  rewrite <- (firstn_skipn n m). apply H1.
  - rewrite firstn_length. lia.
  - apply (IH (length (skipn n m))); auto. rewrite skipn_length. lia.
Qed.

Ltac block_induction n :=
  match goal with |- forall a, @?P a => refine (block_ind n P _ _ _); cbv beta end.

Lemma concat_chunks n m : (0 < n)%nat -> concat (chunks n m) = m.
Proof.
  intros Hn. revert m. block_induction n; auto.
  - intros m Hl. destruct m as [|x m]; [rewrite chunks_nil; auto|].
    rewrite chunks_short; [cbn; rewrite app_nil_r; auto|]. cbn in *; lia.
  - intros b m Hb IH. rewrite chunks_app; auto. cbn. rewrite IH; auto.
Qed.

(** Whole-block prefix and remainder of a byte string. *)
Definition whole (n : nat) (m : list Z) : list Z := firstn (length m - length m mod n) m.
Definition rest (n : nat) (m : list Z) : list Z := skipn (length m - length m mod n) m.

Lemma whole_rest n m : whole n m ++ rest n m = m.
Proof. apply firstn_skipn. Qed.

Lemma rest_length n m : n <> 0%nat -> length (rest n m) = (length m mod n)%nat.
Proof.
  intros Hn. unfold rest. rewrite skipn_length. pose proof (Nat.mod_le (length m) n Hn). lia.
Qed.

Lemma rest_lt n m : n <> 0%nat -> (length (rest n m) < n)%nat.
Proof. intros Hn. rewrite rest_length; auto. apply Nat.mod_upper_bound; auto. Qed.

Lemma whole_length n m : n <> 0%nat -> length (whole n m) = (length m - length m mod n)%nat.
Proof.
  intros Hn. unfold whole. rewrite firstn_length. lia.
Qed.

Lemma whole_mod n m : n <> 0%nat -> (length (whole n m) mod n = 0)%nat.
Proof.
  intros Hn. rewrite whole_length; auto.
  pose proof (Nat.div_mod (length m) n Hn).
  assert (E : (length m - length m mod n = n * (length m / n))%nat).
  { set (q := (n * (length m / n))%nat) in *. set (r := (length m mod n)%nat) in *. lia. }
  rewrite E, Nat.mul_comm. apply Nat.mod_mul; auto.
Qed.

Lemma mod_block n k len : n <> 0%nat -> k = n -> ((k + len) mod n = len mod n)%nat.
Proof.
  intros Hn ->. replace (n + len)%nat with (len + 1 * n)%nat by lia. apply Nat.mod_add; auto.
Qed.

Lemma whole_app n b m : n <> 0%nat -> length b = n -> whole n (b ++ m) = b ++ whole n m.
Proof.
  intros Hn Hb. unfold whole. rewrite app_length, mod_block; auto.
  pose proof (Nat.mod_le (length m) n Hn).
  rewrite firstn_app. rewrite firstn_all2 by lia. f_equal. replace (length b + length m - length m mod n - length b)%nat with (length m - length m mod n)%nat by lia. reflexivity.
Qed.

Lemma rest_app n b m : n <> 0%nat -> length b = n -> rest n (b ++ m) = rest n m.
Proof.
  intros Hn Hb. unfold rest. rewrite app_length, mod_block; auto.
  pose proof (Nat.mod_le (length m) n Hn).
  rewrite skipn_app. rewrite skipn_all2 by lia. cbn. f_equal. lia.
Qed.

Lemma whole_short n m : (length m < n)%nat -> whole n m = [].
Proof. intros H. unfold whole. rewrite Nat.mod_small by lia. rewrite Nat.sub_diag. reflexivity. Qed.

Lemma rest_short n m : (length m < n)%nat -> rest n m = m.
Proof. intros H. unfold rest. rewrite Nat.mod_small by lia. rewrite Nat.sub_diag. reflexivity. Qed.

Lemma rest_whole_mult n m : n <> 0%nat -> (length m mod n = 0)%nat -> whole n m = m /\ rest n m = [].
Proof.
  intros Hn H. unfold whole, rest. rewrite H, Nat.sub_0_r. split; [apply firstn_all|apply skipn_all].
Qed.

(** A whole-block string followed by anything. *)
Lemma whole_app_mult n a b : n <> 0%nat -> (length a mod n = 0)%nat -> whole n (a ++ b) = a ++ whole n b.
Proof.
  intros Hn. revert a. block_induction n; [lia| |].
  - intros m Hl Hm. rewrite Nat.mod_small in Hm by lia. destruct m; [reflexivity|cbn in Hm; lia].
  - intros x m Hx IH Hm. rewrite app_length, mod_block in Hm by auto.
    rewrite <- !app_assoc, whole_app, IH; auto.
Qed.

Lemma rest_app_mult n a b : n <> 0%nat -> (length a mod n = 0)%nat -> rest n (a ++ b) = rest n b.
Proof.
  intros Hn. revert a. block_induction n; [lia| |].
  - intros m Hl Hm. rewrite Nat.mod_small in Hm by lia. destruct m; [reflexivity|cbn in Hm; lia].
  - intros x m Hx IH Hm. rewrite app_length, mod_block in Hm by auto.
    rewrite <- !app_assoc, rest_app, IH; auto.
Qed.

Lemma chunks_app_mult n a b : n <> 0%nat -> (length a mod n = 0)%nat ->
  chunks n (a ++ b) = chunks n a ++ chunks n b.
Proof.
  intros Hn. revert a. block_induction n; [lia| |].
  - intros m Hl Hm. rewrite Nat.mod_small in Hm by lia. destruct m; [|cbn in Hm; lia].
    rewrite chunks_nil by lia. reflexivity.
  - intros x m Hx IH Hm. rewrite app_length, mod_block in Hm by auto.
    rewrite <- !app_assoc, !(chunks_app n x) by (auto; lia). rewrite IH by auto. reflexivity.
Qed.

Lemma chunks_lengths n m : n <> 0%nat -> (length m mod n = 0)%nat ->
  Forall (fun b => length b = n) (chunks n m).
Proof.
  intros Hn. revert m. block_induction n; [lia| |].
  - intros m Hl Hm. rewrite Nat.mod_small in Hm by lia. destruct m; [|cbn in Hm; lia].
    rewrite chunks_nil by lia. constructor.
  - intros x m Hx IH Hm. rewrite app_length, mod_block in Hm by auto.
    rewrite chunks_app by (auto; lia). constructor; auto.
Qed.

Lemma chunks_bytes n m : (0 < n)%nat -> bytes m -> Forall bytes (chunks n m).
Proof.
  intros Hn Hm. unfold chunks. apply Forall_forall. intros x Hx.
  apply in_map_iff in Hx. destruct Hx as [i [<- _]]. unfold block.
  apply bytes_firstn, bytes_skipn, Hm.
Qed.

Lemma concat_map_length (f : list Z -> list Z) n ll :
  (forall b, In b ll -> length (f b) = n) -> length (concat (map f ll)) = (length ll * n)%nat.
Proof.
  induction ll as [|b ll IH]; intros H; cbn; auto.
  rewrite app_length, H, IH; auto; [intros; apply H; right; auto|left; auto].
Qed.
