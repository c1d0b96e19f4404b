(** Property C78: what is revealed when a key is used again, in the same mode, with the same or with another IV.
    [c] is any cipher object that permutes [n]-byte blocks, as in PropModes.v; [block_at n j l] (PropModesErr.v) is block
    [j] of [l]. *)
From Verif Require Import Base Words ModesModel ModesSpec PaddingProofs ModesLoops EcbCbcProofs CfbOfbCtrProofs ModesExtra ModesApi PropModes PropModesErr
  ZucSpec ZucModel ZucApi PropZuc.

(** ** Lists *)
Lemma firstn_block n k (l : list Z) : firstn (S k * n) l = firstn (k * n) l ++ block_at n k l.
Proof.
  unfold block_at. rewrite <- (firstn_skipn (k * n) (firstn (S k * n) l)). rewrite firstn_firstn. cbn [Nat.mul]. replace (Nat.min (k * n) (n + k * n)) with (k * n)%nat by lia.
  f_equal. rewrite skipn_firstn_comm. f_equal. lia.
Qed.
Lemma before_block n w k iv (l : list Z) : length iv = w -> firstn w (skipn (k * n) (iv ++ l)) = skipn (k * n) (iv ++ firstn (k * n) l).
Proof.
  intros L. rewrite firstn_skipn_comm. f_equal. rewrite firstn_app, (firstn_all2 iv) by lia. f_equal. f_equal. lia.
Qed.
Lemma xorl_inj_r a b k : length a = length b -> (length a <= length k)%nat -> (xorl a k = xorl b k <-> a = b).
Proof. intros L K. split; [|intros ->; reflexivity]. intros X. rewrite <- (xorl_cancel a k), X by lia. apply xorl_cancel. lia. Qed.
Lemma xorl_pads a b k : (length a <= length k)%nat -> (length b <= length k)%nat -> xorl (xorl a k) (xorl b k) = xorl a b.
Proof. intros A B. rewrite (xorl_comm b k), xorl_assoc, (xorl_comm a), <- (xorl_assoc k k b). rewrite (xorl_comm (xorl (xorl k k) b) a), (xorl_comm (xorl k k) b), <- !xorl_assoc, xorl_cancel; [reflexivity|]. rewrite xorl_length. lia. Qed.
Lemma xorl_more m k t : (length m <= length k)%nat -> xorl m (k ++ t) = xorl m k.
Proof. intros L. rewrite (xorl_trunc m (k ++ t)), (xorl_trunc m k), firstn_app. replace (length m - length k)%nat with 0%nat by lia. rewrite firstn_O, app_nil_r. reflexivity. Qed.
Lemma ks_pads (f : nat -> list Z) a b m1 m2 : (length m1 <= length (concat (map f (seq 0 a))))%nat -> (length m2 <= length (concat (map f (seq 0 b))))%nat ->
  xorl (xorl m1 (concat (map f (seq 0 a)))) (xorl m2 (concat (map f (seq 0 b)))) = xorl m1 m2.
Proof.
  assert (G : forall a b m1 m2, (a <= b)%nat -> (length m1 <= length (concat (map f (seq 0 a))))%nat -> (length m2 <= length (concat (map f (seq 0 b))))%nat ->
    xorl (xorl m1 (concat (map f (seq 0 a)))) (xorl m2 (concat (map f (seq 0 b)))) = xorl m1 m2).
  { clear. intros a b m1 m2 L L1 L2. replace b with (a + (b - a))%nat in * by lia. rewrite seq_app, map_app, concat_app in *.
    rewrite <- (xorl_more m1 _ (concat (map f (seq (0 + a) (b - a))))) by exact L1. apply xorl_pads; rewrite ?app_length in *; lia. }
  intros L1 L2. destruct (Nat.le_ge_cases a b) as [H|H]; [apply G; auto|].
  rewrite (xorl_comm (xorl m1 _)), (xorl_comm m1 m2). apply G; auto.
Qed.
Lemma xorl_known m1 m2 : xorl m1 (xorl m1 m2) = firstn (length m1) m2.
Proof. revert m2. induction m1 as [|x m1 IH]; intros [|y m2]; cbn [xorl firstn length]; auto. rewrite IH. f_equal. rewrite <- Z.lxor_assoc, Z.lxor_nilpotent, Z.lxor_0_l. reflexivity. Qed.

(** ** C78, ECB: two ciphertext blocks are equal exactly when the plaintext blocks are, in one message ([m1 = m2]) or across messages.
    With the default padding this holds of all blocks of the padded messages. *)
Theorem C78_ecb_blocks : forall c n E D, GoodCipher c n E D -> forall m1 m2 dst1 dst2, bytes m1 -> bytes m2 -> (length m1 mod n = 0)%nat -> (length m2 mod n = 0)%nat ->
  let o := mkEcb c EmptyPadding in
  exists c1 c2, ecb_encrypt o dst1 m1 = (c1, Ok (length m1)) /\ ecb_encrypt o dst2 m2 = (c2, Ok (length m2)) /\ length c1 = length m1 /\ length c2 = length m2 /\
    forall i j, (i * n < length m1)%nat -> (j * n < length m2)%nat -> (block_at n i c1 = block_at n j c2 <-> block_at n i m1 = block_at n j m2).
Proof.
  intros c n E D GC m1 m2 dst1 dst2 B1 B2 M1 M2 o. pose proof (gc_pos _ _ _ _ GC) as Hn.
  assert (G : forall m dst, bytes m -> (length m mod n = 0)%nat -> exists ct, ecb_encrypt o dst m = (ct, Ok (length m)) /\ length ct = length m /\ bytes ct /\
    forall i, (i * n < length m)%nat -> block_at n i m = D (block_at n i ct)).
  { clear m1 m2 B1 B2 M1 M2. intros m dst B M. destruct (C10_ecb_empty c n E D GC dst [] m B) as [X _]. destruct (X M) as [X1 X2]. cbv zeta in X1, X2. fold o in X1.
    destruct (ECB_inv c n E D GC m B M) as (_ & _ & L & BE & _). rewrite L in X1. exists (ECB E n m). repeat split; auto.
    assert (MC : (length (ECB E n m) mod n = 0)%nat) by (rewrite L; exact M).
    destruct (C71_ecb_block c n E D GC [] (ECB E n m) BE MC) as (p & P1 & _ & P3). rewrite X2 in P1. injection P1 as <- _.
    intros i I. apply P3. rewrite L. exact I. }
  destruct (G m1 dst1 B1 M1) as (c1 & X1 & L1 & BC1 & F1). destruct (G m2 dst2 B2 M2) as (c2 & X2 & L2 & BC2 & F2). exists c1, c2. do 4 (split; [assumption|]).
  intros i j I J. rewrite F1, F2 by assumption. split; [congruence|]. intros X.
  rewrite <- (gc_ED _ _ _ _ GC (block_at n i c1)), X; [apply (gc_ED _ _ _ _ GC)|..]; try (apply block_at_bytes; assumption); apply block_at_length; auto; rewrite ?L1, ?L2; auto.
Qed.
Print Assumptions C78_ecb_blocks.

Theorem C78_ecb_default : forall c n E D, GoodCipher c n E D -> forall m1 m2 dst1 dst2, bytes m1 -> bytes m2 ->
  let o := mkEcb c (DefaultPadding c) in
  let c1 := fst (ecb_encrypt o dst1 m1) in let c2 := fst (ecb_encrypt o dst2 m2) in
  forall i j, (S i * n <= length m1)%nat -> (S j * n <= length m2)%nat -> (block_at n i c1 = block_at n j c2 <-> block_at n i m1 = block_at n j m2).
Proof.
  intros c n E D GC m1 m2 dst1 dst2 B1 B2 o c1 c2 i j I J. pose proof (gc_pos _ _ _ _ GC) as Hn.
  assert (P : forall m, bytes m -> exists t, pad10 n m = m ++ t /\ bytes (m ++ t) /\ (length (m ++ t) mod n = 0)%nat).
  { intros m B. destruct (C08_padding n m Hn B) as ((z & _ & X) & _ & M & Bp & _). exists (128 :: repeat 0 z). rewrite <- X. split; [symmetry; apply default_pad_eq; exact Hn|]. auto. }
  assert (Q : forall m t k, (S k * n <= length m)%nat -> block_at n k (m ++ t) = block_at n k m).
  { intros m t k K. unfold block_at. cbn [Nat.mul] in K. rewrite skipn_app, firstn_app, skipn_length. replace (n - (length m - k * n))%nat with 0%nat by lia. apply app_nil_r. }
  destruct (P m1 B1) as (t1 & P1 & BP1 & M1). destruct (P m2 B2) as (t2 & P2 & BP2 & M2).
  destruct (C78_ecb_blocks c n E D GC (m1 ++ t1) (m2 ++ t2) [] [] BP1 BP2 M1 M2) as (d1 & d2 & X1 & X2 & _ & _ & H).
  destruct (C10_ecb_empty c n E D GC [] [] _ BP1) as [Y1 _]. destruct (C10_ecb_empty c n E D GC [] [] _ BP2) as [Y2 _].
  destruct (Y1 M1) as [Z1 _]. destruct (Y2 M2) as [Z2 _]. rewrite X1 in Z1. rewrite X2 in Z2. injection Z1 as -> _. injection Z2 as -> _.
  subst c1 c2. unfold o. destruct (C10_ecb_default c n E D GC dst1 [] m1 B1) as (-> & _). destruct (C10_ecb_default c n E D GC dst2 [] m2 B2) as (-> & _). cbn [fst].
  rewrite P1, P2, (H i j), !Q by (rewrite ?app_length; cbn [Nat.mul] in *; lia). reflexivity.
Qed.
Print Assumptions C78_ecb_default.

(** ** CBC.  Under one key, whatever the IVs, two equal ciphertext blocks reveal the xor of their plaintext blocks: it is the xor of
    the blocks before them ([block_at n i (iv ++ ct)] is the ciphertext block before block [i]). *)
Lemma cbc_view c n E D : GoodCipher c n E D -> forall iv m dst, length iv = n -> bytes iv -> bytes m -> (length m mod n = 0)%nat ->
  exists ct, cbc_encrypt (mkCbc c EmptyPadding iv) dst m = (ct, Ok (length m)) /\ length ct = length m /\ bytes ct /\
    forall i, (i * n < length m)%nat -> block_at n i m = xorl (D (block_at n i ct)) (block_at n i (iv ++ ct)).
Proof.
  intros GC iv m dst Hiv Bi B M. pose proof (gc_pos _ _ _ _ GC) as Hn. destruct (C13_cbc_empty c n E D GC iv dst [] m Hiv Bi B) as [X _]. destruct (X M) as [X1 X2].
  destruct (CBC_roundtrip c n E D GC m iv (conj Hiv Bi) B M) as (_ & L & BE). exists (CBC E n iv m). repeat split; auto.
  assert (MC : (length (CBC E n iv m) mod n = 0)%nat) by (rewrite L; exact M).
  destruct (C71_cbc_block c n E D GC iv [] (CBC E n iv m) Hiv BE MC) as (p & P1 & _ & P3). rewrite X2 in P1. injection P1 as <- _.
  intros i I. apply P3. rewrite L. exact I.
Qed.
Lemma prev_length n i (iv ct : list Z) : (0 < n)%nat -> length iv = n -> (length ct mod n = 0)%nat -> (i * n < length ct)%nat -> length (block_at n i (iv ++ ct)) = n.
Proof. intros Hn Hiv M I. destruct i as [|i]; [rewrite block_at_0; auto|]. rewrite block_at_S by auto. apply block_at_length; auto. cbn [Nat.mul] in I. lia. Qed.
Theorem C78_cbc_collision : forall c n E D, GoodCipher c n E D -> forall iv1 iv2 m1 m2 dst1 dst2,
  length iv1 = n -> bytes iv1 -> length iv2 = n -> bytes iv2 -> bytes m1 -> bytes m2 -> (length m1 mod n = 0)%nat -> (length m2 mod n = 0)%nat ->
  exists c1 c2, cbc_encrypt (mkCbc c EmptyPadding iv1) dst1 m1 = (c1, Ok (length m1)) /\ cbc_encrypt (mkCbc c EmptyPadding iv2) dst2 m2 = (c2, Ok (length m2)) /\
    length c1 = length m1 /\ length c2 = length m2 /\
    forall i j, (i * n < length m1)%nat -> (j * n < length m2)%nat ->
      (block_at n i c1 = block_at n j c2 <-> xorl (block_at n i m1) (block_at n j m2) = xorl (block_at n i (iv1 ++ c1)) (block_at n j (iv2 ++ c2))).
Proof.
  intros c n E D GC iv1 iv2 m1 m2 dst1 dst2 Hi1 Bi1 Hi2 Bi2 B1 B2 M1 M2. pose proof (gc_pos _ _ _ _ GC) as Hn.
  destruct (cbc_view c n E D GC iv1 m1 dst1 Hi1 Bi1 B1 M1) as (c1 & X1 & L1 & BC1 & F1). destruct (cbc_view c n E D GC iv2 m2 dst2 Hi2 Bi2 B2 M2) as (c2 & X2 & L2 & BC2 & F2).
  exists c1, c2. do 4 (split; [assumption|]). intros i j I J. rewrite F1, F2 by assumption.
  rewrite <- L1 in I, M1. rewrite <- L2 in J, M2.
  pose proof (block_at_length n i c1 I M1 Hn) as K1. pose proof (block_at_length n j c2 J M2 Hn) as K2.
  pose proof (prev_length n i iv1 c1 Hn Hi1 M1 I) as V1. pose proof (prev_length n j iv2 c2 Hn Hi2 M2 J) as V2.
  pose proof (block_at_bytes n i c1 BC1) as Z1. pose proof (block_at_bytes n j c2 BC2) as Z2.
  revert K1 K2 V1 V2 Z1 Z2. generalize (block_at n i c1) (block_at n j c2) (block_at n i (iv1 ++ c1)) (block_at n j (iv2 ++ c2)). clear - GC. intros x y p q K1 K2 V1 V2 Z1 Z2.
  destruct (gc_D _ _ _ _ GC x K1 Z1) as [Lx _]. destruct (gc_D _ _ _ _ GC y K2 Z2) as [Ly _].
  split.
  - intros <-. rewrite (xorl_comm (D x) p), (xorl_comm (D x) q). apply xorl_pads; lia.
  - intros X. rewrite <- (gc_ED _ _ _ _ GC x), <- (gc_ED _ _ _ _ GC y) by auto. f_equal.
    apply (f_equal (fun l => xorl l q)) in X. rewrite <- (xorl_assoc _ (D y) q), xorl_cancel in X by (rewrite !xorl_length; lia).
    rewrite xorl_cancel in X by lia.
    apply (f_equal (fun l => xorl l (D y))) in X. rewrite xorl_cancel in X by (rewrite !xorl_length; lia).
    rewrite (xorl_comm p) in X. apply xorl_inj_r in X; auto; lia.
Qed.
Print Assumptions C78_cbc_collision.
(** Under one key and one IV, two ciphertexts agree on exactly as many leading blocks as the messages do. *)
Theorem C78_cbc_prefix : forall c n E D, GoodCipher c n E D -> forall iv m1 m2 dst1 dst2,
  length iv = n -> bytes iv -> bytes m1 -> bytes m2 -> (length m1 mod n = 0)%nat -> (length m2 mod n = 0)%nat ->
  let c1 := fst (cbc_encrypt (mkCbc c EmptyPadding iv) dst1 m1) in let c2 := fst (cbc_encrypt (mkCbc c EmptyPadding iv) dst2 m2) in
  forall k, (k * n <= length m1)%nat -> (k * n <= length m2)%nat -> (firstn (k * n) c1 = firstn (k * n) c2 <-> firstn (k * n) m1 = firstn (k * n) m2).
Proof.
  intros c n E D GC iv m1 m2 dst1 dst2 Hi Bi B1 B2 M1 M2. pose proof (gc_pos _ _ _ _ GC) as Hn.
  destruct (cbc_view c n E D GC iv m1 dst1 Hi Bi B1 M1) as (c1 & -> & L1 & BC1 & F1). destruct (cbc_view c n E D GC iv m2 dst2 Hi Bi B2 M2) as (c2 & -> & L2 & BC2 & F2).
  cbn [fst]. induction k as [|k IH]; intros I J; [rewrite !firstn_O; tauto|]. rewrite !firstn_block. cbn [Nat.mul] in I, J. specialize (IH ltac:(lia) ltac:(lia)).
  assert (SP : forall a b x y : list Z, length a = length b -> (a ++ x = b ++ y <-> a = b /\ x = y)).
  { clear. intros a b x y L. split; [|intros [-> ->]; reflexivity]. revert b L. induction a as [|p a IH]; intros [|q b] L H; try discriminate; [auto|]. injection H as -> H. injection L as L. destruct (IH b L H) as [-> ->]. auto. }
  rewrite !SP by (rewrite !firstn_length; lia). rewrite IH. split; intros [P Q]; split; auto.
  - rewrite F1, F2, Q by lia. f_equal. unfold block_at. rewrite !before_block by exact Hi. rewrite (proj2 IH P). reflexivity.
  - rewrite F1, F2 in Q by lia. unfold block_at at 2 4 in Q. rewrite !before_block in Q by exact Hi. rewrite (proj2 IH P) in Q.
    assert (K1 : length (block_at n k c1) = n) by (apply block_at_length; rewrite ?L1; auto; lia). assert (K2 : length (block_at n k c2) = n) by (apply block_at_length; rewrite ?L2; auto; lia).
    destruct (gc_D _ _ _ _ GC _ K1 (block_at_bytes n k c1 BC1)) as [Lx _]. destruct (gc_D _ _ _ _ GC _ K2 (block_at_bytes n k c2 BC2)) as [Ly _].
    apply xorl_inj_r in Q; [|lia|rewrite skipn_length, app_length, firstn_length; lia].
    rewrite <- (gc_ED _ _ _ _ GC (block_at n k c1)), <- (gc_ED _ _ _ _ GC (block_at n k c2)), Q; auto; apply block_at_bytes; auto.
Qed.
Print Assumptions C78_cbc_prefix.
(** The one-shot call with the default padding encrypts what follows the last whole block without chaining (C13), so that the end of the
    ciphertext reveals, under any two IVs, whether the ends of the messages are equal. *)
Definition tail_of (n : nat) (m : list Z) : list Z := skipn (length m - length m mod n) m.
Theorem C78_cbc_default_tail : forall c n E D, GoodCipher c n E D -> forall iv1 iv2 m1 m2 dst1 dst2,
  length iv1 = n -> bytes iv1 -> length iv2 = n -> bytes iv2 -> bytes m1 -> bytes m2 ->
  let c1 := fst (cbc_encrypt (mkCbc c (DefaultPadding c) iv1) dst1 m1) in let c2 := fst (cbc_encrypt (mkCbc c (DefaultPadding c) iv2) dst2 m2) in
  skipn (length m1 - length m1 mod n) c1 = skipn (length m2 - length m2 mod n) c2 <-> tail_of n m1 = tail_of n m2.
Proof.
  intros c n E D GC iv1 iv2 m1 m2 dst1 dst2 Hi1 Bi1 Hi2 Bi2 B1 B2. pose proof (gc_pos _ _ _ _ GC) as Hn. cbv zeta.
  rewrite !(C13_cbc_default_exact c n E D GC) by assumption. cbn [fst].
  assert (W : forall iv m, length iv = n -> bytes iv -> bytes m -> skipn (length m - length m mod n) (CBC E n iv (whole n m) ++ ECB E n (pad10 n (rest n m))) = ECB E n (pad10 n (tail_of n m)) /\ bytes (tail_of n m)).
  { clear - GC Hn. intros iv m Hi Bi B. unfold tail_of. split; [|apply bytes_skipn; exact B]. fold (rest n m).
    assert (Lw : length (whole n m) = (length m - length m mod n)%nat) by (unfold whole; rewrite firstn_length; lia).
    assert (Mw : (length (whole n m) mod n = 0)%nat).
    { rewrite Lw. rewrite (Nat.div_mod (length m) n) at 1 by lia. rewrite Nat.add_sub, Nat.mul_comm. apply Nat.mod_mul. lia. }
    assert (Bw : bytes (whole n m)) by (unfold whole; apply bytes_firstn; exact B).
    destruct (CBC_roundtrip c n E D GC (whole n m) iv (conj Hi Bi) Bw Mw) as (_ & L & _).
    rewrite skipn_app, skipn_all2 by lia. replace (length m - length m mod n - length (CBC E n iv (whole n m)))%nat with 0%nat by lia. reflexivity. }
  destruct (W iv1 m1 Hi1 Bi1 B1) as [-> T1]. destruct (W iv2 m2 Hi2 Bi2 B2) as [-> T2]. clear - GC Hn T1 T2. split; [|intros ->; reflexivity].
  intros X. destruct (C10_ecb_default c n E D GC [] [] _ T1) as (_ & _ & Y1). destruct (C10_ecb_default c n E D GC [] [] _ T2) as (_ & _ & Y2). rewrite X, Y2 in Y1. congruence.
Qed.
Print Assumptions C78_cbc_default_tail.

(** ** CFB.  Wherever the [n] bytes before two segments of IV and ciphertext are equal, the segments reveal the xor of their plaintexts;
    so under one IV the ciphertexts agree on the common whole segments and reveal the xor of the next. *)
Lemma cfb_view c n E D : GoodCipher c n E D -> forall s iv m dst, (0 < s <= n)%nat -> length iv = n -> bytes iv -> bytes m -> (length m mod s = 0)%nat ->
  exists ct, cfb_encrypt (mkCfb s c EmptyPadding iv) dst m = (ct, Ok (length m)) /\ length ct = length m /\ bytes ct /\
    forall i, (i * s < length m)%nat -> block_at s i m = xorl (block_at s i ct) (firstn s (E (firstn n (skipn (i * s) (iv ++ ct))))).
Proof.
  intros GC s iv m dst Hs Hiv Bi B M. destruct (C16_cfb_empty c n E D GC iv s dst [] m Hiv Bi B Hs) as (X1 & X2 & X3). cbv zeta in *.
  assert (W : whole s m = m) by (unfold whole; apply firstn_all2; lia). rewrite W in *. rewrite X3, M, Nat.sub_0_r in X1.
  destruct (CFB_roundtrip c n E D GC s Hs m iv (conj Hiv Bi) B M) as (_ & L & BE). exists (CFB E s iv m). repeat split; auto.
  assert (MC : (length (CFB E s iv m) mod s = 0)%nat) by (rewrite L; exact M).
  destruct (C71_cfb_block c n E D GC s iv [] (CFB E s iv m) Hs Hiv Bi BE MC) as (p & P1 & _ & P3). rewrite X2 in P1. injection P1 as <- _.
  intros i I. apply P3. rewrite L. exact I.
Qed.
Theorem C78_cfb_collision : forall c n E D, GoodCipher c n E D -> forall s iv1 iv2 m1 m2 dst1 dst2, (0 < s <= n)%nat ->
  length iv1 = n -> bytes iv1 -> length iv2 = n -> bytes iv2 -> bytes m1 -> bytes m2 -> (length m1 mod s = 0)%nat -> (length m2 mod s = 0)%nat ->
  exists c1 c2, cfb_encrypt (mkCfb s c EmptyPadding iv1) dst1 m1 = (c1, Ok (length m1)) /\ cfb_encrypt (mkCfb s c EmptyPadding iv2) dst2 m2 = (c2, Ok (length m2)) /\
    length c1 = length m1 /\ length c2 = length m2 /\
    forall i j, (i * s < length m1)%nat -> (j * s < length m2)%nat -> firstn n (skipn (i * s) (iv1 ++ c1)) = firstn n (skipn (j * s) (iv2 ++ c2)) ->
      xorl (block_at s i c1) (block_at s j c2) = xorl (block_at s i m1) (block_at s j m2).
Proof.
  intros c n E D GC s iv1 iv2 m1 m2 dst1 dst2 Hs Hi1 Bi1 Hi2 Bi2 B1 B2 M1 M2.
  destruct (cfb_view c n E D GC s iv1 m1 dst1 Hs Hi1 Bi1 B1 M1) as (c1 & X1 & L1 & BC1 & F1). destruct (cfb_view c n E D GC s iv2 m2 dst2 Hs Hi2 Bi2 B2 M2) as (c2 & X2 & L2 & BC2 & F2).
  exists c1, c2. do 4 (split; [assumption|]). intros i j I J Q. rewrite F1, F2, Q by assumption. symmetry.
  assert (V : length (firstn n (skipn (j * s) (iv2 ++ c2))) = n) by (rewrite firstn_length, skipn_length, app_length; lia).
  destruct (gc_E _ _ _ _ GC _ V ltac:(apply bytes_firstn, bytes_skipn, bytes_app; auto)) as [LE _].
  apply xorl_pads; rewrite firstn_length, LE; unfold block_at; rewrite firstn_length; lia.
Qed.
Print Assumptions C78_cfb_collision.
Theorem C78_cfb_prefix : forall c n E D, GoodCipher c n E D -> forall s iv m1 m2 dst1 dst2, (0 < s <= n)%nat ->
  length iv = n -> bytes iv -> bytes m1 -> bytes m2 -> (length m1 mod s = 0)%nat -> (length m2 mod s = 0)%nat ->
  let c1 := fst (cfb_encrypt (mkCfb s c EmptyPadding iv) dst1 m1) in let c2 := fst (cfb_encrypt (mkCfb s c EmptyPadding iv) dst2 m2) in
  forall k, (k * s < length m1)%nat -> (k * s < length m2)%nat -> firstn (k * s) m1 = firstn (k * s) m2 ->
    firstn (k * s) c1 = firstn (k * s) c2 /\ xorl (block_at s k c1) (block_at s k c2) = xorl (block_at s k m1) (block_at s k m2).
Proof.
  intros c n E D GC s iv m1 m2 dst1 dst2 Hs Hi Bi B1 B2 M1 M2.
  destruct (C78_cfb_collision c n E D GC s iv iv m1 m2 dst1 dst2 Hs Hi Bi Hi Bi B1 B2 M1 M2) as (c1 & c2 & -> & -> & L1 & L2 & H). cbn [fst].
  assert (N : forall k, (k * s < length m1)%nat -> (k * s < length m2)%nat -> firstn (k * s) c1 = firstn (k * s) c2 -> xorl (block_at s k c1) (block_at s k c2) = xorl (block_at s k m1) (block_at s k m2)).
  { intros k I J Q. apply H; auto. rewrite !before_block, Q by exact Hi. reflexivity. }
  induction k as [|k IH]; intros I J Q; [split; [reflexivity|apply N; auto]|].
  assert (A : firstn (S k * s) c1 = firstn (S k * s) c2); [|split; [exact A|apply N; auto]].
  cbn [Nat.mul] in I, J. rewrite !firstn_block in Q |- *.
  assert (SP : firstn (k * s) m1 = firstn (k * s) m2 /\ block_at s k m1 = block_at s k m2).
  { revert Q. generalize (block_at s k m1) (block_at s k m2). assert (L : length (firstn (k * s) m1) = length (firstn (k * s) m2)) by (rewrite !firstn_length; lia). revert L.
    generalize (firstn (k * s) m1) (firstn (k * s) m2). clear. intros a. induction a as [|p a IH]; intros [|q b] L x y Q; try discriminate; [auto|]. injection Q as -> Q. injection L as L. destruct (IH b L x y Q) as [-> ->]. auto. }
  destruct SP as [Q1 Q2]. destruct (IH ltac:(lia) ltac:(lia) Q1) as [A1 A2]. f_equal; [exact A1|]. rewrite Q2 in A2.
  assert (K : forall m, (length m mod s = 0)%nat -> (k * s < length m)%nat -> length (block_at s k m) = s) by (intros; apply block_at_length; auto; lia).
  pose proof (K c1 ltac:(rewrite L1; exact M1) ltac:(lia)) as K1. pose proof (K c2 ltac:(rewrite L2; exact M2) ltac:(lia)) as K2. pose proof (K m2 M2 ltac:(lia)) as K3.
  assert (ZZ : xorl (block_at s k m2) (block_at s k m2) = xorl (block_at s k c2) (block_at s k c2)).
  { revert K2 K3. generalize (block_at s k m2) (block_at s k c2). clear. induction s as [|s IH]; intros [|x a] [|y b] A B; try discriminate; [reflexivity|]. cbn [xorl]. rewrite !Z.lxor_nilpotent. f_equal. apply IH; cbn in *; lia. }
  rewrite ZZ in A2. apply xorl_inj_r in A2; auto; lia.
Qed.
Print Assumptions C78_cfb_prefix.

(** ** OFB, CTR and 128-EEA3: two ciphertexts made with the same key stream reveal the xor of the messages, of any lengths, over their
    common length ([xorl] stops at the shorter list); knowing one message gives the other. *)
Theorem C78_ofb_reuse : forall c n E D, GoodCipher c n E D -> forall iv m1 m2 dst1 dst2, length iv = n -> bytes iv ->
  let c1 := fst (ofb_encrypt (mkOfb c iv) dst1 m1) in let c2 := fst (ofb_encrypt (mkOfb c iv) dst2 m2) in
  xorl c1 c2 = xorl m1 m2 /\ xorl m1 (xorl c1 c2) = firstn (length m1) m2.
Proof.
  intros c n E D GC iv m1 m2 dst1 dst2 Hi Bi. cbv zeta.
  destruct (C18_ofb c n E D GC iv dst1 m1 Hi Bi) as (L1 & -> & _). destruct (C18_ofb c n E D GC iv dst2 m2 Hi Bi) as (L2 & -> & _). cbn [fst].
  assert (X : xorl (OFB E n iv m1) (OFB E n iv m2) = xorl m1 m2); [|rewrite X; split; [reflexivity|apply xorl_known]].
  unfold OFB in *. rewrite xorl_length in L1, L2. apply ks_pads; lia.
Qed.
Print Assumptions C78_ofb_reuse.
(** CTR: [o] is a new object; [ms1], [ms2] are the messages it encrypted before, over the same number of blocks (both empty: two objects
    made alike, or one and its clone, or one before and after a reset). *)
Theorem C78_ctr_reuse : forall c n E D, GoodCipher c n E D -> forall init bits k o ms1 ms2 m1 m2 dst1 dst2,
  bytes init -> counter_new init bits = Ok k -> ctr_new c k = Ok o ->
  list_sum (map (fun m => nblocks n (length m)) ms1) = list_sum (map (fun m => nblocks n (length m)) ms2) ->
  let c1 := fst (snd (ctr_encrypt (ctr_calls o ms1) dst1 m1)) in let c2 := fst (snd (ctr_encrypt (ctr_calls o ms2) dst2 m2)) in
  xorl c1 c2 = xorl m1 m2 /\ xorl m1 (xorl c1 c2) = firstn (length m1) m2.
Proof.
  intros c n E D GC init bits k o ms1 ms2 m1 m2 dst1 dst2 B K O S. cbv zeta.
  assert (LT : forall ms (m : list Z), let T := counter_block n ((bits + 7) / 8) (be_val init) in let j := list_sum (map (fun m : list Z => nblocks n (length m)) ms) in
    (length (CTR E n T j m) = length m)%nat).
  { intros ms m T j. destruct (C19_ctr c n E D GC init bits k o ms B K O [] m) as [_ Y]. destruct (C19_ctr c n E D GC init bits k o ms B K O [] (CTR E n T j m)) as [Y' _].
    change (snd (ctr_decrypt (ctr_calls o ms) [] (CTR E n T j m)) = (CTR E n T j (CTR E n T j m), Ok (length (CTR E n T j m)))) in Y'.
    fold T j in Y. rewrite Y in Y'. congruence. }
  destruct (C19_ctr c n E D GC init bits k o ms1 B K O dst1 m1) as [-> _]. destruct (C19_ctr c n E D GC init bits k o ms2 B K O dst2 m2) as [-> _]. cbn [fst].
  pose proof (LT ms1 m1) as L1. pose proof (LT ms2 m2) as L2. cbv zeta in L1, L2. rewrite S in *. clear S LT.
  revert L1 L2. generalize (counter_block n ((bits + 7) / 8) (be_val init)) (list_sum (map (fun m => nblocks n (length m)) ms2)). intros T j L1 L2.
  assert (X : xorl (CTR E n T j m1) (CTR E n T j m2) = xorl m1 m2); [|rewrite X; split; [reflexivity|apply xorl_known]].
  unfold CTR in *. rewrite xorl_length in L1, L2. apply (ks_pads (fun i => E (T (j + i)%nat))); lia.
Qed.
Print Assumptions C78_ctr_reuse.
Theorem C78_eea3_reuse : forall count bearer dir ck m1 m2 c, byte bearer -> key16 ck -> zc_from_slice count bearer dir ck = Ok c ->
  exists s1 s2 c1 c2 n1 n2, zc_encrypt c m1 = Ok (s1, c1, n1) /\ zc_encrypt c m2 = Ok (s2, c2, n2) /\ length c1 = length m1 /\ length c2 = length m2 /\
    xorl c1 c2 = xorl m1 m2 /\ xorl m1 (xorl c1 c2) = firstn (length m1) m2.
Proof.
  intros count bearer dir ck m1 m2 c B K O.
  assert (G : forall m, exists s ct r, zc_encrypt c m = Ok (s, ct, r) /\ ct = EEA3 count (bearer mod 32) (bool8 dir) ck m /\ length ct = length m).
  { intros m. destruct (C36_chunking count bearer dir ck [m] c B K O) as (c' & outs & R & Q & L). cbn [map concat app zc_run zc_step] in *. rewrite app_nil_r in Q, L.
    destruct (zc_encrypt c m) as [[[s ct] r]| |]; try discriminate. exists s, ct, r. injection R as <- <-. cbn [map concat fst] in Q, L. rewrite app_nil_r in Q, L. auto. }
  destruct (G m1) as (s1 & c1 & n1 & -> & Q1 & L1). destruct (G m2) as (s2 & c2 & n2 & -> & Q2 & L2). exists s1, s2, c1, c2, n1, n2. do 4 (split; [assumption || reflexivity|]).
  assert (X : xorl c1 c2 = xorl m1 m2); [|rewrite X; split; [reflexivity|apply xorl_known]].
  rewrite Q1, Q2. unfold EEA3, Zstream. set (f := Zbyte ck (EEA3_iv count (bearer mod 32) (bool8 dir))).
  assert (F : forall l, map f l = concat (map (fun i => [f i]) l)) by (induction l as [|x l IH]; [reflexivity|cbn [map concat app]; rewrite IH; reflexivity]).
  rewrite !F. apply ks_pads; rewrite <- F, map_length, seq_length; lia.
Qed.
Print Assumptions C78_eea3_reuse.

(** ** 128-EIA3: tags of messages of one length under one key and one IV are affine: three of them give the tag of the xor of the
    three messages, without the key. *)
Lemma le_bytes_lxor L : forall x y, le_bytes L (Z.lxor x y) = xorl (le_bytes L x) (le_bytes L y).
Proof.
  induction L as [|L IH]; intros x y; [reflexivity|]. cbn [le_bytes xorl]. f_equal.
  - change 256 with (2 ^ 8). rewrite <- !Z.land_ones by lia. apply Z.bits_inj'. intros k K. rewrite !Z.land_spec, !Z.lxor_spec, !Z.land_spec. destruct (Z.testbit x k), (Z.testbit y k), (Z.testbit (Z.ones 8) k); reflexivity.
  - rewrite <- IH. f_equal. change 256 with (2 ^ 8). rewrite <- !Z.shiftr_div_pow2 by lia. apply Z.shiftr_lxor.
Qed.
Lemma xorl_rev a b : length a = length b -> xorl (rev a) (rev b) = rev (xorl a b).
Proof. revert b. induction a as [|x a IH]; intros [|y b] L; try discriminate; [reflexivity|]. injection L as L. cbn [rev xorl]. rewrite xorl_app by (rewrite !rev_length; exact L). rewrite IH by exact L. reflexivity. Qed.
Lemma be_bytes_lxor L x y : be_bytes L (Z.lxor x y) = xorl (be_bytes L x) (be_bytes L y).
Proof. unfold be_bytes. rewrite le_bytes_lxor, xorl_rev by (rewrite !le_bytes_length; reflexivity). reflexivity. Qed.
Lemma nth_xorl i a b : length a = length b -> nth i (xorl a b) 0 = Z.lxor (nth i a 0) (nth i b 0).
Proof. revert i b. induction a as [|x a IH]; intros i [|y b] L; try discriminate; [destruct i; reflexivity|]. injection L as L. destruct i as [|i]; [reflexivity|]. exact (IH i b L). Qed.
Lemma XORs_lin (f g : nat -> Z) l : XORs (map (fun i => Z.lxor (f i) (g i)) l) = Z.lxor (XORs (map f l)) (XORs (map g l)).
Proof.
  induction l as [|x l IH] using rev_ind; [reflexivity|]. rewrite !map_app. cbn [map]. rewrite !XORs_snoc, IH. rewrite !Z.lxor_assoc. f_equal.
  rewrite <- !Z.lxor_assoc. f_equal. apply Z.lxor_comm.
Qed.
Lemma EIA3_sum_lin ck iv off a b : length a = length b -> EIA3_sum ck iv off (xorl a b) = Z.lxor (EIA3_sum ck iv off a) (EIA3_sum ck iv off b).
Proof.
  intros L. unfold EIA3_sum. rewrite xorl_length, L, Nat.min_id. rewrite <- XORs_lin. f_equal. apply map_ext. intros i. unfold Mbit. rewrite nth_xorl, Z.lxor_spec by exact L.
  destruct (Z.testbit (nth (i / 8) a 0) _), (Z.testbit (nth (i / 8) b 0) _); cbn [xorb]; rewrite ?Z.lxor_0_r, ?Z.lxor_0_l, ?Z.lxor_nilpotent; reflexivity.
Qed.
Theorem C78_eia3_affine : forall count bearer dir ck m0 m1 m2 m3, byte bearer -> key16 ck -> zm_from_slice count bearer dir ck = Ok m0 ->
  length m2 = length m1 -> length m3 = length m1 ->
  let tag m := snd (zm_checksum (zm_write m0 m)) in
  tag (xorl m1 (xorl m2 m3)) = xorl (tag m1) (xorl (tag m2) (tag m3)).
Proof.
  intros count bearer dir ck m0 m1 m2 m3 B K O L2 L3. cbv beta zeta.
  assert (T : forall m, snd (zm_checksum (zm_write m0 m)) = EIA3 count (bearer mod 32) (bool8 dir) ck m) by (intros m; apply (C37_one_write count bearer dir ck m m0 [] B K O)).
  rewrite !T. unfold EIA3. rewrite !EIA3_sum_lin by (rewrite ?xorl_length; lia). rewrite !xorl_length, L2, L3, !Nat.min_id. rewrite <- !be_bytes_lxor. f_equal.
  set (p := Zwin ck _ (8 * length m1)). set (q := Zwin ck _ (32 * _)). generalize (EIA3_sum ck (EIA3_iv count (bearer mod 32) (bool8 dir)) 0 m1) (EIA3_sum ck (EIA3_iv count (bearer mod 32) (bool8 dir)) 0 m2) (EIA3_sum ck (EIA3_iv count (bearer mod 32) (bool8 dir)) 0 m3).
  intros x y z. apply Z.bits_inj'. intros k Hk. rewrite !Z.lxor_spec. destruct (Z.testbit x k), (Z.testbit y k), (Z.testbit z k), (Z.testbit p k), (Z.testbit q k); reflexivity.
Qed.
Print Assumptions C78_eia3_affine.
(** The hypotheses are met: AES-128 with 16-byte blocks (PropModes.v); a message with a repeated block, two CBC messages under different
    IVs that end alike, two messages of 5 and 20 bytes under one OFB IV, and a 128-EIA3 object. *)
Example C78_case : (exists E D, GoodCipher exc 16 E D) /\
  (let ct := fst (ecb_encrypt (mkEcb exc EmptyPadding) [] (exmsg 16 ++ repeat 7 16 ++ exmsg 16)) in block_at 16 0 ct = block_at 16 2 ct /\ block_at 16 0 ct <> block_at 16 1 ct) /\
  (let c1 := fst (cbc_encrypt (mkCbc exc (DefaultPadding exc) exiv) [] (repeat 7 16 ++ [1; 2; 3])) in
   let c2 := fst (cbc_encrypt (mkCbc exc (DefaultPadding exc) (repeat 9 16)) [] (exmsg 16 ++ [1; 2; 3])) in skipn 16 c1 = skipn 16 c2 /\ firstn 16 c1 <> firstn 16 c2) /\
  (let c1 := fst (cbc_encrypt (mkCbc exc EmptyPadding exiv) [] (exmsg 16 ++ repeat 7 16)) in
   let c2 := fst (cbc_encrypt (mkCbc exc EmptyPadding exiv) [] (exmsg 16 ++ repeat 8 16)) in firstn (1 * 16) c1 = firstn (1 * 16) c2 /\ firstn (2 * 16) c1 <> firstn (2 * 16) c2) /\
  xorl (fst (ofb_encrypt (mkOfb exc exiv) [] (exmsg 5))) (fst (ofb_encrypt (mkOfb exc exiv) [] (repeat 0 20))) = exmsg 5.
Proof. split; [exact instance_good|]. vm_compute. repeat split; discriminate. Qed.
Example C78_eia3_case : let tag m := snd (zm_checksum (zm_write zm0 m)) in tag [1; 2; 7] = xorl (tag [1; 0; 0]) (xorl (tag [0; 2; 0]) (tag [0; 0; 7])).
Proof.
  refine (C78_eia3_affine 0 0 false (repeat 0 16) zm0 [1; 0; 0] [0; 2; 0] [0; 0; 7] _ _ zm0_ok eq_refl eq_refl); [unfold byte; lia|].
  split; [reflexivity|apply bytes_repeat; unfold byte; lia].
Qed.
