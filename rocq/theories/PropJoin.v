(** Property C93: which IV or counter continues a message.  Encrypting the second part of a message with an object whose IV (or counter)
    is taken from what the first part produced gives the second part of the ciphertext; so IVs and counters that stand in this relation
    by chance or by design join two messages into one.  [c] is any cipher object that permutes [n]-byte blocks, as in PropModes.v;
    [lastn n l] are the last [n] bytes of [l]. *)
From Verif Require Import Base Words ModesModel ModesSpec CfbOfbCtrProofs ModesExtra ModesApi PropModes.
From Verif Require PropReuse.

Lemma lastn_tail k a b : (k <= length b)%nat -> lastn k (a ++ b) = lastn k b.
Proof. intros H. unfold lastn. rewrite app_length, skipn_app, skipn_all2 by lia. cbn [app]. f_equal. lia. Qed.
Lemma lastn_all k a : length a = k -> lastn k a = a.
Proof. intros <-. unfold lastn. rewrite Nat.sub_diag. reflexivity. Qed.
Lemma lastn_length k a : (k <= length a)%nat -> length (lastn k a) = k.
Proof. intros H. unfold lastn. rewrite skipn_length. lia. Qed.
Lemma lastn_lastn k a b : (k <= length a)%nat -> lastn k (lastn k a ++ b) = lastn k (a ++ b).
Proof.
  intros H. rewrite <- (firstn_skipn (length a - k) a) at 2. fold (lastn k a). rewrite <- app_assoc. symmetry. apply lastn_tail.
  rewrite app_length, lastn_length by exact H. lia.
Qed.

Lemma iter_out {A} (f : A -> A) j x : Nat.iter (S j) f x = Nat.iter j f (f x).
Proof. induction j as [|j IH]; [reflexivity|]. change (Nat.iter (S (S j)) f x) with (f (Nat.iter (S j) f x)). rewrite IH. reflexivity. Qed.
Section Parts.
Variables (c : cipher) (n : nat) (E D : list Z -> list Z).
Hypothesis GC : GoodCipher c n E D.
Lemma cut_block k (m : list Z) s : length m = (S k * s)%nat -> exists p r, m = p ++ r /\ length p = s /\ length r = (k * s)%nat.
Proof. intros H. exists (firstn s m), (skipn s m). rewrite firstn_skipn, firstn_length, skipn_length. cbn in H. repeat split; lia. Qed.
Lemma CBC_join k : forall iv m1 m2, length iv = n -> bytes iv -> bytes m1 -> length m1 = (k * n)%nat ->
  CBC E n iv (m1 ++ m2) = CBC E n iv m1 ++ CBC E n (lastn n (iv ++ CBC E n iv m1)) m2 /\ length (CBC E n iv m1) = (k * n)%nat /\ bytes (CBC E n iv m1).
Proof.
  pose proof (gc_pos _ _ _ _ GC) as Hn. induction k as [|k IH]; intros iv m1 m2 LI BI B L.
  - destruct m1; [|discriminate]. cbn [app]. unfold CBC. rewrite (chunks_nil n Hn). cbn [CBCb concat app]. rewrite app_nil_r, lastn_all by exact LI. split; [reflexivity|]. split; [reflexivity|constructor].
  - destruct (cut_block k m1 n L) as (p & r & -> & LP & LR). apply Forall_app in B. destruct B as [BP BR].
    destruct (gc_E _ _ _ _ GC (xorl p iv)) as [LE BE]; [rewrite xorl_length; lia|apply xorl_bytes; assumption|].
    destruct (IH (E (xorl p iv)) r m2 LE BE BR LR) as (I1 & I2 & I3).
    assert (ST : forall z, CBC E n iv (p ++ z) = E (xorl p iv) ++ CBC E n (E (xorl p iv)) z) by (intros z; unfold CBC; rewrite chunks_app by assumption; reflexivity).
    rewrite <- app_assoc, !ST, I1. split; [|split; [rewrite app_length, I2, LE; reflexivity|apply bytes_app; split; assumption]]. rewrite <- app_assoc. do 3 f_equal. rewrite (lastn_tail n iv) by (rewrite app_length; lia). reflexivity.
Qed.
Lemma CFB_join s k : (0 < s <= n)%nat -> forall iv m1 m2, length iv = n -> bytes iv -> bytes m1 -> length m1 = (k * s)%nat ->
  CFB E s iv (m1 ++ m2) = CFB E s iv m1 ++ CFB E s (lastn n (iv ++ CFB E s iv m1)) m2 /\ length (CFB E s iv m1) = (k * s)%nat /\ bytes (CFB E s iv m1).
Proof.
  intros Hs. induction k as [|k IH]; intros iv m1 m2 LI BI B L.
  - destruct m1; [|discriminate]. cbn [app]. unfold CFB. rewrite (chunks_nil s) by lia. cbn [CFBb concat app]. rewrite app_nil_r, lastn_all by exact LI. split; [reflexivity|]. split; [reflexivity|constructor].
  - destruct (cut_block k m1 s L) as (p & r & -> & LP & LR). apply Forall_app in B. destruct B as [BP BR].
    destruct (gc_E _ _ _ _ GC iv LI BI) as [LE BE]. set (y := xorl p (firstn s (E iv))).
    assert (LY : length y = s) by (unfold y; rewrite xorl_length, firstn_length; lia).
    assert (BY : bytes y) by (apply xorl_bytes; [exact BP|apply bytes_firstn; exact BE]).
    assert (NX : skipn s iv ++ y = lastn n (iv ++ y)) by (unfold lastn; rewrite app_length, skipn_app; replace (length iv + length y - n)%nat with s by lia; replace (s - length iv)%nat with 0%nat by lia; reflexivity).
    destruct (IH (skipn s iv ++ y) r m2) as (I1 & I2 & I3); [rewrite app_length, skipn_length; lia|apply Forall_app; split; [apply bytes_skipn; exact BI|exact BY]|exact BR|exact LR|].
    assert (ST : forall z, CFB E s iv (p ++ z) = y ++ CFB E s (skipn s iv ++ y) z) by (intros z; unfold CFB; rewrite chunks_app by (try exact LP; lia); reflexivity).
    rewrite <- app_assoc, !ST, I1. split; [|split; [rewrite app_length, I2, LY; reflexivity|apply bytes_app; split; assumption]]. rewrite <- (app_assoc y (CFB E s (skipn s iv ++ y) r)). do 3 f_equal.
    generalize (CFB E s (skipn s iv ++ y) r). intros w. rewrite NX, lastn_lastn by (rewrite app_length; lia). rewrite <- app_assoc. reflexivity.
Qed.
Lemma OFB_step iv p z : length iv = n -> bytes iv -> length p = n -> OFB E n iv (p ++ z) = xorl p (E iv) ++ OFB E n (E iv) z.
Proof.
  intros LI BI LP. pose proof (gc_pos _ _ _ _ GC) as Hn. destruct (gc_E _ _ _ _ GC iv LI BI) as [LE _].
  unfold OFB. rewrite app_length, (nblocks_step n (length p + length z)) by lia. replace (length p + length z - n)%nat with (length z) by lia.
  cbn [seq map concat]. change (Nat.iter 1 E iv) with (E iv). rewrite xorl_app by lia. do 2 f_equal. rewrite <- seq_shift, map_map. f_equal. apply map_ext. intros j.
  change (E (Nat.iter (S j) E iv)) with (Nat.iter (S (S j)) E iv). apply iter_out.
Qed.
Lemma OFB_join k : forall iv m1 m2, length iv = n -> bytes iv -> length m1 = (k * n)%nat ->
  OFB E n iv (m1 ++ m2) = OFB E n iv m1 ++ OFB E n (lastn n (iv ++ xorl m1 (OFB E n iv m1))) m2 /\ length (OFB E n iv m1) = (k * n)%nat /\ bytes (xorl m1 (OFB E n iv m1)).
Proof.
  pose proof (gc_pos _ _ _ _ GC) as Hn. induction k as [|k IH]; intros iv m1 m2 LI BI L.
  - destruct m1; [|discriminate]. cbn [app xorl length Nat.mul] in *. change (OFB E n iv []) with (@nil Z). rewrite app_nil_r, lastn_all by exact LI. split; [reflexivity|]. split; [reflexivity|constructor].
  - destruct (cut_block k m1 n L) as (p & r & -> & LP & LR). destruct (gc_E _ _ _ _ GC iv LI BI) as [LE BE]. destruct (IH (E iv) r m2 LE BE LR) as (I1 & I2 & I3).
    rewrite <- app_assoc, (OFB_step iv p (r ++ m2) LI BI LP), (OFB_step iv p r LI BI LP), I1. assert (LX : length (xorl p (E iv)) = n) by (rewrite xorl_length; lia).
    assert (XX : xorl (p ++ r) (xorl p (E iv) ++ OFB E n (E iv) r) = E iv ++ xorl r (OFB E n (E iv) r)) by (rewrite xorl_app by lia; rewrite xorl_cancel_l by lia; reflexivity).
    split; [|split; [rewrite app_length, I2, LX; reflexivity|rewrite XX; apply bytes_app; split; assumption]].
    rewrite XX, <- (app_assoc (xorl p (E iv))), (lastn_tail n iv) by (rewrite app_length; lia). reflexivity.
Qed.
Lemma CTR_join T k : (forall j, length (E (T j)) = n) -> forall j m1 m2, length m1 = (k * n)%nat ->
  CTR E n T j (m1 ++ m2) = CTR E n T j m1 ++ CTR E n T (j + k) m2 /\ length (CTR E n T j m1) = (k * n)%nat.
Proof.
  intros LT. pose proof (gc_pos _ _ _ _ GC) as Hn. induction k as [|k IH]; intros j m1 m2 L.
  - destruct m1; [|discriminate]. rewrite Nat.add_0_r. split; reflexivity.
  - destruct (cut_block k m1 n L) as (p & r & -> & LP & LR).
    assert (ST : forall z, CTR E n T j (p ++ z) = xorl p (E (T j)) ++ CTR E n T (S j) z).
    { intros z. unfold CTR. rewrite app_length, (nblocks_step n (length p + length z)) by lia. replace (length p + length z - n)%nat with (length z) by lia.
      cbn [seq map concat]. rewrite Nat.add_0_r, xorl_app by (rewrite LT; exact LP). do 2 f_equal. rewrite <- seq_shift, map_map. f_equal. apply map_ext. intros i. do 2 f_equal. lia. }
    destruct (IH (S j) r m2 LR) as [I1 I2]. rewrite <- app_assoc, !ST, I1, <- app_assoc. replace (S j + k)%nat with (j + S k)%nat by lia.
    split; [reflexivity|]. rewrite app_length, I2, xorl_length, LT. lia.
Qed.
End Parts.

(** ** CBC, CFB, OFB *)
Theorem C93_cbc : forall c n E D, GoodCipher c n E D -> forall iv m1 m2 dst dst1 dst2, length iv = n -> bytes iv -> bytes m1 -> bytes m2 ->
  (length m1 mod n = 0)%nat -> (length m2 mod n = 0)%nat ->
  let c1 := fst (cbc_encrypt (mkCbc c EmptyPadding iv) dst1 m1) in
  fst (cbc_encrypt (mkCbc c EmptyPadding iv) dst (m1 ++ m2)) = c1 ++ fst (cbc_encrypt (mkCbc c EmptyPadding (lastn n (iv ++ c1))) dst2 m2).
Proof.
  intros c n E D GC iv m1 m2 dst dst1 dst2 LI BI B1 B2 M1 M2 c1. pose proof (gc_pos _ _ _ _ GC) as Hn.
  assert (EN : forall v d m, length v = n -> bytes v -> bytes m -> (length m mod n = 0)%nat -> fst (cbc_encrypt (mkCbc c EmptyPadding v) d m) = CBC E n v m)
    by (intros v d m A B C F; destruct (C13_cbc_empty c n E D GC v d d m A B C) as [Y _]; rewrite (proj1 (Y F)); reflexivity).
  assert (LK : length m1 = (length m1 / n * n)%nat) by (pose proof (Nat.div_mod (length m1) n); lia).
  destruct (CBC_join c n E D GC (length m1 / n) iv m1 m2 LI BI B1 LK) as (J1 & J2 & J3). assert (E1 : c1 = CBC E n iv m1) by (apply EN; assumption). rewrite <- E1 in J3.
  rewrite (EN (lastn n (iv ++ c1))); [|apply lastn_length; rewrite app_length; lia|apply bytes_skipn, bytes_app; split; assumption|exact B2|exact M2].
  rewrite EN; [|exact LI|exact BI|apply bytes_app; split; assumption|rewrite app_length, <- Nat.add_mod_idemp_l, M1 by lia; exact M2].
  rewrite E1. exact J1.
Qed.
Print Assumptions C93_cbc.
Theorem C93_cfb : forall c n E D, GoodCipher c n E D -> forall s iv m1 m2 dst dst1 dst2, (0 < s <= n)%nat -> length iv = n -> bytes iv -> bytes m1 -> bytes m2 ->
  (length m1 mod s = 0)%nat -> (length m2 mod s = 0)%nat ->
  let c1 := fst (cfb_encrypt (mkCfb s c EmptyPadding iv) dst1 m1) in
  fst (cfb_encrypt (mkCfb s c EmptyPadding iv) dst (m1 ++ m2)) = c1 ++ fst (cfb_encrypt (mkCfb s c EmptyPadding (lastn n (iv ++ c1))) dst2 m2).
Proof.
  intros c n E D GC s iv m1 m2 dst dst1 dst2 Hs LI BI B1 B2 M1 M2 c1.
  assert (EN : forall v d m, length v = n -> bytes v -> bytes m -> (length m mod s = 0)%nat -> fst (cfb_encrypt (mkCfb s c EmptyPadding v) d m) = CFB E s v m).
  { intros v d m A B C F. destruct (C16_cfb_empty c n E D GC v s d d m A B C Hs) as [Y _]. rewrite Y. cbn [fst]. unfold whole. rewrite F, Nat.sub_0_r, firstn_all. reflexivity. }
  assert (LK : length m1 = (length m1 / s * s)%nat) by (pose proof (Nat.div_mod (length m1) s); lia).
  destruct (CFB_join c n E D GC s (length m1 / s) Hs iv m1 m2 LI BI B1 LK) as (J1 & J2 & J3). assert (E1 : c1 = CFB E s iv m1) by (apply EN; assumption). rewrite <- E1 in J3.
  rewrite (EN (lastn n (iv ++ c1))); [|apply lastn_length; rewrite app_length; lia|apply bytes_skipn, bytes_app; split; assumption|exact B2|exact M2].
  rewrite EN; [|exact LI|exact BI|apply bytes_app; split; assumption|rewrite app_length, <- Nat.add_mod_idemp_l, M1 by lia; exact M2].
  rewrite E1. exact J1.
Qed.
Print Assumptions C93_cfb.
(** OFB: the IV that continues is the last block of the key stream, message xor ciphertext. *)
Theorem C93_ofb : forall c n E D, GoodCipher c n E D -> forall iv m1 m2 dst dst1 dst2, length iv = n -> bytes iv -> (length m1 mod n = 0)%nat ->
  let c1 := fst (ofb_encrypt (mkOfb c iv) dst1 m1) in
  fst (ofb_encrypt (mkOfb c iv) dst (m1 ++ m2)) = c1 ++ fst (ofb_encrypt (mkOfb c (lastn n (iv ++ xorl m1 c1))) dst2 m2).
Proof.
  intros c n E D GC iv m1 m2 dst dst1 dst2 LI BI M1 c1. pose proof (gc_pos _ _ _ _ GC) as Hn.
  assert (EN : forall v d m, length v = n -> bytes v -> fst (ofb_encrypt (mkOfb c v) d m) = OFB E n v m)
    by (intros v d m A B; destruct (C18_ofb c n E D GC v d m A B) as (_ & Y & _); rewrite Y; reflexivity).
  assert (LK : length m1 = (length m1 / n * n)%nat) by (pose proof (Nat.div_mod (length m1) n); lia).
  destruct (OFB_join c n E D GC (length m1 / n) iv m1 m2 LI BI LK) as (J1 & J2 & J3). assert (E1 : c1 = OFB E n iv m1) by (apply EN; assumption). rewrite <- E1 in J3.
  rewrite (EN (lastn n (iv ++ xorl m1 c1))); [|apply lastn_length; rewrite app_length; lia|apply bytes_skipn, bytes_app; split; assumption].
  rewrite EN by assumption. rewrite E1. exact J1.
Qed.
Print Assumptions C93_ofb.

(** ** CTR *)
(** Two new objects with counters of one width, the second [d] ahead of the first (modulo the width): the second one encrypts as the first
    does after [d] blocks, so that two messages encrypted with them share key stream wherever they overlap. *)
Theorem C93_ctr : forall c n E D, GoodCipher c n E D -> forall init init' bits k k' o o' d m1 m2 dst dst2, bytes init -> bytes init' ->
  counter_new init bits = Ok k -> ctr_new c k = Ok o -> counter_new init' bits = Ok k' -> ctr_new c k' = Ok o' ->
  be_val init' mod 256 ^ Z.of_nat ((bits + 7) / 8) = (be_val init + Z.of_nat d) mod 256 ^ Z.of_nat ((bits + 7) / 8) -> length m1 = (d * n)%nat ->
  let ct m := fst (snd (ctr_encrypt o dst m)) in let ct' m := fst (snd (ctr_encrypt o' dst2 m)) in
  ct (m1 ++ m2) = ct m1 ++ ct' m2 /\ length (ct m1) = length m1 /\
  forall m3, xorl (skipn (d * n) (ct (m1 ++ m2))) (ct' m3) = xorl m2 m3.
Proof.
  intros c n E D GC init init' bits k k' o o' d m1 m2 dst dst2 B B' K O K' O' V L ct ct'. pose proof (gc_pos _ _ _ _ GC) as Hn.
  set (W := ((bits + 7) / 8)%nat) in *. set (T := counter_block n W (be_val init)). set (T' := counter_block n W (be_val init')).
  assert (C1 : forall m, ct m = CTR E n T 0 m) by (intros m; unfold ct; destruct (C19_ctr c n E D GC init bits k o [] B K O dst m) as [Y _]; cbn [ctr_calls fold_left map list_sum fold_right] in Y; rewrite Y; reflexivity).
  assert (C2 : forall m, ct' m = CTR E n T' 0 m) by (intros m; unfold ct'; destruct (C19_ctr c n E D GC init' bits k' o' [] B' K' O' dst2 m) as [Y _]; cbn [ctr_calls fold_left map list_sum fold_right] in Y; rewrite Y; reflexivity).
  assert (TT : forall j, T' j = T (d + j)%nat).
  { intros j. unfold T, T', counter_block. f_equal. rewrite <- be_bytes_mod, <- (be_bytes_mod W (be_val init + _)). f_equal.
    rewrite <- Zplus_mod_idemp_l, V, Zplus_mod_idemp_l. f_equal. lia. }
  assert (C3 : forall m, CTR E n T' 0 m = CTR E n T d m) by (intros m; unfold CTR; do 2 f_equal; apply map_ext; intros j; rewrite TT; reflexivity).
  assert (NL : (n <= W)%nat).
  { unfold ctr_new in O. destruct (Nat.ltb_spec (ctr_bits k) (bsz c * 8)) as [|G] in O; [discriminate|]. unfold counter_new in K.
    destruct ((bits + 7) / 8 <? length init)%nat in K; [discriminate|]. injection K as <-. cbn [ctr_bits] in G. unfold bsz in G. rewrite (gc_blk _ _ _ _ GC) in G.
    unfold W. apply Nat.div_le_lower_bound; lia. }
  assert (LT : forall j, length (E (T j)) = n).
  { intros j. apply (gc_E _ _ _ _ GC); unfold T, counter_block; [rewrite firstn_length, be_bytes_length; lia|apply bytes_firstn, be_bytes_bytes]. }
  assert (LP : forall a (m : list Z), (length m <= length (concat (map (fun j => E (T (a + j)%nat)) (seq 0 (nblocks n (length m))))))%nat).
  { intros a m. assert (Q : forall t b, length (concat (map (fun j => E (T (a + j)%nat)) (seq b t))) = (t * n)%nat)
      by (induction t as [|t IH]; intros b; [reflexivity|]; cbn [seq map concat]; rewrite app_length, LT, IH; lia).
    rewrite Q. unfold nblocks. pose proof (Nat.div_mod (length m + n - 1) n ltac:(lia)). pose proof (Nat.mod_upper_bound (length m + n - 1) n ltac:(lia)). nia. }
  destruct (CTR_join c n E D GC T d LT 0 m1 m2 L) as [J1 J2]. rewrite Nat.add_0_l in J1.
  split; [rewrite !C1, C2, C3; exact J1|]. split; [rewrite C1, J2, L; reflexivity|]. intros m3. rewrite C1, C2, C3, J1.
  rewrite skipn_app, skipn_all2 by lia. rewrite J2, Nat.sub_diag. cbn [app skipn]. unfold CTR. apply (PropReuse.ks_pads (fun j => E (T (d + j)%nat))); apply LP.
Qed.
Print Assumptions C93_ctr.
(** AES: a message of three blocks in parts of one and two blocks; a counter that wraps between the two. *)
Example C93_case : (exists E D, GoodCipher exc 16 E D) /\ length exiv = 16%nat /\ bytes exiv /\ bytes (exmsg 16) /\ bytes (exmsg 32) /\
  (exists k k' o o', counter_new (repeat 255 16) 128 = Ok k /\ ctr_new exc k = Ok o /\ counter_new [1] 128 = Ok k' /\ ctr_new exc k' = Ok o') /\
  be_val [1] mod 256 ^ Z.of_nat ((128 + 7) / 8) = (be_val (repeat 255 16) + Z.of_nat 2) mod 256 ^ Z.of_nat ((128 + 7) / 8) /\ length (exmsg 32) = (2 * 16)%nat.
Proof.
  split; [exact instance_good|]. split; [reflexivity|]. split; [apply bytes_check; reflexivity|]. split; [apply bytes_check; reflexivity|]. split; [apply bytes_check; reflexivity|].
  split; [eexists; eexists; eexists; eexists; split; [reflexivity|]; split; [reflexivity|]; split; reflexivity|]. split; [vm_compute; reflexivity|reflexivity].
Qed.
