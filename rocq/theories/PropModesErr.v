(** Property C71: what an altered, shortened or cut ciphertext decrypts to (SP 800-38A, appendix D), and random access.
    [c] is any cipher object that permutes [n]-byte blocks, as in PropModes.v; decryption without padding, so that every
    string of whole blocks is a ciphertext. *)
From Verif Require Import Base Words ModesModel ModesSpec PaddingProofs ModesLoops EcbCbcProofs CfbOfbCtrProofs ModesExtra ModesApi PropModes.

(** ** Specification: block [j] of a string. *)
Definition block_at (n j : nat) (l : list Z) : list Z := firstn n (skipn (j * n) l).

Lemma block_at_0 n a l : length a = n -> block_at n 0 (a ++ l) = a.
Proof. intros H. unfold block_at. cbn [Nat.mul skipn]. rewrite firstn_app, H, Nat.sub_diag, firstn_O, app_nil_r. apply firstn_all2. lia. Qed.
Lemma skipn_block {A} n (a l : list A) k : length a = n -> skipn (n + k) (a ++ l) = skipn k l.
Proof. intros H. rewrite skipn_app, skipn_all2 by lia. cbn [app]. f_equal. lia. Qed.
Lemma block_at_S n j a l : length a = n -> block_at n (S j) (a ++ l) = block_at n j l.
Proof. intros H. unfold block_at. cbn [Nat.mul]. rewrite skipn_block by exact H. reflexivity. Qed.
Lemma block_at_length n j l : (j * n < length l)%nat -> (length l mod n = 0)%nat -> (0 < n)%nat -> length (block_at n j l) = n.
Proof.
  intros J M P. unfold block_at. rewrite firstn_length, skipn_length. pose proof (Nat.div_mod (length l) n ltac:(lia)) as DM. rewrite M in DM.
  assert (j < length l / n)%nat by nia. nia.
Qed.
Lemma block_at_bytes n j l : bytes l -> bytes (block_at n j l).
Proof. intros B. apply bytes_firstn, bytes_skipn, B. Qed.
Lemma mult_cut n (u : list Z) : (0 < n)%nat -> (length u mod n = 0)%nat -> (length u < n)%nat -> u = [].
Proof. intros P M L. rewrite Nat.mod_small in M by exact L. destruct u; [reflexivity|discriminate]. Qed.

Section WithCipher.
Variable c : cipher.
Variable n : nat.
Variables E D : list Z -> list Z.
Hypothesis GC : GoodCipher c n E D.
Let Hn : (0 < n)%nat := gc_pos _ _ _ _ GC.

Lemma ecb_blocks : forall ct, bytes ct -> (length ct mod n = 0)%nat ->
  length (ECB D n ct) = length ct /\ forall j, (j * n < length ct)%nat -> block_at n j (ECB D n ct) = D (block_at n j ct).
Proof.
  block_induction n; auto.
  - intros ct L B M. rewrite (mult_cut n ct Hn M L), ECB_nil by exact Hn. split; [reflexivity|]. intros j J. cbn in J. lia.
  - intros b ct Hb IH B M. apply bytes_app in B. destruct B as [Bb B]. rewrite app_length, mod_block in M by lia. destruct (IH B M) as [L I].
    rewrite ECB_block by auto. destruct (gc_D _ _ _ _ GC b Hb Bb) as [L1 _]. split; [rewrite !app_length; lia|]. intros j J. rewrite app_length in J.
    destruct j as [|j]; [rewrite !block_at_0 by auto; reflexivity|]. rewrite !block_at_S by auto. apply I. cbn [Nat.mul] in J. lia.
Qed.
Lemma cbc_blocks : forall ct, forall iv, bytes ct -> length iv = n -> (length ct mod n = 0)%nat ->
  length (CBC_inv D n iv ct) = length ct /\
  forall j, (j * n < length ct)%nat -> block_at n j (CBC_inv D n iv ct) = xorl (D (block_at n j ct)) (block_at n j (iv ++ ct)).
Proof.
  block_induction n; auto.
  - intros ct L iv B Hiv M. rewrite (mult_cut n ct Hn M L). unfold CBC_inv. rewrite chunks_nil by exact Hn. split; [reflexivity|]. intros j J. cbn in J. lia.
  - intros b ct Hb IH iv B Hiv M. apply bytes_app in B. destruct B as [Bb B]. rewrite app_length, mod_block in M by lia. destruct (IH b B Hb M) as [L I].
    unfold CBC_inv. rewrite chunks_app by auto. cbn [CBCb_inv concat]. fold (CBC_inv D n b ct). destruct (gc_D _ _ _ _ GC b Hb Bb) as [L1 _].
    assert (L2 : length (xorl (D b) iv) = n) by (rewrite xorl_length; lia).
    split; [rewrite !app_length; lia|]. intros j J. rewrite app_length in J.
    destruct j as [|j]; [rewrite !block_at_0 by auto; reflexivity|]. rewrite !block_at_S by auto. apply I. cbn [Nat.mul] in J. lia.
Qed.
Lemma cfb_blocks s : (0 < s <= n)%nat -> forall ct iv, bytes ct -> bytes iv -> length iv = n -> (length ct mod s = 0)%nat ->
  length (mF (cfbF E s) (cfbDG s) s iv ct) = length ct /\
  forall j, (j * s < length ct)%nat -> block_at s j (mF (cfbF E s) (cfbDG s) s iv ct) = xorl (block_at s j ct) (firstn s (E (firstn n (skipn (j * s) (iv ++ ct))))).
Proof.
  intros Hs. block_induction s; [lia| |].
  - intros ct L iv B Bi Hiv M. rewrite (mult_cut s ct ltac:(lia) M L). rewrite mF_nil by lia. split; [reflexivity|]. intros j J. cbn in J. lia.
  - intros b ct Hb IH iv B Bi Hiv M. apply bytes_app in B. destruct B as [Bb B]. rewrite app_length, mod_block in M by lia.
    rewrite mF_block by (auto; lia). set (iv' := cfbDG s iv b). assert (Hiv' : length iv' = n) by (unfold iv', cfbDG; rewrite app_length, skipn_length; lia).
    assert (Bi' : bytes iv') by (unfold iv', cfbDG; apply bytes_app; split; [apply bytes_skipn; exact Bi|exact Bb]).
    destruct (IH iv' B Bi' Hiv' M) as [L I]. destruct (gc_E _ _ _ _ GC iv Hiv Bi) as [L1 _].
    assert (L2 : length (cfbF E s iv b) = s) by (unfold cfbF; rewrite xorl_length, firstn_length; lia).
    split; [rewrite !app_length; lia|]. intros j J. rewrite app_length in J. destruct j as [|j].
    + rewrite !block_at_0 by auto. unfold cfbF. cbn [Nat.mul skipn]. rewrite firstn_app, Hiv, Nat.sub_diag, firstn_O, app_nil_r, (firstn_all2 iv) by lia. reflexivity.
    + rewrite !block_at_S by auto. rewrite I by (cbn [Nat.mul] in J; lia). do 4 f_equal. cbn [Nat.mul].
      assert (X : skipn s (iv ++ b ++ ct) = iv' ++ ct).
      { unfold iv', cfbDG. rewrite skipn_app. replace (s - length iv)%nat with 0%nat by lia. cbn [skipn]. rewrite <- app_assoc. reflexivity. }
      rewrite <- X, Base.skipn_skipn. f_equal. lia.
Qed.
(** The chaining value after [u] is the last [n] bytes of [iv ++ u]. *)
Lemma cfb_state s : (0 < s <= n)%nat -> forall u iv, length iv = n -> (length u mod s = 0)%nat -> mG (cfbDG s) s iv u = skipn (length u) (iv ++ u).
Proof.
  intros Hs. block_induction s; [lia| |].
  - intros u L iv Hiv M. rewrite (mult_cut s u ltac:(lia) M L). rewrite mG_nil by lia. cbn [length skipn]. rewrite app_nil_r. reflexivity.
  - intros b u Hb IH iv Hiv M. rewrite app_length, mod_block in M by lia. rewrite mG_block by (auto; lia).
    rewrite IH by (auto; unfold cfbDG; rewrite app_length, skipn_length; lia). unfold cfbDG. rewrite app_length, Hb.
    rewrite (Nat.add_comm s), <- Base.skipn_skipn, (skipn_app s iv). replace (s - length iv)%nat with 0%nat by lia. cbn [skipn]. rewrite <- app_assoc. reflexivity.
Qed.
End WithCipher.

(** ** C71 *)
(** Each plaintext block is a function of its ciphertext block (ECB), of that and the one before (CBC), of its segment and
    the [n] bytes before it (CFB).  Block [j] of [iv ++ ct] is the ciphertext block before block [j]. *)
Theorem C71_ecb_block : forall c n E D, GoodCipher c n E D -> forall dst ct, bytes ct -> (length ct mod n = 0)%nat ->
  exists p, ecb_decrypt (mkEcb c EmptyPadding) dst ct = (p, Ok (length ct)) /\ length p = length ct /\
    forall j, (j * n < length ct)%nat -> block_at n j p = D (block_at n j ct).
Proof.
  intros c n E D GC dst ct B M. destruct (ecb_blocks c n E D GC ct B M) as [L I]. exists (ECB D n ct).
  rewrite (ecb_decrypt_any c n E D GC) by auto. cbn [EmptyPadding unpad]. rewrite L. auto.
Qed.
Print Assumptions C71_ecb_block.
Theorem C71_cbc_block : forall c n E D, GoodCipher c n E D -> forall iv dst ct, length iv = n -> bytes ct -> (length ct mod n = 0)%nat ->
  exists p, cbc_decrypt (mkCbc c EmptyPadding iv) dst ct = (p, Ok (length ct)) /\ length p = length ct /\
    forall j, (j * n < length ct)%nat -> block_at n j p = xorl (D (block_at n j ct)) (block_at n j (iv ++ ct)).
Proof.
  intros c n E D GC iv dst ct Hiv B M. destruct (cbc_blocks c n E D GC ct iv B Hiv M) as [L I]. exists (CBC_inv D n iv ct).
  rewrite (cbc_decrypt_any c n E D GC) by auto. cbn [EmptyPadding unpad]. rewrite L. auto.
Qed.
Print Assumptions C71_cbc_block.
Theorem C71_cfb_block : forall c n E D, GoodCipher c n E D -> forall s iv dst ct, (0 < s <= n)%nat ->
  length iv = n -> bytes iv -> bytes ct -> (length ct mod s = 0)%nat ->
  exists p, cfb_decrypt (mkCfb s c EmptyPadding iv) dst ct = (p, Ok (length ct)) /\ length p = length ct /\
    forall j, (j * s < length ct)%nat -> block_at s j p = xorl (block_at s j ct) (firstn s (E (firstn n (skipn (j * s) (iv ++ ct))))).
Proof.
  intros c n E D GC s iv dst ct Hs Hiv Bi B M. destruct (cfb_blocks c n E D GC s Hs ct iv B Bi Hiv M) as [L I]. exists (mF (cfbF E s) (cfbDG s) s iv ct).
  rewrite (cfb_decrypt_any c n E D GC s Hs) by (auto; split; auto). cbn [EmptyPadding unpad]. rewrite L. auto.
Qed.
Print Assumptions C71_cfb_block.

(** One altered block: in ECB it spoils exactly that block; in CBC that block, and the same bits of the next one are flipped
    as were altered; all other blocks are as before. *)
Theorem C71_ecb_altered : forall c n E D, GoodCipher c n E D -> forall ct ct' p p' r r' i, bytes ct -> bytes ct' -> length ct' = length ct ->
  (length ct mod n = 0)%nat -> (i * n < length ct)%nat -> (forall j, j <> i -> block_at n j ct' = block_at n j ct) -> block_at n i ct' <> block_at n i ct ->
  ecb_decrypt (mkEcb c EmptyPadding) [] ct = (p, r) -> ecb_decrypt (mkEcb c EmptyPadding) [] ct' = (p', r') ->
  forall j, (j * n < length ct)%nat -> (block_at n j p' = block_at n j p <-> j <> i).
Proof.
  intros c n E D GC ct ct' p p' r r' i B B' L M IL EQ NE H H' j J. pose proof (gc_pos _ _ _ _ GC) as Hn.
  destruct (C71_ecb_block c n E D GC [] ct B M) as (q & Q1 & _ & Q3). destruct (C71_ecb_block c n E D GC [] ct' B' ltac:(rewrite L; exact M)) as (q' & Q1' & _ & Q3').
  assert (q = p) by congruence. assert (q' = p') by congruence. subst q q'. rewrite Q3 by exact J. rewrite Q3' by lia. split.
  - intros X ->. apply NE. rewrite <- (gc_ED _ _ _ _ GC (block_at n i ct')), X; [apply (gc_ED _ _ _ _ GC)|..]; try (apply block_at_bytes; assumption);
      apply block_at_length; auto; rewrite ?L; auto.
  - intros X. rewrite EQ by exact X. reflexivity.
Qed.
Print Assumptions C71_ecb_altered.
Theorem C71_cbc_altered : forall c n E D, GoodCipher c n E D -> forall iv ct ct' p p' r r' i, length iv = n -> bytes ct -> bytes ct' -> length ct' = length ct ->
  (length ct mod n = 0)%nat -> (i * n < length ct)%nat -> (forall j, j <> i -> block_at n j ct' = block_at n j ct) ->
  cbc_decrypt (mkCbc c EmptyPadding iv) [] ct = (p, r) -> cbc_decrypt (mkCbc c EmptyPadding iv) [] ct' = (p', r') ->
  (forall j, (j * n < length ct)%nat -> j <> i -> j <> S i -> block_at n j p' = block_at n j p) /\
  ((S i * n < length ct)%nat -> xorl (block_at n (S i) p') (block_at n (S i) p) = xorl (block_at n i ct') (block_at n i ct)) /\
  (block_at n i ct' <> block_at n i ct -> block_at n i p' <> block_at n i p).
Proof.
  intros c n E D GC iv ct ct' p p' r r' i Hiv B B' L M IL EQ H H'. pose proof (gc_pos _ _ _ _ GC) as Hn.
  destruct (C71_cbc_block c n E D GC iv [] ct Hiv B M) as (q & Q1 & _ & Q3). destruct (C71_cbc_block c n E D GC iv [] ct' Hiv B' ltac:(rewrite L; exact M)) as (q' & Q1' & _ & Q3').
  assert (q = p) by congruence. assert (q' = p') by congruence. subst q q'. rewrite L in Q3'.
  assert (BL : forall j, (j * n < length ct)%nat -> length (D (block_at n j ct)) = n /\ length (D (block_at n j ct')) = n).
  { intros j J. split; apply (gc_D _ _ _ _ GC); try (apply block_at_bytes; assumption); apply block_at_length; rewrite ?L; auto. }
  assert (PV : forall j, j <> S i -> block_at n j (iv ++ ct') = block_at n j (iv ++ ct)).
  { intros [|j] NJ; [rewrite !block_at_0 by auto; reflexivity|]. rewrite !block_at_S by auto. apply EQ. congruence. }
  assert (XC : forall a b d, length a = n -> length b = n -> length d = n -> xorl (xorl a b) (xorl a d) = xorl b d).
  { clear. intros a b d A B C. rewrite (xorl_comm a b), xorl_assoc. f_equal. apply xorl_cancel_l. lia. }
  split; [|split].
  - intros j J N1 N2. rewrite Q3, Q3' by exact J. rewrite EQ, PV by assumption. reflexivity.
  - intros J. rewrite Q3, Q3' by exact J. rewrite !block_at_S by auto. rewrite EQ by lia. apply XC; [apply BL; exact J|..]; apply block_at_length; rewrite ?L; auto.
  - intros NE X. apply NE. rewrite Q3, Q3' in X by exact IL. rewrite PV in X by lia.
    assert (PL : length (block_at n i (iv ++ ct)) = n).
    { destruct i as [|i]; [rewrite block_at_0; auto|]. rewrite block_at_S by auto. apply block_at_length; auto. cbn [Nat.mul] in IL. lia. }
    destruct (BL i IL) as [L1 L2]. apply (f_equal (fun l => xorl l (block_at n i (iv ++ ct)))) in X. rewrite !xorl_cancel in X by lia.
    apply (f_equal E) in X. rewrite !(gc_ED _ _ _ _ GC) in X; auto; try (apply block_at_bytes; assumption); apply block_at_length; rewrite ?L; auto.
Qed.
Print Assumptions C71_cbc_altered.
(** OFB and CTR: exactly the altered bits are altered. *)
Theorem C71_ofb_altered : forall c n E D, GoodCipher c n E D -> forall iv ct ct' dst dst', length iv = n -> bytes iv -> length ct' = length ct ->
  xorl (fst (ofb_decrypt (mkOfb c iv) dst' ct')) (fst (ofb_decrypt (mkOfb c iv) dst ct)) = xorl ct' ct.
Proof.
  intros c n E D GC iv ct ct' dst dst' Hiv Bi L. pose proof (gc_pos _ _ _ _ GC) as Hn.
  assert (X : forall m d, fst (ofb_decrypt (mkOfb c iv) d m) = OFB E n iv m).
  { intros m d. destruct (C18_ofb c n E D GC iv d (OFB E n iv m) Hiv Bi) as (_ & _ & X & _).
    rewrite (OFB_involutive c n E D GC) in X by (split; auto). rewrite X. reflexivity. }
  rewrite !X. pose proof (OFB_length c n E D GC iv ct (conj Hiv Bi)) as L1. pose proof (OFB_length c n E D GC iv ct' (conj Hiv Bi)) as L2. revert L1 L2.
  unfold OFB. rewrite L. generalize (concat (map (fun j => Nat.iter (S j) E iv) (seq 0 (nblocks n (length ct))))). intros k.
  rewrite !xorl_length. intros L1 L2. rewrite (xorl_comm ct k), xorl_assoc, <- (xorl_assoc k k ct). rewrite <- xorl_assoc, <- (xorl_assoc ct').
  rewrite (xorl_cancel ct' k) by lia. reflexivity.
Qed.
Print Assumptions C71_ofb_altered.
Theorem C71_ctr_altered : forall c n E D, GoodCipher c n E D -> forall init bits k o ms ct ct' dst dst', bytes init -> counter_new init bits = Ok k -> ctr_new c k = Ok o ->
  length ct' = length ct ->
  xorl (fst (snd (ctr_decrypt (ctr_calls o ms) dst' ct'))) (fst (snd (ctr_decrypt (ctr_calls o ms) dst ct))) = xorl ct' ct.
Proof.
  intros c n E D GC init bits k o ms ct ct' dst dst' B K O L. pose proof (gc_pos _ _ _ _ GC) as Hn.
  set (T := counter_block n ((bits + 7) / 8) (be_val init)). set (j := list_sum (map (fun m => nblocks n (length m)) ms)).
  assert (X : forall m d, snd (ctr_decrypt (ctr_calls o ms) d m) = (CTR E n T j m, Ok (length m))).
  { intros m d. destruct (C19_ctr c n E D GC init bits k o ms B K O d m) as [X _]. exact X. }
  rewrite !X. cbn [fst].
  assert (LT : forall m, (length (CTR E n T j m) = length m)%nat).
  { intros m. destruct (C19_ctr c n E D GC init bits k o ms B K O dst m) as [_ Y]. fold T j in Y. rewrite X in Y. apply (f_equal snd) in Y. cbn [snd] in Y. congruence. }
  pose proof (LT ct) as L1. pose proof (LT ct') as L2. revert L1 L2. unfold CTR. rewrite L.
  generalize (concat (map (fun i => E (T (j + i)%nat)) (seq 0 (nblocks n (length ct))))). intros ks. rewrite !xorl_length. intros L1 L2.
  rewrite (xorl_comm ct ks), xorl_assoc, <- (xorl_assoc ks ks ct). rewrite <- xorl_assoc, <- (xorl_assoc ct'). rewrite (xorl_cancel ct' ks) by lia. reflexivity.
Qed.
Print Assumptions C71_ctr_altered.

(** Self-synchronisation: whatever precedes, altered, lost or inserted in whole blocks (CBC) or segments (CFB), the plaintext
    is right again after at most [n] bytes of good ciphertext. *)
Theorem C71_cbc_resync : forall c n E D, GoodCipher c n E D -> forall iv iv' u u' t p p' r r', length iv = n -> length iv' = n ->
  bytes u -> bytes u' -> bytes t -> (length u mod n = 0)%nat -> (length u' mod n = 0)%nat -> (length t mod n = 0)%nat ->
  cbc_decrypt (mkCbc c EmptyPadding iv) [] (u ++ t) = (p, r) -> cbc_decrypt (mkCbc c EmptyPadding iv') [] (u' ++ t) = (p', r') ->
  skipn (length u + n) p = skipn (length u' + n) p'.
Proof.
  intros c n E D GC iv iv' u u' t p p' r r' Hiv Hiv' Bu Bu' Bt Mu Mu' Mt H H'. pose proof (gc_pos _ _ _ _ GC) as Hn.
  assert (MA : forall v, (length v mod n = 0)%nat -> (length (v ++ t) mod n = 0)%nat) by (intros v V; rewrite app_length, <- Nat.add_mod_idemp_l, V, Nat.add_0_l by lia; exact Mt).
  rewrite (cbc_decrypt_any c n E D GC) in H, H' by auto. cbn [EmptyPadding unpad] in H, H'. apply (f_equal fst) in H, H'. cbn [fst] in H, H'. subst p p'.
  rewrite !(CBC_inv_app c n E D GC) by auto.
  destruct (cbc_blocks c n E D GC u iv Bu Hiv Mu) as [L _]. destruct (cbc_blocks c n E D GC u' iv' Bu' Hiv' Mu') as [L' _].
  rewrite !skipn_block by auto. destruct (Nat.lt_ge_cases (length t) n) as [LT|GE].
  { rewrite (mult_cut n t Hn Mt LT). unfold CBC_inv. rewrite chunks_nil by exact Hn. reflexivity. }
  rewrite <- (firstn_skipn n t). assert (F : length (firstn n t) = n) by (rewrite firstn_length; lia).
  assert (G : forall v, length v = n -> skipn n (CBC_inv D n v (firstn n t ++ skipn n t)) = CBC_inv D n (firstn n t) (skipn n t)).
  { intros v V. unfold CBC_inv. rewrite chunks_app by auto. cbn [CBCb_inv concat]. rewrite <- (Nat.add_0_r n) at 1. rewrite skipn_block; [reflexivity|].
    rewrite xorl_length. destruct (gc_D _ _ _ _ GC (firstn n t) F (bytes_firstn n t Bt)) as [X _]. lia. }
  rewrite !G; [reflexivity|rewrite skipn_length, app_length; lia..].
Qed.
Print Assumptions C71_cbc_resync.
Theorem C71_cfb_resync : forall c n E D, GoodCipher c n E D -> forall s k iv iv' u u' t p p' r r', (0 < s <= n)%nat -> (n <= k * s)%nat ->
  length iv = n -> bytes iv -> length iv' = n -> bytes iv' ->
  bytes u -> bytes u' -> bytes t -> (length u mod s = 0)%nat -> (length u' mod s = 0)%nat -> (length t mod s = 0)%nat ->
  cfb_decrypt (mkCfb s c EmptyPadding iv) [] (u ++ t) = (p, r) -> cfb_decrypt (mkCfb s c EmptyPadding iv') [] (u' ++ t) = (p', r') ->
  skipn (length u + k * s) p = skipn (length u' + k * s) p'.
Proof.
  intros c n E D GC s k iv iv' u u' t p p' r r' Hs Hk Hiv Bi Hiv' Bi' Bu Bu' Bt Mu Mu' Mt H H'. pose proof (gc_pos _ _ _ _ GC) as Hn.
  assert (MA : forall v, (length v mod s = 0)%nat -> (length (v ++ t) mod s = 0)%nat) by (intros v V; rewrite app_length, <- Nat.add_mod_idemp_l, V, Nat.add_0_l by lia; exact Mt).
  rewrite (cfb_decrypt_any c n E D GC s Hs) in H by (first [split; solve [auto] | apply bytes_app; solve [auto] | apply MA; assumption]).
  rewrite (cfb_decrypt_any c n E D GC s Hs) in H' by (first [split; solve [auto] | apply bytes_app; solve [auto] | apply MA; assumption]).
  cbn [EmptyPadding unpad] in H, H'. apply (f_equal fst) in H, H'. cbn [fst] in H, H'. subst p p'.
  rewrite !mF_app by (auto; lia). destruct (cfb_blocks c n E D GC s Hs u iv Bu Bi Hiv Mu) as [L _]. destruct (cfb_blocks c n E D GC s Hs u' iv' Bu' Bi' Hiv' Mu') as [L' _].
  rewrite !skipn_block by auto. rewrite !(cfb_state c n E D GC s Hs) by auto.
  set (q := (k * s)%nat) in *. assert (Mq : (q mod s = 0)%nat) by (apply Nat.mod_mul; lia). clearbody q.
  destruct (Nat.lt_ge_cases (length t) q) as [LT|GE].
  { assert (Z : forall v, length v = n -> bytes v -> skipn q (mF (cfbF E s) (cfbDG s) s v t) = []).
    { intros v V Bv. apply skipn_all2. destruct (cfb_blocks c n E D GC s Hs t v Bt Bv V Mt) as [-> _]. lia. }
    rewrite !Z; [reflexivity|try (rewrite skipn_length, app_length; lia)..]; apply bytes_skipn, bytes_app; auto. }
  rewrite <- (firstn_skipn q t). assert (F : length (firstn q t) = q) by (rewrite firstn_length; lia).
  assert (G : forall v, length v = n -> bytes v -> skipn q (mF (cfbF E s) (cfbDG s) s v (firstn q t ++ skipn q t)) = mF (cfbF E s) (cfbDG s) s (skipn (q - n) (firstn q t)) (skipn q t)).
  { intros v V Bv. rewrite mF_app by (rewrite ?F; auto; lia). rewrite (cfb_state c n E D GC s Hs) by (rewrite ?F; auto).
    destruct (cfb_blocks c n E D GC s Hs (firstn q t) v (bytes_firstn q t Bt) Bv V ltac:(rewrite F; exact Mq)) as [X _]. rewrite F in X |- *.
    rewrite <- (Nat.add_0_r q) at 1. rewrite skipn_block by exact X. cbn [skipn]. f_equal. replace q with (n + (q - n))%nat at 1 by lia. rewrite skipn_block by exact V. reflexivity. }
  rewrite !G; [reflexivity|..]; try (rewrite skipn_length, app_length; lia); apply bytes_skipn, bytes_app; auto.
Qed.
Print Assumptions C71_cfb_resync.
(** Random access: CBC ciphertext can be decrypted from any block on, with the block before it as IV. *)
Theorem C71_cbc_access : forall c n E D, GoodCipher c n E D -> forall iv u t, length iv = n -> bytes u -> bytes t -> (length u mod n = 0)%nat -> (length t mod n = 0)%nat ->
  fst (cbc_decrypt (mkCbc c EmptyPadding iv) [] (u ++ t)) =
  fst (cbc_decrypt (mkCbc c EmptyPadding iv) [] u) ++ fst (cbc_decrypt (mkCbc c EmptyPadding (lastn n (iv ++ u))) [] t).
Proof.
  intros c n E D GC iv u t Hiv Bu Bt Mu Mt. pose proof (gc_pos _ _ _ _ GC) as Hn.
  assert (LN : lastn n (iv ++ u) = skipn (length u) (iv ++ u)) by (unfold lastn; f_equal; rewrite app_length; lia).
  assert (LL : length (lastn n (iv ++ u)) = n) by (rewrite LN, skipn_length, app_length; lia).
  rewrite !(cbc_decrypt_any c n E D GC) by (auto; rewrite app_length, <- Nat.add_mod_idemp_l, Mu, Nat.add_0_l by lia; exact Mt).
  cbn [EmptyPadding unpad fst]. rewrite LN. apply (CBC_inv_app c n E D GC); auto.
Qed.
Print Assumptions C71_cbc_access.
Example C71_case : let ct := fst (cbc_encrypt (mkCbc exc EmptyPadding exiv) [] (exmsg 48)) in
  let ct' := firstn 16 ct ++ map (fun b => Z.lxor b 1) (firstn 16 (skipn 16 ct)) ++ skipn 32 ct in
  (exists E D, GoodCipher exc 16 E D) /\
  block_at 16 0 (fst (cbc_decrypt (mkCbc exc EmptyPadding exiv) [] ct')) = firstn 16 (exmsg 48) /\
  block_at 16 2 (fst (cbc_decrypt (mkCbc exc EmptyPadding exiv) [] ct')) = map (fun b => Z.lxor b 1) (skipn 32 (exmsg 48)).
Proof. split; [exact instance_good|]. vm_compute. split; reflexivity. Qed.
