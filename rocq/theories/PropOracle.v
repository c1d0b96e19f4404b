(** Property C85: what a user who reports whether a ciphertext decrypted without error gives away.  The default padding is
    accepted exactly when a 0x80 occurs (C09), so the answers of a decrypting object, used as an oracle, are enough to decrypt
    CBC and CFB completely.  The attack is a program that sees the oracle and the ciphertext, nothing else.
    [c] is any cipher object that permutes [n]-byte blocks, as in PropModes.v; [block_at n j l] (PropModesErr.v) is block [j] of [l]. *)
From Coq Require FinFun.
From Verif Require Import Base Words ModesModel ModesSpec PaddingProofs ModesLoops EcbCbcProofs CfbOfbCtrProofs ModesExtra ModesApi PropModes PropModesErr PropHostile PropReuse.

(** ** The attack (specification; nothing here mentions the key, [E] or [D]) *)
(** Did the call answer without error? *)
Definition accepted {A B} (r : A * res B) : bool := match snd r with Ok _ => true | _ => false end.
Definition byte_values : list Z := map Z.of_nat (seq 0 256).
(** [n] bytes [b], except [v] at place [i]. *)
Definition probe (n : nat) (b : Z) (i : nat) (v : Z) : list Z := repeat b i ++ v :: repeat b (n - i - 1).
(** Find a byte that is refused when used everywhere, then vary one place at a time: at most 256 (n + 1) questions. *)
Definition recover (ok : list Z -> bool) (n : nat) : list Z :=
  match find (fun b => negb (ok (repeat b n))) byte_values with
  | None => []
  | Some b => map (fun i => match find (fun v => ok (probe n b i v)) byte_values with Some v => Z.lxor v 128 | None => 0 end) (seq 0 n)
  end.
(** CBC: [ok v b] tells whether the block [b] is accepted after the block (or IV) [v]. *)
Definition attack_cbc (ok : list Z -> list Z -> bool) (n : nat) (iv ct : list Z) : list Z :=
  concat (map (fun j => xorl (recover (fun v => ok v (block_at n j ct)) n) (block_at n j (iv ++ ct))) (seq 0 (length ct / n))).
(** CFB with [s]-byte segments: [ok v b] tells whether the segment [b] is accepted under the IV [v]. *)
Definition attack_cfb (ok : list Z -> list Z -> bool) (n s : nat) (iv ct : list Z) : list Z :=
  concat (map (fun j => xorl (block_at s j ct) (recover (ok (firstn n (skipn (j * s) (iv ++ ct)))) s)) (seq 0 (length ct / s))).

(** ** Proofs *)
Lemma byte_values_in b : In b byte_values <-> byte b.
Proof.
  unfold byte_values, byte. rewrite in_map_iff. split.
  - intros (k & <- & I). apply in_seq in I. lia.
  - intros B. exists (Z.to_nat b). split; [lia|]. apply in_seq. lia.
Qed.
Lemma byte_values_nodup : NoDup byte_values.
Proof. unfold byte_values. apply FinFun.Injective_map_NoDup; [intros a b; lia|apply seq_NoDup]. Qed.
Lemma lxor_eq_128 a b : Z.lxor a b = 128 <-> b = Z.lxor a 128.
Proof.
  split; intros X.
  - rewrite <- X, <- Z.lxor_assoc, Z.lxor_nilpotent, Z.lxor_0_l. reflexivity.
  - rewrite X, <- Z.lxor_assoc, Z.lxor_nilpotent, Z.lxor_0_l. reflexivity.
Qed.
Lemma in_xorl y : forall v, length v = length y -> (In 128 (xorl y v) <-> exists i, (i < length y)%nat /\ nth i v 0 = Z.lxor (nth i y 0) 128).
Proof.
  induction y as [|a y IH]; intros [|b v] L; cbn [length] in L; try discriminate.
  - cbn. split; [tauto|]. intros (i & I & _). lia.
  - cbn [xorl In length]. rewrite IH by lia. split.
    + intros [X|(i & I & X)]; [exists 0%nat; split; [lia|]; apply lxor_eq_128, X|exists (S i); split; [lia|exact X]].
    + intros ([|i] & I & X); [left; apply lxor_eq_128, X|right; exists i; split; [lia|exact X]].
Qed.
Lemma probe_length n b i v : (i < n)%nat -> length (probe n b i v) = n.
Proof. intros I. unfold probe. rewrite app_length. cbn [length]. rewrite !repeat_length. lia. Qed.
Lemma probe_bytes n b i v : byte b -> byte v -> bytes (probe n b i v).
Proof. intros B W. unfold probe. apply Forall_app. split; [apply Forall_forall; intros x X; apply repeat_spec in X; subst; exact B|]. constructor; [exact W|]. apply Forall_forall; intros x X; apply repeat_spec in X; subst; exact B. Qed.
Lemma nth_rep b k j : (j < k)%nat -> nth j (repeat b k) 0 = b.
Proof. intros J. rewrite (nth_indep _ 0 b) by (rewrite repeat_length; exact J). apply nth_repeat. Qed.
Lemma probe_nth n b i v j : (i < n)%nat -> (j < n)%nat -> nth j (probe n b i v) 0 = if (j =? i)%nat then v else b.
Proof.
  intros I J. unfold probe. destruct (Nat.eqb_spec j i) as [->|N].
  - rewrite app_nth2 by (rewrite repeat_length; lia). rewrite repeat_length, Nat.sub_diag. reflexivity.
  - destruct (Nat.lt_ge_cases j i) as [Q|Q].
    + rewrite app_nth1 by (rewrite repeat_length; lia). apply nth_rep. lia.
    + rewrite app_nth2 by (rewrite repeat_length; lia). rewrite repeat_length. destruct (j - i)%nat as [|k] eqn:K; [lia|]. cbn [nth]. apply nth_rep. lia.
Qed.
Lemma nth_map_seq0 (f : nat -> Z) n i : (i < n)%nat -> nth i (map f (seq 0 n)) 0 = f i.
Proof. intros I. rewrite (nth_indep _ 0 (f 0%nat)) by (rewrite map_length, seq_length; exact I). rewrite map_nth, seq_nth by exact I. reflexivity. Qed.
Lemma byte_128 b : byte b -> byte (Z.lxor b 128).
Proof.
  intros B. apply byte_values_in in B. apply byte_values_in.
  assert (X : forallb (fun x => existsb (Z.eqb (Z.lxor x 128)) byte_values) byte_values = true) by (vm_compute; reflexivity).
  rewrite forallb_forall in X. specialize (X b B). apply existsb_exists in X. destruct X as (w & W & Q). apply Z.eqb_eq in Q. rewrite Q. exact W.
Qed.

(** ** C85.  The core: an oracle that accepts [v] exactly when the hidden [y] plus [v] contains a 0x80 gives [y] away. *)
Theorem C85_recover : forall (ok : list Z -> bool) n y, (n < 256)%nat -> length y = n -> bytes y ->
  (forall v, length v = n -> bytes v -> (ok v = true <-> In 128 (xorl y v))) -> recover ok n = y.
Proof.
  intros ok n y Hn L B O. unfold recover.
  assert (Q : exists b, find (fun b => negb (ok (repeat b n))) byte_values = Some b).
  { destruct (find _ byte_values) as [b|] eqn:F; [eexists; reflexivity|exfalso].
    assert (I : incl byte_values (map (fun a => Z.lxor a 128) y)).
    { intros b Ib. pose proof (find_none _ _ F b Ib) as X. cbv beta in X. apply negb_false_iff in X. apply byte_values_in in Ib.
      assert (Br : bytes (repeat b n)) by (apply Forall_forall; intros x Ix; apply repeat_spec in Ix; subst; exact Ib).
      apply O in X; [|apply repeat_length|exact Br]. apply in_xorl in X; [|rewrite repeat_length; auto]. destruct X as (i & Ii & X).
      rewrite nth_rep in X by lia. apply in_map_iff. exists (nth i y 0). split; [auto|]. apply nth_In. exact Ii. }
    pose proof (NoDup_incl_length byte_values_nodup I) as T. rewrite map_length in T. unfold byte_values in T. rewrite map_length, seq_length in T. lia. }
  destruct Q as [b F]. rewrite F. apply find_some in F. destruct F as [Ib X]. apply negb_true_iff in X. apply byte_values_in in Ib.
  assert (Br : bytes (repeat b n)) by (apply Forall_forall; intros x Ix; apply repeat_spec in Ix; subst; exact Ib).
  assert (N : forall i, (i < n)%nat -> b <> Z.lxor (nth i y 0) 128).
  { intros i I Y. assert (T : ok (repeat b n) = true); [|congruence]. apply O; [apply repeat_length|exact Br|]. apply in_xorl; [rewrite repeat_length; auto|].
    exists i. split; [lia|]. rewrite nth_rep; auto. }
  apply (nth_ext _ _ 0 0); [rewrite map_length, seq_length; auto|]. intros i I. rewrite map_length, seq_length in I.
  rewrite nth_map_seq0 by exact I.
  assert (By : byte (nth i y 0)) by (apply (proj1 (Forall_forall _ _) B), nth_In; lia).
  assert (K : forall v, byte v -> (ok (probe n b i v) = true <-> v = Z.lxor (nth i y 0) 128)).
  { intros v Bv. rewrite O by (apply probe_length || apply probe_bytes; auto). rewrite in_xorl by (rewrite probe_length; auto). rewrite L. split.
    - intros (j & J & Y). rewrite probe_nth in Y by auto. destruct (Nat.eqb_spec j i) as [->|Ne]; [exact Y|]. exfalso. exact (N j J Y).
    - intros ->. exists i. split; [exact I|]. rewrite probe_nth, Nat.eqb_refl by auto. reflexivity. }
  destruct (find _ byte_values) as [v|] eqn:F.
  - apply find_some in F. destruct F as [Iv Y]. apply K in Y; [|apply byte_values_in, Iv]. rewrite Y, Z.lxor_assoc, Z.lxor_nilpotent, Z.lxor_0_r. reflexivity.
  - exfalso. pose proof (byte_128 _ By) as W. pose proof (find_none _ _ F _ (proj2 (byte_values_in _) W)) as Y. cbv beta in Y. rewrite (proj2 (K _ W) eq_refl) in Y. discriminate.
Qed.
Print Assumptions C85_recover.

Lemma accept_default c x : accepted (unpad (DefaultPadding c) x) = true <-> In 128 x.
Proof.
  cbn [unpad DefaultPadding]. destruct (C09_unpadding_exact x) as [A B]. destruct (in_dec Z.eq_dec 128 x) as [I|I].
  - destruct (A I) as (a & t & _ & _ & Y). cbv zeta in Y. rewrite Y. tauto.
  - rewrite (B I). cbn. split; [discriminate|contradiction].
Qed.
Lemma blocks_concat n (l : list Z) : (0 < n)%nat -> (length l mod n = 0)%nat -> l = concat (map (fun j => block_at n j l) (seq 0 (length l / n))).
Proof.
  intros Hn M. pose proof (Nat.div_mod (length l) n ltac:(lia)) as DM. rewrite M, Nat.add_0_r in DM.
  assert (G : forall k, firstn (k * n) l = concat (map (fun j => block_at n j l) (seq 0 k))).
  { induction k as [|k IH]; [reflexivity|]. rewrite firstn_block, IH, seq_S, map_app, concat_app. cbn [map concat Nat.add]. rewrite app_nil_r. reflexivity. }
  rewrite <- G, firstn_all2; [reflexivity|]. lia.
Qed.
Lemma CBC_inv_one c n E D : GoodCipher c n E D -> forall iv b, length iv = n -> length b = n -> bytes b -> CBC_inv D n iv b = xorl (D b) iv.
Proof.
  intros GC iv b Li Lb B. pose proof (gc_pos _ _ _ _ GC) as Hn. unfold CBC_inv. rewrite <- (app_nil_r b) at 1. rewrite chunks_app, chunks_nil by auto. cbn [CBCb_inv concat]. apply app_nil_r.
Qed.
Lemma prev_bytes n j iv ct : bytes iv -> bytes ct -> bytes (block_at n j (iv ++ ct)).
Proof. intros A B. apply block_at_bytes, bytes_app. auto. Qed.

(** ** CBC, one-shot: [ok iv b] is the answer of a decrypting object made with the chosen [iv], for one block [b].  The attack
    returns what [cbc_decrypt] without padding returns, for every ciphertext of whole blocks, whoever made it. *)
Lemma cbc_attack_core c n E D : GoodCipher c n E D -> forall (ok : list Z -> list Z -> bool), (n < 256)%nat ->
  (forall v b, length v = n -> bytes v -> length b = n -> bytes b -> (ok v b = true <-> In 128 (xorl (D b) v))) ->
  forall iv dst ct, length iv = n -> bytes iv -> bytes ct -> (length ct mod n = 0)%nat ->
  cbc_decrypt (mkCbc c EmptyPadding iv) dst ct = (attack_cbc ok n iv ct, Ok (length ct)).
Proof.
  intros GC ok H256 O iv dst ct Li Bi B M. pose proof (gc_pos _ _ _ _ GC) as Hn. destruct (C71_cbc_block c n E D GC iv dst ct Li B M) as (p & X & Lp & F).
  rewrite X. f_equal. rewrite (blocks_concat n p Hn) by (rewrite Lp; exact M). unfold attack_cbc. rewrite Lp. f_equal. apply map_ext_in. intros j J. apply in_seq in J.
  assert (Q : (j * n < length ct)%nat) by (pose proof (Nat.div_mod (length ct) n ltac:(lia)); nia).
  rewrite F by exact Q. f_equal. symmetry.
  pose proof (block_at_length n j ct Q M Hn) as Lb. pose proof (block_at_bytes n j ct B) as Bb. destruct (gc_D _ _ _ _ GC _ Lb Bb) as [LD BD].
  apply C85_recover; auto.
Qed.
Theorem C85_cbc : forall c n E D, GoodCipher c n E D -> (n < 256)%nat -> forall iv dst ct, length iv = n -> bytes iv -> bytes ct -> (length ct mod n = 0)%nat ->
  let ok v b := accepted (cbc_decrypt (mkCbc c (DefaultPadding c) v) [] b) in
  cbc_decrypt (mkCbc c EmptyPadding iv) dst ct = (attack_cbc ok n iv ct, Ok (length ct)).
Proof.
  intros c n E D GC H256 iv dst ct Li Bi B M ok. apply (cbc_attack_core c n E D GC); auto. intros v b Lv Bv Lb Bb. unfold ok.
  destruct (C76_cbc_decrypt c n E D GC (DefaultPadding c) v [] b (or_introl eq_refl) Lv Bv Bb) as [-> _]. rewrite Lb, Nat.mod_same by (pose proof (gc_pos _ _ _ _ GC); lia).
  cbn [Nat.eqb]. rewrite accept_default, (CBC_inv_one c n E D GC) by auto. reflexivity.
Qed.
Print Assumptions C85_cbc.
(** The decrypter need not let anyone choose the IV: a stream decrypter with its own IV [iv0] looks at the last block only, and
    the attacker sends the two blocks [v ++ b]. *)
Theorem C85_cbc_stream : forall c n E D, GoodCipher c n E D -> (n < 256)%nat -> forall iv0 iv dst ct, length iv0 = n -> bytes iv0 -> length iv = n -> bytes iv -> bytes ct -> (length ct mod n = 0)%nat ->
  let o := mkCbc c (DefaultPadding c) iv0 in
  let ok v b := accepted (run_stream (cbc_dec_ops o) (cbc_stream_init o) [(v ++ b, false)]) in
  cbc_decrypt (mkCbc c EmptyPadding iv) dst ct = (attack_cbc ok n iv ct, Ok (length ct)).
Proof.
  intros c n E D GC H256 iv0 iv dst ct L0 B0 Li Bi B M o ok. apply (cbc_attack_core c n E D GC); auto. intros v b Lv Bv Lb Bb. unfold ok. pose proof (gc_pos _ _ _ _ GC) as Hn.
  assert (Ev : Forall (fun e : list Z * bool => bytes (fst e)) [(v ++ b, false)]) by (constructor; [cbn [fst]; apply bytes_app; auto|constructor]).
  destruct (C76_cbc_stream c n E D GC (DefaultPadding c) iv0 _ (or_introl eq_refl) L0 B0 Ev) as [_ X]. cbn [map fst concat] in X. rewrite app_nil_r in X. fold o in X.
  assert (L2 : length (v ++ b) = (n + n)%nat) by (rewrite app_length; lia).
  assert (Fb : firstn (length (v ++ b) - n) (v ++ b) = v) by (rewrite L2; replace (n + n - n)%nat with (length v) by lia; rewrite firstn_app, Nat.sub_diag, firstn_O, app_nil_r; apply firstn_all).
  assert (Lb2 : lastn n (v ++ b) = b) by (unfold lastn; rewrite L2; replace (n + n - n)%nat with (length v) by lia; rewrite skipn_app, Nat.sub_diag, skipn_all; reflexivity).
  assert (Lv2 : lastn n (iv0 ++ v) = v) by (unfold lastn; rewrite app_length; replace (length iv0 + length v - n)%nat with (length iv0) by lia; rewrite skipn_app, Nat.sub_diag, skipn_all; reflexivity).
  assert (Ne : v ++ b <> []) by (intros Y; rewrite Y in L2; cbn in L2; lia).
  assert (M2 : (length (v ++ b) mod n = 0)%nat) by (rewrite L2; replace (n + n)%nat with (2 * n)%nat by lia; apply Nat.mod_mul; lia).
  specialize (X Ne M2). cbv zeta in X. rewrite Fb, Lb2, Lv2 in X.
  rewrite <- (accept_default c). destruct (unpad (DefaultPadding c) (xorl (D b) v)) as [t [x|e|]].
  - rewrite X. reflexivity.
  - destruct X as [_ X]. unfold accepted. rewrite X. cbn. reflexivity.
  - destruct X as [X _]. discriminate.
Qed.
Print Assumptions C85_cbc_stream.
(** So a message of whole blocks is read completely ... *)
Theorem C85_cbc_message : forall c n E D, GoodCipher c n E D -> (n < 256)%nat -> forall iv dst m, length iv = n -> bytes iv -> bytes m -> (length m mod n = 0)%nat ->
  let ok v b := accepted (cbc_decrypt (mkCbc c (DefaultPadding c) v) [] b) in
  attack_cbc ok n iv (fst (cbc_encrypt (mkCbc c EmptyPadding iv) dst m)) = m.
Proof.
  intros c n E D GC H256 iv dst m Li Bi B M ok. destruct (C13_cbc_empty c n E D GC iv dst [] m Li Bi B) as [X _]. destruct (X M) as [X1 X2]. cbv zeta in X1, X2.
  destruct (CBC_roundtrip c n E D GC m iv (conj Li Bi) B M) as (_ & L & BE). rewrite X1. cbn [fst].
  pose proof (C85_cbc c n E D GC H256 iv [] (CBC E n iv m) Li Bi BE ltac:(rewrite L; exact M)) as Y. cbv zeta in Y. rewrite X2 in Y. injection Y as Y _. symmetry. exact Y.
Qed.
Print Assumptions C85_cbc_message.
(** ... and so are the whole blocks of a message encrypted with the default padding. *)
Theorem C85_cbc_default : forall c n E D, GoodCipher c n E D -> (n < 256)%nat -> forall iv dst m, length iv = n -> bytes iv -> bytes m ->
  let ok v b := accepted (cbc_decrypt (mkCbc c (DefaultPadding c) v) [] b) in
  let k := (length m / n)%nat in
  attack_cbc ok n iv (firstn (k * n) (fst (cbc_encrypt (mkCbc c (DefaultPadding c) iv) dst m))) = firstn (k * n) m.
Proof.
  intros c n E D GC H256 iv dst m Li Bi B ok k. pose proof (gc_pos _ _ _ _ GC) as Hn. pose proof (C13_cbc_default_exact c n E D GC iv dst m Li Bi B) as X. cbv zeta in X. rewrite X. cbn [fst].
  assert (Lw : length (firstn (k * n) m) = (k * n)%nat) by (rewrite firstn_length; pose proof (Nat.div_mod (length m) n ltac:(lia)); unfold k; nia).
  assert (Mw : (length (firstn (k * n) m) mod n = 0)%nat) by (rewrite Lw; apply Nat.mod_mul; lia).
  assert (Bw : bytes (firstn (k * n) m)) by (apply bytes_firstn, B).
  assert (W : whole n m = firstn (k * n) m) by (unfold whole, k; f_equal; lia). rewrite W.
  destruct (CBC_roundtrip c n E D GC (firstn (k * n) m) iv (conj Li Bi) Bw Mw) as (_ & L & BE).
  rewrite firstn_app, L, Lw, Nat.sub_diag, firstn_O, app_nil_r, firstn_all2 by lia.
  destruct (C13_cbc_empty c n E D GC iv [] [] _ Li Bi Bw) as [Y _]. destruct (Y Mw) as [Y1 _]. cbv zeta in Y1.
  pose proof (C85_cbc_message c n E D GC H256 iv [] _ Li Bi Bw Mw) as Z. cbv zeta in Z. rewrite Y1 in Z. exact Z.
Qed.
Print Assumptions C85_cbc_default.

(** ** CFB: here the key stream of every chosen IV comes out. *)
Theorem C85_cfb : forall c n E D, GoodCipher c n E D -> forall s, (0 < s <= n)%nat -> (s < 256)%nat -> forall iv dst ct, length iv = n -> bytes iv -> bytes ct -> (length ct mod s = 0)%nat ->
  let ok v b := accepted (cfb_decrypt (mkCfb s c (DefaultPadding c) v) [] b) in
  cfb_decrypt (mkCfb s c EmptyPadding iv) dst ct = (attack_cfb ok n s iv ct, Ok (length ct)).
Proof.
  intros c n E D GC s Hs H256 iv dst ct Li Bi B M ok. destruct (C71_cfb_block c n E D GC s iv dst ct Hs Li Bi B M) as (p & X & Lp & F).
  rewrite X. f_equal. rewrite (blocks_concat s p) by (rewrite ?Lp; auto; lia). unfold attack_cfb. rewrite Lp. f_equal. apply map_ext_in. intros j J. apply in_seq in J.
  assert (Q : (j * s < length ct)%nat) by (pose proof (Nat.div_mod (length ct) s ltac:(lia)); nia).
  rewrite F by exact Q. f_equal. symmetry. set (r := firstn n (skipn (j * s) (iv ++ ct))).
  assert (Lr : length r = n) by (unfold r; rewrite firstn_length, skipn_length, app_length; lia).
  assert (Br : bytes r) by (unfold r; apply bytes_firstn, bytes_skipn, bytes_app; auto).
  destruct (gc_E _ _ _ _ GC r Lr Br) as [LE BE].
  assert (LK : length (firstn s (E r)) = s) by (rewrite firstn_length; lia).
  apply C85_recover; auto; [apply bytes_firstn, BE|]. intros v Lv Bv. unfold ok.
  assert (Mv : (length v mod s = 0)%nat) by (rewrite Lv; apply Nat.mod_same; lia).
  destruct (C76_cfb_decrypt c n E D GC s (DefaultPadding c) r [] v Hs (or_introl eq_refl) Lr Br Bv) as (_ & Y & _). destruct (Y Mv) as (q & Bq & Lq & Cq & ->).
  destruct (C71_cfb_block c n E D GC s r [] v Hs Lr Br Bv Mv) as (q' & Z1 & Z2 & Z3).
  destruct (C76_cfb_decrypt c n E D GC s EmptyPadding r [] v Hs (or_intror eq_refl) Lr Br Bv) as (_ & W & _). destruct (W Mv) as (q2 & Bq2 & Lq2 & Cq2 & W2). rewrite W2 in Z1. cbn [unpad EmptyPadding] in Z1. injection Z1 as <- _.
  assert (T : q = q2).
  { assert (U : forall x, length x = s -> bytes x -> CFB E s r x = xorl x (firstn s (E r))).
    { intros x Lx _. unfold CFB. rewrite <- (app_nil_r x) at 1. rewrite chunks_app, chunks_nil by (auto; lia). cbn [CFBb concat]. apply app_nil_r. }
    rewrite U in Cq, Cq2 by (auto; lia). rewrite <- Cq2 in Cq. apply xorl_inj_r in Cq; auto; lia. }
  subst q2. specialize (Z3 0%nat ltac:(lia)). cbn [Nat.mul skipn] in Z3.
  rewrite firstn_app, Lr, Nat.sub_diag, firstn_O, app_nil_r, (firstn_all2 r) in Z3 by lia. unfold block_at in Z3. cbn [Nat.mul skipn] in Z3. rewrite !firstn_all2 in Z3 by lia.
  rewrite accept_default, (xorl_comm (firstn s (E r))). rewrite <- (firstn_all2 (n := s) q) by lia. rewrite firstn_all2 by lia. rewrite Z3. reflexivity.
Qed.
Print Assumptions C85_cfb.

(** ** ECB, for comparison: an answer tells only whether a 0x80 occurs anywhere. *)
Theorem C85_ecb : forall c n E D, GoodCipher c n E D -> forall dst ct, bytes ct -> (length ct mod n = 0)%nat ->
  accepted (ecb_decrypt (mkEcb c (DefaultPadding c)) dst ct) = true <-> In 128 (fst (ecb_decrypt (mkEcb c EmptyPadding) dst ct)).
Proof.
  intros c n E D GC dst ct B M. destruct (C76_ecb_decrypt c n E D GC (DefaultPadding c) dst ct (or_introl eq_refl) B) as [-> _].
  destruct (C76_ecb_decrypt c n E D GC EmptyPadding dst ct (or_intror eq_refl) B) as [-> _]. rewrite M. cbn [Nat.eqb unpad EmptyPadding fst]. apply accept_default.
Qed.
Print Assumptions C85_ecb.

(** ** The number of questions: [recover] depends on at most 256 (n + 1) answers. *)
Lemma find_agree {A} (f g : A -> bool) l : (forall x, In x l -> g x = f x) -> find g l = find f l.
Proof. induction l as [|x l IH]; intros H; [reflexivity|]. cbn [find]. rewrite (H x) by (left; reflexivity). rewrite IH; [reflexivity|]. intros y Y. apply H. right. exact Y. Qed.
Lemma flat_map_length_le {A B} (f : A -> list B) k l : (forall x, In x l -> length (f x) = k) -> length (flat_map f l) = (length l * k)%nat.
Proof. induction l as [|x l IH]; intros H; [reflexivity|]. cbn [flat_map length Nat.mul]. rewrite app_length, (H x), IH; [reflexivity|intros y Y; apply H; right; exact Y|left; reflexivity]. Qed.
Theorem C85_questions : forall ok n, exists questions, (length questions <= 256 * (n + 1))%nat /\ Forall (fun q => length q = n) questions /\
  forall ok', (forall q, In q questions -> ok' q = ok q) -> recover ok' n = recover ok n.
Proof.
  intros ok n.
  exists (map (fun b => repeat b n) byte_values ++
          match find (fun b => negb (ok (repeat b n))) byte_values with None => [] | Some b => flat_map (fun i => map (probe n b i) byte_values) (seq 0 n) end).
  assert (N : length byte_values = 256%nat) by (unfold byte_values; rewrite map_length, seq_length; reflexivity). split; [|split].
  - rewrite app_length, map_length, N. destruct (find _ _) as [b|]; [|cbn [length]; lia].
    rewrite (flat_map_length_le _ 256) by (intros i _; rewrite map_length; exact N). rewrite seq_length. lia.
  - apply Forall_app. split; [apply Forall_forall; intros q Q; apply in_map_iff in Q; destruct Q as (b & <- & _); apply repeat_length|].
    destruct (find _ _) as [b|]; [|constructor]. apply Forall_forall. intros q Q. apply in_flat_map in Q. destruct Q as (i & I & Q). apply in_seq in I. apply in_map_iff in Q. destruct Q as (v & <- & _). apply probe_length. lia.
  - intros ok' A. unfold recover.
    rewrite (find_agree (fun b => negb (ok (repeat b n))) (fun b => negb (ok' (repeat b n)))).
    2:{ intros b Ib. f_equal. apply A. apply in_or_app. left. apply in_map_iff. eauto. }
    destruct (find (fun b => negb (ok (repeat b n))) byte_values) as [b|]; [|reflexivity]. apply map_ext_in. intros i I.
    rewrite (find_agree (fun v => ok (probe n b i v)) (fun v => ok' (probe n b i v))); [reflexivity|]. intros v Iv. apply A. apply in_or_app. right. apply in_flat_map. exists i. split; [exact I|]. apply in_map. exact Iv.
Qed.
Print Assumptions C85_questions.

(** The hypotheses are met by AES, and the conclusion is about real ciphertexts: this message of three blocks comes back. *)
Example C85_case : exists E D, GoodCipher exc 16 E D /\ length exiv = 16%nat /\ bytes exiv /\ bytes (exmsg 48) /\
  attack_cbc (fun v b => accepted (cbc_decrypt (mkCbc exc (DefaultPadding exc) v) [] b)) 16 exiv (fst (cbc_encrypt (mkCbc exc EmptyPadding exiv) [] (exmsg 48))) = exmsg 48 /\
  recover (fun v => existsb (Z.eqb 128) (xorl [7; 128; 0; 255] v)) 4 = [7; 128; 0; 255].
Proof.
  destruct instance_good as (E & D & GC). exists E, D. split; [exact GC|]. split; [reflexivity|]. split; [apply bytes_check; reflexivity|]. split; [apply bytes_check; reflexivity|].
  split; [|vm_compute; reflexivity]. apply (C85_cbc_message exc 16 E D GC); [lia|reflexivity|apply bytes_check; reflexivity|apply bytes_check; reflexivity|reflexivity].
Qed.
