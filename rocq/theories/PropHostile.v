(** Property C76: whatever bytes arrive, in whatever pieces, and however the calls follow each other (also after errors),
    a decrypting or encrypting object answers with a value or an error; the one exception is [finish] of a CFB decrypt stream.
    [c] is any cipher object that permutes [n]-byte blocks, as in PropModes.v; [exec] runs a history of writes, draws,
    finishes and resets (ModesSpec.v). *)
From Verif Require Import Base Words ModesModel ModesSpec PaddingProofs ModesLoops EcbCbcProofs CfbOfbCtrProofs ModesExtra ModesApi PropModes.

(** ** Specification *)
(** Only bytes can be written. *)
Definition op_bytes (o : op) : Prop := match o with Write d => bytes d | _ => True end.
(** The library's two paddings. *)
Definition own_padding (c : cipher) (p : padding) : Prop := p = DefaultPadding c \/ p = EmptyPadding.
(** After every history, the next [write] answers [Ok] and the next [finish] answers as [F] says (of the history). *)
Definition always {S} (ops : stream_ops S) (rst : S -> S) (s0 : S) (F : list op -> res unit -> Prop) : Prop :=
  forall h d, Forall op_bytes h -> bytes d ->
    snd (op_write ops (exec ops rst s0 h) d) = Ok tt /\ F h (snd (op_finish ops (exec ops rst s0 h))).
(** Number of bytes written since the object was made or last reset. *)
Definition pending (h : list op) : nat :=
  fold_left (fun k o => match o with Write d => (k + length d)%nat | Reset => 0%nat | _ => k end) h 0%nat.

(** ** Proofs *)
Lemma always_inv {S} (ops : stream_ops S) rst s0 (F : list op -> res unit -> Prop) (P : list op -> S -> Prop) :
  P [] s0 ->
  (forall h s d, P h s -> bytes d -> snd (op_write ops s d) = Ok tt /\ P (h ++ [Write d]) (fst (op_write ops s d))) ->
  (forall h s, P h s -> P (h ++ [Draw]) (op_empty_pond ops s)) ->
  (forall h s, P h s -> P (h ++ [Reset]) (rst s)) ->
  (forall h s, P h s -> F h (snd (op_finish ops s)) /\ P (h ++ [Finish]) (fst (op_finish ops s))) ->
  always ops rst s0 F.
Proof.
  intros I W Dr R Fi h d Bh Bd.
  assert (Q : P h (exec ops rst s0 h)).
  { revert Bh. induction h as [|o h IH] using rev_ind; intros Bh; [exact I|]. apply Forall_app in Bh. destruct Bh as [B1 B2]. inversion B2 as [|? ? B3 _]; subst.
    unfold exec in *. rewrite fold_left_app. cbn [fold_left]. specialize (IH B1). destruct o as [x| | |]; cbn [exec1].
    - apply (W h _ x IH B3). - apply Dr, IH. - apply (Fi h _ IH). - apply R, IH. }
  split; [apply (W h _ d Q Bd)|apply (Fi h _ Q)].
Qed.
Lemma pending_snoc h o : pending (h ++ [o]) = match o with Write d => (pending h + length d)%nat | Reset => 0%nat | _ => pending h end.
Proof. unfold pending. rewrite fold_left_app. reflexivity. Qed.

Section WithCipher.
Variable c : cipher.
Variable n : nat.
Variables E D : list Z -> list Z.
Hypothesis GC : GoodCipher c n E D.
Let Hn : (0 < n)%nat := gc_pos _ _ _ _ GC.

Lemma short_rest k (d : list Z) : (length d < k)%nat -> d = rest k d.
Proof. intros H. rewrite rest_short by exact H. reflexivity. Qed.
Lemma short_hr (d : list Z) : (length d <= n)%nat -> d = hr n d.
Proof. intros H. destruct (hold_short n d H Hn) as [_ ->]. reflexivity. Qed.
Lemma unpad_own p x : own_padding c p -> snd (unpad p x) = Err UnpaddingNotMatch \/ exists k, snd (unpad p x) = Ok k.
Proof.
  intros [-> | ->]; cbn [unpad DefaultPadding EmptyPadding snd]; [|right; eauto].
  destruct (in_dec Z.eq_dec 128 x) as [I|I]; [|left; apply unpad_err, I].
  right. destruct (C09_unpadding_exact x) as [A _]. destruct (A I) as (a & t & _ & _ & X). rewrite X. eexists. reflexivity.
Qed.

Lemma ecb_enc_always p : own_padding c p ->
  always (ecb_enc_ops (mkEcb c p)) (ecb_reset (mkEcb c p)) ecb_stream_init
    (fun _ r => r = Ok tt \/ p = EmptyPadding /\ r = Err InvalidParameter).
Proof.
  intros Hp. apply always_inv with (P := fun _ s => (length (s_data s) < n)%nat /\ bytes (s_data s)).
  - split; [exact Hn|constructor].
  - intros _ [dt pd ij] d [L B] Bd. cbn [s_data] in L, B. cbn [op_write ecb_enc_ops]. rewrite (short_rest n dt L), (ecb_enc_write_spec c n E D GC). cbn [fst snd s_data].
    split; [reflexivity|]. split; [apply rest_lt; lia|]. apply bytes_skipn, bytes_app. split; [apply bytes_skipn, B|exact Bd].
  - intros _ s [L B]. split; [exact L|exact B].
  - intros _ s _. split; [exact Hn|constructor].
  - intros _ [dt pd ij] [L B]. cbn [s_data] in L, B. cbn [op_finish ecb_enc_ops]. unfold ecb_enc_finish. cbn [ecb_cipher ecb_pad s_data s_pond s_ij].
    rewrite (bsz_n c n E D GC). destruct Hp as [-> | ->].
    + rewrite (pad_default c n E D GC), (while_nonempty_spec (enc c) E n Hn (gc_enc _ _ _ _ GC)) by (auto; apply pad10_mod; auto).
      cbn [fst snd s_data]. split; [left; reflexivity|]. split; [exact Hn|constructor].
    + cbn [pad EmptyPadding]. destruct dt as [|x dt].
      * cbn. split; [left; reflexivity|]. split; [exact Hn|constructor].
      * set (dt' := x :: dt) in *. cbn [while_nonempty]. unfold dt' at 1 5. rewrite Nat.min_l by lia. rewrite firstn_all.
        rewrite (gc_enc_bad _ _ _ _ GC) by lia. cbn [fst snd s_data]. split; [right; split; reflexivity|]. split; [exact L|exact B].
Qed.

Lemma ecb_dec_always p : own_padding c p ->
  always (ecb_dec_ops (mkEcb c p)) (ecb_reset (mkEcb c p)) ecb_stream_init
    (fun _ r => r = Ok tt \/ r = Err InvalidParameter \/ r = Err UnpaddingNotMatch).
Proof.
  intros Hp. apply always_inv with (P := fun _ s => (length (s_data s) <= n)%nat /\ bytes (s_data s)).
  - split; [cbn; lia|constructor].
  - intros _ [dt pd ij] d [L B] Bd. cbn [s_data] in L, B. cbn [op_write ecb_dec_ops]. rewrite (short_hr dt L), (ecb_dec_write_spec c n E D GC) by auto. cbn [fst snd s_data].
    split; [reflexivity|]. split; [apply (hr_short c n E D GC)|]. apply (hold_bytes n), bytes_app. split; [apply (hold_bytes n), B|exact Bd].
  - intros _ s [L B]. split; [exact L|exact B].
  - intros _ s _. split; [cbn; lia|constructor].
  - intros _ [dt pd ij] [L B]. cbn [s_data] in L, B. cbn [op_finish ecb_dec_ops]. unfold ecb_dec_finish. cbn [ecb_cipher ecb_pad s_data s_pond s_ij].
    destruct (Nat.eq_dec (length dt) n) as [Q|Q].
    + rewrite (gc_dec _ _ _ _ GC) by exact Q. destruct (unpad_own p (D dt) Hp) as [X|[k X]]; destruct (unpad p (D dt)) as [t r]; cbn [snd] in X; subst r; cbn [fst snd s_data];
        (split; [auto|]); split; first [exact L|exact B|cbn; lia|constructor].
    + rewrite (gc_dec_bad _ _ _ _ GC) by exact Q. cbn [fst snd s_data]. split; [auto|]. split; [exact L|exact B].
Qed.

Lemma cbc_enc_always p iv : own_padding c p -> length iv = n -> bytes iv ->
  always (cbc_enc_ops (mkCbc c p iv)) (iv_reset iv) (cbc_stream_init (mkCbc c p iv))
    (fun _ r => r = Ok tt \/ p = EmptyPadding /\ r = Err InvalidParameter).
Proof.
  intros Hp Li Bi. assert (Vi : V n iv) by (split; auto).
  apply always_inv with (P := fun _ s => (length (s_data s) < n)%nat /\ bytes (s_data s) /\ V n (s_ij s)).
  - split; [exact Hn|]. split; [constructor|exact Vi].
  - intros _ [dt pd ij] d (L & B & Vj) Bd. cbn [s_data s_ij] in L, B, Vj. cbn [op_write cbc_enc_ops]. rewrite (short_rest n dt L), (cbc_enc_write_spec c n E D GC) by auto. cbn [fst snd s_data s_ij].
    assert (B2 : bytes (rest n dt ++ d)) by (apply bytes_app; split; [apply bytes_skipn, B|exact Bd]).
    split; [reflexivity|]. split; [apply rest_lt; lia|]. split; [apply bytes_skipn, B2|].
    apply mG_inv; auto; [intros; apply (cbc_V c n E D GC); auto|apply bytes_firstn, B2|apply whole_mod; lia].
  - intros _ s (L & B & Vj). split; [exact L|]. split; [exact B|exact Vj].
  - intros _ s _. split; [exact Hn|]. split; [constructor|exact Vi].
  - intros _ [dt pd ij] (L & B & Vj). cbn [s_data s_ij] in L, B, Vj. cbn [op_finish cbc_enc_ops]. unfold cbc_enc_finish. cbn [cbc_cipher cbc_pad cbc_iv s_data s_pond s_ij].
    rewrite (bsz_n c n E D GC). destruct Hp as [-> | ->].
    + rewrite (pad_default c n E D GC), (cbc_fin_loop_spec c n E D GC) by first [assumption|lia|apply pad10_bytes; assumption|apply pad10_mod; assumption|unfold pad10; destruct dt; discriminate].
      cbn [fst snd s_data s_ij]. split; [left; reflexivity|]. split; [exact Hn|]. split; [constructor|exact Vi].
    + cbn [pad EmptyPadding]. destruct dt as [|x dt].
      * cbn. split; [left; reflexivity|]. split; [exact Hn|]. split; [constructor|exact Vj].
      * set (dt' := x :: dt) in *. cbn [cbc_fin_loop]. unfold dt' at 1 5. rewrite Nat.min_r by lia. rewrite firstn_all.
        rewrite (gc_enc_bad _ _ _ _ GC) by (rewrite xorl_length; destruct Vj; lia). cbn [fst snd s_data s_ij]. split; [right; split; reflexivity|]. split; [exact L|]. split; [exact B|exact Vj].
Qed.

Lemma cbc_dec_always p iv : own_padding c p -> length iv = n -> bytes iv ->
  always (cbc_dec_ops (mkCbc c p iv)) (iv_reset iv) (cbc_stream_init (mkCbc c p iv))
    (fun _ r => r = Ok tt \/ r = Err InvalidParameter \/ r = Err UnpaddingNotMatch).
Proof.
  intros Hp Li Bi. assert (Vi : V n iv) by (split; auto).
  apply always_inv with (P := fun _ s => (length (s_data s) <= n)%nat /\ bytes (s_data s) /\ V n (s_ij s)).
  - split; [cbn; lia|]. split; [constructor|exact Vi].
  - intros _ [dt pd ij] d (L & B & Vj) Bd. cbn [s_data s_ij] in L, B, Vj. cbn [op_write cbc_dec_ops]. rewrite (short_hr dt L), (cbc_dec_write_spec c n E D GC) by auto. cbn [fst snd s_data s_ij].
    assert (B2 : bytes (hr n dt ++ d)) by (apply bytes_app; split; [apply (hold_bytes n), B|exact Bd]).
    split; [reflexivity|]. split; [apply (hr_short c n E D GC)|]. split; [apply (hold_bytes n), B2|].
    apply mG_inv; auto; [intros x b _ Lb Bb; split; auto|apply (hold_bytes n), B2|apply hw_mod; lia].
  - intros _ s (L & B & Vj). split; [exact L|]. split; [exact B|exact Vj].
  - intros _ s _. split; [cbn; lia|]. split; [constructor|exact Vi].
  - intros _ [dt pd ij] (L & B & Vj). cbn [s_data s_ij] in L, B, Vj. cbn [op_finish cbc_dec_ops]. unfold cbc_dec_finish. cbn [cbc_cipher cbc_pad cbc_iv s_data s_pond s_ij].
    destruct (Nat.eq_dec (length dt) n) as [Q|Q].
    + rewrite (gc_dec _ _ _ _ GC) by exact Q. cbv zeta. destruct (unpad_own p (xorl (D dt) ij ++ skipn (length ij) (D dt)) Hp) as [X|[k X]];
        destruct (unpad p (xorl (D dt) ij ++ skipn (length ij) (D dt))) as [t r]; cbn [snd] in X; subst r; cbn [fst snd s_data s_ij];
        (split; [auto|]); (split; [first [exact L|cbn; lia]|]); split; first [exact B|exact Vj|exact Vi|constructor].
    + rewrite (gc_dec_bad _ _ _ _ GC) by exact Q. cbn [fst snd s_data s_ij]. split; [auto|]. split; [exact L|]. split; [exact B|exact Vj].
Qed.

Section Cfb.
Variable s : nat.
Hypothesis Hs : (0 < s <= n)%nat.
Lemma cfb_enc_always p iv : length iv = n -> bytes iv -> own_padding c p ->
  always (cfb_enc_ops (mkCfb s c p iv)) (iv_reset iv) (cfb_stream_init (mkCfb s c p iv)) (fun _ r => r = Ok tt).
Proof.
  intros Li Bi Hp. assert (Vi : V n iv) by (split; auto).
  apply always_inv with (P := fun _ st => (length (s_data st) < s)%nat /\ bytes (s_data st) /\ V n (s_ij st)).
  - split; [cbn; lia|]. split; [constructor|exact Vi].
  - intros _ [dt pd ij] d (L & B & Vj) Bd. cbn [s_data s_ij] in L, B, Vj. cbn [op_write cfb_enc_ops]. rewrite (short_rest s dt L), (cfb_enc_write_spec c n E D GC s Hs) by auto. cbn [fst snd s_data s_ij].
    assert (B2 : bytes (rest s dt ++ d)) by (apply bytes_app; split; [apply bytes_skipn, B|exact Bd]).
    split; [reflexivity|]. split; [apply rest_lt; lia|]. split; [apply bytes_skipn, B2|].
    apply mG_inv; auto; try lia; [intros; apply (cfbG_V c n E D GC s Hs); auto|apply bytes_firstn, B2|apply whole_mod; lia].
  - intros _ st (L & B & Vj). split; [exact L|]. split; [exact B|exact Vj].
  - intros _ st _. split; [cbn; lia|]. split; [constructor|exact Vi].
  - intros _ [dt pd ij] (L & B & Vj). cbn [s_data s_ij] in L, B, Vj. cbn [op_finish cfb_enc_ops]. unfold cfb_enc_finish. cbn [cfb_pad cfb_iv s_data s_pond s_ij].
    rewrite (cfb_enc_inner_spec c n E D GC s Hs) by first [assumption|lia|destruct Hp as [-> | ->]; [rewrite (pad_default c n E D GC); apply pad10_bytes; assumption|exact B]].
    cbn [fst snd s_data s_ij]. split; [reflexivity|]. split; [cbn; lia|]. split; [constructor|exact Vi].
Qed.
Lemma cfb_dec_always p iv : length iv = n -> bytes iv -> own_padding c p ->
  always (cfb_dec_ops (mkCfb s c p iv)) (iv_reset iv) (cfb_stream_init (mkCfb s c p iv))
    (fun h r => (r = Panic <-> (pending h mod s <> 0)%nat) /\ (r = Panic \/ r = Ok tt \/ r = Err UnpaddingNotMatch)).
Proof.
  intros Li Bi Hp. assert (Vi : V n iv) by (split; auto).
  apply always_inv with (P := fun h st => (length (s_data st) = pending h mod s)%nat /\ bytes (s_data st) /\ V n (s_ij st)).
  - split; [symmetry; apply Nat.mod_0_l; lia|]. split; [constructor|exact Vi].
  - intros h [dt pd ij] d (L & B & Vj) Bd. cbn [s_data s_ij] in L, B, Vj. cbn [op_write cfb_dec_ops].
    assert (L' : (length dt < s)%nat) by (rewrite L; apply Nat.mod_upper_bound; lia).
    rewrite (short_rest s dt L'), (cfb_dec_write_spec c n E D GC s Hs) by auto. cbn [fst snd s_data s_ij]. rewrite <- (short_rest s dt L').
    assert (B2 : bytes (dt ++ d)) by (apply bytes_app; split; [exact B|exact Bd]).
    split; [reflexivity|]. split; [rewrite rest_length, app_length, L, pending_snoc, Nat.add_mod_idemp_l by lia; reflexivity|]. split; [apply bytes_skipn, B2|].
    apply mG_inv; auto; try lia; [intros; apply (cfbDG_V c n E D GC s Hs); auto|apply bytes_firstn, B2|apply whole_mod; lia].
  - intros h st (L & B & Vj). rewrite pending_snoc. split; [exact L|]. split; [exact B|exact Vj].
  - intros h st _. rewrite pending_snoc. split; [symmetry; apply Nat.mod_0_l; lia|]. split; [constructor|exact Vi].
  - intros h [dt pd ij] (L & B & Vj). rewrite pending_snoc. cbn [s_data s_ij] in L, B, Vj. cbn [op_finish cfb_dec_ops]. unfold cfb_dec_finish. cbn [cfb_pad cfb_iv s_data s_pond s_ij].
    rewrite <- L. destruct dt as [|x dt].
    + cbn [cfb_dec_inner length]. destruct (unpad_own p pd Hp) as [X|[k X]]; destruct (unpad p pd) as [t r]; cbn [snd] in X; subst r; cbn [fst snd s_data s_ij];
        (split; [split; [split; [discriminate|congruence]|auto]|]); (split; [reflexivity|]); split; first [exact Vj|exact Vi|constructor].
    + set (dt' := x :: dt) in *. cbn [cfb_dec_inner cfb_cipher cfb_s]. unfold dt' at 1. rewrite (gc_enc _ _ _ _ GC) by apply Vj.
      assert (L' : (length dt' < s)%nat) by (rewrite L; apply Nat.mod_upper_bound; lia). fold dt'.
      destruct (Nat.ltb_spec (length dt') s) as [_|]; [|lia]. cbn [fst snd s_data s_ij].
      split; [split; [split; [intros _; discriminate|reflexivity]|auto]|]. split; [reflexivity|]. split; [exact B|exact Vj].
Qed.
End Cfb.

Lemma ofb_always iv : length iv = n -> bytes iv ->
  always (ofb_ops (mkOfb c iv)) (iv_reset iv) (ofb_stream_init (mkOfb c iv)) (fun _ r => r = Ok tt).
Proof.
  intros Li Bi. assert (Vi : V n iv) by (split; auto).
  apply always_inv with (P := fun _ st => (length (s_data st) < n)%nat /\ V n (s_ij st)).
  - split; [exact Hn|exact Vi].
  - intros _ [dt pd ij] d (L & Vj) Bd. cbn [s_data s_ij] in L, Vj. cbn [op_write ofb_ops]. rewrite (short_rest n dt L), (ofb_write_spec c n E D GC) by auto. cbn [fst snd s_data s_ij].
    split; [reflexivity|]. split; [apply rest_lt; lia|]. apply (mG_ofb_V c n E D GC); auto.
  - intros _ st (L & Vj). split; [exact L|exact Vj].
  - intros _ st _. split; [exact Hn|exact Vi].
  - intros _ [dt pd ij] (L & Vj). cbn [s_data s_ij] in L, Vj. cbn [op_finish ofb_ops]. unfold ofb_finish. cbn [ofb_cipher ofb_iv s_data s_pond s_ij].
    destruct dt as [|x dt]; [cbn [fst snd s_data s_ij]; split; [reflexivity|split; [exact Hn|exact Vi]]|].
    rewrite (gc_enc _ _ _ _ GC) by apply Vj. cbn [fst snd s_data s_ij]. split; [reflexivity|split; [exact Hn|exact Vi]].
Qed.

Lemma ctr_always init bits k o : bytes init -> counter_new init bits = Ok k -> ctr_new c k = Ok o ->
  always ctr_ops ctr_reset (ctr_stream o) (fun _ r => r = Ok tt).
Proof.
  intros Bi Ek Eo. unfold counter_new in Ek. destruct (Nat.ltb_spec ((bits + 7) / 8) (length init)) as [|Hl]; [discriminate|]. injection Ek as <-.
  unfold ctr_new in Eo. cbn [ctr_bits] in Eo. rewrite (bsz_n c n E D GC) in Eo. destruct (Nat.ltb_spec bits (n * 8)) as [|Hb]; [discriminate|]. injection Eo as <-.
  apply always_inv with (P := fun _ st => exists m pd k, st = ctrs_mk c bits init (rest n m) pd k).
  - exists [], [], 0%nat. reflexivity.
  - intros _ st d (m & pd & k & ->) Bd. cbn [op_write ctr_ops]. rewrite (ctr_write_spec c n E D GC bits init Bi Hl Hb). cbn [fst snd]. split; [reflexivity|]. eauto.
  - intros _ st (m & pd & k & ->). exists m, [], k. reflexivity.
  - intros _ st (m & pd & k & ->). exists [], [], 0%nat. destruct k; reflexivity.
  - intros _ st (m & pd & k & ->). cbn [op_finish ctr_ops]. unfold ctr_finish, ctrs_mk, ctr_at. cbn [cs_ctr ctr_cipher cs_data cs_pond ctr_ctr].
    rewrite (ctr_inner_spec c n E D GC bits init Bi Hl Hb) by lia. cbn [fst snd]. split; [reflexivity|]. exists [], (pd ++ mF (ctrF n E bits init) ctrG n k (rest n m)), (mG ctrG n k (rest n m)). reflexivity.
Qed.
End WithCipher.

(** ** C76 *)
(** One-shot decryption of any bytes: the exact answer.  [unpad] is described by C09; a refused length leaves [dst] alone. *)
Theorem C76_ecb_decrypt : forall c n E D, GoodCipher c n E D -> forall p dst ct, own_padding c p -> bytes ct ->
  ecb_decrypt (mkEcb c p) dst ct = (if (length ct mod n =? 0)%nat then unpad p (ECB D n ct) else (dst, Err InvalidParameter)) /\
  snd (ecb_decrypt (mkEcb c p) dst ct) <> Panic.
Proof.
  intros c n E D GC p dst ct Hp B.
  assert (X : ecb_decrypt (mkEcb c p) dst ct = if (length ct mod n =? 0)%nat then unpad p (ECB D n ct) else (dst, Err InvalidParameter)).
  { destruct (Nat.eqb_spec (length ct mod n) 0) as [M|M]; [apply (ecb_decrypt_any c n E D GC); auto|apply (ecb_decrypt_badlen c n E D GC), M]. }
  split; [exact X|]. rewrite X. destruct (Nat.eqb _ _); [|discriminate]. destruct (unpad_own c p (ECB D n ct) Hp) as [-> | [k ->]]; discriminate.
Qed.
Print Assumptions C76_ecb_decrypt.
Theorem C76_cbc_decrypt : forall c n E D, GoodCipher c n E D -> forall p iv dst ct, own_padding c p -> length iv = n -> bytes iv -> bytes ct ->
  cbc_decrypt (mkCbc c p iv) dst ct = (if (length ct mod n =? 0)%nat then unpad p (CBC_inv D n iv ct) else (dst, Err InvalidParameter)) /\
  snd (cbc_decrypt (mkCbc c p iv) dst ct) <> Panic.
Proof.
  intros c n E D GC p iv dst ct Hp Li Bi B.
  assert (X : cbc_decrypt (mkCbc c p iv) dst ct = if (length ct mod n =? 0)%nat then unpad p (CBC_inv D n iv ct) else (dst, Err InvalidParameter)).
  { destruct (Nat.eqb_spec (length ct mod n) 0) as [M|M]; [apply (cbc_decrypt_any c n E D GC); auto|apply (cbc_decrypt_badlen c n E D GC), M]. }
  split; [exact X|]. rewrite X. destruct (Nat.eqb _ _); [|discriminate]. destruct (unpad_own c p (CBC_inv D n iv ct) Hp) as [-> | [k ->]]; discriminate.
Qed.
Print Assumptions C76_cbc_decrypt.
Lemma cfb_inv_bytes c n E D (GC : GoodCipher c n E D) s (Hs : (0 < s <= n)%nat) : forall ct iv, V n iv -> bytes ct -> (length ct mod s = 0)%nat ->
  let q := mF (cfbF E s) (cfbDG s) s iv ct in length q = length ct /\ bytes q /\ CFB E s iv q = ct.
Proof.
  block_induction s; [lia| |].
  - intros ct L iv Vi B M. apply short_mod0 in M; auto. subst. cbv zeta. rewrite <- CFB_mF, !mF_nil by lia. repeat split; constructor.
  - intros b ct Lb IH iv Vi B M. apply bytes_app in B. destruct B as [Bb B]. rewrite app_length, mod_block in M by lia.
    pose proof (cfbDG_V c n E D GC s Hs iv b Vi Lb Bb) as Vj. destruct (cfbF_ok c n E D GC s Hs iv b Vi Lb Bb) as [F1 F2].
    destruct (IH _ Vj B M) as (I1 & I2 & I3). cbv zeta in *. rewrite <- CFB_mF in *. rewrite (mF_block (cfbF E s) (cfbDG s)) by (auto; lia).
    rewrite (mF_block (cfbF E s) (cfbG E s)) by (auto; lia).
    assert (X : cfbF E s iv (cfbF E s iv b) = b).
    { unfold cfbF. apply xorl_cancel. destruct (V_E c n E D GC iv Vi). rewrite firstn_length. lia. }
    assert (Y : cfbG E s iv (cfbF E s iv b) = cfbDG s iv b) by (unfold cfbG; rewrite X; reflexivity).
    rewrite X, Y, I3, !app_length, I1, F1, Lb. split; [reflexivity|]. split; [apply bytes_app; auto|reflexivity].
Qed.
(** CFB: the answer is the unpadded [q] that CFB encrypts to [ct]. *)
Theorem C76_cfb_decrypt : forall c n E D, GoodCipher c n E D -> forall s p iv dst ct, (0 < s <= n)%nat -> own_padding c p -> length iv = n -> bytes iv -> bytes ct ->
  ((length ct mod s <> 0)%nat -> cfb_decrypt (mkCfb s c p iv) dst ct = (dst, Err InvalidParameter)) /\
  ((length ct mod s = 0)%nat -> exists q, bytes q /\ length q = length ct /\ CFB E s iv q = ct /\ cfb_decrypt (mkCfb s c p iv) dst ct = unpad p q) /\
  snd (cfb_decrypt (mkCfb s c p iv) dst ct) <> Panic.
Proof.
  intros c n E D GC s p iv dst ct Hs Hp Li Bi B. assert (Vi : V n iv) by (split; auto).
  destruct (Nat.eq_dec (length ct mod s) 0) as [M|M].
  - rewrite (cfb_decrypt_any c n E D GC s Hs) by auto. destruct (cfb_inv_bytes c n E D GC s Hs ct iv Vi B M) as (I1 & I2 & I3).
    split; [intros X; contradiction|]. split; [intros _; eexists; split; [exact I2|split; [exact I1|split; [exact I3|reflexivity]]]|].
    destruct (unpad_own c p (mF (cfbF E s) (cfbDG s) s iv ct) Hp) as [-> | [k ->]]; discriminate.
  - rewrite cfb_decrypt_badlen by exact M. split; [reflexivity|]. split; [intros X; contradiction|discriminate].
Qed.
Print Assumptions C76_cfb_decrypt.

(** Streamed decryption of any bytes in any pieces: the exact answer.  A stream wants at least one whole block, even without
    padding, and looks for the padding in the last block only. *)
Lemma hold_exact n m : (0 < n)%nat -> m <> [] -> (length m mod n = 0)%nat -> hw n m = firstn (length m - n) m /\ hr n m = lastn n m.
Proof.
  intros Hn Ne M. unfold hw, hr, lastn. replace ((length m - 1) / n * n)%nat with (length m - n)%nat; [auto|].
  assert (L : (0 < length m)%nat) by (destruct m; [congruence|cbn; lia]). apply Nat.mod_divides in M; [|lia]. destruct M as [q M]. rewrite M in *.
  destruct q as [|q]; [lia|]. replace (n * S q - 1)%nat with (n - 1 + q * n)%nat by lia. rewrite Nat.div_add, Nat.div_small by lia. lia.
Qed.
Lemma hold_partial n m : (0 < n)%nat -> (m = [] \/ (length m mod n <> 0)%nat) -> length (hr n m) <> n.
Proof.
  intros Hn [-> | M] X; [destruct (hold_short n [] ltac:(cbn; lia) Hn) as [_ Y]; rewrite Y in X; cbn in X; lia|].
  apply M. rewrite <- (sp_wr _ _ (split_hold n Hn) m), app_length, X, <- Nat.add_mod_idemp_l, hw_mod by lia. apply Nat.mod_same. lia.
Qed.
Theorem C76_ecb_stream : forall c n E D, GoodCipher c n E D -> forall p evs, own_padding c p -> Forall (fun e => bytes (fst e)) evs ->
  let ct := concat (map fst evs) in
  let r := run_stream (ecb_dec_ops (mkEcb c p)) ecb_stream_init evs in
  (ct = [] \/ (length ct mod n <> 0)%nat -> snd r = Err InvalidParameter) /\
  (ct <> [] -> (length ct mod n = 0)%nat ->
    match unpad p (D (lastn n ct)) with
    | (last, Ok _) => r = (ecb_stream_init, ECB D n (firstn (length ct - n) ct) ++ last, Ok tt)
    | (_, x) => x = Err UnpaddingNotMatch /\ snd r = Err UnpaddingNotMatch
    end).
Proof.
  intros c n E D GC p evs Hp Bv ct r. pose proof (gc_pos _ _ _ _ GC) as Hn.
  destruct (ecb_dec_run c n E D GC p evs Bv) as (out & pond & R & O). fold ct in R, O.
  unfold r, run_stream. rewrite R. cbn [op_finish ecb_dec_ops]. unfold ecb_dec_finish. cbn [ecb_cipher ecb_pad s_data s_pond s_ij]. split.
  - intros B. rewrite (gc_dec_bad _ _ _ _ GC) by (apply hold_partial; auto). reflexivity.
  - intros Ne M. destruct (hold_exact n ct Hn Ne M) as [W H]. rewrite H, W in *.
    assert (L : length (lastn n ct) = n).
    { rewrite <- H. pose proof (hr_length n ct Hn Ne). assert (T : (length (hw n ct) + length (hr n ct) = length ct)%nat) by (rewrite <- app_length, (sp_wr _ _ (split_hold n Hn)); reflexivity).
      pose proof (hw_mod n ct Hn) as Y. rewrite <- T, <- Nat.add_mod_idemp_l, Y, Nat.add_0_l in M by lia.
      destruct (Nat.eq_dec (length (hr n ct)) n); [assumption|]. rewrite Nat.mod_small in M; lia. }
    rewrite (gc_dec _ _ _ _ GC) by exact L. destruct (unpad_own c p (D (lastn n ct)) Hp) as [X|[k X]]; destruct (unpad p (D (lastn n ct))) as [t x]; cbn [snd] in X; subst x.
    + split; reflexivity.
    + cbn [op_pond op_empty_pond ecb_dec_ops s_pond drain s_data s_ij]. rewrite app_assoc, O. reflexivity.
Qed.
Print Assumptions C76_ecb_stream.
Lemma mG_cbcDG n (Hn : (0 < n)%nat) : forall body iv, length iv = n -> (length body mod n = 0)%nat -> mG cbcDG n iv body = lastn n (iv ++ body).
Proof.
  block_induction n; [exact Hn| |].
  - intros u Lu iv Li Mu. apply short_mod0 in Mu; auto. rewrite Mu. rewrite mG_nil, app_nil_r by lia. unfold lastn. rewrite Li, Nat.sub_diag. reflexivity.
  - intros b u Lb IH iv Li Mu. rewrite app_length, mod_block in Mu by lia. rewrite mG_block by (auto; lia). unfold cbcDG at 2. rewrite IH by auto.
    unfold lastn. rewrite !app_length. replace (length iv + (length b + length u) - n)%nat with (length iv + (length b + length u - n))%nat by lia.
    rewrite (skipn_app _ iv), (skipn_all2 iv) by lia. cbn [app]. f_equal. lia.
Qed.
Theorem C76_cbc_stream : forall c n E D, GoodCipher c n E D -> forall p iv evs, own_padding c p -> length iv = n -> bytes iv -> Forall (fun e => bytes (fst e)) evs ->
  let ct := concat (map fst evs) in
  let o := mkCbc c p iv in
  let r := run_stream (cbc_dec_ops o) (cbc_stream_init o) evs in
  (ct = [] \/ (length ct mod n <> 0)%nat -> snd r = Err InvalidParameter) /\
  (ct <> [] -> (length ct mod n = 0)%nat ->
    let body := firstn (length ct - n) ct in
    match unpad p (xorl (D (lastn n ct)) (lastn n (iv ++ body))) with
    | (last, Ok _) => r = (cbc_stream_init o, CBC_inv D n iv body ++ last, Ok tt)
    | (_, x) => x = Err UnpaddingNotMatch /\ snd r = Err UnpaddingNotMatch
    end).
Proof.
  intros c n E D GC p iv evs Hp Li Bi Bv ct o r. pose proof (gc_pos _ _ _ _ GC) as Hn. assert (Vi : V n iv) by (split; auto).
  pose proof (bytes_concat_fst evs Bv) as Bc. fold ct in Bc.
  destruct (cbc_dec_run c n E D GC p iv evs Vi Bv) as (out & pond & R & O). fold ct in R, O.
  unfold r, run_stream, cbc_stream_init, o. cbn [cbc_iv]. rewrite R. cbn [op_finish cbc_dec_ops]. unfold cbc_dec_finish. cbn [cbc_cipher cbc_pad cbc_iv s_data s_pond s_ij]. split.
  - intros B. rewrite (gc_dec_bad _ _ _ _ GC) by (apply hold_partial; auto). reflexivity.
  - intros Ne M. set (body := firstn (length ct - n) ct). destruct (hold_exact n ct Hn Ne M) as [W H]. pose proof (hw_mod n ct Hn) as Mw. rewrite W in *. rewrite H. fold body in O, Mw |- *.
    assert (T : body ++ lastn n ct = ct) by (unfold body, lastn; apply firstn_skipn).
    assert (L : length (lastn n ct) = n).
    { unfold lastn. rewrite skipn_length. destruct (Nat.lt_ge_cases (length ct) n) as [Q|Q]; [|lia]. rewrite Nat.mod_small in M by exact Q. destruct ct; [congruence|cbn in M; lia]. }
    assert (Bb : bytes body) by (apply bytes_firstn, Bc). assert (BL : bytes (lastn n ct)) by (apply bytes_skipn, Bc).
    rewrite (gc_dec _ _ _ _ GC) by exact L. destruct (gc_D _ _ _ _ GC (lastn n ct) L BL) as [LD _].
    assert (G : mG cbcDG n iv body = lastn n (iv ++ body)) by (apply mG_cbcDG; auto).
    rewrite G. set (pv := lastn n (iv ++ body)) in *.
    assert (Lv : length pv = n) by (unfold pv, lastn; rewrite skipn_length, app_length; lia).
    replace (skipn (length pv) (D (lastn n ct))) with (@nil Z) by (symmetry; apply skipn_all2; lia). rewrite app_nil_r.
    destruct (unpad_own c p (xorl (D (lastn n ct)) pv) Hp) as [X|[k X]]; destruct (unpad p (xorl (D (lastn n ct)) pv)) as [t x]; cbn [snd] in X; subst x.
    + split; reflexivity.
    + cbn [op_pond op_empty_pond cbc_dec_ops s_pond drain s_data s_ij]. rewrite app_assoc, O. reflexivity.
Qed.
Print Assumptions C76_cbc_stream.
(** So a stream without padding refuses the empty message, which one-shot decryption accepts. *)
Theorem C76_stream_empty_refuted : exists iv, let o := mkCbc exc EmptyPadding iv in
  cbc_decrypt o [] [] = ([], Ok 0%nat) /\ snd (run_stream (cbc_dec_ops o) (cbc_stream_init o) []) = Err InvalidParameter.
Proof. exists exiv. split; vm_compute; reflexivity. Qed.
Print Assumptions C76_stream_empty_refuted.

(** All histories: writes always succeed; [finish] answers as listed, whatever came before. *)
Theorem C76_histories : forall c n E D, GoodCipher c n E D -> forall p iv s, own_padding c p -> length iv = n -> bytes iv -> (0 < s <= n)%nat ->
  let enc_answer (_ : list op) r := r = Ok tt \/ p = EmptyPadding /\ r = Err InvalidParameter in
  let dec_answer (_ : list op) r := r = Ok tt \/ r = Err InvalidParameter \/ r = Err UnpaddingNotMatch in
  let ok_answer (_ : list op) r := r = Ok tt in
  always (ecb_enc_ops (mkEcb c p)) (ecb_reset (mkEcb c p)) ecb_stream_init enc_answer /\
  always (ecb_dec_ops (mkEcb c p)) (ecb_reset (mkEcb c p)) ecb_stream_init dec_answer /\
  always (cbc_enc_ops (mkCbc c p iv)) (iv_reset iv) (cbc_stream_init (mkCbc c p iv)) enc_answer /\
  always (cbc_dec_ops (mkCbc c p iv)) (iv_reset iv) (cbc_stream_init (mkCbc c p iv)) dec_answer /\
  always (cfb_enc_ops (mkCfb s c p iv)) (iv_reset iv) (cfb_stream_init (mkCfb s c p iv)) ok_answer /\
  always (ofb_ops (mkOfb c iv)) (iv_reset iv) (ofb_stream_init (mkOfb c iv)) ok_answer /\
  (forall init bits k o, bytes init -> counter_new init bits = Ok k -> ctr_new c k = Ok o -> always ctr_ops ctr_reset (ctr_stream o) ok_answer).
Proof.
  intros c n E D GC p iv s Hp Li Bi Hs. cbv zeta.
  split; [apply (ecb_enc_always c n E D GC), Hp|]. split; [apply (ecb_dec_always c n E D GC), Hp|].
  split; [apply (cbc_enc_always c n E D GC); auto|]. split; [apply (cbc_dec_always c n E D GC); auto|].
  split; [apply (cfb_enc_always c n E D GC s Hs); auto|]. split; [apply (ofb_always c n E D GC); auto|]. intros init bits k o. apply (ctr_always c n E D GC).
Qed.
Print Assumptions C76_histories.
(** The exception: [finish] of a CFB decrypt stream panics exactly when the number of bytes written since the last reset is
    not a whole number of segments - also if a [finish] succeeded or failed in between. *)
Theorem C76_cfb_history : forall c n E D, GoodCipher c n E D -> forall p iv s, own_padding c p -> length iv = n -> bytes iv -> (0 < s <= n)%nat ->
  always (cfb_dec_ops (mkCfb s c p iv)) (iv_reset iv) (cfb_stream_init (mkCfb s c p iv))
    (fun h r => (r = Panic <-> (pending h mod s <> 0)%nat) /\ (r = Panic \/ r = Ok tt \/ r = Err UnpaddingNotMatch)).
Proof. intros c n E D GC p iv s Hp Li Bi Hs. apply (cfb_dec_always c n E D GC s Hs); auto. Qed.
Print Assumptions C76_cfb_history.
Example C76_case : own_padding exc EmptyPadding /\ (0 < 3 <= 16)%nat /\ pending [Write [1; 2; 3]; Finish; Reset; Write [1; 2]; Draw; Finish; Write [3; 4]] = 4%nat /\
  let o := mkCfb 3 exc EmptyPadding exiv in
  let st h := exec (cfb_dec_ops o) (iv_reset exiv) (cfb_stream_init o) h in
  snd (cfb_dec_finish o (st [Write [1; 2; 3]; Finish; Reset; Write [1; 2]; Draw; Finish; Write [3; 4]])) = Panic /\
  snd (cfb_dec_finish o (st [Write [1; 2; 3]; Finish; Write [1; 2]; Write [4]])) = Ok tt /\
  snd (run_stream (ecb_dec_ops (mkEcb exc (DefaultPadding exc))) ecb_stream_init [([1], true); (exmsg 31, false)]) = Err UnpaddingNotMatch.
Proof. split; [right; reflexivity|]. split; [lia|]. vm_compute. repeat split. Qed.
