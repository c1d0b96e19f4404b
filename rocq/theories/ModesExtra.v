(** Further facts about the modes: where CBC with the default padding fails,
    counter distinctness, reset and reuse of streams, argument checks. *)
From Verif Require Import Base ModesModel ModesSpec PaddingProofs ModesLoops EcbCbcProofs CfbOfbCtrProofs.

(** ** Unpadding only ever shortens *)
Lemma unpad_prefix buf : exists k, fst (default_unpad buf) = firstn k buf.
Proof.
  unfold default_unpad. destruct (unpad_scan (rev buf) 0).
  - eexists. reflexivity.
  - exists (length buf). cbn. symmetry. apply firstn_all.
Qed.

(** The accepted strings, the result, and the error case. *)
Lemma unpad_err buf : snd (default_unpad buf) = Err UnpaddingNotMatch <-> ~ In 128 buf.
Proof.
  split.
  - intros H Hin. destruct (last_occ buf Hin) as (a & t & -> & Ht).
    rewrite default_unpad_found in H by auto. discriminate.
  - intros H. rewrite default_unpad_missing by auto. reflexivity.
Qed.

Section WithCipher.
Variable c : cipher.
Variable n : nat.
Variables E D : list Z -> list Z.
Hypothesis GC : GoodCipher c n E D.
Let Hn : (0 < n)%nat := gc_pos _ _ _ _ GC.
Notation V := (EcbCbcProofs.V n).

Lemma CBC_inv_app a : forall iv b, length iv = n -> (length a mod n = 0)%nat ->
  CBC_inv D n iv (a ++ b) = CBC_inv D n iv a ++ CBC_inv D n (skipn (length a) (iv ++ a)) b.
Proof.
  revert a. block_induction n; auto.
  - intros a Hl iv b Hiv Ha. apply short_mod0 in Ha; auto. subst a. cbn [app length].
    rewrite app_nil_r. unfold CBC_inv at 2. rewrite chunks_nil by auto. reflexivity.
  - intros x a Hx IH iv b Hiv Ha. rewrite app_length, mod_block in Ha by lia.
    rewrite <- app_assoc. unfold CBC_inv. rewrite !(chunks_app n x) by auto. cbn [CBCb_inv concat].
    fold (CBC_inv D n x (a ++ b)). rewrite IH by auto. rewrite <- app_assoc. f_equal.
    fold (CBC_inv D n x a). f_equal. fold (CBC_inv D n (skipn (length a) (x ++ a)) b).
    f_equal. rewrite app_length, (skipn_app _ iv), (skipn_all2 iv) by lia.
    replace (length x + length a - length iv)%nat with (length a) by lia. reflexivity.
Qed.


Lemma CBC_inv_one iv b : length b = n -> CBC_inv D n iv b = xorl (D b) iv.
Proof.
  intros Hb. unfold CBC_inv. rewrite <- (app_nil_r b) at 1. rewrite chunks_app, chunks_nil by auto. cbn. apply app_nil_r.
Qed.

(** What one-shot CBC decryption returns on one-shot CBC ciphertext with the default padding. *)
Lemma cbc_default_roundtrip_exact iv dst dst' m : V iv -> bytes m ->
  let ct := CBC E n iv (whole n m) in
  let prev := lastn n (iv ++ ct) in
  exists b t, pad10 n (rest n m) = b ++ t /\ length b = n /\ (t = [] \/ t = repeat 0 n) /\
  cbc_decrypt (cbcD c iv) dst (fst (cbc_encrypt (cbcD c iv) dst' m)) =
    default_unpad (whole n m ++ xorl b prev ++ (if length t =? 0 then [] else xorl t (E b)))%nat.
Proof.
  intros Hiv Hm ct prev.
  assert (Hw : bytes (whole n m)) by (unfold whole; apply bytes_firstn; auto).
  assert (Hwm : (length (whole n m) mod n = 0)%nat) by (apply whole_mod; lia).
  destruct (CBC_roundtrip c n E D GC (whole n m) iv Hiv Hw Hwm) as (I1 & I2 & I3).
  destruct (pad10_rest_split c n E D GC m Hm) as (b & t & HP & Hb & Hbb & T0 & T1).
  exists b, t. split; [exact HP|]. split; [exact Hb|].
  assert (Ht : t = [] \/ t = repeat 0 n).
  { destruct (Nat.eq_dec (length m mod n) (n - 1)); [right; apply T1; auto|left; auto]. }
  split; [exact Ht|].
  rewrite (cbc_encrypt_default c n E D GC) by auto. cbn [fst]. rewrite HP.
  assert (Htn : (length (b ++ t) mod n = 0)%nat).
  { rewrite app_length, mod_block by lia. destruct Ht as [->| ->]; [apply Nat.mod_0_l; lia|].
    rewrite repeat_length. apply Nat.mod_same; lia. }
  assert (Htb : bytes t). { destruct Ht as [->| ->]; [constructor|apply bytes_repeat; unfold byte; lia]. }
  destruct (ECB_inv c n E D GC (b ++ t)) as (_ & _ & L & _); [apply bytes_app; auto|auto|].
  unfold cbcD. rewrite (cbc_decrypt_any c n E D GC); [|apply Hiv|].
  2: { rewrite app_length, I2, L. rewrite <- Nat.add_mod_idemp_l, Hwm by lia. exact Htn. }
  rewrite CBC_inv_app by (try apply Hiv; rewrite I2; auto). rewrite I1. cbn [unpad DefaultPadding].
  f_equal. f_equal. fold ct.
  replace (skipn (length ct) (iv ++ ct)) with prev.
  2: { unfold prev, lastn. rewrite app_length. f_equal. destruct Hiv. lia. }
  rewrite ECB_block by auto.
  assert (HE : length (E b) = n) by (apply (gc_E _ _ _ _ GC); auto).
  assert (HEb : bytes (E b)) by (apply (gc_E _ _ _ _ GC); auto).
  unfold CBC_inv. rewrite chunks_app by auto. cbn [CBCb_inv concat]. rewrite (gc_DE _ _ _ _ GC) by auto.
  f_equal. destruct Ht as [->| ->].
  - cbn [length Nat.eqb]. rewrite ECB_nil, chunks_nil by auto. reflexivity.
  - rewrite repeat_length. replace (n =? 0)%nat with false by (symmetry; apply Nat.eqb_neq; lia).
    assert (B0 : bytes (repeat 0 n)) by (apply bytes_repeat; unfold byte; lia).
    rewrite ECB_one by (auto; apply repeat_length).
    fold (CBC_inv D n (E b) (E (repeat 0 n))). rewrite CBC_inv_one by (apply (gc_E _ _ _ _ GC); auto; apply repeat_length).
    rewrite (gc_DE _ _ _ _ GC) by (auto; apply repeat_length). reflexivity.
Qed.

(** The round trip can only succeed if the leading |m| mod n bytes of the chaining value are zero. *)
Lemma cbc_default_roundtrip_needs iv dst dst' m : V iv -> bytes m ->
  fst (cbc_decrypt (cbcD c iv) dst (fst (cbc_encrypt (cbcD c iv) dst' m))) = m ->
  firstn (length (rest n m)) (lastn n (iv ++ CBC E n iv (whole n m))) = repeat 0 (length (rest n m)).
Proof.
  intros Hiv Hm H.
  assert (Hw : bytes (whole n m)) by (unfold whole; apply bytes_firstn; auto).
  assert (Hwm : (length (whole n m) mod n = 0)%nat) by (apply whole_mod; lia).
  destruct (CBC_roundtrip c n E D GC (whole n m) iv Hiv Hw Hwm) as (_ & I2 & _).
  destruct (cbc_default_roundtrip_exact iv dst dst' m Hiv Hm) as (b & t & HP & Hb & _ & Heq).
  rewrite Heq in H. clear Heq. set (prev := lastn n (iv ++ CBC E n iv (whole n m))) in *.
  assert (Hlp : length prev = n).
  { unfold prev, lastn. rewrite skipn_length, app_length. destruct Hiv. lia. }
  destruct (unpad_prefix (whole n m ++ xorl b prev ++ (if (length t =? 0)%nat then [] else xorl t (E b)))) as [k Hk].
  rewrite H in Hk. set (r := rest n m) in *.
  assert (Hr : (length r < n)%nat) by (apply rest_lt; lia).
  assert (Hbr : firstn (length r) b = r).
  { assert (X : firstn (length r) (pad10 n r) = r)
      by (unfold pad10; rewrite firstn_app, Nat.sub_diag, firstn_all; apply app_nil_r).
    rewrite HP, firstn_app in X. replace (length r - length b)%nat with 0%nat in X by lia.
    cbn [firstn] in X. rewrite app_nil_r in X. exact X. }
  assert (Hx : r = firstn (length r) (xorl b prev)).
  { assert (Hmk : m = firstn (length m) (whole n m ++ xorl b prev ++ (if (length t =? 0)%nat then [] else xorl t (E b)))).
    { assert (length m <= k)%nat by (rewrite Hk; apply firstn_le_length).
      rewrite Hk at 1. set (bf := _ ++ _ ++ _) in *.
      destruct (Nat.le_gt_cases k (length bf)).
      - replace k with (length m); auto. rewrite Hk. rewrite firstn_length. lia.
      - assert (length m = length bf) by (rewrite Hk, firstn_length; lia).
        rewrite !firstn_all2 by lia. reflexivity. }
    assert (El : length m = (length (whole n m) + length r)%nat)
      by (rewrite <- (whole_rest n m) at 1; apply app_length).
    rewrite <- (whole_rest n m) in Hmk at 1. rewrite El in Hmk. rewrite firstn_app in Hmk.
    rewrite firstn_all2 in Hmk by lia. apply app_inv_head in Hmk. fold r in Hmk. rewrite Hmk at 1.
    replace (length (whole n m) + length r - length (whole n m))%nat with (length r) by lia.
    rewrite firstn_app. rewrite xorl_length, Hb, Hlp, Nat.min_id. replace (length r - n)%nat with 0%nat by lia.
    cbn [firstn]. apply app_nil_r. }
  rewrite <- xorl_firstn, Hbr in Hx.
  assert (Hz : xorl r (xorl r (firstn (length r) prev)) = firstn (length r) prev).
  { apply xorl_cancel_l. rewrite firstn_length. lia. }
  rewrite <- xorl_trunc, <- Hx in Hz. rewrite <- Hz. clear.
  induction r as [|x r IH]; cbn; [reflexivity|]. rewrite Z.lxor_nilpotent, IH. reflexivity.
Qed.

(** Streaming: in the residue class n-1 the decrypt stream never gives the message back. *)
Lemma cbc_stream_residue_fails iv evs evs' : V iv ->
  Forall (fun e => bytes (fst e)) evs -> Forall (fun e => bytes (fst e)) evs' ->
  let m := concat (map fst evs) in
  (length m mod n = n - 1)%nat ->
  concat (map fst evs') = snd (fst (run_stream (cbc_enc_ops (cbcD c iv)) (cbc_stream_init (cbcD c iv)) evs)) ->
  forall st out, run_stream (cbc_dec_ops (cbcD c iv)) (cbc_stream_init (cbcD c iv)) evs' = (st, out, Ok tt) ->
  out <> m.
Proof.
  intros Hiv He He' m Hmod Hc st out Hrun.
  unfold m in Hmod. rewrite (cbc_enc_stream_two c n E D GC) in Hc by auto. cbn [fst snd] in Hc. fold m in Hmod, Hc.
  assert (Hm : bytes m).
  { unfold m. clear -He. induction He; cbn; [constructor|]. apply bytes_app. auto. }
  assert (Hm1 : bytes (m ++ [128])) by (apply bytes_app; split; auto; constructor; [unfold byte; lia|constructor]).
  assert (Hl1 : (length (m ++ [128%Z]) mod n = 0)%nat).
  { rewrite app_length. cbn [length]. rewrite <- Nat.add_mod_idemp_l, Hmod by lia.
    replace (n - 1 + 1)%nat with n by lia. apply Nat.mod_same; lia. }
  destruct (CBC_roundtrip c n E D GC (m ++ [128]) iv Hiv Hm1 Hl1) as (I1 & I2 & I3).
  unfold run_stream, cbc_stream_init in Hrun. cbn [cbc_iv cbcD] in Hrun.
  destruct (cbc_dec_run c n E D GC (DefaultPadding c) iv evs' Hiv He') as (o & pond & Hr & Ho).
  unfold cbcD in Hrun. rewrite Hr in Hrun. rewrite Hc in Ho.
  assert (Hz : length (E (xorl (repeat 0 n) iv)) = n).
  { destruct Hiv as [Hi1 Hi2]. apply (gc_E _ _ _ _ GC).
    - rewrite xorl_length, repeat_length. lia.
    - apply xorl_bytes; auto. apply bytes_repeat. unfold byte; lia. }
  destruct (hold_last c n E D GC (CBC E n iv (m ++ [128])) (E (xorl (repeat 0 n) iv))) as [Hw _];
    [rewrite I2; auto|exact Hz|].
  rewrite Hw, I1 in Ho.
  destruct (op_finish _ _) as [s2 [u|e|]] eqn:Hf; try discriminate.
  injection Hrun as _ <-. cbn [op_finish cbc_dec_ops] in Hf. unfold cbc_dec_finish in Hf.
  destruct (dec _ _) as [txt|e|]; try discriminate.
  destruct (unpad _ _) as [txt' [u'|e|]]; try discriminate. injection Hf as <-.
  cbn [op_pond cbc_dec_ops s_pond]. rewrite app_assoc, Ho. intros Heq.
  apply (f_equal (@length Z)) in Heq. rewrite !app_length in Heq. cbn in Heq. lia.
Qed.
End WithCipher.

(** ** Counter blocks *)
Lemma be_bytes_inj L x y : be_bytes L x = be_bytes L y -> x mod 256 ^ Z.of_nat L = y mod 256 ^ Z.of_nat L.
Proof. intros H. rewrite <- !be_val_bytes, H. reflexivity. Qed.

Lemma counter_distinct n v i j :
  (Z.of_nat i - Z.of_nat j) mod 256 ^ Z.of_nat n <> 0 ->
  counter_block n n v i <> counter_block n n v j.
Proof.
  intros Hd H. unfold counter_block in H. rewrite !firstn_all2 in H by (rewrite be_bytes_length; lia).
  apply be_bytes_inj in H. apply Hd.
  replace (Z.of_nat i - Z.of_nat j) with ((v + Z.of_nat i) - (v + Z.of_nat j)) by lia.
  rewrite Zminus_mod, H, Z.sub_diag. apply Z.mod_0_l. apply Z.pow_nonzero; lia.
Qed.
Lemma counter_distinct_run n v i j : i <> j ->
  Z.abs (Z.of_nat i - Z.of_nat j) < 256 ^ Z.of_nat n ->
  counter_block n n v i <> counter_block n n v j.
Proof.
  intros Hij Hb. apply counter_distinct. intros H. apply Z.mod_divide in H; [|apply Z.pow_nonzero; lia].
  destruct H as [q Hq]. assert (0 < 256 ^ Z.of_nat n) by (apply Z.pow_pos_nonneg; lia).
  assert (q = 0) by nia. subst. lia.
Qed.
Lemma counter_wraps n v i j : (0 < n)%nat ->
  (Z.of_nat i - Z.of_nat j) mod 256 ^ Z.of_nat n = 0 ->
  counter_block n n v i = counter_block n n v j.
Proof.
  intros Hn H. unfold counter_block. rewrite !firstn_all2 by (rewrite be_bytes_length; lia).
  rewrite <- (be_bytes_mod n (v + Z.of_nat i)), <- (be_bytes_mod n (v + Z.of_nat j)). f_equal.
  replace (v + Z.of_nat i) with ((v + Z.of_nat j) + (Z.of_nat i - Z.of_nat j)) by lia.
  rewrite Zplus_mod, H, Z.add_0_r. apply Z.mod_mod. apply Z.pow_nonzero; lia.
Qed.

Lemma be_bytes_top n k x : firstn n (be_bytes (n + k) x) = be_bytes n (x / 256 ^ Z.of_nat k).
Proof.
  unfold be_bytes. replace (n + k)%nat with (k + n)%nat by lia.
  assert (H : forall k x, le_bytes (k + n) x = le_bytes k x ++ le_bytes n (x / 256 ^ Z.of_nat k)).
  { clear. induction k as [|k IH]; intros x.
    - cbn [Nat.add le_bytes app]. change (256 ^ Z.of_nat 0) with 1. rewrite Z.div_1_r. reflexivity.
    - cbn [Nat.add le_bytes app]. rewrite IH. f_equal. f_equal.
      rewrite Z.div_div by (try apply Z.pow_pos_nonneg; lia). f_equal.
      rewrite Nat2Z.inj_succ, Z.pow_succ_r by lia. reflexivity. }
  rewrite H, rev_app_distr. rewrite firstn_app, rev_length, le_bytes_length, Nat.sub_diag. cbn [firstn].
  rewrite app_nil_r. apply firstn_all2. rewrite rev_length, le_bytes_length. lia.
Qed.
Lemma counter_wide_reuse n k v j :
  (v + Z.of_nat j) mod 256 ^ Z.of_nat k <> 256 ^ Z.of_nat k - 1 ->
  counter_block n (n + k) v (S j) = counter_block n (n + k) v j.
Proof.
  intros H. unfold counter_block. rewrite !be_bytes_top. f_equal.
  rewrite Nat2Z.inj_succ. set (x := v + Z.of_nat j) in *. set (P := 256 ^ Z.of_nat k) in *.
  replace (v + Z.succ (Z.of_nat j)) with (x + 1) by (unfold x; lia).
  assert (HP : 0 < P) by (apply Z.pow_pos_nonneg; lia).
  pose proof (Z.div_mod x P ltac:(lia)). pose proof (Z.mod_pos_bound x P HP).
  symmetry. apply (Z.div_unique_pos _ _ _ (x mod P + 1)); lia.
Qed.

(** ** Histories of a stream object *)
Lemma exec_inv {S} (ops : stream_ops S) rst (P : S -> Prop) :
  (forall s o, P s -> P (exec1 ops rst s o)) -> forall h s, P s -> P (exec ops rst s h).
Proof. intros H h. induction h; intros s Hs; cbn; auto. apply IHh, H, Hs. Qed.

Lemma while_more_ecb_ij o : forall fuel n ij data pond,
  fst (fst (fst (while_more (ecb_dec_step o) fuel n ij data pond))) = ij.
Proof.
  induction fuel; intros n ij data pond; [reflexivity|]. cbn [while_more].
  destruct (_ <? _)%nat; [|reflexivity]. unfold ecb_dec_step at 1.
  destruct (dec _ _); cbn [rmap]; auto.
Qed.
Lemma ecb_enc_ij o s x : s_ij (exec1 (ecb_enc_ops o) (ecb_reset o) s x) = s_ij s.
Proof.
  destruct x; cbn [exec1 ecb_enc_ops op_write op_finish op_empty_pond]; try reflexivity.
  - unfold ecb_enc_write. destruct d; [reflexivity|]. destruct (_ <? _)%nat; [reflexivity|].
    match goal with |- context [match ?e with Ok _ => _ | Err _ => _ | Panic => _ end] => destruct e as [[? ?]|?|] end; try reflexivity.
    destruct (while_full _ _ _ _ _) as [[? ?] [?|?|]]; reflexivity.
  - unfold ecb_enc_finish. destruct (while_nonempty _ _ _ _ _) as [? [?|?|]]; reflexivity.
Qed.
Lemma ecb_dec_ij o s x : s_ij (exec1 (ecb_dec_ops o) (ecb_reset o) s x) = s_ij s.
Proof.
  destruct x; cbn [exec1 ecb_dec_ops op_write op_finish op_empty_pond]; try reflexivity.
  - unfold ecb_dec_write. destruct d; [reflexivity|].
    match goal with |- context [while_more ?a ?b ?c ?d ?e ?f] => pose proof (while_more_ecb_ij o b c d e f) as H;
      destruct (while_more a b c d e f) as [[[? ?] ?] [?|?|]] end; exact H.
  - unfold ecb_dec_finish. destruct (dec _ _); try reflexivity. destruct (unpad _ _) as [? [?|?|]]; reflexivity.
Qed.

Lemma ecb_enc_reset_fresh o h : ecb_reset o (exec (ecb_enc_ops o) (ecb_reset o) ecb_stream_init h) = ecb_stream_init.
Proof.
  unfold ecb_reset, ecb_stream_init. f_equal.
  apply (exec_inv (ecb_enc_ops o) (ecb_reset o) (fun s => s_ij s = [])); [|reflexivity].
  intros s x H. rewrite ecb_enc_ij. exact H.
Qed.
Lemma ecb_dec_reset_fresh o h : ecb_reset o (exec (ecb_dec_ops o) (ecb_reset o) ecb_stream_init h) = ecb_stream_init.
Proof.
  unfold ecb_reset, ecb_stream_init. f_equal.
  apply (exec_inv (ecb_dec_ops o) (ecb_reset o) (fun s => s_ij s = [])); [|reflexivity].
  intros s x H. rewrite ecb_dec_ij. exact H.
Qed.

Lemma ctr_inner_keeps c : forall fuel k data dst k' dst' r,
  ctr_inner c fuel k data dst = (k', dst', r) -> ctr_bits k' = ctr_bits k /\ ctr_init k' = ctr_init k.
Proof.
  induction fuel; intros k data dst k' dst' r H; [injection H as <- _ _; auto|]. cbn [ctr_inner] in H.
  destruct data; [injection H as <- _ _; auto|]. cbn [counter_next] in H. cbv zeta in H.
  destruct (_ <? _)%nat; [injection H as <- _ _; auto|].
  destruct (enc c _).
  - apply IHfuel in H. exact H.
  - injection H as <- _ _; auto.
  - injection H as <- _ _; auto.
Qed.
Definition same_ctr (o : ctr) (s : ctrs) : Prop :=
  ctr_cipher (cs_ctr s) = ctr_cipher o /\ ctr_bits (ctr_ctr (cs_ctr s)) = ctr_bits (ctr_ctr o) /\
  ctr_init (ctr_ctr (cs_ctr s)) = ctr_init (ctr_ctr o).
Lemma ctr_exec_same o s x : same_ctr o s -> same_ctr o (exec1 ctr_ops ctr_reset s x).
Proof.
  intros (A & B & C). destruct x; cbn [exec1 ctr_ops op_write op_finish op_empty_pond].
  - unfold ctr_write. destruct d; [split; auto|].
    match goal with |- context [ctr_inner ?c ?f ?k ?d ?p] => destruct (ctr_inner c f k d p) as [[k' q] r] eqn:Ei end.
    apply ctr_inner_keeps in Ei. destruct Ei as [E1 E2].
    destruct r; cbn [fst]; unfold same_ctr; cbn [cs_ctr ctr_cipher ctr_ctr]; rewrite E1, E2; auto.
  - split; auto.
  - unfold ctr_finish.
    match goal with |- context [ctr_inner ?c ?f ?k ?d ?p] => destruct (ctr_inner c f k d p) as [[k' q] r] eqn:Ei end.
    apply ctr_inner_keeps in Ei. destruct Ei as [E1 E2].
    destruct r; cbn [fst]; unfold same_ctr; cbn [cs_ctr ctr_cipher ctr_ctr]; rewrite E1, E2; auto.
  - unfold same_ctr, ctr_reset, ctr_stream, counter_reset. cbn. auto.
Qed.
Lemma ctr_reset_fresh o h : ctr_reset (exec ctr_ops ctr_reset (ctr_stream o) h) = ctr_stream o.
Proof.
  assert (S : same_ctr o (exec ctr_ops ctr_reset (ctr_stream o) h)).
  { apply exec_inv; [intros; apply ctr_exec_same; auto|]. unfold same_ctr. cbn. auto. }
  destruct S as (A & B & C). revert A B C. generalize (exec ctr_ops ctr_reset (ctr_stream o) h). intros s A B C.
  unfold ctr_reset, ctr_stream, counter_reset. rewrite A, B, C. reflexivity.
Qed.

(** After a successful finish and a drawn-off pond. *)
Lemma ecb_enc_finish_fresh o h s : let st := exec (ecb_enc_ops o) (ecb_reset o) ecb_stream_init h in
  ecb_enc_finish o st = (s, Ok tt) -> drain s = ecb_stream_init.
Proof.
  intros st H. assert (Hij : s_ij st = []).
  { apply (exec_inv (ecb_enc_ops o) (ecb_reset o) (fun s => s_ij s = [])); [|reflexivity].
    intros s' x H'. rewrite ecb_enc_ij. exact H'. }
  unfold ecb_enc_finish in H. destruct (while_nonempty _ _ _ _ _) as [? [?|?|]]; try discriminate.
  injection H as <-. unfold drain. cbn. rewrite Hij. reflexivity.
Qed.
Lemma ecb_dec_finish_fresh o h s : let st := exec (ecb_dec_ops o) (ecb_reset o) ecb_stream_init h in
  ecb_dec_finish o st = (s, Ok tt) -> drain s = ecb_stream_init.
Proof.
  intros st H. assert (Hij : s_ij st = []).
  { apply (exec_inv (ecb_dec_ops o) (ecb_reset o) (fun s => s_ij s = [])); [|reflexivity].
    intros s' x H'. rewrite ecb_dec_ij. exact H'. }
  unfold ecb_dec_finish in H. destruct (dec _ _); try discriminate. destruct (unpad _ _) as [? [?|?|]]; try discriminate.
  injection H as <-. unfold drain. cbn. rewrite Hij. reflexivity.
Qed.
Lemma cbc_dec_finish_fresh o st s : cbc_dec_finish o st = (s, Ok tt) -> drain s = cbc_stream_init o.
Proof.
  intros H. unfold cbc_dec_finish in H. destruct (dec _ _); try discriminate.
  destruct (unpad _ _) as [? [?|?|]]; try discriminate. injection H as <-. reflexivity.
Qed.
Lemma cfb_enc_finish_fresh o st s : cfb_enc_finish o st = (s, Ok tt) -> drain s = cfb_stream_init o.
Proof.
  intros H. unfold cfb_enc_finish in H. destruct (cfb_enc_inner _ _ _ _ _) as [[? ?] [?|?|]]; try discriminate.
  injection H as <-. reflexivity.
Qed.
Lemma cfb_dec_finish_fresh o st s : cfb_dec_finish o st = (s, Ok tt) -> drain s = cfb_stream_init o.
Proof.
  intros H. unfold cfb_dec_finish in H. destruct (cfb_dec_inner _ _ _ _ _) as [[? ?] [?|?|]]; try discriminate.
  destruct (unpad _ _) as [? [?|?|]]; try discriminate. injection H as <-. reflexivity.
Qed.
Lemma ofb_finish_fresh o st s : ofb_finish o st = (s, Ok tt) -> drain s = ofb_stream_init o.
Proof.
  intros H. unfold ofb_finish in H. destruct (s_data st); [injection H as <-; reflexivity|].
  destruct (enc _ _); try discriminate. injection H as <-. reflexivity.
Qed.
Lemma cbc_fin_loop_iv c iv : forall fuel n ij data pond ij' pond',
  cbc_fin_loop c iv fuel n ij data pond = (ij', pond', Ok tt) ->
  ij' = match data with [] => ij | _ => iv end.
Proof.
  induction fuel; intros n ij data pond ij' pond' H; [discriminate|]. cbn [cbc_fin_loop] in H.
  destruct data as [|x d]; [injection H as <- _; auto|].
  destruct (enc c _); try discriminate. apply IHfuel in H.
  destruct (skipn _ _); auto.
Qed.
(** With the default padding (whose output is never empty) a CBC encrypt stream is fresh after finish. *)
Lemma cbc_enc_finish_fresh o st s : pad (cbc_pad o) (s_data st) <> [] ->
  cbc_enc_finish o st = (s, Ok tt) -> drain s = cbc_stream_init o.
Proof.
  intros Hp H. unfold cbc_enc_finish in H. destruct (cbc_fin_loop _ _ _ _ _ _ _) as [[ij pond] [[]|?|]] eqn:E; try discriminate.
  apply cbc_fin_loop_iv in E. injection H as <-. unfold drain, cbc_stream_init. cbn. rewrite E.
  destruct (pad _ _); [congruence|reflexivity].
Qed.
(** Otherwise the chaining value survives. *)
Lemma cbc_enc_finish_stale o st : pad (cbc_pad o) (s_data st) = [] ->
  cbc_enc_finish o st = (mkS [] (s_pond st) (s_ij st), Ok tt).
Proof. intros Hp. unfold cbc_enc_finish. rewrite Hp. reflexivity. Qed.

Lemma default_pad_nonempty c l : pad (DefaultPadding c) l <> [].
Proof.
  cbn. unfold default_pad, resize0. rewrite app_length. cbn [length].
  assert (X : l ++ [128] <> []) by (destruct l; discriminate).
  intros H. apply (f_equal (@length Z)) in H. revert H.
  destruct (bsz c <? length l + 1)%nat eqn:E1; [|destruct (length l + 1 <? bsz c)%nat eqn:E2];
    rewrite app_length, firstn_length, app_length, repeat_length; cbn [length];
    try (apply Nat.ltb_lt in E1); try (apply Nat.ltb_ge in E1); try (apply Nat.ltb_lt in E2); try (apply Nat.ltb_ge in E2); lia.
Qed.

(** ** CTR objects as a client sees them *)
Section Ctr.
Variable c : cipher.
Variable n : nat.
Variables E D : list Z -> list Z.
Hypothesis GC : GoodCipher c n E D.

Lemma ctr_new_at init bits k o : counter_new init bits = Ok k -> ctr_new c k = Ok o ->
  (length init <= (bits + 7) / 8)%nat /\ (n * 8 <= bits)%nat /\ o = ctr_at c bits init 0.
Proof.
  unfold counter_new, ctr_new. destruct (_ <? length init)%nat eqn:E1; [discriminate|]. intros H. injection H as <-.
  cbn [ctr_bits]. rewrite (bsz_n c n E D GC). destruct (bits <? n * 8)%nat eqn:E2; [discriminate|]. intros H. injection H as <-.
  apply Nat.ltb_ge in E1. apply Nat.ltb_ge in E2. auto.
Qed.
Lemma ctr_calls_at init bits ms : bytes init -> (length init <= (bits + 7) / 8)%nat -> (n * 8 <= bits)%nat ->
  forall j, ctr_calls (ctr_at c bits init j) ms = ctr_at c bits init (j + list_sum (map (fun m => nblocks n (length m)) ms)).
Proof.
  intros Hb Hl Hbits. induction ms as [|m ms IH]; intros j.
  - cbn. rewrite Nat.add_0_r. reflexivity.
  - unfold ctr_calls in *. cbn [fold_left map]. rewrite (ctr_encrypt_spec c n E D GC) by auto. cbn [fst].
    rewrite IH. f_equal. cbn [list_sum fold_right]. unfold list_sum. lia.
Qed.

Lemma ctr_object init bits k o ms : bytes init -> counter_new init bits = Ok k -> ctr_new c k = Ok o ->
  let T := counter_block n ((bits + 7) / 8) (be_val init) in
  let j := list_sum (map (fun m => nblocks n (length m)) ms) in
  forall dst m, snd (ctr_encrypt (ctr_calls o ms) dst m) = (CTR E n T j m, Ok (length m)) /\
                snd (ctr_decrypt (ctr_calls o ms) dst (CTR E n T j m)) = (m, Ok (length m)).
Proof.
  intros Hb H1 H2 T j dst m. destruct (ctr_new_at _ _ _ _ H1 H2) as (A & B & ->).
  rewrite ctr_calls_at by auto. cbn [Nat.add]. fold j. unfold ctr_decrypt.
  rewrite !(ctr_encrypt_spec c n E D GC) by auto. cbn [snd]. split; [reflexivity|].
  unfold T. change (counter_block n ((bits + 7) / 8) (be_val init)) with (Tk n bits init).
  rewrite (CTR_involutive c n E D GC), (CTR_length c n E D GC) by auto. reflexivity.
Qed.
Lemma ctr_stream_object init bits k o ms evs : bytes init -> counter_new init bits = Ok k -> ctr_new c k = Ok o ->
  Forall (fun e => bytes (fst e)) evs ->
  let T := counter_block n ((bits + 7) / 8) (be_val init) in
  let m := concat (map fst evs) in
  exists st, run_stream ctr_ops (ctr_stream (ctr_calls o ms)) evs = (st, CTR E n T 0 m, Ok tt) /\
    forall evs', Forall (fun e => bytes (fst e)) evs' ->
      exists st', run_stream ctr_ops st evs' =
        (st', CTR E n T (nblocks n (length m)) (concat (map fst evs')), Ok tt).
Proof.
  intros Hb H1 H2 He T m. destruct (ctr_new_at _ _ _ _ H1 H2) as (A & B & ->).
  rewrite ctr_calls_at by auto. cbn [Nat.add].
  change (ctr_stream (ctr_at c bits init (list_sum (map (fun m0 => nblocks n (length m0)) ms))))
    with (ctrs_mk c bits init [] [] 0).
  rewrite (ctr_stream_spec c n E D GC) by auto. eexists. split; [reflexivity|].
  intros evs' He'. rewrite (ctr_stream_spec c n E D GC) by auto. eexists. reflexivity.
Qed.
End Ctr.

(** ** Argument checks *)
Lemma iv_check_spec c n iv : blk c = Some n ->
  iv_check c (iv, Ok tt) = if (length iv =? n)%nat then Ok iv else Err InnerErr.
Proof. intros H. unfold iv_check. rewrite H. reflexivity. Qed.

Lemma gen_words_ok k : forall rnd iv ws, firstn k rnd = map Some ws -> length ws = k ->
  gen_words k rnd iv = (iv ++ flat_map (be_bytes 4) ws, Ok tt, skipn k rnd).
Proof.
  induction k as [|k IH]; intros rnd iv ws H Hl.
  - destruct ws; [|discriminate]. cbn. rewrite app_nil_r. destruct rnd; reflexivity.
  - destruct ws as [|w ws]; [discriminate|]. destruct rnd as [|r rnd]; [discriminate|].
    cbn [firstn map] in H. injection H as -> H. cbn [gen_words]. rewrite (IH _ _ ws) by (auto; cbn in Hl; lia).
    cbn [flat_map skipn]. rewrite app_assoc. reflexivity.
Qed.
Lemma gen_words_fail k : forall rnd iv, (forall ws, firstn k rnd = map Some ws -> length ws <> k) ->
  snd (fst (gen_words k rnd iv)) = Err RandError.
Proof.
  induction k as [|k IH]; intros rnd iv H.
  - exfalso. apply (H []); reflexivity.
  - destruct rnd as [|[r|] rnd]; [reflexivity| |reflexivity]. cbn [gen_words]. apply IH.
    intros ws Hw Hl. apply (H (r :: ws)); cbn; [rewrite Hw; reflexivity|lia].
Qed.
Lemma flat_be4_length ws : length (flat_map (be_bytes 4) ws) = (4 * length ws)%nat.
Proof. induction ws; cbn [flat_map length]; [reflexivity|]. rewrite app_length, be_bytes_length, IHws. lia. Qed.
Lemma default_iv_ok bs rnd ws : firstn ((bs + 3) / 4) rnd = map Some ws -> length ws = ((bs + 3) / 4)%nat ->
  default_initial_vec bs rnd = (firstn bs (flat_map (be_bytes 4) ws), Ok tt, skipn ((bs + 3) / 4) rnd) /\
  length (firstn bs (flat_map (be_bytes 4) ws)) = bs.
Proof.
  intros H Hl. unfold default_initial_vec. rewrite (gen_words_ok _ _ _ ws) by auto. split; [reflexivity|].
  rewrite firstn_length, flat_be4_length, Hl. pose proof (Nat.div_mod (bs + 3) 4 ltac:(lia)).
  pose proof (Nat.mod_upper_bound (bs + 3) 4 ltac:(lia)). lia.
Qed.
Lemma default_iv_fail bs rnd : (forall ws, firstn ((bs + 3) / 4) rnd = map Some ws -> length ws <> ((bs + 3) / 4)%nat) ->
  snd (fst (default_initial_vec bs rnd)) = Err RandError.
Proof.
  intros H. apply (gen_words_fail _ _ []) in H. unfold default_initial_vec.
  destruct (gen_words _ _ _) as [[iv [u|e|]] r]; cbn in H; [discriminate|exact H|discriminate].
Qed.

Lemma cfb_new_empty c n ivr sbits : blk c = Some n ->
  cfb_new c EmptyPadding ivr sbits =
   if ((sbits mod 8 =? 0) && (1 <=? sbits / 8) && (sbits / 8 <=? n))%nat
   then rmap (mkCfb (sbits / 8) c EmptyPadding) (iv_check c ivr)
   else Err InvalidParameter.
Proof.
  intros Hb. unfold cfb_new. rewrite Hb. cbn [pad EmptyPadding]. rewrite repeat_length.
  destruct (sbits mod 8)%nat as [|r]; [|reflexivity].
  change (0 <? 0)%nat with false. change (0 =? 0)%nat with true. cbv iota. cbn [andb].
  set (s := (sbits / 8)%nat). cbv zeta.
  destruct (Nat.ltb_spec s 1), (Nat.leb_spec 1 s), (Nat.ltb_spec n s), (Nat.leb_spec s n); try lia; cbn [orb andb]; try reflexivity.
  rewrite Nat.mod_same by lia. reflexivity.
Qed.
