(** CFB, OFB, CTR: one-shot and streaming. *)
From Verif Require Import Base ModesModel ModesSpec PaddingProofs ModesLoops EcbCbcProofs.

Lemma firstn_eq_skip {A} k (l : list A) : (length l <= k)%nat -> firstn k l = l /\ skipn k l = [].
Proof. intros. split; [apply firstn_all2|apply skipn_all2]; auto. Qed.

Lemma mod_mod_divide a s n : (0 < s)%nat -> (n mod s = 0)%nat -> (a mod n = 0)%nat -> (0 < n)%nat -> (a mod s = 0)%nat.
Proof.
  intros Hs Hn Ha Hp.
  apply Nat.mod_divide; [lia|]. apply Nat.mod_divide in Hn; [|lia]. apply Nat.mod_divide in Ha; [|lia].
  eapply Nat.divide_trans; eauto.
Qed.

Lemma iter_swap {A} (f : A -> A) j x : Nat.iter j f (f x) = f (Nat.iter j f x).
Proof. induction j; cbn; auto. f_equal. exact IHj. Qed.

Section WithCipher.
Variable c : cipher.
Variable n : nat.
Variables E D : list Z -> list Z.
Hypothesis GC : GoodCipher c n E D.
Let Hn : (0 < n)%nat := gc_pos _ _ _ _ GC.
Notation V := (V n).

(** ** CFB *)
Section Cfb.
Variable s : nat.
Hypothesis Hs : (0 < s <= n)%nat.

Definition cfbF (i p : list Z) := xorl p (firstn s (E i)).
Definition cfbG (i p : list Z) := skipn s i ++ cfbF i p.
Definition cfbDG (i ct : list Z) := skipn s i ++ ct.

Lemma V_E i : V i -> V (E i).
Proof. intros [H1 H2]. apply (gc_E _ _ _ _ GC); auto. Qed.

Lemma cfbF_ok i p : V i -> length p = s -> bytes p -> length (cfbF i p) = s /\ bytes (cfbF i p).
Proof.
  intros Hi Hp Hb. destruct (V_E i Hi) as [E1 E2]. unfold cfbF. split.
  - rewrite xorl_length, firstn_length. lia.
  - apply xorl_bytes; auto. apply bytes_firstn; auto.
Qed.
Lemma cfbG_V i p : V i -> length p = s -> bytes p -> V (cfbG i p).
Proof.
  intros Hi Hp Hb. destruct (cfbF_ok i p Hi Hp Hb) as [F1 F2]. destruct Hi as [H1 H2]. unfold cfbG. split.
  - rewrite app_length, skipn_length. lia.
  - apply bytes_app; split; auto. apply bytes_skipn; auto.
Qed.
Lemma cfbDG_V i p : V i -> length p = s -> bytes p -> V (cfbDG i p).
Proof.
  intros [H1 H2] Hp Hb. unfold cfbDG. split.
  - rewrite app_length, skipn_length. lia.
  - apply bytes_app; split; auto. apply bytes_skipn; auto.
Qed.

Lemma CFB_mF iv m : mF cfbF cfbG s iv m = CFB E s iv m.
Proof.
  unfold mF, CFB. generalize (chunks s m). intros l. revert iv.
  induction l as [|b l IH]; intros iv; cbn; auto. rewrite IH. reflexivity.
Qed.

Lemma CFB_roundtrip m : forall iv, V iv -> bytes m -> (length m mod s = 0)%nat ->
  mF cfbF cfbDG s iv (CFB E s iv m) = m /\ length (CFB E s iv m) = length m /\ bytes (CFB E s iv m).
Proof.
  revert m. block_induction s; [lia| |].
  - intros m Hl iv Hiv Hm Hmod. apply short_mod0 in Hmod; auto. subst.
    rewrite <- CFB_mF. rewrite !mF_nil by lia. repeat split; auto.
  - intros b m Hb IH iv Hiv Hm Hmod. apply bytes_app in Hm. destruct Hm as [Hbb Hm].
    rewrite app_length, mod_block in Hmod by lia.
    pose proof (cfbG_V iv b Hiv Hb Hbb) as HV. destruct (cfbF_ok iv b Hiv Hb Hbb) as [F1 F2].
    destruct (IH _ HV Hm Hmod) as (I1 & I2 & I3).
    rewrite <- CFB_mF in *. rewrite (mF_block cfbF cfbG) by (auto; lia).
    rewrite (mF_block cfbF cfbDG) by (auto; lia).
    change (cfbDG iv (cfbF iv b)) with (cfbG iv b). rewrite I1, !app_length, I2, F1, Hb.
    repeat split; [|apply bytes_app; auto]. f_equal. unfold cfbF at 1, cfbF. apply xorl_cancel.
    destruct (V_E iv Hiv) as [E1 E2]. rewrite firstn_length; lia.
Qed.

Lemma cfb_enc_inner_spec p iv : forall fuel ij data dst, (length data < fuel)%nat -> V ij -> bytes data ->
  cfb_enc_inner (mkCfb s c p iv) fuel ij dst data =
   (mG cfbG s ij (whole s data), dst ++ mF cfbF cfbG s ij (whole s data), Ok tt).
Proof.
  induction fuel as [|fuel IH]; intros ij data dst Hl Hij Hd; [lia|].
  cbn [cfb_enc_inner cfb_s cfb_cipher]. destruct (Nat.leb_spec s (length data)) as [H|H].
  - rewrite (gc_enc _ _ _ _ GC) by (destruct Hij; auto).
    assert (Hb : length (firstn s data) = s) by (rewrite firstn_length; lia).
    pose proof (bytes_firstn s data Hd) as Hbb. pose proof (bytes_skipn s data Hd) as Hsb.
    rewrite (xorl_comm (firstn s (E ij))). change (xorl (firstn s data) (firstn s (E ij))) with (cfbF ij (firstn s data)).
    change (skipn s ij ++ cfbF ij (firstn s data)) with (cfbG ij (firstn s data)).
    rewrite IH; auto; [|rewrite skipn_length; lia|apply cfbG_V; auto].
    rewrite (whole_step s data) by lia. rewrite mF_block, mG_block, app_assoc by (auto; lia). reflexivity.
  - rewrite whole_short by lia. rewrite mF_nil, mG_nil, app_nil_r by lia. reflexivity.
Qed.

Lemma cfb_dec_inner_spec p iv : forall fuel ij data dst, (length data < fuel)%nat -> V ij -> bytes data ->
  (length data mod s = 0)%nat ->
  cfb_dec_inner (mkCfb s c p iv) fuel ij dst data =
   (mG cfbDG s ij data, dst ++ mF cfbF cfbDG s ij data, Ok tt).
Proof.
  induction fuel as [|fuel IH]; intros ij data dst Hl Hij Hd Hmod; [lia|].
  cbn [cfb_dec_inner cfb_s cfb_cipher]. destruct data as [|x data'].
  - rewrite mF_nil, mG_nil, app_nil_r by lia. reflexivity.
  - set (data := x :: data') in *.
    rewrite (gc_enc _ _ _ _ GC) by (destruct Hij; auto).
    destruct (Nat.ltb_spec (length data) s) as [H|H].
    { apply short_mod0 in Hmod; auto. discriminate. }
    assert (Hb : length (firstn s data) = s) by (rewrite firstn_length; lia).
    pose proof (bytes_firstn s data Hd) as Hbb. pose proof (bytes_skipn s data Hd) as Hsb.
    rewrite <- (firstn_skipn s data) in Hmod. rewrite app_length, mod_block in Hmod by lia.
    rewrite IH; auto; [|rewrite skipn_length; lia|apply cfbDG_V; auto].
    replace (mG cfbDG s ij data) with (mG cfbDG s (cfbDG ij (firstn s data)) (skipn s data))
      by (rewrite <- mG_block by (auto; lia); rewrite firstn_skipn; reflexivity).
    replace (mF cfbF cfbDG s ij data)
      with (cfbF ij (firstn s data) ++ mF cfbF cfbDG s (cfbDG ij (firstn s data)) (skipn s data))
      by (rewrite <- mF_block by (auto; lia); rewrite firstn_skipn; reflexivity).
    rewrite app_assoc. reflexivity.
Qed.

Definition cfbDef iv := mkCfb s c (DefaultPadding c) iv.
Definition cfbEmp iv := mkCfb s c EmptyPadding iv.

Lemma pad_mod_s (Hdiv : (n mod s = 0)%nat) m : (length (pad10 n m) mod s = 0)%nat.
Proof. apply mod_mod_divide with (n := n); auto; try lia. apply pad10_mod; auto. Qed.

Lemma cfb_encrypt_default (Hdiv : (n mod s = 0)%nat) iv dst m : V iv -> bytes m ->
  let ct := CFB E s iv (whole s m ++ pad10 n (rest s m)) in
  cfb_encrypt (cfbDef iv) dst m = (ct, Ok (length ct)).
Proof.
  intros Hiv Hm ct. unfold cfb_encrypt, cfbDef.
  rewrite cfb_enc_inner_spec by (auto; cbn [cfb_iv]; auto). cbn [cfb_s cfb_iv cfb_pad].
  rewrite (pad_default c n E D GC). fold (rest s m).
  assert (Hw : bytes (whole s m)) by (apply bytes_firstn; auto).
  assert (Hr : bytes (rest s m)) by (apply bytes_skipn; auto).
  assert (HV : V (mG cfbG s iv (whole s m))).
  { apply mG_inv; auto; try lia; [intros; apply cfbG_V; auto|apply whole_mod; lia]. }
  rewrite cfb_enc_inner_spec by (auto; apply pad10_bytes; auto).
  destruct (rest_whole_mult s _ ltac:(lia) (pad_mod_s Hdiv (rest s m))) as [-> _].
  cbn [app]. rewrite <- mF_app by (auto; try lia; apply whole_mod; lia).
  rewrite CFB_mF. reflexivity.
Qed.

Lemma cfb_encrypt_empty iv dst m : V iv -> bytes m ->
  let ct := CFB E s iv (whole s m) in
  cfb_encrypt (cfbEmp iv) dst m = (ct, Ok (length ct)).
Proof.
  intros Hiv Hm ct. unfold cfb_encrypt, cfbEmp.
  rewrite cfb_enc_inner_spec by (auto; cbn [cfb_iv]; auto). cbn [cfb_s cfb_iv cfb_pad pad EmptyPadding].
  fold (rest s m). assert (Hr : bytes (rest s m)) by (apply bytes_skipn; auto).
  assert (HV : V (mG cfbG s iv (whole s m))).
  { apply mG_inv; auto; try lia; [intros; apply cfbG_V; auto|apply bytes_firstn; auto|apply whole_mod; lia]. }
  rewrite cfb_enc_inner_spec by auto.
  rewrite (whole_short s (rest s m)) by (apply rest_lt; lia).
  rewrite mF_nil by lia. rewrite app_nil_r. cbn [app]. rewrite CFB_mF. reflexivity.
Qed.

Lemma cfb_decrypt_any p iv dst ct : V iv -> bytes ct -> (length ct mod s = 0)%nat ->
  cfb_decrypt (mkCfb s c p iv) dst ct = unpad p (mF cfbF cfbDG s iv ct).
Proof.
  intros Hiv Hct Hmod. unfold cfb_decrypt. cbn [cfb_s]. rewrite Hmod. cbn [Nat.eqb negb].
  rewrite cfb_dec_inner_spec by (auto; cbn [cfb_iv]; auto). reflexivity.
Qed.

Lemma cfb_decrypt_badlen p iv dst ct : (length ct mod s <> 0)%nat ->
  cfb_decrypt (mkCfb s c p iv) dst ct = (dst, Err InvalidParameter).
Proof.
  intros Hmod. unfold cfb_decrypt. cbn [cfb_s].
  destruct (Nat.eqb_spec (length ct mod s) 0); [contradiction|]. reflexivity.
Qed.

Lemma cfb_pt_mod (Hdiv : (n mod s = 0)%nat) m : (length (whole s m ++ pad10 n (rest s m)) mod s = 0)%nat.
Proof.
  rewrite app_length. rewrite <- Nat.add_mod_idemp_l, whole_mod by lia. apply pad_mod_s, Hdiv.
Qed.
Lemma cfb_pt_bytes m : bytes m -> bytes (whole s m ++ pad10 n (rest s m)).
Proof.
  intros. apply bytes_app; split; [apply bytes_firstn; auto|]. apply pad10_bytes. apply bytes_skipn; auto.
Qed.
Lemma cfb_pt_unpad m : default_unpad (whole s m ++ pad10 n (rest s m)) = (m, Ok (length m)).
Proof. unfold pad10. rewrite app_assoc, whole_rest. apply unpad_10. Qed.

Lemma cfb_roundtrip_default (Hdiv : (n mod s = 0)%nat) iv dst dst' m : V iv -> bytes m ->
  cfb_decrypt (cfbDef iv) dst (fst (cfb_encrypt (cfbDef iv) dst' m)) = (m, Ok (length m)).
Proof.
  intros Hiv Hm. rewrite cfb_encrypt_default by auto. cbn [fst].
  destruct (CFB_roundtrip _ iv Hiv (cfb_pt_bytes m Hm) (cfb_pt_mod Hdiv m)) as (I1 & I2 & I3).
  unfold cfbDef. rewrite cfb_decrypt_any; auto; [|rewrite I2; apply cfb_pt_mod, Hdiv].
  rewrite I1. apply cfb_pt_unpad.
Qed.

(** With EmptyPadding the trailing partial segment is lost. *)
Lemma cfb_roundtrip_empty iv dst dst' m : V iv -> bytes m ->
  cfb_decrypt (cfbEmp iv) dst (fst (cfb_encrypt (cfbEmp iv) dst' m)) = (whole s m, Ok (length (whole s m))).
Proof.
  intros Hiv Hm. rewrite cfb_encrypt_empty by auto. cbn [fst].
  assert (Hw : bytes (whole s m)) by (apply bytes_firstn; auto).
  assert (Hwm : (length (whole s m) mod s = 0)%nat) by (apply whole_mod; lia).
  destruct (CFB_roundtrip _ iv Hiv Hw Hwm) as (I1 & I2 & I3).
  unfold cfbEmp. rewrite cfb_decrypt_any; auto; [|rewrite I2; auto].
  rewrite I1. reflexivity.
Qed.

(** *** streaming encryption *)
Lemma cfb_enc_write_spec p iv m pond ij d : V ij -> bytes m -> bytes d ->
  cfb_enc_write (mkCfb s c p iv) (mkS (rest s m) pond ij) d =
  (mkS (rest s (rest s m ++ d)) (pond ++ mF cfbF cfbG s ij (whole s (rest s m ++ d)))
       (mG cfbG s ij (whole s (rest s m ++ d))), Ok tt).
Proof.
  intros Hij Hm Hd.
  pose proof (rest_lt s m ltac:(lia)) as Hr. assert (Htb : bytes (rest s m)) by (apply bytes_skipn; auto).
  generalize dependent (rest s m). intros t Ht Htb.
  unfold cfb_enc_write. destruct d as [|x d'].
  - rewrite app_nil_r, whole_short, rest_short, mF_nil, mG_nil, app_nil_r by (auto; lia). reflexivity.
  - set (d := x :: d') in *. cbn [cfb_s s_data s_pond s_ij].
    destruct (Nat.ltb_spec s (length t)); [lia|].
    set (len := Nat.min (s - length t) (length d)).
    assert (Ed : t ++ d = (t ++ firstn len d) ++ skipn len d) by (rewrite <- app_assoc, firstn_skipn; auto).
    assert (Hbb : bytes (t ++ firstn len d)) by (apply bytes_app; split; auto; apply bytes_firstn; auto).
    assert (Hlb : length (t ++ firstn len d) = (length t + Nat.min len (length d))%nat)
      by (rewrite app_length, firstn_length; auto).
    destruct (Nat.eqb_spec (length (t ++ firstn len d)) s) as [He|He].
    + rewrite cfb_enc_inner_spec by auto. cbn [s_data s_pond s_ij].
      destruct (rest_whole_mult s (t ++ firstn len d) ltac:(lia)) as [Hw _].
      { rewrite He. apply Nat.mod_same. lia. }
      rewrite Hw.
      assert (HV : V (mG cfbG s ij (t ++ firstn len d))).
      { apply mG_inv; auto; try lia; [intros; apply cfbG_V; auto|]. rewrite He. apply Nat.mod_same; lia. }
      rewrite cfb_enc_inner_spec by (auto; apply bytes_skipn; auto).
      rewrite Ed, whole_app, rest_app by (auto; lia).
      assert (Hbm : (length (t ++ firstn len d) mod s = 0)%nat) by (rewrite He; apply Nat.mod_same; lia).
      rewrite (mF_app cfbF cfbG s (proj1 Hs) _ (t ++ firstn len d)), (mG_app cfbF cfbG s (proj1 Hs) _ (t ++ firstn len d)) by auto.
      rewrite app_assoc. reflexivity.
    + assert (Hlen : len = length d) by lia.
      assert (Hsk : skipn len d = []) by (rewrite Hlen; apply skipn_all).
      cbn [s_data s_pond s_ij]. rewrite Ed, Hsk, !app_nil_r. cbn [length].
      rewrite cfb_enc_inner_spec by (auto; constructor).
      rewrite (whole_short s []) by (cbn; lia). rewrite mF_nil, mG_nil, app_nil_r by lia.
      rewrite whole_short, rest_short, mF_nil, mG_nil, app_nil_r by (auto; lia).
      rewrite ?skipn_nil, ?app_nil_r. reflexivity.
Qed.

Lemma cfb_enc_run p iv evs : V iv -> Forall (fun e => bytes (fst e)) evs ->
  let m := concat (map fst evs) in
  exists out pond,
   run_writes (cfb_enc_ops (mkCfb s c p iv)) (mkS [] [] iv) [] evs =
      (mkS (rest s m) pond (mG cfbG s iv (whole s m)), out, Ok tt) /\
   out ++ pond = CFB E s iv (whole s m).
Proof.
  intros Hiv Hev m. rewrite <- CFB_mF. assert (Hs' : (0 < s)%nat) by lia.
  refine (run_writes_init (cfb_enc_ops (mkCfb s c p iv)) mkS (whole s) (rest s)
     (mF cfbF cfbG s) (mG cfbG s) V (split_rest s Hs') _ _ _ _ _ _ _ _
     evs iv Hiv _ Hev); intros; cbn [op_pond op_empty_pond op_write cfb_enc_ops]; auto.
  - apply mF_nil; auto.
  - apply mG_nil; auto.
  - apply mF_split; auto; [apply split_rest; auto|intros; apply whole_mod; lia].
  - apply mG_split; auto; [apply split_rest; auto|intros; apply whole_mod; lia].
  - apply mG_inv; auto; [intros; apply cfbG_V; auto|apply bytes_firstn; auto|apply whole_mod; lia].
  - apply cfb_enc_write_spec; auto.
Qed.

Lemma mG_cfb_V iv m : V iv -> bytes m -> V (mG cfbG s iv (whole s m)).
Proof.
  intros. apply mG_inv; auto; try lia; [intros; apply cfbG_V; auto|apply bytes_firstn; auto|apply whole_mod; lia].
Qed.

Lemma cfb_enc_stream_default (Hdiv : (n mod s = 0)%nat) iv evs : V iv -> Forall (fun e => bytes (fst e)) evs ->
  let m := concat (map fst evs) in
  run_stream (cfb_enc_ops (cfbDef iv)) (cfb_stream_init (cfbDef iv)) evs =
   (cfb_stream_init (cfbDef iv), fst (cfb_encrypt (cfbDef iv) [] m), Ok tt).
Proof.
  intros Hiv Hev m. pose proof (bytes_concat_fst evs Hev) as Hm. fold m in Hm.
  rewrite cfb_encrypt_default by auto. cbn [fst].
  unfold run_stream, cfb_stream_init. cbn [cfb_iv cfbDef].
  destruct (cfb_enc_run (DefaultPadding c) iv evs Hiv Hev) as (out & pond & Hrun & Hout).
  fold m in Hrun, Hout. unfold cfbDef. rewrite Hrun.
  cbn [op_finish cfb_enc_ops]. unfold cfb_enc_finish. cbn [cfb_cipher cfb_pad cfb_iv s_data s_pond s_ij].
  rewrite (pad_default c n E D GC).
  pose proof (mG_cfb_V iv m Hiv Hm) as HVm.
  assert (Hpb : bytes (pad10 n (rest s m))) by (apply pad10_bytes; apply bytes_skipn; auto).
  rewrite cfb_enc_inner_spec by auto.
  destruct (rest_whole_mult s _ ltac:(lia) (pad_mod_s Hdiv (rest s m))) as [-> _].
  cbn [op_pond op_empty_pond cfb_enc_ops cfb_dec_ops s_pond drain s_data s_ij]. rewrite app_assoc, Hout.
  rewrite <- !CFB_mF, <- mF_app by (auto; try lia; apply whole_mod; lia). reflexivity.
Qed.

Lemma cfb_enc_stream_empty iv evs : V iv -> Forall (fun e => bytes (fst e)) evs ->
  let m := concat (map fst evs) in
  run_stream (cfb_enc_ops (cfbEmp iv)) (cfb_stream_init (cfbEmp iv)) evs =
   (cfb_stream_init (cfbEmp iv), fst (cfb_encrypt (cfbEmp iv) [] m), Ok tt).
Proof.
  intros Hiv Hev m. pose proof (bytes_concat_fst evs Hev) as Hm. fold m in Hm.
  rewrite cfb_encrypt_empty by auto. cbn [fst].
  unfold run_stream, cfb_stream_init. cbn [cfb_iv cfbEmp].
  destruct (cfb_enc_run EmptyPadding iv evs Hiv Hev) as (out & pond & Hrun & Hout).
  fold m in Hrun, Hout. unfold cfbEmp. rewrite Hrun.
  cbn [op_finish cfb_enc_ops]. unfold cfb_enc_finish. cbn [cfb_cipher cfb_pad cfb_iv s_data s_pond s_ij pad EmptyPadding].
  pose proof (mG_cfb_V iv m Hiv Hm) as HVm.
  assert (Hpb : bytes (rest s m)) by (apply bytes_skipn; auto).
  rewrite cfb_enc_inner_spec by auto.
  rewrite (whole_short s (rest s m)) by (apply rest_lt; lia). rewrite mF_nil, app_nil_r by lia.
  cbn [op_pond op_empty_pond cfb_enc_ops cfb_dec_ops s_pond drain s_data s_ij]. rewrite Hout. reflexivity.
Qed.

(** *** streaming decryption *)
Lemma cfb_dec_write_spec p iv m pond ij d : V ij -> bytes m -> bytes d ->
  cfb_dec_write (mkCfb s c p iv) (mkS (rest s m) pond ij) d =
  (mkS (rest s (rest s m ++ d)) (pond ++ mF cfbF cfbDG s ij (whole s (rest s m ++ d)))
       (mG cfbDG s ij (whole s (rest s m ++ d))), Ok tt).
Proof.
  intros Hij Hm Hd.
  pose proof (rest_lt s m ltac:(lia)) as Hr. assert (Htb : bytes (rest s m)) by (apply bytes_skipn; auto).
  generalize dependent (rest s m). intros t Ht Htb.
  unfold cfb_dec_write. destruct d as [|x d'].
  - rewrite app_nil_r, whole_short, rest_short, mF_nil, mG_nil, app_nil_r by (auto; lia). reflexivity.
  - set (d := x :: d') in *. cbn [cfb_s s_data s_pond s_ij].
    fold (whole s (t ++ d)) (rest s (t ++ d)).
    assert (Htd : bytes (t ++ d)) by (apply bytes_app; auto).
    rewrite cfb_dec_inner_spec; auto.
    + pose proof (whole_length s (t ++ d) ltac:(lia)). lia.
    + apply bytes_firstn; auto.
    + apply whole_mod; lia.
Qed.

Lemma cfb_dec_run p iv evs : V iv -> Forall (fun e => bytes (fst e)) evs ->
  let m := concat (map fst evs) in
  exists out pond,
   run_writes (cfb_dec_ops (mkCfb s c p iv)) (mkS [] [] iv) [] evs =
      (mkS (rest s m) pond (mG cfbDG s iv (whole s m)), out, Ok tt) /\
   out ++ pond = mF cfbF cfbDG s iv (whole s m).
Proof.
  intros Hiv Hev m. assert (Hs' : (0 < s)%nat) by lia.
  refine (run_writes_init (cfb_dec_ops (mkCfb s c p iv)) mkS (whole s) (rest s)
     (mF cfbF cfbDG s) (mG cfbDG s) V (split_rest s Hs') _ _ _ _ _ _ _ _
     evs iv Hiv _ Hev); intros; cbn [op_pond op_empty_pond op_write cfb_dec_ops]; auto.
  - apply mF_nil; auto.
  - apply mG_nil; auto.
  - apply mF_split; auto; [apply split_rest; auto|intros; apply whole_mod; lia].
  - apply mG_split; auto; [apply split_rest; auto|intros; apply whole_mod; lia].
  - apply mG_inv; auto; [intros; apply cfbDG_V; auto|apply bytes_firstn; auto|apply whole_mod; lia].
  - apply cfb_dec_write_spec; auto.
Qed.

(** What a client that drew [out] before [finish] ends up with. *)
Lemma app_split_le {A} (a b x y : list A) : a ++ b = x ++ y -> (length a <= length x)%nat ->
  exists z, x = a ++ z /\ b = z ++ y.
Proof.
  revert x. induction a as [|e a IH]; intros x H Hl.
  - exists x. auto.
  - destruct x as [|f x]; [cbn in Hl; lia|]. cbn in H. injection H as -> H. cbn in Hl.
    destruct (IH x H ltac:(lia)) as (z & -> & ->). exists z. auto.
Qed.

Lemma cfb_dec_stream_default (Hdiv : (n mod s = 0)%nat) iv evs m : V iv -> bytes m ->
  concat (map fst evs) = fst (cfb_encrypt (cfbDef iv) [] m) ->
  Forall (fun e => bytes (fst e)) evs ->
  exists st out,
   run_writes (cfb_dec_ops (cfbDef iv)) (cfb_stream_init (cfbDef iv)) [] evs = (st, out, Ok tt) /\
   ((length out <= length m)%nat ->
      run_stream (cfb_dec_ops (cfbDef iv)) (cfb_stream_init (cfbDef iv)) evs =
        (cfb_stream_init (cfbDef iv), m, Ok tt)) /\
   ((length m < length out)%nat ->
      snd (run_stream (cfb_dec_ops (cfbDef iv)) (cfb_stream_init (cfbDef iv)) evs) = Err UnpaddingNotMatch).
Proof.
  intros Hiv Hm Hc Hev. rewrite cfb_encrypt_default in Hc by auto. cbn [fst] in Hc.
  set (P := whole s m ++ pad10 n (rest s m)) in *.
  destruct (CFB_roundtrip P iv Hiv (cfb_pt_bytes m Hm) (cfb_pt_mod Hdiv m)) as (I1 & I2 & I3).
  destruct (cfb_dec_run (DefaultPadding c) iv evs Hiv Hev) as (out & pond & Hrun & Hout).
  assert (Hcm : (length (CFB E s iv P) mod s = 0)%nat) by (rewrite I2; apply cfb_pt_mod, Hdiv).
  destruct (rest_whole_mult s (CFB E s iv P) ltac:(lia) Hcm) as [Ew Er].
  rewrite Hc, Ew, Er, I1 in *.
  eexists _, out. split; [exact Hrun|].
  assert (Hfin : forall q, cfb_dec_finish (cfbDef iv) (mkS [] pond q) =
    match default_unpad pond with
    | (pond, Ok _) => (mkS [] pond iv, Ok tt)
    | (pond, Err e) => (mkS [] pond q, Err e)
    | (pond, Panic) => (mkS [] pond q, Panic)
    end).
  { intros q. reflexivity. }
  unfold run_stream. unfold cfb_stream_init in *. cbn [cfb_iv cfbDef] in *. unfold cfbDef in *. rewrite Hrun.
  cbn [op_finish cfb_dec_ops]. rewrite Hfin. clear Hfin.
  assert (EP : P = m ++ 128 :: repeat 0 (n - (length (rest s m) + 1) mod n)).
  { unfold P, pad10. rewrite app_assoc, whole_rest. reflexivity. }
  set (k := (n - (length (rest s m) + 1) mod n)%nat) in *. split; intros Hl.
  - rewrite EP in Hout. destruct (app_split_le _ _ _ _ Hout Hl) as (z & Ez & Ep).
    rewrite Ep, unpad_10. cbn [op_pond op_empty_pond cfb_enc_ops cfb_dec_ops s_pond drain s_data s_ij].
    rewrite Ez. reflexivity.
  - assert (Hp : ~ In 128 pond).
    { rewrite EP in Hout. change (128 :: repeat 0 k) with ([128] ++ repeat 0 k) in Hout.
      rewrite app_assoc in Hout. symmetry in Hout. apply app_split_le in Hout; [|rewrite app_length; cbn; lia].
      destruct Hout as (z & Ez & Ep). intros Hin.
      assert (Hi : In 128 (repeat 0 k)) by (rewrite Ep; apply in_or_app; auto).
      apply in_repeat_0 in Hi. lia. }
    rewrite default_unpad_missing by auto. reflexivity.
Qed.

Lemma cfb_dec_stream_empty iv evs m : V iv -> bytes m ->
  concat (map fst evs) = fst (cfb_encrypt (cfbEmp iv) [] m) ->
  Forall (fun e => bytes (fst e)) evs ->
  run_stream (cfb_dec_ops (cfbEmp iv)) (cfb_stream_init (cfbEmp iv)) evs =
    (cfb_stream_init (cfbEmp iv), whole s m, Ok tt).
Proof.
  intros Hiv Hm Hc Hev. rewrite cfb_encrypt_empty in Hc by auto. cbn [fst] in Hc.
  assert (Hw : bytes (whole s m)) by (apply bytes_firstn; auto).
  assert (Hwm : (length (whole s m) mod s = 0)%nat) by (apply whole_mod; lia).
  destruct (CFB_roundtrip _ iv Hiv Hw Hwm) as (I1 & I2 & I3).
  destruct (cfb_dec_run EmptyPadding iv evs Hiv Hev) as (out & pond & Hrun & Hout).
  assert (Hcm : (length (CFB E s iv (whole s m)) mod s = 0)%nat) by (rewrite I2; auto).
  destruct (rest_whole_mult s _ ltac:(lia) Hcm) as [Ew Er].
  rewrite Hc, Ew, Er, I1 in *.
  unfold run_stream, cfb_stream_init. cbn [cfb_iv cfbEmp]. unfold cfbEmp. rewrite Hrun.
  cbn. rewrite Hout. reflexivity.
Qed.

(** Truncated ciphertext: [finish] slices out of range. *)
Lemma cfb_dec_stream_trunc p iv evs : V iv ->
  Forall (fun e => bytes (fst e)) evs ->
  (length (concat (map fst evs)) mod s <> 0)%nat ->
  snd (run_stream (cfb_dec_ops (mkCfb s c p iv)) (cfb_stream_init (mkCfb s c p iv)) evs) = Panic.
Proof.
  intros Hiv Hev Hmod. set (m := concat (map fst evs)) in *.
  pose proof (bytes_concat_fst evs Hev) as Hm. fold m in Hm.
  destruct (cfb_dec_run p iv evs Hiv Hev) as (out & pond & Hrun & Hout).
  fold m in Hrun, Hout. unfold run_stream, cfb_stream_init. cbn [cfb_iv]. rewrite Hrun.
  cbn [op_finish cfb_dec_ops]. unfold cfb_dec_finish. cbn [s_data s_pond s_ij].
  pose proof (rest_lt s m ltac:(lia)) as Hlt. pose proof (rest_length s m ltac:(lia)) as Hrl.
  destruct (rest s m) as [|x t] eqn:Er; [cbn in Hrl; lia|]. rewrite <- Er in *.
  cbn [cfb_dec_inner cfb_s cfb_cipher]. rewrite Er. rewrite <- Er.
  assert (HV : V (mG cfbDG s iv (whole s m))).
  { apply mG_inv; auto; try lia; [intros; apply cfbDG_V; auto|apply bytes_firstn; auto|apply whole_mod; lia]. }
  rewrite (gc_enc _ _ _ _ GC) by (destruct HV; auto).
  destruct (Nat.ltb_spec (length (rest s m)) s); [|lia]. reflexivity.
Qed.
End Cfb.

(** Which segment sizes the constructor accepts (default padding). *)
Lemma cfb_new_default ivr sbits : (4 <= n)%nat ->
  cfb_new c (DefaultPadding c) ivr sbits =
   if ((sbits mod 8 =? 0) && (1 <=? sbits / 8) && (sbits / 8 <=? n) && (n mod (sbits / 8) =? 0))%nat
   then rmap (mkCfb (sbits / 8) c (DefaultPadding c)) (iv_check c ivr)
   else Err InvalidParameter.
Proof.
  intros H4. unfold cfb_new. rewrite (gc_blk _ _ _ _ GC). set (s := (sbits / 8)%nat).
  destruct (Nat.ltb_spec 0 (sbits mod 8)) as [H8|H8].
  { destruct (Nat.eqb_spec (sbits mod 8) 0); [lia|]. reflexivity. }
  destruct (Nat.eqb_spec (sbits mod 8) 0) as [_|]; [|lia].
  destruct (Nat.ltb_spec s 1) as [H1|H1].
  { destruct (Nat.leb_spec 1 s); [lia|]. reflexivity. }
  destruct (Nat.leb_spec 1 s) as [_|]; [|lia].
  destruct (Nat.ltb_spec n s) as [H2|H2].
  { destruct (Nat.leb_spec s n); [lia|]. reflexivity. }
  destruct (Nat.leb_spec s n) as [_|]; [|lia]. cbn [orb andb].
  rewrite (pad_default c n E D GC). rewrite pad10_length by auto. rewrite repeat_length.
  assert (Hiff : ((s + 1 + (n - (s + 1) mod n)) mod s =? 0)%nat = (n mod s =? 0)%nat).
  { destruct (Nat.eq_dec s n) as [->|Hne].
    - destruct (Nat.eq_dec n 1) as [->|]; [reflexivity|].
      rewrite (mod_block n n 1) by lia. rewrite (Nat.mod_small 1 n) by lia.
      replace (n + 1 + (n - 1))%nat with (2 * n)%nat by lia.
      rewrite Nat.mod_mul, Nat.mod_same by lia. reflexivity.
    - destruct (Nat.eq_dec (s + 1) n) as [He|He].
      + rewrite He, Nat.mod_same, Nat.sub_0_r by lia.
        replace (n + n)%nat with (2 + 2 * s)%nat by lia. replace n with (1 + 1 * s)%nat by lia.
        rewrite !Nat.mod_add by lia. rewrite (Nat.mod_small 2), (Nat.mod_small 1) by lia. reflexivity.
      + rewrite (Nat.mod_small (s + 1) n) by lia. replace (s + 1 + (n - (s + 1)))%nat with n by lia. reflexivity. }
  rewrite Hiff. destruct (n mod s =? 0)%nat; reflexivity.
Qed.

(** ** Keystream modes *)
Lemma keystream {X} (K : X -> list Z) (N : X -> X) (VX : X -> Prop) :
  (forall x, VX x -> length (K x) = n) -> (forall x, VX x -> VX (N x)) ->
  forall m x, VX x ->
  mF (fun x p => xorl p (K x)) (fun x _ => N x) n x m =
   xorl m (concat (map (fun j => K (Nat.iter j N x)) (seq 0 (nblocks n (length m))))).
Proof.
  intros HK HN. block_induction n; auto.
  - intros m Hl x Hx. destruct m as [|y m'].
    + rewrite mF_nil by auto. reflexivity.
    + assert (H0 : (0 < length (y :: m'))%nat) by (cbn; lia).
      set (m := y :: m') in *. clearbody m. rewrite mF_short by (auto; lia).
      replace (nblocks n (length m)) with 1%nat.
      * cbn. rewrite app_nil_r. reflexivity.
      * unfold nblocks. apply Nat.div_unique with (r := (length m - 1)%nat); lia.
  - intros b m Hb IH x Hx. rewrite mF_block by auto. rewrite IH by auto.
    rewrite app_length, Hb. rewrite (nblocks_step n (n + length m)) by lia.
    replace (n + length m - n)%nat with (length m) by lia.
    cbn [seq map concat]. rewrite xorl_app by (cbn; rewrite HK; auto). f_equal.
    rewrite <- seq_shift, map_map. do 2 f_equal. apply map_ext. intros j.
    change (Nat.iter (S j) N x) with (N (Nat.iter j N x)). rewrite iter_swap. reflexivity.
Qed.

(** ** OFB *)
Definition ofbF (i p : list Z) := xorl p (E i).
Definition ofbG (i p : list Z) := E i.

Lemma ofbG_V i p : V i -> V (ofbG i p).
Proof. intros [H1 H2]. apply (gc_E _ _ _ _ GC); auto. Qed.

Lemma OFB_mF iv m : V iv -> mF ofbF ofbG n iv m = OFB E n iv m.
Proof.
  intros Hiv. unfold ofbF, ofbG. rewrite (keystream E E V); auto.
  - intros x [H1 H2]. apply (gc_E _ _ _ _ GC); auto.
  - intros x [H1 H2]. apply (gc_E _ _ _ _ GC); auto.
Qed.

Lemma ofb_inner_spec iv : forall fuel ij data dst, (length data < fuel)%nat -> V ij ->
  ofb_inner (mkOfb c iv) fuel data ij dst =
   (mG ofbG n ij (whole n data), dst ++ mF ofbF ofbG n ij (whole n data), Ok tt).
Proof.
  induction fuel as [|fuel IH]; intros ij data dst Hl Hij; [lia|].
  cbn [ofb_inner ofb_cipher]. rewrite (bsz_n c n E D GC). destruct (Nat.leb_spec n (length data)) as [H|H].
  - rewrite (gc_enc _ _ _ _ GC) by (destruct Hij; auto).
    assert (Hb : length (firstn n data) = n) by (rewrite firstn_length; lia).
    rewrite IH; [|rewrite skipn_length; lia|apply (ofbG_V ij []); auto].
    rewrite (whole_step n data) by lia. rewrite mF_block, mG_block, app_assoc by (auto; lia).
    rewrite (xorl_comm (E ij)). reflexivity.
  - rewrite whole_short by lia. rewrite mF_nil, mG_nil, app_nil_r by lia. reflexivity.
Qed.

Lemma mG_ofb_V iv m : V iv -> V (mG ofbG n iv m).
Proof.
  unfold mG. generalize (chunks n m). intros l. revert iv.
  induction l; cbn; auto. intros iv Hiv. apply IHl. apply ofbG_V; auto.
Qed.

Lemma mF_ofb_rest iv m : mF ofbF ofbG n iv m =
  mF ofbF ofbG n iv (whole n m) ++ xorl (rest n m) (E (mG ofbG n iv (whole n m))).
Proof.
  rewrite <- (whole_rest n m) at 1. rewrite mF_app by (auto; apply whole_mod; lia). f_equal.
  pose proof (rest_lt n m ltac:(lia)) as Hlt. destruct (rest n m) as [|x t]; [rewrite mF_nil by auto; reflexivity|].
  rewrite mF_short by (auto; cbn in *; lia). reflexivity.
Qed.

Lemma OFB_length iv m : V iv -> length (OFB E n iv m) = length m.
Proof.
  intros Hiv. rewrite <- OFB_mF by auto. revert m iv Hiv. block_induction n; auto.
  - intros m Hl iv Hiv. destruct m as [|x m']; [rewrite mF_nil by auto; reflexivity|].
    rewrite mF_short by (auto; cbn in *; lia). unfold ofbF. rewrite xorl_length.
    destruct (ofbG_V iv [] Hiv) as [HE _]. unfold ofbG in HE. lia.
  - intros b m Hb IH iv Hiv. rewrite mF_block by auto. rewrite !app_length, IH by (apply ofbG_V; auto).
    unfold ofbF. rewrite xorl_length. destruct (ofbG_V iv [] Hiv) as [HE _]. unfold ofbG in HE. lia.
Qed.

Lemma ofb_encrypt_spec iv dst m : V iv ->
  ofb_encrypt (mkOfb c iv) dst m = (OFB E n iv m, Ok (length m)).
Proof.
  intros Hiv. unfold ofb_encrypt. cbn [ofb_cipher ofb_iv]. rewrite (bsz_n c n E D GC).
  fold (whole n m) (rest n m).
  assert (Hwl : (length (whole n m) <= length m)%nat) by (rewrite whole_length; lia).
  rewrite ofb_inner_spec by (auto; lia).
  destruct (rest_whole_mult n (whole n m) ltac:(lia) (whole_mod n m ltac:(lia))) as [-> _].
  pose proof (mG_ofb_V iv (whole n m) Hiv) as HV.
  rewrite (gc_enc _ _ _ _ GC) by (destruct HV; auto). cbn [app].
  rewrite xorl_comm, <- (rest_length n m) by lia. rewrite <- xorl_trunc.
  rewrite <- mF_ofb_rest, OFB_mF, OFB_length by auto. reflexivity.
Qed.

(** [xorl m ks] twice. *)
Lemma OFB_involutive iv m : V iv -> OFB E n iv (OFB E n iv m) = m.
Proof.
  intros Hiv. unfold OFB at 1. rewrite OFB_length by auto. unfold OFB.
  set (ks := concat _). apply xorl_cancel.
  pose proof (OFB_length iv m Hiv) as Hl. unfold OFB in Hl. fold ks in Hl. rewrite xorl_length in Hl. lia.
Qed.

Lemma ofb_roundtrip iv dst dst' m : V iv ->
  ofb_decrypt (mkOfb c iv) dst (fst (ofb_encrypt (mkOfb c iv) dst' m)) = (m, Ok (length m)).
Proof.
  intros Hiv. unfold ofb_decrypt. rewrite !ofb_encrypt_spec by auto. cbn [fst].
  rewrite OFB_involutive, OFB_length by auto. reflexivity.
Qed.

Lemma ofb_write_spec iv m pond ij d : V ij ->
  ofb_write (mkOfb c iv) (mkS (rest n m) pond ij) d =
  (mkS (rest n (rest n m ++ d)) (pond ++ mF ofbF ofbG n ij (whole n (rest n m ++ d)))
       (mG ofbG n ij (whole n (rest n m ++ d))), Ok tt).
Proof.
  intros Hij. pose proof (rest_lt n m ltac:(lia)) as Hr.
  generalize dependent (rest n m). intros t Ht. unfold ofb_write. destruct d as [|x d'].
  - rewrite app_nil_r, whole_short, rest_short, mF_nil, mG_nil, app_nil_r by (auto; lia). reflexivity.
  - cbn [ofb_cipher s_data s_pond s_ij]. rewrite ofb_inner_spec by (auto; lia).
    rewrite (bsz_n c n E D GC). reflexivity.
Qed.

Lemma ofb_run iv evs : V iv -> Forall (fun e => bytes (fst e)) evs ->
  let m := concat (map fst evs) in
  exists out pond,
   run_writes (ofb_ops (mkOfb c iv)) (mkS [] [] iv) [] evs =
      (mkS (rest n m) pond (mG ofbG n iv (whole n m)), out, Ok tt) /\
   out ++ pond = mF ofbF ofbG n iv (whole n m).
Proof.
  intros Hiv Hev m.
  refine (run_writes_init (ofb_ops (mkOfb c iv)) mkS (whole n) (rest n)
     (mF ofbF ofbG n) (mG ofbG n) V (split_rest n Hn) _ _ _ _ _ _ _ _
     evs iv Hiv _ Hev); intros; cbn [op_pond op_empty_pond op_write ofb_ops]; auto.
  - apply mF_nil; auto.
  - apply mG_nil; auto.
  - apply mF_split; auto; [apply split_rest; auto|intros; apply whole_mod; lia].
  - apply mG_split; auto; [apply split_rest; auto|intros; apply whole_mod; lia].
  - apply mG_ofb_V; auto.
  - apply ofb_write_spec; auto.
Qed.

Lemma ofb_stream_ok iv evs : V iv -> Forall (fun e => bytes (fst e)) evs ->
  let m := concat (map fst evs) in
  run_stream (ofb_ops (mkOfb c iv)) (ofb_stream_init (mkOfb c iv)) evs =
   (ofb_stream_init (mkOfb c iv), OFB E n iv m, Ok tt).
Proof.
  intros Hiv Hev m. unfold run_stream, ofb_stream_init. cbn [ofb_iv].
  destruct (ofb_run iv evs Hiv Hev) as (out & pond & Hrun & Hout).
  fold m in Hrun, Hout. rewrite Hrun. cbn [op_finish ofb_ops]. unfold ofb_finish.
  cbn [ofb_cipher ofb_iv s_data s_pond s_ij].
  rewrite <- OFB_mF, mF_ofb_rest by auto.
  pose proof (mG_ofb_V iv (whole n m) Hiv) as HV.
  destruct (rest n m) as [|x t] eqn:Er.
  - cbn. rewrite Hout, app_nil_r. reflexivity.
  - rewrite (gc_enc _ _ _ _ GC) by (destruct HV; auto). rewrite <- xorl_trunc.
    cbn [op_pond op_empty_pond ofb_ops s_pond drain s_data s_ij]. rewrite app_assoc, Hout. reflexivity.
Qed.

End WithCipher.

(** ** Counters *)
Lemma inc_rev_val r : bytes r -> forall cin, (cin = 0 \/ cin = 1) ->
  inc_rev r cin = le_bytes (length r) (le_val r + cin).
Proof.
  induction 1 as [|a r Ha Hr IH]; intros cin Hc; [reflexivity|].
  cbn [inc_rev length le_bytes le_val]. unfold byte in Ha.
  assert (Hm : (a + 256 * le_val r + cin) mod 256 = (a + cin) mod 256).
  { replace (a + 256 * le_val r + cin) with (a + cin + le_val r * 256) by ring. apply Z.mod_add. lia. }
  assert (Hd : (a + 256 * le_val r + cin) / 256 = (a + cin) / 256 + le_val r).
  { replace (a + 256 * le_val r + cin) with (a + cin + le_val r * 256) by ring. apply Z.div_add. lia. }
  rewrite Hm, Hd. f_equal. destruct (Z.leb_spec 256 (a + cin)) as [H|H].
  - rewrite IH by auto. f_equal. assert (a + cin = 256) by lia. rewrite H0. rewrite Z.div_same by lia. ring.
  - rewrite IH by auto. f_equal. rewrite Z.div_small by lia. ring.
Qed.

Lemma le_bytes_mod L : forall x, le_bytes L (x mod 256 ^ Z.of_nat L) = le_bytes L x.
Proof.
  induction L as [|L IH]; intros x; [reflexivity|].
  cbn [le_bytes]. rewrite Nat2Z.inj_succ, Z.pow_succ_r by lia.
  assert (Hp : 0 < 256 ^ Z.of_nat L) by (apply Z.pow_pos_nonneg; lia).
  rewrite Z.rem_mul_r by lia. f_equal.
  - rewrite (Z.mul_comm 256), Z.mod_add, Z.mod_mod by lia. reflexivity.
  - rewrite <- (IH (x / 256)). f_equal.
    rewrite (Z.mul_comm 256), Z.div_add by lia.
    rewrite (Z.div_small (x mod 256)) by (apply Z.mod_pos_bound; lia). ring.
Qed.

Lemma be_bytes_mod L x : be_bytes L (x mod 256 ^ Z.of_nat L) = be_bytes L x.
Proof. unfold be_bytes. rewrite le_bytes_mod. reflexivity. Qed.

Lemma rev_inc v : bytes v -> rev (inc_rev (rev v) 1) = be_bytes (length v) (be_val v + 1).
Proof.
  intros Hv. rewrite inc_rev_val by (auto; apply bytes_rev; auto).
  unfold be_bytes. rewrite rev_length, <- be_val_rev. reflexivity.
Qed.

(** The counter after [j] calls of [next]. *)
Definition counter_at (bits : nat) (init : list Z) (j : nat) : counter :=
  mkCounter bits init
    (match j with
     | O => None
     | S i => Some (be_bytes ((bits + 7) / 8) (be_val init + Z.of_nat i))
     end).

Lemma counter_next_at bits init j : bytes init -> (length init <= (bits + 7) / 8)%nat ->
  counter_next (counter_at bits init j) =
   (counter_at bits init (S j), be_bytes ((bits + 7) / 8) (be_val init + Z.of_nat j)).
Proof.
  intros Hi Hl. set (L := ((bits + 7) / 8)%nat) in *. unfold counter_next.
  assert (Hv : match ctr_cur (counter_at bits init j) with
    | None => repeat 0 (L - length init) ++ firstn (L - (L - length init)) init
    | Some v => rev (inc_rev (rev v) 1) end = be_bytes L (be_val init + Z.of_nat j)).
  { destruct j as [|i]; cbn [ctr_cur counter_at].
    - rewrite Z.add_0_r. rewrite firstn_all2 by lia.
      assert (Hz : forall k, be_val (repeat 0 k) = 0).
      { clear. induction k; [reflexivity|]. cbn [repeat].
        change (0 :: repeat 0 k) with ([0] ++ repeat 0 k). rewrite be_val_app, IHk. reflexivity. }
      set (l := repeat 0 (L - length init) ++ init).
      assert (Hb : bytes l) by (apply bytes_app; split; auto; apply bytes_repeat; unfold byte; lia).
      assert (Hll : length l = L) by (unfold l; rewrite app_length, repeat_length; lia).
      rewrite <- (be_bytes_val l Hb), Hll. unfold l. rewrite be_val_app, Hz. f_equal. 
    - fold L. rewrite rev_inc by apply be_bytes_bytes. rewrite be_bytes_length, be_val_bytes.
      rewrite <- be_bytes_mod. rewrite Z.add_mod_idemp_l by (apply Z.pow_nonzero; lia).
      rewrite be_bytes_mod. f_equal. lia. }
  cbn [counter_at ctr_bits ctr_init] in *. fold L. rewrite Hv. reflexivity.
Qed.

Section Ctr.
Variable c : cipher.
Variable n : nat.
Variables E D : list Z -> list Z.
Hypothesis GC : GoodCipher c n E D.
Let Hn : (0 < n)%nat := gc_pos _ _ _ _ GC.
Variable bits : nat.
Variable init : list Z.
Hypothesis Hinit : bytes init.
Let L := ((bits + 7) / 8)%nat.
Hypothesis Hlen : (length init <= L)%nat.
Hypothesis Hbits : (n * 8 <= bits)%nat.

Definition Tk (k : nat) : list Z := counter_block n L (be_val init) k.
Definition ctrF (k : nat) (p : list Z) := xorl p (E (Tk k)).
Definition ctrG (k : nat) (p : list Z) := S k.

Lemma L_ge : (n <= L)%nat.
Proof. unfold L. apply Nat.div_le_lower_bound; lia. Qed.

Lemma Tk_ok k : length (Tk k) = n /\ bytes (Tk k).
Proof.
  pose proof L_ge. unfold Tk, counter_block. split.
  - rewrite firstn_length, be_bytes_length. lia.
  - apply bytes_firstn. apply be_bytes_bytes.
Qed.

Lemma CTR_mF k m : mF ctrF ctrG n k m = CTR E n Tk k m.
Proof.
  unfold ctrF, ctrG. rewrite (keystream c n E D GC (fun k => E (Tk k)) S (fun _ => True)); auto.
  - unfold CTR. do 2 f_equal. apply map_ext. intros j. do 2 f_equal.
    induction j as [|j IHj]; [cbn; lia|].
    change (Nat.iter (S j) S k) with (S (Nat.iter j S k)). rewrite IHj. lia.
  - intros x _. destruct (Tk_ok x). apply (gc_E _ _ _ _ GC); auto.
Qed.

Lemma mG_ctr k m : mG ctrG n k m = (k + nblocks n (length m))%nat.
Proof.
  unfold mG. assert (H : forall l k, chainG ctrG k l = (k + length l)%nat).
  { induction l; intros k'; cbn; [lia|]. rewrite IHl. unfold ctrG. lia. }
  rewrite H. unfold chunks. rewrite map_length, seq_length. reflexivity.
Qed.

Lemma CTR_length k m : length (CTR E n Tk k m) = length m.
Proof.
  rewrite <- CTR_mF. revert m k. block_induction n; auto.
  - intros m Hl k. destruct m as [|x m']; [rewrite mF_nil by auto; reflexivity|].
    rewrite mF_short by (auto; cbn in *; lia). unfold ctrF. rewrite xorl_length.
    destruct (Tk_ok k) as [T1 T2]. destruct (gc_E _ _ _ _ GC (Tk k) T1 T2). lia.
  - intros b m Hb IH k. rewrite mF_block by auto. rewrite !app_length, IH. unfold ctrF. rewrite xorl_length.
    destruct (Tk_ok k) as [T1 T2]. destruct (gc_E _ _ _ _ GC (Tk k) T1 T2). lia.
Qed.

Lemma CTR_involutive k m : CTR E n Tk k (CTR E n Tk k m) = m.
Proof.
  unfold CTR at 1. rewrite CTR_length. unfold CTR. set (ks := concat _). apply xorl_cancel.
  pose proof (CTR_length k m) as Hl. unfold CTR in Hl. fold ks in Hl. rewrite xorl_length in Hl. lia.
Qed.

Lemma ctr_inner_spec : forall fuel k data dst, (length data < fuel)%nat ->
  ctr_inner c fuel (counter_at bits init k) data dst =
   (counter_at bits init (mG ctrG n k data), dst ++ mF ctrF ctrG n k data, Ok tt).
Proof.
  induction fuel as [|fuel IH]; intros k data dst Hl; [lia|].
  cbn [ctr_inner]. destruct data as [|x data'].
  - rewrite mF_nil, mG_nil, app_nil_r by auto. reflexivity.
  - set (data := x :: data') in *. rewrite (bsz_n c n E D GC).
    rewrite counter_next_at by auto. fold L. rewrite be_bytes_length.
    pose proof L_ge. destruct (Nat.ltb_spec L n); [lia|].
    change (firstn n (be_bytes L (be_val init + Z.of_nat k))) with (Tk k).
    destruct (Tk_ok k) as [T1 T2]. rewrite (gc_enc _ _ _ _ GC) by auto.
    destruct (Nat.lt_ge_cases (length data) n) as [Hs|Hs].
    + rewrite Nat.min_r by lia. rewrite firstn_all, skipn_all.
      rewrite IH by (cbn in *; lia). rewrite mF_nil, mG_nil, app_nil_r by auto.
      rewrite mF_short by (auto; cbn in *; lia).
      rewrite mG_ctr. replace (nblocks n (length data)) with 1%nat.
      * rewrite Nat.add_1_r. reflexivity.
      * unfold nblocks. apply Nat.div_unique with (r := (length data - 1)%nat); cbn in *; lia.
    + rewrite Nat.min_l by lia. assert (Hb : length (firstn n data) = n) by (rewrite firstn_length; lia).
      rewrite IH by (rewrite skipn_length; lia).
      replace (mG ctrG n k data) with (mG ctrG n (S k) (skipn n data))
        by (rewrite <- (firstn_skipn n data) at 2; rewrite mG_block by auto; reflexivity).
      replace (mF ctrF ctrG n k data) with (ctrF k (firstn n data) ++ mF ctrF ctrG n (S k) (skipn n data))
        by (rewrite <- (firstn_skipn n data) at 3; rewrite mF_block by auto; reflexivity).
      rewrite app_assoc. reflexivity.
Qed.

Definition ctr_at (k : nat) : ctr := mkCtr c (counter_at bits init k).

Lemma ctr_encrypt_spec k dst m :
  ctr_encrypt (ctr_at k) dst m =
   (ctr_at (k + nblocks n (length m)), (CTR E n Tk k m, Ok (length m))).
Proof.
  unfold ctr_encrypt, ctr_at. cbn [ctr_cipher ctr_ctr]. rewrite ctr_inner_spec by auto.
  cbn [app]. rewrite mG_ctr, CTR_mF, CTR_length. reflexivity.
Qed.

Definition ctrs_mk (data pond : list Z) (k : nat) : ctrs := mkCtrs (ctr_at k) data pond.

Lemma ctr_write_spec m pond k d :
  ctr_write (ctrs_mk (rest n m) pond k) d =
  (ctrs_mk (rest n (rest n m ++ d)) (pond ++ mF ctrF ctrG n k (whole n (rest n m ++ d)))
       (mG ctrG n k (whole n (rest n m ++ d))), Ok tt).
Proof.
  pose proof (rest_lt n m ltac:(lia)) as Hr.
  generalize dependent (rest n m). intros t Ht. unfold ctr_write, ctrs_mk, ctr_at. destruct d as [|x d'].
  - rewrite app_nil_r, whole_short, rest_short, mF_nil, mG_nil, app_nil_r by (auto; lia). reflexivity.
  - set (d := x :: d'). cbn [cs_ctr ctr_cipher cs_data cs_pond ctr_ctr].
    rewrite (bsz_n c n E D GC). fold (whole n (t ++ d)) (rest n (t ++ d)).
    assert (Hwl : (length (whole n (t ++ d)) <= length (t ++ d))%nat) by (rewrite whole_length; lia).
    rewrite ctr_inner_spec by lia. reflexivity.
Qed.

Lemma ctr_run evs k : Forall (fun e => bytes (fst e)) evs ->
  let m := concat (map fst evs) in
  exists out pond,
   run_writes ctr_ops (ctrs_mk [] [] k) [] evs =
      (ctrs_mk (rest n m) pond (mG ctrG n k (whole n m)), out, Ok tt) /\
   out ++ pond = mF ctrF ctrG n k (whole n m).
Proof.
  intros Hev m.
  refine (run_writes_init ctr_ops ctrs_mk (whole n) (rest n)
     (mF ctrF ctrG n) (mG ctrG n) (fun _ => True) (split_rest n Hn) _ _ _ _ _ _ _ _
     evs k I _ Hev); intros; cbn [op_pond op_empty_pond op_write ctr_ops]; auto.
  - apply mF_nil; auto.
  - apply mG_nil; auto.
  - apply mF_split; auto; [apply split_rest; auto|intros; apply whole_mod; lia].
  - apply mG_split; auto; [apply split_rest; auto|intros; apply whole_mod; lia].
  - apply ctr_write_spec; auto.
Qed.

(** One message through a CTR stream whose counter stands at [k]. *)
Lemma ctr_stream_spec evs k : Forall (fun e => bytes (fst e)) evs ->
  let m := concat (map fst evs) in
  run_stream ctr_ops (ctrs_mk [] [] k) evs =
   (ctrs_mk [] [] (k + nblocks n (length m)), CTR E n Tk k m, Ok tt).
Proof.
  intros Hev m. unfold run_stream.
  destruct (ctr_run evs k Hev) as (out & pond & Hrun & Hout).
  fold m in Hrun, Hout. rewrite Hrun. cbn [op_finish ctr_ops]. unfold ctr_finish, ctrs_mk, ctr_at.
  cbn [cs_ctr ctr_cipher cs_data cs_pond ctr_ctr].
  rewrite ctr_inner_spec by lia.
  cbn [op_pond op_empty_pond ctr_ops cs_pond cs_ctr cs_data]. rewrite app_assoc, Hout.
  assert (Hw : (length (whole n m) mod n = 0)%nat) by (apply whole_mod; lia).
  rewrite <- mF_app, <- mG_app, whole_rest, CTR_mF, mG_ctr by auto. reflexivity.
Qed.
End Ctr.
