(** ECB and CBC: one-shot and streaming. *)
From Verif Require Import Base ModesModel ModesSpec PaddingProofs ModesLoops.

Lemma short_mod0 n (m : list Z) : (length m < n)%nat -> (length m mod n = 0)%nat -> m = [].
Proof. intros Hl H. rewrite Nat.mod_small in H by lia. destruct m; [auto|cbn in H; lia]. Qed.

Lemma whole_step n (m : list Z) : n <> 0%nat -> (n <= length m)%nat ->
  whole n m = firstn n m ++ whole n (skipn n m).
Proof.
  intros Hn H. rewrite <- (firstn_skipn n m) at 1. apply whole_app; auto. rewrite firstn_length; lia.
Qed.
Lemma rest_step n (m : list Z) : n <> 0%nat -> (n <= length m)%nat ->
  rest n m = rest n (skipn n m).
Proof.
  intros Hn H. rewrite <- (firstn_skipn n m) at 1. apply rest_app; auto. rewrite firstn_length; lia.
Qed.

(** ** The loops *)
Lemma while_full_spec f F n : (0 < n)%nat -> (forall b, length b = n -> f b = Ok (F b)) ->
  forall fuel data dst, (length data < fuel)%nat ->
  while_full f fuel n data dst = (dst ++ ECB F n (whole n data), rest n data, Ok tt).
Proof.
  intros Hn Hf. induction fuel as [|fuel IH]; intros data dst Hl; [lia|].
  cbn [while_full]. destruct (Nat.leb_spec n (length data)) as [H|H].
  - assert (Hb : length (firstn n data) = n) by (rewrite firstn_length; lia).
    rewrite Hf by auto. rewrite IH by (rewrite skipn_length; lia).
    rewrite (whole_step n data), (rest_step n data) by lia.
    unfold ECB. rewrite chunks_app by auto. cbn [map concat]. rewrite app_assoc. reflexivity.
  - rewrite whole_short, rest_short by lia. unfold ECB. rewrite chunks_nil by lia.
    cbn. rewrite app_nil_r. reflexivity.
Qed.

Lemma while_nonempty_spec f F n : (0 < n)%nat -> (forall b, length b = n -> f b = Ok (F b)) ->
  forall fuel data dst, (length data < fuel)%nat -> (length data mod n = 0)%nat ->
  while_nonempty f fuel n data dst = (dst ++ ECB F n data, Ok tt).
Proof.
  intros Hn Hf. induction fuel as [|fuel IH]; intros data dst Hl Hm; [lia|].
  cbn [while_nonempty]. destruct data as [|x data'].
  - unfold ECB. rewrite chunks_nil by auto. cbn. rewrite app_nil_r. reflexivity.
  - set (data := x :: data') in *.
    assert (Hge : (n <= length data)%nat).
    { destruct (Nat.lt_ge_cases (length data) n) as [H|H]; auto.
      apply short_mod0 in Hm; auto. discriminate. }
    rewrite Nat.min_r by lia.
    assert (Hb : length (firstn n data) = n) by (rewrite firstn_length; lia).
    rewrite Hf by auto. rewrite <- (firstn_skipn n data) in Hm.
    rewrite app_length, mod_block in Hm by lia.
    rewrite IH; auto; [|rewrite skipn_length; lia].
    unfold ECB. rewrite (chunks_step n data) by lia.
    cbn [map concat]. rewrite app_assoc. reflexivity.
Qed.

Lemma ECB_block F n b m : (0 < n)%nat -> length b = n -> ECB F n (b ++ m) = F b ++ ECB F n m.
Proof. intros. unfold ECB. rewrite chunks_app by auto. reflexivity. Qed.
Lemma ECB_nil F n : (0 < n)%nat -> ECB F n [] = [].
Proof. intros. unfold ECB. rewrite chunks_nil by auto. reflexivity. Qed.
Lemma ECB_one F n b : (0 < n)%nat -> length b = n -> ECB F n b = F b.
Proof. intros. rewrite <- (app_nil_r b) at 1. rewrite ECB_block, ECB_nil by auto. apply app_nil_r. Qed.
Lemma ECB_app F n a b : (0 < n)%nat -> (length a mod n = 0)%nat -> ECB F n (a ++ b) = ECB F n a ++ ECB F n b.
Proof. intros. unfold ECB. rewrite chunks_app_mult by (auto; lia). rewrite map_app, concat_app. reflexivity. Qed.

Section WithCipher.
Variable c : cipher.
Variable n : nat.
Variables E D : list Z -> list Z.
Hypothesis GC : GoodCipher c n E D.

Let Hn : (0 < n)%nat := gc_pos _ _ _ _ GC.
Lemma bsz_n : bsz c = n.
Proof. unfold bsz. rewrite (gc_blk _ _ _ _ GC). reflexivity. Qed.

Lemma ECB_inv m : bytes m -> (length m mod n = 0)%nat ->
  ECB D n (ECB E n m) = m /\ ECB E n (ECB D n m) = m /\
  length (ECB E n m) = length m /\ bytes (ECB E n m) /\
  length (ECB D n m) = length m /\ bytes (ECB D n m).
Proof.
  revert m. block_induction n; auto.
  - intros m Hl Hm Hmod. apply short_mod0 in Hmod; auto. subst.
    rewrite !ECB_nil by auto. repeat split; auto.
  - intros b m Hb IH Hm Hmod. apply bytes_app in Hm. destruct Hm as [Hbb Hm].
    rewrite app_length, mod_block in Hmod by lia.
    destruct (IH Hm Hmod) as (I1 & I2 & I3 & I4 & I5 & I6).
    destruct (gc_E _ _ _ _ GC b Hb Hbb) as [E1 E2].
    destruct (gc_D _ _ _ _ GC b Hb Hbb) as [D1 D2].
    rewrite !(ECB_block _ n b) by auto. rewrite (ECB_block D n (E b)), (ECB_block E n (D b)) by auto.
    rewrite I1, I2, (gc_DE _ _ _ _ GC), (gc_ED _ _ _ _ GC), !app_length, I3, I5 by auto.
    repeat split; try lia; apply bytes_app; auto.
Qed.

(** *** ECB one-shot *)
Definition ecbD := mkEcb c (DefaultPadding c).
Definition ecbE := mkEcb c EmptyPadding.

Lemma pad_default m : pad (DefaultPadding c) m = pad10 n m.
Proof. cbn. rewrite bsz_n. apply default_pad_eq; auto. Qed.

Lemma ecb_encrypt_default dst m :
  ecb_encrypt ecbD dst m = (ECB E n (pad10 n m), Ok (length (ECB E n (pad10 n m)))).
Proof.
  unfold ecb_encrypt, ecbD. cbn [ecb_cipher ecb_pad]. rewrite bsz_n.
  rewrite (while_full_spec (enc c) E n Hn (gc_enc _ _ _ _ GC)) by lia.
  rewrite pad_default.
  rewrite (while_nonempty_spec (enc c) E n Hn (gc_enc _ _ _ _ GC)) by (auto; apply pad10_mod; auto).
  cbn [app]. rewrite <- ECB_app by (auto; apply whole_mod; lia).
  rewrite <- pad10_app by (auto; apply whole_mod; lia). rewrite whole_rest. reflexivity.
Qed.

Lemma ecb_decrypt_any p dst m : bytes m -> (length m mod n = 0)%nat ->
  ecb_decrypt (mkEcb c p) dst m = unpad p (ECB D n m).
Proof.
  intros Hm Hmod. unfold ecb_decrypt. cbn [ecb_cipher ecb_pad]. rewrite bsz_n, Hmod. cbn [Nat.eqb negb].
  rewrite (while_full_spec (dec c) D n Hn (gc_dec _ _ _ _ GC)) by lia.
  destruct (rest_whole_mult n m ltac:(lia) Hmod) as [-> _]. reflexivity.
Qed.

Lemma ecb_decrypt_badlen p dst m : (length m mod n <> 0)%nat ->
  ecb_decrypt (mkEcb c p) dst m = (dst, Err InvalidParameter).
Proof.
  intros Hmod. unfold ecb_decrypt. cbn [ecb_cipher]. rewrite bsz_n.
  destruct (Nat.eqb_spec (length m mod n) 0); [contradiction|]. reflexivity.
Qed.

Lemma ecb_roundtrip_default dst dst' m : bytes m ->
  ecb_decrypt ecbD dst (fst (ecb_encrypt ecbD dst' m)) = (m, Ok (length m)).
Proof.
  intros Hm. rewrite ecb_encrypt_default. cbn [fst].
  destruct (ECB_inv (pad10 n m) (pad10_bytes n m Hm) (pad10_mod n m Hn)) as (I1 & I2 & I3 & I4 & _).
  unfold ecbD. rewrite ecb_decrypt_any; auto.
  - rewrite I1. apply unpad_pad10.
  - rewrite I3. apply pad10_mod; auto.
Qed.

Lemma ecb_encrypt_empty dst m : (length m mod n = 0)%nat ->
  ecb_encrypt ecbE dst m = (ECB E n m, Ok (length (ECB E n m))).
Proof.
  intros Hmod. unfold ecb_encrypt, ecbE. cbn [ecb_cipher ecb_pad]. rewrite bsz_n.
  rewrite (while_full_spec (enc c) E n Hn (gc_enc _ _ _ _ GC)) by lia.
  destruct (rest_whole_mult n m ltac:(lia) Hmod) as [-> ->]. reflexivity.
Qed.

Lemma ecb_encrypt_empty_bad dst m : (length m mod n <> 0)%nat ->
  snd (ecb_encrypt ecbE dst m) = Err InvalidParameter.
Proof.
  intros Hmod. unfold ecb_encrypt, ecbE. cbn [ecb_cipher ecb_pad]. rewrite bsz_n.
  rewrite (while_full_spec (enc c) E n Hn (gc_enc _ _ _ _ GC)) by lia.
  cbn [pad EmptyPadding]. pose proof (rest_length n m ltac:(lia)) as Hl.
  pose proof (rest_lt n m ltac:(lia)) as Hlt.
  destruct (rest n m) as [|x t] eqn:Er; [cbn in Hl; lia|]. rewrite <- Er in *.
  cbn [while_nonempty]. rewrite Er. rewrite <- Er.
  rewrite Nat.min_l by lia. rewrite firstn_all.
  rewrite (gc_enc_bad _ _ _ _ GC) by lia. reflexivity.
Qed.

Lemma ecb_roundtrip_empty dst dst' m : bytes m -> (length m mod n = 0)%nat ->
  ecb_decrypt ecbE dst (fst (ecb_encrypt ecbE dst' m)) = (m, Ok (length m)).
Proof.
  intros Hm Hmod. rewrite ecb_encrypt_empty by auto. cbn [fst].
  destruct (ECB_inv m Hm Hmod) as (I1 & I2 & I3 & I4 & _).
  unfold ecbE. rewrite ecb_decrypt_any; auto; [|rewrite I3; auto].
  rewrite I1. reflexivity.
Qed.

(** *** ECB streaming encryption *)
Lemma ecb_enc_write_spec p m pond ij d :
  ecb_enc_write (mkEcb c p) (mkS (rest n m) pond ij) d =
  (mkS (rest n (rest n m ++ d)) (pond ++ ECB E n (whole n (rest n m ++ d))) ij, Ok tt).
Proof.
  pose proof (rest_lt n m ltac:(lia)) as Hr. generalize dependent (rest n m). intros t Ht.
  unfold ecb_enc_write. destruct d as [|x d'].
  - rewrite app_nil_r, whole_short, rest_short, ECB_nil, app_nil_r by (auto; lia). reflexivity.
  - set (d := x :: d'). cbn [ecb_cipher s_data s_pond s_ij]. rewrite bsz_n.
    destruct (Nat.ltb_spec n (length t)); [lia|].
    set (len := Nat.min (n - length t) (length d)).
    rewrite app_length, firstn_length.
    assert (Ed : t ++ d = (t ++ firstn len d) ++ skipn len d) by (rewrite <- app_assoc, firstn_skipn; auto).
    destruct (Nat.eqb_spec (length t + Nat.min len (length d)) n) as [He|He].
    + assert (Hb : length (t ++ firstn len d) = n) by (rewrite app_length, firstn_length; lia).
      rewrite (gc_enc _ _ _ _ GC) by auto.
      rewrite (while_full_spec (enc c) E n Hn (gc_enc _ _ _ _ GC)) by lia.
      rewrite Ed, whole_app, rest_app, ECB_block, app_assoc by (auto; lia). reflexivity.
    + assert (Hlen : len = length d) by lia.
      assert (Hs : skipn len d = []) by (rewrite Hlen; apply skipn_all).
      rewrite Ed, Hs, app_nil_r. cbn [length while_full].
      destruct (Nat.leb_spec n 0); [lia|].
      rewrite whole_short, rest_short, ECB_nil, !app_nil_r by (auto; rewrite app_length, firstn_length; lia).
      reflexivity.
Qed.

Lemma ECB_split x m d : (fun (_ : list Z) v => ECB E n v) x (whole n (m ++ d)) =
  ECB E n (whole n m) ++ ECB E n (whole n (rest n m ++ d)).
Proof.
  cbv beta. rewrite (sp_w _ _ (split_rest n Hn)). apply ECB_app; auto. apply whole_mod; lia.
Qed.

Lemma ecb_enc_run p evs : Forall (fun e => bytes (fst e)) evs ->
  let m := concat (map fst evs) in
  exists out pond,
   run_writes (ecb_enc_ops (mkEcb c p)) ecb_stream_init [] evs = (mkS (rest n m) pond [], out, Ok tt) /\
   out ++ pond = ECB E n (whole n m).
Proof.
  intros Hev m.
  refine (run_writes_init (ecb_enc_ops (mkEcb c p)) mkS (whole n) (rest n)
     (fun _ v => ECB E n v) (fun x _ => x) (fun _ => True) (split_rest n Hn) _ _ _ _ _ _ _ _
     evs [] I _ Hev); intros; cbn; auto.
  - apply ECB_nil; auto.
  - apply (ECB_split []); auto.
  - apply ecb_enc_write_spec.
Qed.

Lemma ecb_enc_stream_default evs : Forall (fun e => bytes (fst e)) evs ->
  let m := concat (map fst evs) in
  run_stream (ecb_enc_ops ecbD) ecb_stream_init evs =
    (ecb_stream_init, fst (ecb_encrypt ecbD [] m), Ok tt).
Proof.
  intros Hev m. unfold run_stream.
  destruct (ecb_enc_run (DefaultPadding c) evs Hev) as (out & pond & Hrun & Hout).
  fold m in Hrun, Hout. unfold ecbD. rewrite Hrun.
  cbn [op_finish ecb_enc_ops]. unfold ecb_enc_finish. cbn [ecb_cipher ecb_pad s_data s_pond s_ij].
  rewrite pad_default, bsz_n.
  rewrite (while_nonempty_spec (enc c) E n Hn (gc_enc _ _ _ _ GC)) by (auto; apply pad10_mod; auto).
  cbn [op_pond op_empty_pond ecb_enc_ops ecb_dec_ops cbc_enc_ops cbc_dec_ops s_pond drain s_data s_ij]. rewrite app_assoc, Hout.
  fold ecbD. rewrite ecb_encrypt_default. cbn [fst].
  rewrite <- ECB_app by (auto; apply whole_mod; lia).
  rewrite <- pad10_app by (auto; apply whole_mod; lia). rewrite whole_rest. reflexivity.
Qed.

Lemma ecb_enc_stream_empty evs : Forall (fun e => bytes (fst e)) evs ->
  let m := concat (map fst evs) in (length m mod n = 0)%nat ->
  run_stream (ecb_enc_ops ecbE) ecb_stream_init evs =
    (ecb_stream_init, fst (ecb_encrypt ecbE [] m), Ok tt).
Proof.
  intros Hev m Hmod. unfold run_stream.
  destruct (ecb_enc_run EmptyPadding evs Hev) as (out & pond & Hrun & Hout).
  fold m in Hrun, Hout. unfold ecbE. rewrite Hrun.
  destruct (rest_whole_mult n m ltac:(lia) Hmod) as [Ew Er]. rewrite Er, Ew in *.
  cbn. rewrite Hout. fold ecbE. rewrite ecb_encrypt_empty by auto. reflexivity.
Qed.

(** *** ECB streaming decryption *)
Lemma while_more_spec {f} (Fd : list Z -> list Z -> list Z) (Gd : list Z -> list Z -> list Z)
  (V : list Z -> Prop) :
  (forall x b, V x -> length b = n -> bytes b -> f x b = Ok (Fd x b, Gd x b)) ->
  (forall x b, V x -> length b = n -> bytes b -> V (Gd x b)) ->
  forall fuel ij data pond, (length data < fuel)%nat -> V ij -> bytes data ->
  while_more f fuel n ij data pond =
   (mG Gd n ij (hw n data), hr n data, pond ++ mF Fd Gd n ij (hw n data), Ok tt).
Proof.
  intros Hf HV. induction fuel as [|fuel IH]; intros ij data pond Hl Hij Hd; [lia|].
  cbn [while_more]. destruct (Nat.ltb_spec n (length data)) as [H|H].
  - assert (Hb : length (firstn n data) = n) by (rewrite firstn_length; lia).
    pose proof (bytes_firstn n data Hd) as Hbb. pose proof (bytes_skipn n data Hd) as Hsb.
    rewrite Hf by auto. rewrite IH; auto; [|rewrite skipn_length; lia].
    assert (Hs : skipn n data <> []).
    { intros E0. apply (f_equal (@length Z)) in E0. rewrite skipn_length in E0. cbn in E0. lia. }
    destruct (hold_app n (firstn n data) (skipn n data) Hn Hb Hs) as [H1 H2].
    rewrite firstn_skipn in H1, H2. rewrite H1, H2.
    rewrite mF_block, mG_block, app_assoc by auto. reflexivity.
  - destruct (hold_short n data ltac:(lia) Hn) as [-> ->].
    rewrite mF_nil, mG_nil, app_nil_r by auto. reflexivity.
Qed.

Lemma hr_idem m d : hr n (hr n m ++ d) = hr n (m ++ d).
Proof. symmetry. apply (sp_r _ _ (split_hold n Hn)). Qed.

Lemma hr_short m : (length (hr n m) <= n)%nat.
Proof.
  destruct m as [|x m']; [unfold hr; rewrite skipn_nil; cbn; lia|].
  pose proof (hr_length n (x :: m') Hn ltac:(discriminate)). lia.
Qed.

Lemma hold_bytes m : bytes m -> bytes (hw n m) /\ bytes (hr n m).
Proof. intros H. split; [apply bytes_firstn|apply bytes_skipn]; auto. Qed.

Lemma ECB_mF m (x : list Z) : mF (fun _ b => D b) (fun x _ => x) n x m = ECB D n m.
Proof.
  unfold mF, ECB. generalize (chunks n m). intros l. induction l; cbn; auto. rewrite IHl. auto.
Qed.
Lemma ECB_mG (x : list Z) m : mG (fun x _ => x) n x m = x.
Proof. unfold mG. induction (chunks n m); cbn; auto. Qed.

Lemma ecb_dec_write_spec p m pond ij d : bytes m -> bytes d ->
  ecb_dec_write (mkEcb c p) (mkS (hr n m) pond ij) d =
  (mkS (hr n (hr n m ++ d)) (pond ++ ECB D n (hw n (hr n m ++ d))) ij, Ok tt).
Proof.
  intros Hm Hd. unfold ecb_dec_write. destruct d as [|x d'].
  - rewrite app_nil_r. destruct (hold_short n (hr n m) (hr_short m) Hn) as [-> ->].
    rewrite ECB_nil, app_nil_r by auto. reflexivity.
  - cbn [ecb_cipher s_data s_pond s_ij]. rewrite bsz_n.
    rewrite (while_more_spec (fun _ b => D b) (fun x _ => x) (fun _ => True)); auto.
    + rewrite ECB_mF, ECB_mG. reflexivity.
    + intros y b _ Hb _. unfold ecb_dec_step. cbn [ecb_cipher]. rewrite (gc_dec _ _ _ _ GC) by auto. reflexivity.
    + apply bytes_app; split; auto. apply (hold_bytes m Hm).
Qed.

Lemma ecb_dec_run p evs : Forall (fun e => bytes (fst e)) evs ->
  let m := concat (map fst evs) in
  exists out pond,
   run_writes (ecb_dec_ops (mkEcb c p)) ecb_stream_init [] evs = (mkS (hr n m) pond [], out, Ok tt) /\
   out ++ pond = ECB D n (hw n m).
Proof.
  intros Hev m.
  refine (run_writes_init (ecb_dec_ops (mkEcb c p)) mkS (hw n) (hr n)
     (fun _ v => ECB D n v) (fun x _ => x) (fun _ => True) (split_hold n Hn) _ _ _ _ _ _ _ _
     evs [] I _ Hev); intros; cbn; auto.
  - apply ECB_nil; auto.
  - rewrite (sp_w _ _ (split_hold n Hn)). apply ECB_app; auto. apply hw_mod; auto.
  - apply ecb_dec_write_spec; auto.
  - unfold hr. apply skipn_nil.
Qed.

(** The last block of the padded message. *)
Lemma pad10_last m : bytes m ->
  exists a z, length z = n /\ bytes z /\ bytes a /\ (length a mod n = 0)%nat /\ pad10 n m = a ++ z /\
   ((length m mod n <> n - 1)%nat -> exists t, z = t ++ 128 :: repeat 0 (n - (length m + 1) mod n) /\ m = a ++ t) /\
   ((length m mod n = n - 1)%nat -> z = repeat 0 n).
Proof.
  intros Hm. set (k := (n - (length m + 1) mod n)%nat).
  pose proof (pad10_mod n m Hn) as Hpm. pose proof (pad10_length n m Hn) as Hpl.
  pose proof (Nat.mod_upper_bound (length m + 1) n ltac:(lia)) as Hu.
  set (P := pad10 n m) in *.
  assert (HPl : (n <= length P)%nat) by (fold k in Hpl; destruct (Nat.lt_ge_cases (length P) n) as [H|H]; auto;
    rewrite Nat.mod_small in Hpm by lia; lia).
  exists (firstn (length P - n) P), (skipn (length P - n) P).
  assert (HPb : bytes P) by (apply pad10_bytes; auto).
  assert (Hamod : (length (firstn (length P - n) P) mod n = 0)%nat).
  { rewrite firstn_length, Nat.min_l by lia.
    replace (length P) with ((length P - n) + 1 * n)%nat in Hpm at 1 by lia.
    rewrite Nat.mod_add in Hpm by lia. exact Hpm. }
  assert (Hm1 : (length m mod n = n - 1 -> (length m + 1) mod n = 0)%nat).
  { intros H. rewrite <- Nat.add_mod_idemp_l by lia. rewrite H.
    replace (n - 1 + 1)%nat with n by lia. apply Nat.mod_same; lia. }
  assert (Hm2 : (length m mod n <> n - 1 -> (length m + 1) mod n = length m mod n + 1)%nat).
  { intros H. rewrite <- Nat.add_mod_idemp_l by lia. apply Nat.mod_small.
    pose proof (Nat.mod_upper_bound (length m) n ltac:(lia)). lia. }
  repeat split.
  - rewrite skipn_length. lia.
  - apply bytes_skipn; auto.
  - apply bytes_firstn; auto.
  - exact Hamod.
  - symmetry. apply firstn_skipn.
  - intros H. specialize (Hm2 H).
    assert (Hle : (length P - n <= length m)%nat) by lia.
    set (k0 := (length P - n)%nat) in *.
    exists (skipn k0 m). unfold P, pad10. fold k. rewrite skipn_app, firstn_app.
    replace (k0 - length m)%nat with 0%nat by lia. cbn [skipn firstn]. rewrite app_nil_r.
    split; [reflexivity|symmetry; apply firstn_skipn].
  - intros H. specialize (Hm1 H).
    assert (Hk : (length P - n = length m + 1)%nat) by lia. rewrite Hk.
    unfold P, pad10. rewrite skipn_app, skipn_all2 by lia. rewrite Hm1, Nat.sub_0_r.
    replace (length m + 1 - length m)%nat with 1%nat by lia. reflexivity.
Qed.

Lemma hold_last a z : (length a mod n = 0)%nat -> length z = n -> hw n (a ++ z) = a /\ hr n (a ++ z) = z.
Proof.
  intros Ha Hz. destruct (hold_app_mult n a z Hn Ha) as [-> ->].
  { intros ->. cbn in Hz. lia. }
  destruct (hold_short n z ltac:(lia) Hn) as [-> ->]. rewrite app_nil_r. auto.
Qed.

Lemma unpad_zeros k : default_unpad (repeat 0 k) = (repeat 0 k, Err UnpaddingNotMatch).
Proof. apply default_unpad_missing. intros H. apply in_repeat_0 in H. lia. Qed.

Lemma ecb_dec_stream_ok evs m : bytes m ->
  concat (map fst evs) = fst (ecb_encrypt ecbD [] m) ->
  Forall (fun e => bytes (fst e)) evs ->
  (length m mod n <> n - 1)%nat ->
  run_stream (ecb_dec_ops ecbD) ecb_stream_init evs = (ecb_stream_init, m, Ok tt).
Proof.
  intros Hm Hc Hev Hmod. rewrite ecb_encrypt_default in Hc. cbn [fst] in Hc.
  destruct (pad10_last m Hm) as (a & z & Hz & Hzb & Hab & Ha & HP & Hok & _).
  destruct (Hok Hmod) as (t & Ezt & Emt).
  unfold run_stream. destruct (ecb_dec_run (DefaultPadding c) evs Hev) as (out & pond & Hrun & Hout).
  unfold ecbD. rewrite Hrun. rewrite Hc, HP in *.
  rewrite ECB_app in Hout |- * by auto.
  destruct (gc_E _ _ _ _ GC z Hz Hzb) as [Ez1 Ez2].
  assert (EzE : ECB E n z = E z).
  { rewrite <- (app_nil_r z) at 1. rewrite ECB_block, ECB_nil, app_nil_r by auto. auto. }
  rewrite EzE in *.
  destruct (ECB_inv a Hab Ha) as (I1 & _ & I3 & _).
  destruct (hold_last (ECB E n a) (E z) ltac:(rewrite I3; auto) Ez1) as [Hw Hr]. rewrite Hw, Hr in *.
  cbn [op_finish ecb_dec_ops]. unfold ecb_dec_finish. cbn [ecb_cipher ecb_pad s_data s_pond s_ij].
  rewrite (gc_dec _ _ _ _ GC) by auto. rewrite (gc_DE _ _ _ _ GC) by auto.
  cbn [unpad DefaultPadding]. rewrite Ezt, unpad_10.
  cbn [op_pond op_empty_pond ecb_enc_ops ecb_dec_ops cbc_enc_ops cbc_dec_ops s_pond drain s_data s_ij]. rewrite app_assoc, Hout, I1, <- Emt. reflexivity.
Qed.

Lemma ecb_dec_stream_fail evs m : bytes m ->
  concat (map fst evs) = fst (ecb_encrypt ecbD [] m) ->
  Forall (fun e => bytes (fst e)) evs ->
  (length m mod n = n - 1)%nat ->
  snd (run_stream (ecb_dec_ops ecbD) ecb_stream_init evs) = Err UnpaddingNotMatch.
Proof.
  intros Hm Hc Hev Hmod. rewrite ecb_encrypt_default in Hc. cbn [fst] in Hc.
  destruct (pad10_last m Hm) as (a & z & Hz & Hzb & Hab & Ha & HP & _ & Hbad).
  specialize (Hbad Hmod).
  unfold run_stream. destruct (ecb_dec_run (DefaultPadding c) evs Hev) as (out & pond & Hrun & Hout).
  unfold ecbD. rewrite Hrun. rewrite Hc, HP in *.
  rewrite ECB_app in Hout |- * by auto.
  destruct (gc_E _ _ _ _ GC z Hz Hzb) as [Ez1 Ez2].
  assert (EzE : ECB E n z = E z).
  { rewrite <- (app_nil_r z) at 1. rewrite ECB_block, ECB_nil, app_nil_r by auto. auto. }
  rewrite EzE in *.
  destruct (ECB_inv a Hab Ha) as (I1 & _ & I3 & _).
  destruct (hold_last (ECB E n a) (E z) ltac:(rewrite I3; auto) Ez1) as [Hw Hr]. rewrite Hw, Hr in *.
  cbn [op_finish ecb_dec_ops]. unfold ecb_dec_finish. cbn [ecb_cipher ecb_pad s_data s_pond s_ij].
  rewrite (gc_dec _ _ _ _ GC) by auto. rewrite (gc_DE _ _ _ _ GC) by auto.
  cbn [unpad DefaultPadding]. rewrite Hbad, unpad_zeros. reflexivity.
Qed.

(** ** CBC *)
Definition V (x : list Z) : Prop := length x = n /\ bytes x.
Definition cbcF (iv b : list Z) := E (xorl b iv).
Definition cbcDF (iv b : list Z) := xorl (D b) iv.
Definition cbcDG (iv b : list Z) := b.

Lemma cbc_V iv b : V iv -> length b = n -> bytes b -> V (cbcF iv b).
Proof.
  intros [H1 H2] H3 H4. apply (gc_E _ _ _ _ GC).
  - rewrite xorl_length. lia.
  - apply xorl_bytes; auto.
Qed.

Lemma CBC_mF iv m : mF cbcF cbcF n iv m = CBC E n iv m.
Proof.
  unfold mF, CBC. generalize (chunks n m). intros l. revert iv.
  induction l as [|b l IH]; intros iv; cbn; auto. rewrite IH. reflexivity.
Qed.
Lemma CBCinv_mF iv m : mF cbcDF cbcDG n iv m = CBC_inv D n iv m.
Proof.
  unfold mF, CBC_inv. generalize (chunks n m). intros l. revert iv.
  induction l as [|b l IH]; intros iv; cbn; auto. rewrite IH. reflexivity.
Qed.

Lemma CBC_roundtrip m : forall iv, V iv -> bytes m -> (length m mod n = 0)%nat ->
  CBC_inv D n iv (CBC E n iv m) = m /\ length (CBC E n iv m) = length m /\ bytes (CBC E n iv m).
Proof.
  revert m. block_induction n; auto.
  - intros m Hl iv Hiv Hm Hmod. apply short_mod0 in Hmod; auto. subst.
    unfold CBC, CBC_inv. rewrite chunks_nil by auto. cbn [CBCb concat]. rewrite chunks_nil by auto.
    repeat split; auto.
  - intros b m Hb IH iv Hiv Hm Hmod. apply bytes_app in Hm. destruct Hm as [Hbb Hm].
    rewrite app_length, mod_block in Hmod by lia.
    pose proof (cbc_V iv b Hiv Hb Hbb) as [V1 V2]. unfold cbcF in V1, V2.
    destruct (IH (E (xorl b iv)) (conj V1 V2) Hm Hmod) as (I1 & I2 & I3).
    unfold CBC. rewrite chunks_app by auto. cbn [CBCb concat]. fold (CBC E n (E (xorl b iv)) m).
    unfold CBC_inv. rewrite chunks_app by auto. cbn [CBCb_inv concat].
    fold (CBC_inv D n (E (xorl b iv)) (CBC E n (E (xorl b iv)) m)). rewrite I1.
    destruct Hiv as [Hi1 Hi2].
    rewrite (gc_DE _ _ _ _ GC) by (try apply xorl_bytes; auto; rewrite xorl_length; lia).
    rewrite xorl_cancel by lia. rewrite !app_length, V1, I2, Hb. repeat split; auto.
    apply bytes_app; auto.
Qed.

Lemma xor_into_full iv b : length iv = n -> length b = n -> xor_into iv b = xorl b iv.
Proof.
  intros H1 H2. unfold xor_into. rewrite skipn_all2 by lia. rewrite app_nil_r. apply xorl_comm.
Qed.

Lemma cbc_enc_full_spec : forall fuel iv data dst, (length data < fuel)%nat -> V iv -> bytes data ->
  cbc_enc_full c fuel n iv data dst = (dst ++ CBC E n iv (whole n data), rest n data, Ok tt).
Proof.
  induction fuel as [|fuel IH]; intros iv data dst Hl Hiv Hd; [lia|].
  cbn [cbc_enc_full]. destruct (Nat.leb_spec n (length data)) as [H|H].
  - assert (Hb : length (firstn n data) = n) by (rewrite firstn_length; lia).
    pose proof (bytes_firstn n data Hd) as Hbb. pose proof (bytes_skipn n data Hd) as Hsb.
    rewrite xor_into_full by (destruct Hiv; auto).
    rewrite (gc_enc _ _ _ _ GC) by (rewrite xorl_length; destruct Hiv; lia).
    pose proof (cbc_V iv _ Hiv Hb Hbb) as HV.
    rewrite IH; auto; [|rewrite skipn_length; lia].
    rewrite (whole_step n data), (rest_step n data) by lia.
    unfold CBC. rewrite chunks_app by auto. cbn [CBCb concat]. rewrite app_assoc. reflexivity.
  - rewrite whole_short, rest_short by lia. unfold CBC. rewrite chunks_nil by lia.
    cbn. rewrite app_nil_r. reflexivity.
Qed.

Definition cbcD iv := mkCbc c (DefaultPadding c) iv.
Definition cbcE iv := mkCbc c EmptyPadding iv.

(** What one-shot CBC encryption really computes. *)
Lemma cbc_encrypt_default iv dst m : V iv -> bytes m ->
  let ct := CBC E n iv (whole n m) ++ ECB E n (pad10 n (rest n m)) in
  cbc_encrypt (cbcD iv) dst m = (ct, Ok (length ct)).
Proof.
  intros Hiv Hm ct. unfold cbc_encrypt, cbcD. cbn [cbc_cipher cbc_pad cbc_iv]. rewrite bsz_n.
  rewrite cbc_enc_full_spec by (auto; lia). rewrite pad_default.
  rewrite (while_nonempty_spec (enc c) E n Hn (gc_enc _ _ _ _ GC)) by (auto; apply pad10_mod; auto).
  reflexivity.
Qed.

Lemma cbc_encrypt_empty iv dst m : V iv -> bytes m -> (length m mod n = 0)%nat ->
  cbc_encrypt (cbcE iv) dst m = (CBC E n iv m, Ok (length (CBC E n iv m))).
Proof.
  intros Hiv Hm Hmod. unfold cbc_encrypt, cbcE. cbn [cbc_cipher cbc_pad cbc_iv]. rewrite bsz_n.
  rewrite cbc_enc_full_spec by (auto; lia).
  destruct (rest_whole_mult n m ltac:(lia) Hmod) as [-> ->]. reflexivity.
Qed.

Lemma cbc_encrypt_empty_bad iv dst m : V iv -> bytes m -> (length m mod n <> 0)%nat ->
  snd (cbc_encrypt (cbcE iv) dst m) = Err InvalidParameter.
Proof.
  intros Hiv Hm Hmod. unfold cbc_encrypt, cbcE. cbn [cbc_cipher cbc_pad cbc_iv]. rewrite bsz_n.
  rewrite cbc_enc_full_spec by (auto; lia).
  cbn [pad EmptyPadding]. pose proof (rest_length n m ltac:(lia)) as Hl.
  pose proof (rest_lt n m ltac:(lia)) as Hlt.
  destruct (rest n m) as [|x t] eqn:Er; [cbn in Hl; lia|]. rewrite <- Er in *.
  cbn [while_nonempty]. rewrite Er. rewrite <- Er.
  rewrite Nat.min_l by lia. rewrite firstn_all.
  rewrite (gc_enc_bad _ _ _ _ GC) by lia. reflexivity.
Qed.

Lemma cbc_dec_loop_spec : forall fuel iv data dst, (length data < fuel)%nat -> length iv = n ->
  (length data mod n = 0)%nat ->
  cbc_dec_loop c fuel n iv data dst = (dst ++ CBC_inv D n iv data, Ok tt).
Proof.
  induction fuel as [|fuel IH]; intros iv data dst Hl Hiv Hm; [lia|].
  cbn [cbc_dec_loop]. destruct data as [|x data'].
  - unfold CBC_inv. rewrite chunks_nil by auto. cbn. rewrite app_nil_r. reflexivity.
  - set (data := x :: data') in *.
    assert (Hge : (n <= length data)%nat).
    { destruct (Nat.lt_ge_cases (length data) n) as [H|H]; auto.
      apply short_mod0 in Hm; auto. discriminate. }
    rewrite Nat.min_l by lia.
    assert (Hb : length (firstn n data) = n) by (rewrite firstn_length; lia).
    rewrite (gc_dec _ _ _ _ GC) by auto. rewrite <- (firstn_skipn n data) in Hm.
    rewrite app_length, mod_block in Hm by lia.
    rewrite IH; auto; [|rewrite skipn_length; lia].
    unfold CBC_inv. rewrite (chunks_step n data) by lia.
    cbn [CBCb_inv concat]. rewrite (xorl_comm iv), app_assoc. reflexivity.
Qed.

Lemma cbc_decrypt_any p iv dst ct : length iv = n -> (length ct mod n = 0)%nat ->
  cbc_decrypt (mkCbc c p iv) dst ct = unpad p (CBC_inv D n iv ct).
Proof.
  intros Hiv Hmod. unfold cbc_decrypt. cbn [cbc_cipher cbc_pad cbc_iv]. rewrite bsz_n, Hmod. cbn [Nat.eqb negb].
  rewrite cbc_dec_loop_spec by (auto; lia). reflexivity.
Qed.

Lemma cbc_decrypt_badlen p iv dst ct : (length ct mod n <> 0)%nat ->
  cbc_decrypt (mkCbc c p iv) dst ct = (dst, Err InvalidParameter).
Proof.
  intros Hmod. unfold cbc_decrypt. cbn [cbc_cipher]. rewrite bsz_n.
  destruct (Nat.eqb_spec (length ct mod n) 0); [contradiction|]. reflexivity.
Qed.

(** Decryption of a standard CBC ciphertext. *)
Lemma cbc_decrypt_standard iv dst m : V iv -> bytes m ->
  cbc_decrypt (cbcD iv) dst (CBC E n iv (pad10 n m)) = (m, Ok (length m)).
Proof.
  intros Hiv Hm.
  destruct (CBC_roundtrip (pad10 n m) iv Hiv (pad10_bytes n m Hm) (pad10_mod n m Hn)) as (I1 & I2 & I3).
  unfold cbcD. rewrite cbc_decrypt_any; auto.
  - rewrite I1. apply unpad_pad10.
  - destruct Hiv; auto.
  - rewrite I2. apply pad10_mod; auto.
Qed.

Lemma cbc_roundtrip_empty iv dst dst' m : V iv -> bytes m -> (length m mod n = 0)%nat ->
  cbc_decrypt (cbcE iv) dst (fst (cbc_encrypt (cbcE iv) dst' m)) = (m, Ok (length m)).
Proof.
  intros Hiv Hm Hmod. rewrite cbc_encrypt_empty by auto. cbn [fst].
  destruct (CBC_roundtrip m iv Hiv Hm Hmod) as (I1 & I2 & I3).
  unfold cbcE. rewrite cbc_decrypt_any; auto; [|destruct Hiv; auto|rewrite I2; auto].
  rewrite I1. reflexivity.
Qed.

(** *** CBC streaming encryption *)
Lemma cbc_enc_while_spec : forall fuel ij data pond, (length data < fuel)%nat -> V ij -> bytes data ->
  cbc_enc_while c fuel n ij data pond =
   (mG cbcF n ij (whole n data), rest n data, pond ++ mF cbcF cbcF n ij (whole n data), Ok tt).
Proof.
  induction fuel as [|fuel IH]; intros ij data pond Hl Hij Hd; [lia|].
  cbn [cbc_enc_while]. destruct (Nat.leb_spec n (length data)) as [H|H].
  - assert (Hb : length (firstn n data) = n) by (rewrite firstn_length; lia).
    pose proof (bytes_firstn n data Hd) as Hbb. pose proof (bytes_skipn n data Hd) as Hsb.
    rewrite (gc_enc _ _ _ _ GC) by (rewrite xorl_length; destruct Hij; lia).
    pose proof (cbc_V ij _ Hij Hb Hbb) as HV.
    rewrite IH; auto; [|rewrite skipn_length; lia].
    rewrite (whole_step n data), (rest_step n data) by lia.
    rewrite mF_block, mG_block, app_assoc by auto. reflexivity.
  - rewrite whole_short, rest_short by lia. rewrite mF_nil, mG_nil, app_nil_r by auto. reflexivity.
Qed.

Lemma cbc_enc_write_spec p iv m pond ij d : V ij -> bytes m -> bytes d ->
  cbc_enc_write (mkCbc c p iv) (mkS (rest n m) pond ij) d =
  (mkS (rest n (rest n m ++ d)) (pond ++ mF cbcF cbcF n ij (whole n (rest n m ++ d)))
       (mG cbcF n ij (whole n (rest n m ++ d))), Ok tt).
Proof.
  intros Hij Hm Hd.
  pose proof (rest_lt n m ltac:(lia)) as Hr. assert (Htb : bytes (rest n m)) by (apply bytes_skipn; auto).
  generalize dependent (rest n m). intros t Ht Htb.
  unfold cbc_enc_write. destruct d as [|x d'].
  - rewrite app_nil_r, whole_short, rest_short, mF_nil, mG_nil, app_nil_r by (auto; lia). reflexivity.
  - set (d := x :: d') in *. cbn [cbc_cipher s_data s_pond s_ij]. rewrite bsz_n.
    destruct (Nat.ltb_spec n (length t)); [lia|].
    set (len := Nat.min (n - length t) (length d)).
    rewrite app_length, firstn_length.
    assert (Ed : t ++ d = (t ++ firstn len d) ++ skipn len d) by (rewrite <- app_assoc, firstn_skipn; auto).
    destruct (Nat.eqb_spec (length t + Nat.min len (length d)) n) as [He|He].
    + assert (Hb : length (t ++ firstn len d) = n) by (rewrite app_length, firstn_length; lia).
      assert (Hbb : bytes (t ++ firstn len d)) by (apply bytes_app; split; auto; apply bytes_firstn; auto).
      rewrite (gc_enc _ _ _ _ GC) by (rewrite xorl_length; destruct Hij; lia).
      pose proof (cbc_V ij _ Hij Hb Hbb) as HV.
      rewrite cbc_enc_while_spec by (auto; apply bytes_skipn; auto).
      rewrite Ed, whole_app, rest_app, mF_block, mG_block, app_assoc by (auto; lia). reflexivity.
    + assert (Hlen : len = length d) by lia.
      assert (Hs : skipn len d = []) by (rewrite Hlen; apply skipn_all).
      rewrite Ed, Hs, app_nil_r. cbn [length cbc_enc_while].
      destruct (Nat.leb_spec n 0); [lia|].
      rewrite whole_short, rest_short, mF_nil, mG_nil, !app_nil_r by (auto; rewrite app_length, firstn_length; lia).
      reflexivity.
Qed.

Lemma cbc_enc_run p iv evs : V iv -> Forall (fun e => bytes (fst e)) evs ->
  let m := concat (map fst evs) in
  exists out pond,
   run_writes (cbc_enc_ops (mkCbc c p iv)) (mkS [] [] iv) [] evs =
      (mkS (rest n m) pond (mG cbcF n iv (whole n m)), out, Ok tt) /\
   out ++ pond = CBC E n iv (whole n m).
Proof.
  intros Hiv Hev m. rewrite <- CBC_mF.
  refine (run_writes_init (cbc_enc_ops (mkCbc c p iv)) mkS (whole n) (rest n)
     (mF cbcF cbcF n) (mG cbcF n) V (split_rest n Hn) _ _ _ _ _ _ _ _
     evs iv Hiv _ Hev); intros; cbn [op_pond op_empty_pond op_write cbc_enc_ops]; auto.
  - apply mF_nil; auto.
  - apply mG_nil; auto.
  - apply mF_split; auto; [apply split_rest; auto|intros; apply whole_mod; lia].
  - apply mG_split; auto; [apply split_rest; auto|intros; apply whole_mod; lia].
  - apply mG_inv; auto; [intros; apply cbc_V; auto|apply bytes_firstn; auto|apply whole_mod; lia].
  - apply cbc_enc_write_spec; auto.
Qed.

(** The blocks produced by [finish]: each one after the first is chained to the IV. *)
Lemma cbc_fin_loop_spec iv : V iv -> forall fuel ij data pond, (length data < fuel)%nat -> V ij -> bytes data ->
  (length data mod n = 0)%nat -> data <> [] ->
  cbc_fin_loop c iv fuel n ij data pond =
   (iv, pond ++ E (xorl (firstn n data) ij) ++ ECB (fun b => E (xorl b iv)) n (skipn n data), Ok tt).
Proof.
  intros Hiv. induction fuel as [|fuel IH]; intros ij data pond Hl Hij Hd Hm Hne; [lia|].
  cbn [cbc_fin_loop]. destruct data as [|x data']; [congruence|].
  set (data := x :: data') in *.
  assert (Hge : (n <= length data)%nat).
  { destruct (Nat.lt_ge_cases (length data) n) as [H|H]; auto. apply short_mod0 in Hm; auto. congruence. }
  rewrite Nat.min_l by lia.
  assert (Hb : length (firstn n data) = n) by (rewrite firstn_length; lia).
  rewrite (gc_enc _ _ _ _ GC) by (rewrite xorl_length; destruct Hij; lia).
  rewrite <- (firstn_skipn n data) in Hm. rewrite app_length, mod_block in Hm by lia.
  pose proof (bytes_skipn n data Hd) as Hsb.
  assert (Hsl : (length (skipn n data) < fuel)%nat) by (rewrite skipn_length; lia).
  destruct (skipn n data) as [|y t] eqn:Es.
  - destruct fuel; [cbn in Hsl; lia|]. cbn [cbc_fin_loop]. rewrite ECB_nil, app_nil_r by auto. reflexivity.
  - rewrite <- Es in *. rewrite IH; auto; [|rewrite Es; discriminate].
    rewrite <- (firstn_skipn n (skipn n data)) at 3.
    assert (Hge2 : (n <= length (skipn n data))%nat).
    { destruct (Nat.lt_ge_cases (length (skipn n data)) n) as [H|H]; auto. apply short_mod0 in Hm; auto.
      rewrite Es in Hm. discriminate. }
    rewrite ECB_block by (auto; rewrite firstn_length; lia). rewrite !app_assoc. reflexivity.
Qed.

Lemma pad10_rest_split m : bytes m -> exists b t,
  pad10 n (rest n m) = b ++ t /\ length b = n /\ bytes b /\
  ((length m mod n <> n - 1)%nat -> t = []) /\
  ((length m mod n = n - 1)%nat -> b = rest n m ++ [128] /\ t = repeat 0 n).
Proof.
  intros Hm. pose proof (rest_length n m ltac:(lia)) as Hr. pose proof (rest_lt n m ltac:(lia)) as Hlt.
  unfold pad10. rewrite Hr.
  destruct (Nat.eq_dec (length m mod n) (n - 1)) as [H|H].
  - exists (rest n m ++ [128]), (repeat 0 n).
    replace (length m mod n + 1)%nat with n by lia. rewrite Nat.mod_same, Nat.sub_0_r by lia.
    rewrite <- app_assoc, app_length, Hr. cbn [length app]. repeat split; auto; try lia.
    apply bytes_app; split; [apply bytes_skipn; auto|]. constructor; [unfold byte; lia|constructor].
  - exists (rest n m ++ 128 :: repeat 0 (n - (length m mod n + 1) mod n)), [].
    rewrite Nat.mod_small by lia. rewrite app_nil_r, app_length, Hr. cbn [length]. rewrite repeat_length.
    repeat split; auto; try lia.
    apply bytes_app; split; [apply bytes_skipn; auto|]. constructor; [unfold byte; lia|].
    apply bytes_repeat. unfold byte; lia.
Qed.

Lemma CBC_app iv a b : (length a mod n = 0)%nat ->
  CBC E n iv (a ++ b) = CBC E n iv a ++ CBC E n (mG cbcF n iv a) b.
Proof. intros H. rewrite <- !CBC_mF. apply mF_app; auto. Qed.

Lemma CBC_one iv b : length b = n -> CBC E n iv b = E (xorl b iv).
Proof.
  intros H. unfold CBC. rewrite <- (app_nil_r b) at 1. rewrite chunks_app, chunks_nil by auto.
  cbn. apply app_nil_r.
Qed.

Lemma cbc_enc_stream_ok iv evs : V iv -> Forall (fun e => bytes (fst e)) evs ->
  let m := concat (map fst evs) in
  (length m mod n <> n - 1)%nat ->
  run_stream (cbc_enc_ops (cbcD iv)) (cbc_stream_init (cbcD iv)) evs =
   (cbc_stream_init (cbcD iv), CBC E n iv (pad10 n m), Ok tt).
Proof.
  intros Hiv Hev m Hmod. pose proof (bytes_concat_fst evs Hev) as Hm. fold m in Hm.
  unfold run_stream, cbc_stream_init. cbn [cbc_iv cbcD].
  destruct (cbc_enc_run (DefaultPadding c) iv evs Hiv Hev) as (out & pond & Hrun & Hout).
  fold m in Hrun, Hout. unfold cbcD. rewrite Hrun.
  cbn [op_finish cbc_enc_ops]. unfold cbc_enc_finish. cbn [cbc_cipher cbc_pad cbc_iv s_data s_pond s_ij].
  rewrite pad_default, bsz_n.
  destruct (pad10_rest_split m Hm) as (b & t & Eb & Hb & Hbb & Ht & _). rewrite (Ht Hmod) in Eb.
  rewrite app_nil_r in Eb. pose proof (pad10_mod n (rest n m) Hn) as Hpm. rewrite Eb in *.
  assert (HVm : V (mG cbcF n iv (whole n m))).
  { apply mG_inv; auto; [intros; apply cbc_V; auto|apply bytes_firstn; auto|apply whole_mod; lia]. }
  rewrite cbc_fin_loop_spec by (auto; intros ->; cbn in Hb; lia).
  rewrite firstn_all2, skipn_all2 by lia. rewrite ECB_nil, app_nil_r by auto.
  cbn [op_pond op_empty_pond ecb_enc_ops ecb_dec_ops cbc_enc_ops cbc_dec_ops s_pond drain s_data s_ij]. rewrite app_assoc, Hout.
  rewrite <- (whole_rest n m) at 4. rewrite pad10_app by (auto; apply whole_mod; lia).
  rewrite CBC_app by (apply whole_mod; lia). rewrite Eb, (CBC_one _ b) by auto. reflexivity.
Qed.

(** Residue n-1: the trailing all-zero padding block is chained to the IV. *)
Lemma cbc_enc_stream_two iv evs : V iv -> Forall (fun e => bytes (fst e)) evs ->
  let m := concat (map fst evs) in
  (length m mod n = n - 1)%nat ->
  run_stream (cbc_enc_ops (cbcD iv)) (cbc_stream_init (cbcD iv)) evs =
   (cbc_stream_init (cbcD iv), CBC E n iv (m ++ [128]) ++ E (xorl (repeat 0 n) iv), Ok tt).
Proof.
  intros Hiv Hev m Hmod. pose proof (bytes_concat_fst evs Hev) as Hm. fold m in Hm.
  unfold run_stream, cbc_stream_init. cbn [cbc_iv cbcD].
  destruct (cbc_enc_run (DefaultPadding c) iv evs Hiv Hev) as (out & pond & Hrun & Hout).
  fold m in Hrun, Hout. unfold cbcD. rewrite Hrun.
  cbn [op_finish cbc_enc_ops]. unfold cbc_enc_finish. cbn [cbc_cipher cbc_pad cbc_iv s_data s_pond s_ij].
  rewrite pad_default, bsz_n.
  destruct (pad10_rest_split m Hm) as (b & t & Eb & Hb & Hbb & _ & Ht). destruct (Ht Hmod) as [Eb1 Et].
  pose proof (pad10_mod n (rest n m) Hn) as Hpm. rewrite Eb in *.
  assert (HVm : V (mG cbcF n iv (whole n m))).
  { apply mG_inv; auto; [intros; apply cbc_V; auto|apply bytes_firstn; auto|apply whole_mod; lia]. }
  assert (Hbt : bytes (b ++ t)).
  { apply bytes_app; split; auto. rewrite Et. apply bytes_repeat. unfold byte; lia. }
  rewrite cbc_fin_loop_spec; auto; [|destruct b; cbn in *; [lia|discriminate]].
  rewrite firstn_app, skipn_app, Hb, Nat.sub_diag. cbn [firstn skipn].
  rewrite firstn_all2, skipn_all2 by lia. rewrite app_nil_r. cbn [app].
  rewrite Et, ECB_one by (auto; apply repeat_length).
  cbn [op_pond op_empty_pond ecb_enc_ops ecb_dec_ops cbc_enc_ops cbc_dec_ops s_pond drain s_data s_ij]. rewrite !app_assoc, Hout, <- app_assoc.
  replace (m ++ [128]) with (whole n m ++ b) by (rewrite Eb1, app_assoc, whole_rest; reflexivity).
  rewrite CBC_app by (apply whole_mod; lia). rewrite (CBC_one _ b) by auto. reflexivity.
Qed.

(** *** CBC streaming decryption *)
Lemma cbc_dec_step_spec p iv x b : V x -> length b = n -> bytes b ->
  cbc_dec_step (mkCbc c p iv) x b = Ok (cbcDF x b, cbcDG x b).
Proof.
  intros [H1 H2] Hb Hbb. unfold cbc_dec_step. cbn [cbc_cipher]. rewrite (gc_dec _ _ _ _ GC) by auto.
  cbn [rmap]. destruct (gc_D _ _ _ _ GC b Hb Hbb) as [D1 D2].
  rewrite D1, H1, Hb, !Nat.min_id. rewrite !firstn_all2, !skipn_all2, !app_nil_r by lia. reflexivity.
Qed.

Lemma cbc_dec_write_spec p iv m pond ij d : V ij -> bytes m -> bytes d ->
  cbc_dec_write (mkCbc c p iv) (mkS (hr n m) pond ij) d =
  (mkS (hr n (hr n m ++ d)) (pond ++ mF cbcDF cbcDG n ij (hw n (hr n m ++ d)))
       (mG cbcDG n ij (hw n (hr n m ++ d))), Ok tt).
Proof.
  intros Hij Hm Hd. unfold cbc_dec_write. destruct d as [|x d'].
  - rewrite app_nil_r. destruct (hold_short n (hr n m) (hr_short m) Hn) as [-> ->].
    rewrite mF_nil, mG_nil, app_nil_r by auto. reflexivity.
  - cbn [cbc_cipher s_data s_pond s_ij]. rewrite bsz_n.
    rewrite (while_more_spec cbcDF cbcDG V); auto.
    + intros y b Hy Hb Hbb. apply cbc_dec_step_spec; auto.
    + intros y b Hy Hb Hbb. split; auto.
    + apply bytes_app; split; auto. apply (hold_bytes m Hm).
Qed.

Lemma cbc_dec_run p iv evs : V iv -> Forall (fun e => bytes (fst e)) evs ->
  let m := concat (map fst evs) in
  exists out pond,
   run_writes (cbc_dec_ops (mkCbc c p iv)) (mkS [] [] iv) [] evs =
     (mkS (hr n m) pond (mG cbcDG n iv (hw n m)), out, Ok tt) /\
   out ++ pond = CBC_inv D n iv (hw n m).
Proof.
  intros Hiv Hev m. rewrite <- CBCinv_mF.
  refine (run_writes_init (cbc_dec_ops (mkCbc c p iv)) mkS (hw n) (hr n)
     (mF cbcDF cbcDG n) (mG cbcDG n) V (split_hold n Hn) _ _ _ _ _ _ _ _
     evs iv Hiv _ Hev); intros; cbn [op_pond op_empty_pond op_write cbc_dec_ops]; auto.
  - apply mF_nil; auto.
  - apply mG_nil; auto.
  - apply mF_split; auto; [apply split_hold; auto|intros; apply hw_mod; lia].
  - apply mG_split; auto; [apply split_hold; auto|intros; apply hw_mod; lia].
  - apply mG_inv; auto; [intros; split; auto|apply bytes_firstn; auto|apply hw_mod; lia].
  - apply cbc_dec_write_spec; auto.
  - unfold hr. apply skipn_nil.
Qed.

(** Feed of the standard ciphertext: result of finish depends on the last padded block. *)
Lemma cbc_dec_stream_std iv evs m : V iv -> bytes m ->
  concat (map fst evs) = CBC E n iv (pad10 n m) ->
  Forall (fun e => bytes (fst e)) evs ->
  ((length m mod n <> n - 1)%nat ->
     run_stream (cbc_dec_ops (cbcD iv)) (cbc_stream_init (cbcD iv)) evs = (cbc_stream_init (cbcD iv), m, Ok tt)) /\
  ((length m mod n = n - 1)%nat ->
     snd (run_stream (cbc_dec_ops (cbcD iv)) (cbc_stream_init (cbcD iv)) evs) = Err UnpaddingNotMatch).
Proof.
  intros Hiv Hm Hc Hev.
  destruct (pad10_last m Hm) as (a & z & Hz & Hzb & Hab & Ha & HP & Hok & Hbad).
  unfold run_stream, cbc_stream_init. cbn [cbc_iv cbcD].
  destruct (cbc_dec_run (DefaultPadding c) iv evs Hiv Hev) as (out & pond & Hrun & Hout).
  unfold cbcD. rewrite Hrun. rewrite Hc, HP in *.
  rewrite CBC_app in Hout |- * by auto.
  assert (HVa : V (mG cbcF n iv a)).
  { apply mG_inv; auto. intros; apply cbc_V; auto. }
  rewrite (CBC_one _ z) in * by auto.
  assert (HVz : V (E (xorl z (mG cbcF n iv a)))) by exact (cbc_V _ z HVa Hz Hzb).
  destruct (CBC_roundtrip a iv Hiv Hab Ha) as (I1 & I2 & I3).
  destruct (hold_last (CBC E n iv a) _ ltac:(rewrite I2; auto) (proj1 HVz)) as [Hw Hr]. rewrite Hw, Hr in *.
  assert (Hchain : mG cbcDG n iv (CBC E n iv a) = mG cbcF n iv a).
  { clear - Hiv Hab Ha Hn GC. revert a iv Hiv Hab Ha. block_induction n; auto.
    - intros a Hl iv Hiv Hab Ha. apply short_mod0 in Ha; auto. subst.
      unfold CBC, mG. rewrite chunks_nil by auto. cbn. rewrite chunks_nil by auto. reflexivity.
    - intros b a Hb IH iv Hiv Hab Ha. apply bytes_app in Hab. destruct Hab as [Hbb Hab].
      rewrite app_length, mod_block in Ha by lia.
      pose proof (cbc_V iv b Hiv Hb Hbb) as HV. unfold cbcF in HV.
      unfold CBC. rewrite chunks_app by auto. cbn [CBCb concat]. fold (CBC E n (E (xorl b iv)) a).
      rewrite mG_block by (destruct HV; auto). rewrite (mG_block cbcF) by auto.
      unfold cbcDG at 2. rewrite IH by auto. reflexivity. }
  rewrite Hchain.
  cbn [op_finish cbc_dec_ops]. unfold cbc_dec_finish. cbn [cbc_cipher cbc_pad cbc_iv s_data s_pond s_ij].
  rewrite (gc_dec _ _ _ _ GC) by (destruct HVz; auto).
  set (ivz := mG cbcF n iv a) in *. destruct HVa as [Va1 Va2].
  rewrite (gc_DE _ _ _ _ GC) by (try apply xorl_bytes; auto; rewrite xorl_length; lia).
  rewrite xorl_cancel by lia. rewrite skipn_all2 by (rewrite xorl_length; lia). rewrite app_nil_r.
  cbn [unpad DefaultPadding]. split; intros Hmod.
  - destruct (Hok Hmod) as (t & Ezt & Emt). rewrite Ezt, unpad_10.
    cbn [op_pond op_empty_pond ecb_enc_ops ecb_dec_ops cbc_enc_ops cbc_dec_ops s_pond drain s_data s_ij].
    rewrite app_assoc, Hout, I1, <- Emt. reflexivity.
  - rewrite (Hbad Hmod), unpad_zeros. reflexivity.
Qed.

End WithCipher.
