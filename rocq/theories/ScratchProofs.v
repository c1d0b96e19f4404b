(** The scratch vector of the mode objects never shows: proofs. *)
From Verif Require Import Base ModesModel ScratchModel ScratchSpec.

Section S.
Context {H : Type}.
Variable dc : dcipher H.
Variable c : cipher.
Hypothesis I : implements dc c.

Lemma I_n : dbsz dc = bsz c. Proof. unfold dbsz, bsz. rewrite (proj1 I). reflexivity. Qed.
Lemma I_e : computes (denc dc) (enc c). Proof. exact (proj1 (proj2 I)). Qed.
Lemma I_d : computes (ddec dc) (dec c). Proof. exact (proj2 (proj2 I)). Qed.

Lemma into_c f g : computes f g -> forall sc b, exists h' : H,
  into f sc b = match g b with Ok t => ((h', t), Ok (length t)) | Err e => ((h', snd sc), Err e) | Panic => ((h', snd sc), Panic) end.
Proof.
  intros C sc b. destruct (C (fst sc) (snd sc) b) as [h' E]. exists h'. unfold into. rewrite E. destruct (g b); reflexivity.
Qed.
Lemma full_b_s f g : computes f g -> forall fuel n sc data dst,
  snd (full_b (H:=H) (into f) fuel n sc data dst) = while_full g fuel n data dst.
Proof.
  intros C. induction fuel as [|fuel IH]; intros n sc data dst; [reflexivity|]. cbn [full_b while_full].
  destruct (n <=? length data)%nat; [|reflexivity].
  destruct (into_c f g C sc (firstn n data)) as [h' ->]. destruct (g (firstn n data)); try reflexivity. apply IH.
Qed.
Lemma nonempty_b_s f g : computes f g -> forall fuel n sc data dst,
  snd (nonempty_b (H:=H) (into f) fuel n sc data dst) = while_nonempty g fuel n data dst.
Proof.
  intros C. induction fuel as [|fuel IH]; intros n sc data dst; [reflexivity|]. cbn [nonempty_b while_nonempty].
  destruct data as [|x data]; [reflexivity|]. cbv zeta.
  destruct (into_c f g C sc (firstn (Nat.min (length (x :: data)) n) (x :: data))) as [h' ->].
  destruct (g _); try reflexivity. apply IH.
Qed.
Lemma more_b_s st f :
  (forall sc ij b, exists sc', match f ij b with
     | Ok (t, ij') => st sc ij b = (sc', ij', Ok tt) /\ snd sc' = t
     | Err e => st sc ij b = (sc', ij, Err e)
     | Panic => st sc ij b = (sc', ij, Panic)
     end) ->
  forall fuel n sc ij data pond, snd (more_b (H:=H) st fuel n sc ij data pond) = while_more f fuel n ij data pond.
Proof.
  intros C. induction fuel as [|fuel IH]; intros n sc ij data pond; [reflexivity|]. cbn [more_b while_more].
  destruct (n <? length data)%nat; [|reflexivity].
  destruct (C sc ij (firstn n data)) as [sc' E]. destruct (f ij (firstn n data)) as [[t ij']|e|].
  - destruct E as [-> <-]. apply IH.
  - rewrite E. reflexivity.
  - rewrite E. reflexivity.
Qed.

(** Replace a loop with the scratch vector by the loop without it. *)
Ltac with_s L :=
  let Q := fresh in pose proof L as Q;
  let r := fresh in match type of Q with snd ?x = _ => destruct x as [? r]; cbn [snd] in Q; subst r end.

Lemma ecb_encrypt_b_s p sc dst m : snd (ecb_encrypt_b dc p sc dst m) = ecb_encrypt (mkEcb c p) dst m.
Proof.
  unfold ecb_encrypt_b, ecb_encrypt. cbv zeta. cbn [ecb_cipher ecb_pad]. rewrite I_n.
  with_s (full_b_s _ _ I_e (S (length m)) (bsz c) sc m []).
  destruct (while_full _ _ _ _ _) as [[d1 data] [u|e|]]; try reflexivity.
  match goal with |- context [nonempty_b _ ?f ?n ?sc ?d ?x] => with_s (nonempty_b_s _ _ I_e f n sc d x) end.
  destruct (while_nonempty _ _ _ _ _) as [d2 [u'|e|]]; reflexivity.
Qed.
Lemma ecb_decrypt_b_s p sc dst m : snd (ecb_decrypt_b dc p sc dst m) = ecb_decrypt (mkEcb c p) dst m.
Proof.
  unfold ecb_decrypt_b, ecb_decrypt. cbv zeta. cbn [ecb_cipher ecb_pad]. rewrite I_n.
  destruct (negb _); [reflexivity|].
  with_s (full_b_s _ _ I_d (S (length m)) (bsz c) sc m []).
  destruct (while_full _ _ _ _ _) as [[d1 data] [u|e|]]; reflexivity.
Qed.
Lemma ecb_enc_write_b_s p sc s d : snd (ecb_enc_write_b dc sc s d) = ecb_enc_write (mkEcb c p) s d.
Proof.
  unfold ecb_enc_write_b, ecb_enc_write. cbv zeta. cbn [ecb_cipher ecb_pad]. rewrite I_n.
  destruct d as [|x d]; [reflexivity|]. destruct (bsz c <? length (s_data s))%nat; [reflexivity|].
  remember (Nat.min (bsz c - length (s_data s)) (length (x :: d))) as len.
  remember (s_data s ++ firstn len (x :: d)) as sd.
  remember (skipn len (x :: d)) as rest.
  assert (W : forall sc sd pond,
    snd match full_b (into (denc dc)) (S (length rest)) (bsz c) sc rest pond with
        | (sc, (pond, data, Ok _)) => (sc, (mkS (sd ++ data) pond (s_ij s), Ok tt))
        | (sc, (pond, _, Err e)) => (sc, (mkS sd pond (s_ij s), Err e))
        | (sc, (pond, _, Panic)) => (sc, (mkS sd pond (s_ij s), Panic))
        end = match while_full (enc c) (S (length rest)) (bsz c) rest pond with
              | (pond, data, Ok _) => (mkS (sd ++ data) pond (s_ij s), Ok tt)
              | (pond, _, Err e) => (mkS sd pond (s_ij s), Err e)
              | (pond, _, Panic) => (mkS sd pond (s_ij s), Panic)
              end).
  { intros sc0 sd0 pond0. with_s (full_b_s _ _ I_e (S (length rest)) (bsz c) sc0 rest pond0).
    destruct (while_full _ _ _ _ _) as [[d1 data] [u|e|]]; reflexivity. }
  destruct (length sd =? bsz c)%nat; [|apply W].
  destruct (into_c _ _ I_e sc sd) as [h' ->]. destruct (enc c sd); try reflexivity. apply W.
Qed.
Lemma ecb_enc_finish_b_s p sc s : snd (ecb_enc_finish_b dc p sc s) = ecb_enc_finish (mkEcb c p) s.
Proof.
  unfold ecb_enc_finish_b, ecb_enc_finish. cbv zeta. cbn [ecb_cipher ecb_pad]. rewrite I_n.
  match goal with |- context [nonempty_b _ ?f ?n ?sc ?d ?x] => with_s (nonempty_b_s _ _ I_e f n sc d x) end.
  destruct (while_nonempty _ _ _ _ _) as [d2 [u'|e|]]; reflexivity.
Qed.
Lemma ecb_dec_write_b_s p sc s d : snd (dec_write_b dc (ecb_step_b dc) sc s d) = ecb_dec_write (mkEcb c p) s d.
Proof.
  unfold dec_write_b, ecb_dec_write. cbv zeta. cbn [ecb_cipher ecb_pad]. rewrite I_n.
  destruct d as [|x d]; [reflexivity|].
  assert (C : forall sc ij b, exists sc', match ecb_dec_step (mkEcb c p) ij b with
     | Ok (t, ij') => ecb_step_b dc sc ij b = (sc', ij', Ok tt) /\ snd sc' = t
     | Err e => ecb_step_b dc sc ij b = (sc', ij, Err e)
     | Panic => ecb_step_b dc sc ij b = (sc', ij, Panic)
     end).
  { intros sc0 ij b. unfold ecb_step_b, ecb_dec_step. cbn [ecb_cipher]. destruct (into_c _ _ I_d sc0 b) as [h' ->].
    destruct (dec c b); cbn [rmap]; eexists; try split; reflexivity. }
  match goal with |- context [more_b _ ?f ?n ?sc ?ij ?d ?x] => with_s (more_b_s _ _ C f n sc ij d x) end.
  destruct (while_more _ _ _ _ _) as [[[ij data] pond] [u'|e|]]; reflexivity.
Qed.
Lemma ecb_dec_finish_b_s p sc s : snd (ecb_dec_finish_b dc p sc s) = ecb_dec_finish (mkEcb c p) s.
Proof.
  unfold ecb_dec_finish_b, ecb_dec_finish. cbn [ecb_cipher ecb_pad].
  destruct (into_c _ _ I_d sc (s_data s)) as [h' ->]. destruct (dec c (s_data s)) as [t|e|]; try reflexivity.
  cbn [snd]. destruct (unpad p t) as [t' [u|e|]]; reflexivity.
Qed.

Lemma cbc_full_b_s fuel : forall n sc civ data dst, snd (cbc_full_b dc fuel n sc civ data dst) = cbc_enc_full c fuel n civ data dst.
Proof.
  induction fuel as [|fuel IH]; intros n sc civ data dst; [reflexivity|]. cbn [cbc_full_b cbc_enc_full].
  destruct (n <=? length data)%nat; [|reflexivity].
  destruct (into_c _ _ I_e sc (xor_into civ (firstn n data))) as [h' ->]. destruct (enc c _); try reflexivity. apply IH.
Qed.
Lemma cbc_encrypt_b_s p iv sc dst m : snd (cbc_encrypt_b dc p iv sc dst m) = cbc_encrypt (mkCbc c p iv) dst m.
Proof.
  unfold cbc_encrypt_b, cbc_encrypt. cbv zeta. cbn [cbc_cipher cbc_pad cbc_iv]. rewrite I_n.
  with_s (cbc_full_b_s (S (length m)) (bsz c) sc iv m []).
  destruct (cbc_enc_full _ _ _ _ _ _) as [[d1 data] [u|e|]]; try reflexivity.
  match goal with |- context [nonempty_b _ ?f ?n ?sc ?d ?x] => with_s (nonempty_b_s _ _ I_e f n sc d x) end.
  destruct (while_nonempty _ _ _ _ _) as [d2 [u'|e|]]; reflexivity.
Qed.
Lemma cbc_dec_b_s fuel : forall n sc civ data dst, snd (cbc_dec_b dc fuel n sc civ data dst) = cbc_dec_loop c fuel n civ data dst.
Proof.
  induction fuel as [|fuel IH]; intros n sc civ data dst; [reflexivity|]. cbn [cbc_dec_b cbc_dec_loop].
  destruct data as [|x data]; [reflexivity|]. cbv zeta.
  destruct (into_c _ _ I_d sc (firstn (Nat.min n (length (x :: data))) (x :: data))) as [h' ->]. destruct (dec c _); try reflexivity. apply IH.
Qed.
Lemma cbc_decrypt_b_s p iv sc dst m : snd (cbc_decrypt_b dc p iv sc dst m) = cbc_decrypt (mkCbc c p iv) dst m.
Proof.
  unfold cbc_decrypt_b, cbc_decrypt. cbv zeta. cbn [cbc_cipher cbc_pad cbc_iv]. rewrite I_n.
  destruct (negb _); [reflexivity|].
  with_s (cbc_dec_b_s (S (length m)) (bsz c) sc iv m []).
  destruct (cbc_dec_loop _ _ _ _ _ _) as [d1 [u|e|]]; reflexivity.
Qed.
Lemma cbc_block_c sc ij b : exists sc', cbc_block_b dc sc ij b =
  match enc c (xorl b ij) with Ok t => (sc', t, Ok (length t)) | Err e => (sc', ij, Err e) | Panic => (sc', ij, Panic) end.
Proof.
  unfold cbc_block_b. destruct (I_e (fst sc) ij (xorl b ij)) as [h' ->]. exists (h', xorl b ij). destruct (enc c _); reflexivity.
Qed.
Lemma cbc_while_b_s fuel : forall n sc ij data pond, snd (cbc_while_b dc fuel n sc ij data pond) = cbc_enc_while c fuel n ij data pond.
Proof.
  induction fuel as [|fuel IH]; intros n sc ij data pond; [reflexivity|]. cbn [cbc_while_b cbc_enc_while].
  destruct (n <=? length data)%nat; [|reflexivity].
  destruct (cbc_block_c sc ij (firstn n data)) as [sc' ->]. destruct (enc c _); try reflexivity. apply IH.
Qed.
Lemma cbc_enc_write_b_s p iv sc s d : snd (cbc_enc_write_b dc sc s d) = cbc_enc_write (mkCbc c p iv) s d.
Proof.
  unfold cbc_enc_write_b, cbc_enc_write. cbv zeta. cbn [cbc_cipher cbc_pad cbc_iv]. rewrite I_n.
  destruct d as [|x d]; [reflexivity|]. destruct (bsz c <? length (s_data s))%nat; [reflexivity|].
  remember (Nat.min (bsz c - length (s_data s)) (length (x :: d))) as len.
  remember (s_data s ++ firstn len (x :: d)) as sd.
  remember (skipn len (x :: d)) as rest.
  assert (W : forall sc sd pond ij,
    snd match cbc_while_b dc (S (length rest)) (bsz c) sc ij rest pond with
        | (sc, (ij, data, pond, Ok _)) => (sc, (mkS (sd ++ data) pond ij, Ok tt))
        | (sc, (ij, _, pond, Err e)) => (sc, (mkS sd pond ij, Err e))
        | (sc, (ij, _, pond, Panic)) => (sc, (mkS sd pond ij, Panic))
        end = match cbc_enc_while c (S (length rest)) (bsz c) ij rest pond with
              | (ij, data, pond, Ok _) => (mkS (sd ++ data) pond ij, Ok tt)
              | (ij, _, pond, Err e) => (mkS sd pond ij, Err e)
              | (ij, _, pond, Panic) => (mkS sd pond ij, Panic)
              end).
  { intros sc0 sd0 pond0 ij0. with_s (cbc_while_b_s (S (length rest)) (bsz c) sc0 ij0 rest pond0).
    destruct (cbc_enc_while _ _ _ _ _ _) as [[[ij1 d1] pond1] [u|e|]]; reflexivity. }
  destruct (length sd =? bsz c)%nat; [|apply W].
  destruct (cbc_block_c sc (s_ij s) sd) as [h' ->]. destruct (enc c _); try reflexivity. apply W.
Qed.
Lemma cbc_fin_b_s iv fuel : forall n sc ij data pond, snd (cbc_fin_b dc iv fuel n sc ij data pond) = cbc_fin_loop c iv fuel n ij data pond.
Proof.
  induction fuel as [|fuel IH]; intros n sc ij data pond; [reflexivity|]. cbn [cbc_fin_b cbc_fin_loop].
  destruct data as [|x data]; [reflexivity|]. cbv zeta.
  destruct (cbc_block_c sc ij (firstn (Nat.min n (length (x :: data))) (x :: data))) as [sc' ->]. destruct (enc c _); try reflexivity. apply IH.
Qed.
Lemma cbc_enc_finish_b_s p iv sc s : snd (cbc_enc_finish_b dc p iv sc s) = cbc_enc_finish (mkCbc c p iv) s.
Proof.
  unfold cbc_enc_finish_b, cbc_enc_finish. cbv zeta. cbn [cbc_cipher cbc_pad cbc_iv]. rewrite I_n.
  match goal with |- context [cbc_fin_b _ _ ?f ?n ?sc ?ij ?d ?x] => with_s (cbc_fin_b_s iv f n sc ij d x) end.
  destruct (cbc_fin_loop _ _ _ _ _ _ _) as [[ij d2] [u'|e|]]; reflexivity.
Qed.
Lemma cbc_dec_write_b_s p iv sc s d : snd (dec_write_b dc (cbc_step_b dc) sc s d) = cbc_dec_write (mkCbc c p iv) s d.
Proof.
  unfold dec_write_b, cbc_dec_write. cbv zeta. cbn [cbc_cipher cbc_pad cbc_iv]. rewrite I_n.
  destruct d as [|x d]; [reflexivity|].
  assert (C : forall sc ij b, exists sc', match cbc_dec_step (mkCbc c p iv) ij b with
     | Ok (t, ij') => cbc_step_b dc sc ij b = (sc', ij', Ok tt) /\ snd sc' = t
     | Err e => cbc_step_b dc sc ij b = (sc', ij, Err e)
     | Panic => cbc_step_b dc sc ij b = (sc', ij, Panic)
     end).
  { intros sc0 ij b. unfold cbc_step_b, cbc_dec_step. cbn [cbc_cipher]. destruct (into_c _ _ I_d sc0 b) as [h' ->].
    destruct (dec c b); cbn [rmap]; cbv zeta; eexists; try split; reflexivity. }
  match goal with |- context [more_b _ ?f ?n ?sc ?ij ?d ?x] => with_s (more_b_s _ _ C f n sc ij d x) end.
  destruct (while_more _ _ _ _ _) as [[[ij data] pond] [u'|e|]]; reflexivity.
Qed.
Lemma cbc_dec_finish_b_s p iv sc s : snd (cbc_dec_finish_b dc p iv sc s) = cbc_dec_finish (mkCbc c p iv) s.
Proof.
  unfold cbc_dec_finish_b, cbc_dec_finish. cbn [cbc_cipher cbc_pad cbc_iv]. cbv zeta.
  destruct (into_c _ _ I_d sc (s_data s)) as [h' ->]. destruct (dec c (s_data s)) as [t|e|]; try reflexivity.
  cbn [snd]. destruct (unpad p _) as [t' [u|e|]]; reflexivity.
Qed.

(** CFB needs a cipher output of at least a segment. *)
Section Cfb.
Variable z : nat.
Hypothesis Z1 : forall b t, enc c b = Ok t -> (z <= length t)%nat.
Variable p : padding.
Variable iv : list Z.
Let o := mkCfb z c p iv.
Lemma cfb_enc_b_s fuel : forall sc ij dst data, snd (cfb_enc_b dc z fuel sc ij dst data) = cfb_enc_inner o fuel ij dst data.
Proof.
  induction fuel as [|fuel IH]; intros sc ij dst data; [reflexivity|]. cbn [cfb_enc_b cfb_enc_inner]. unfold o at 1 2 3 4 5 6. cbv zeta.
  cbn [cfb_s cfb_cipher]. fold o. destruct (z <=? length data)%nat eqn:L; [|reflexivity]. apply Nat.leb_le in L.
  destruct (into_c _ _ I_e sc ij) as [h' ->]. destruct (enc c ij) as [t|e|] eqn:Et; try reflexivity. specialize (Z1 _ _ Et).
  cbn [fst snd]. rewrite IH. rewrite firstn_length, (Nat.min_l z (length data)), Nat.min_id by lia.
  set (cj := xorl (firstn z t) (firstn z data)).
  assert (Lc : length cj = z) by (unfold cj; rewrite xorl_length, !firstn_length; lia).
  assert (F : forall r, firstn z (cj ++ r) = cj).
  { intros r. rewrite firstn_app, Lc, Nat.sub_diag, firstn_O, app_nil_r. apply firstn_all2. lia. }
  rewrite <- !app_assoc, !F. f_equal.
  rewrite app_assoc, skipn_app, skipn_all2, Nat.sub_diag by lia. reflexivity.
Qed.
Lemma cfb_dec_b_s fuel : forall sc ij dst data, snd (cfb_dec_b dc z fuel sc ij dst data) = cfb_dec_inner o fuel ij dst data.
Proof.
  induction fuel as [|fuel IH]; intros sc ij dst data; [reflexivity|]. cbn [cfb_dec_b cfb_dec_inner]. unfold o at 1 2 3 4 5 6. cbv zeta.
  cbn [cfb_s cfb_cipher]. fold o. destruct data as [|x data]; [reflexivity|].
  destruct (into_c _ _ I_e sc ij) as [h' ->]. destruct (enc c ij) as [t|e|] eqn:Et; try reflexivity.
  destruct (length (x :: data) <? z)%nat; [reflexivity|]. apply IH.
Qed.
Lemma cfb_encrypt_b_s sc dst m : snd (cfb_encrypt_b dc z p iv sc dst m) = cfb_encrypt o dst m.
Proof.
  unfold cfb_encrypt_b, cfb_encrypt. cbv zeta. cbn [cfb_s cfb_pad cfb_iv o].
  with_s (cfb_enc_b_s (S (length m)) sc iv [] m).
  destruct (cfb_enc_inner _ _ _ _ _) as [[ij d1] [u|e|]]; try reflexivity.
  match goal with |- context [cfb_enc_b _ _ ?f ?sc ?ij ?d ?x] => with_s (cfb_enc_b_s f sc ij d x) end.
  destruct (cfb_enc_inner _ _ _ _ _) as [[ij2 d2] [u2|e|]]; reflexivity.
Qed.
Lemma cfb_decrypt_b_s sc dst m : snd (cfb_decrypt_b dc z p iv sc dst m) = cfb_decrypt o dst m.
Proof.
  unfold cfb_decrypt_b, cfb_decrypt. cbn [cfb_s cfb_pad cfb_iv o]. destruct (negb _); [reflexivity|].
  with_s (cfb_dec_b_s (S (length m)) sc iv [] m).
  destruct (cfb_dec_inner _ _ _ _ _) as [[ij d1] [u|e|]]; reflexivity.
Qed.
Lemma cfb_enc_write_b_s sc s d : snd (cfb_enc_write_b dc z sc s d) = cfb_enc_write o s d.
Proof.
  unfold cfb_enc_write_b, cfb_enc_write. cbv zeta. change (cfb_s o) with z.
  destruct d as [|x d]; [reflexivity|]. destruct (z <? length (s_data s))%nat; [reflexivity|].
  remember (Nat.min (z - length (s_data s)) (length (x :: d))) as len.
  remember (s_data s ++ firstn len (x :: d)) as sd.
  remember (skipn len (x :: d)) as rest.
  assert (W : forall sc s1,
    snd match cfb_enc_b dc z (S (length rest)) sc (s_ij s1) (s_pond s1) rest with
          | (sc, (ij, pond, Ok _)) =>
              (sc, (mkS (s_data s1 ++ skipn (length rest - length rest mod z) rest) pond ij, Ok tt))
          | (sc, (ij, pond, Err e)) => (sc, (mkS (s_data s1) pond ij, Err e))
          | (sc, (ij, pond, Panic)) => (sc, (mkS (s_data s1) pond ij, Panic))
          end = match cfb_enc_inner o (S (length rest)) (s_ij s1) (s_pond s1) rest with
          | (ij, pond, Ok _) =>
              (mkS (s_data s1 ++ skipn (length rest - length rest mod z) rest) pond ij, Ok tt)
          | (ij, pond, Err e) => (mkS (s_data s1) pond ij, Err e)
          | (ij, pond, Panic) => (mkS (s_data s1) pond ij, Panic)
          end).
  { intros sc0 s1. with_s (cfb_enc_b_s (S (length rest)) sc0 (s_ij s1) (s_pond s1) rest).
    destruct (cfb_enc_inner _ _ _ _ _) as [[ij1 pond1] [u|e|]]; reflexivity. }
  destruct (length sd =? z)%nat; [|apply W].
  with_s (cfb_enc_b_s (S (length sd)) sc (s_ij s) (s_pond s) sd).
  destruct (cfb_enc_inner _ _ _ _ sd) as [[ij1 pond1] [u|e|]]; try reflexivity. apply W.
Qed.
Lemma cfb_enc_finish_b_s sc s : snd (cfb_enc_finish_b dc z p iv sc s) = cfb_enc_finish o s.
Proof.
  unfold cfb_enc_finish_b, cfb_enc_finish. cbv zeta. cbn [cfb_pad cfb_iv o].
  match goal with |- context [cfb_enc_b _ _ ?f ?sc ?ij ?d ?x] => with_s (cfb_enc_b_s f sc ij d x) end.
  destruct (cfb_enc_inner _ _ _ _ _) as [[ij2 d2] [u2|e|]]; reflexivity.
Qed.
Lemma cfb_dec_write_b_s sc s d : snd (cfb_dec_write_b dc z sc s d) = cfb_dec_write o s d.
Proof.
  unfold cfb_dec_write_b, cfb_dec_write. cbv zeta. change (cfb_s o) with z.
  destruct d as [|x d]; [reflexivity|].
  match goal with |- context [cfb_dec_b _ _ ?f ?sc ?ij ?d ?x] => with_s (cfb_dec_b_s f sc ij d x) end.
  destruct (cfb_dec_inner _ _ _ _ _) as [[ij2 d2] [u2|e|]]; reflexivity.
Qed.
Lemma cfb_dec_finish_b_s sc s : snd (cfb_dec_finish_b dc z p iv sc s) = cfb_dec_finish o s.
Proof.
  unfold cfb_dec_finish_b, cfb_dec_finish. cbn [cfb_pad cfb_iv o].
  match goal with |- context [cfb_dec_b _ _ ?f ?sc ?ij ?d ?x] => with_s (cfb_dec_b_s f sc ij d x) end.
  destruct (cfb_dec_inner _ _ _ _ _) as [[ij2 d2] [u2|e|]]; try reflexivity.
  destruct (unpad p d2) as [d3 [u|e|]]; reflexivity.
Qed.
End Cfb.

Lemma ofb_inner_b_s iv fuel : forall sc data ij dst, snd (ofb_inner_b dc fuel sc data ij dst) = ofb_inner (mkOfb c iv) fuel data ij dst.
Proof.
  induction fuel as [|fuel IH]; intros sc data ij dst; [reflexivity|]. cbn [ofb_inner_b ofb_inner ofb_cipher]. cbv zeta. rewrite I_n.
  destruct (bsz c <=? length data)%nat; [|reflexivity].
  destruct (into_c _ _ I_e sc ij) as [h' ->]. destruct (enc c ij); try reflexivity. apply IH.
Qed.
Lemma ofb_encrypt_b_s iv sc dst m : snd (ofb_encrypt_b dc iv sc dst m) = ofb_encrypt (mkOfb c iv) dst m.
Proof.
  unfold ofb_encrypt_b, ofb_encrypt. cbv zeta. cbn [ofb_cipher ofb_iv]. rewrite I_n.
  match goal with |- context [ofb_inner_b _ ?f ?sc ?d ?ij ?x] => with_s (ofb_inner_b_s iv f sc d ij x) end.
  destruct (ofb_inner _ _ _ _ _) as [[ij d1] [u|e|]]; try reflexivity.
  match goal with |- context [into _ ?sc ij] => destruct (into_c _ _ I_e sc ij) as [h' ->] end. destruct (enc c ij); reflexivity.
Qed.
Lemma ofb_write_b_s iv sc s d : snd (ofb_write_b dc sc s d) = ofb_write (mkOfb c iv) s d.
Proof.
  unfold ofb_write_b, ofb_write. cbv zeta. cbn [ofb_cipher ofb_iv]. rewrite I_n.
  destruct d as [|x d]; [reflexivity|].
  match goal with |- context [ofb_inner_b _ ?f ?sc ?d ?ij ?x] => with_s (ofb_inner_b_s iv f sc d ij x) end.
  destruct (ofb_inner _ _ _ _ _) as [[ij d1] [u|e|]]; reflexivity.
Qed.
Lemma ofb_finish_b_s iv sc s : snd (ofb_finish_b dc iv sc s) = ofb_finish (mkOfb c iv) s.
Proof.
  unfold ofb_finish_b, ofb_finish. cbn [ofb_cipher ofb_iv]. destruct (s_data s) as [|x d]; [reflexivity|].
  destruct (into_c _ _ I_e sc (s_ij s)) as [h' ->]. destruct (enc c (s_ij s)); reflexivity.
Qed.

Lemma ctr_inner_b_s fuel : forall sc k data dst, snd (ctr_inner_b dc fuel sc k data dst) = ctr_inner c fuel k data dst.
Proof.
  induction fuel as [|fuel IH]; intros sc k data dst; [reflexivity|]. cbn [ctr_inner_b ctr_inner]. cbv zeta. rewrite I_n.
  destruct data as [|x data]; [reflexivity|]. destruct (counter_next k) as [k' v].
  destruct (length v <? bsz c)%nat; [reflexivity|].
  destruct (into_c _ _ I_e sc (firstn (bsz c) v)) as [h' ->]. destruct (enc c _); try reflexivity. apply IH.
Qed.
Lemma ctr_encrypt_b_s sc k dst m :
  snd (ctr_encrypt_b dc sc k dst m) = (ctr_ctr (fst (ctr_encrypt (mkCtr c k) dst m)), snd (ctr_encrypt (mkCtr c k) dst m)).
Proof.
  unfold ctr_encrypt_b, ctr_encrypt. cbn [ctr_cipher ctr_ctr].
  with_s (ctr_inner_b_s (S (length m)) sc k m []). destruct (ctr_inner _ _ _ _ _) as [[k1 d1] [u|e|]]; reflexivity.
Qed.

(** ** Whole histories *)
Definition sim {A B} (er : A -> B) (oa : obj A) (ob : obj B) : Prop :=
  (forall s dst m, (er (fst (o_enc oa s dst m)), snd (o_enc oa s dst m)) = o_enc ob (er s) dst m) /\
  (forall s dst m, (er (fst (o_dec oa s dst m)), snd (o_dec oa s dst m)) = o_dec ob (er s) dst m) /\
  (forall s d, (er (fst (o_write oa s d)), snd (o_write oa s d)) = o_write ob (er s) d) /\
  (forall s, (er (fst (o_finish oa s)), snd (o_finish oa s)) = o_finish ob (er s)) /\
  (forall s, o_pond oa s = o_pond ob (er s)) /\
  (forall s, er (o_drain oa s) = o_drain ob (er s)) /\
  (forall s, er (o_reset oa s) = o_reset ob (er s)).
Lemma sim_trace {A B} (er : A -> B) oa ob : sim er oa ob -> forall h s, trace oa s h = trace ob (er s) h.
Proof.
  intros (E & D & W & F & P & R & T). induction h as [|x h IH]; intros s; [reflexivity|]. cbn [trace].
  assert (X : (er (fst (step oa s x)), snd (step oa s x)) = step ob (er s) x).
  { destruct x as [dst m|dst m|d b|b|]; cbn [step].
    - rewrite <- E. destruct (o_enc oa s dst m) as [s1 [d r]]. reflexivity.
    - rewrite <- D. destruct (o_dec oa s dst m) as [s1 [d r]]. reflexivity.
    - rewrite <- W. destruct (o_write oa s d) as [s1 [u|e|]]; cbn [fst snd]; try reflexivity.
      destruct b; cbn [fst snd]; rewrite ?R, ?P; reflexivity.
    - rewrite <- F. destruct (o_finish oa s) as [s1 [u|e|]]; cbn [fst snd]; rewrite ?R, ?P; reflexivity.
    - cbn [fst snd]. rewrite T. reflexivity. }
  rewrite <- X. destruct (step oa s x) as [s1 v]. cbn [fst snd]. destruct (stop v); [reflexivity|]. rewrite IH. reflexivity.
Qed.
Lemma sobj_sim e d w f rst e' d' w' f' rst' :
  (forall sc dst m, snd (e sc dst m) = e' dst m) -> (forall sc dst m, snd (d sc dst m) = d' dst m) ->
  (forall sc s x, snd (w sc s x) = w' s x) -> (forall sc s, snd (f sc s) = f' s) -> (forall s, rst s = rst' s) ->
  sim snd (sobj (H:=H) e d w f rst) (mkObj (pure e') (pure d') w' f' s_pond drain rst').
Proof.
  intros He Hd Hw Hf Hr. unfold sim, sobj. cbn [o_enc o_dec o_write o_finish o_pond o_drain o_reset].
  (split; [|split; [|split; [|split; [|split; [|split]]]]]); try reflexivity.
  - intros s dst m. unfold lift_call, pure. rewrite <- (He (fst s)). destruct (e (fst s) dst m). reflexivity.
  - intros s dst m. unfold lift_call, pure. rewrite <- (Hd (fst s)). destruct (d (fst s) dst m). reflexivity.
  - intros s x. unfold lift_write. rewrite <- (Hw (fst s)). destruct (w (fst s) (snd s) x) as [sc [b r]]. reflexivity.
  - intros s. unfold lift_finish. rewrite <- (Hf (fst s)). destruct (f (fst s) (snd s)) as [sc [b r]]. reflexivity.
  - intros s. apply Hr.
Qed.
Lemma ecb_enc_sim p : sim snd (ecb_enc_obj_b dc p) (ecb_enc_obj (mkEcb c p)).
Proof.
  apply sobj_sim; intros; auto using ecb_encrypt_b_s, ecb_decrypt_b_s, ecb_enc_write_b_s, ecb_enc_finish_b_s.
Qed.
Lemma ecb_dec_sim p : sim snd (ecb_dec_obj_b dc p) (ecb_dec_obj (mkEcb c p)).
Proof.
  apply sobj_sim; intros; auto using ecb_encrypt_b_s, ecb_decrypt_b_s, ecb_dec_write_b_s, ecb_dec_finish_b_s.
Qed.
Lemma cbc_enc_sim p iv : sim snd (cbc_enc_obj_b dc p iv) (cbc_enc_obj (mkCbc c p iv)).
Proof.
  apply sobj_sim; intros; auto using cbc_encrypt_b_s, cbc_decrypt_b_s, cbc_enc_write_b_s, cbc_enc_finish_b_s.
Qed.
Lemma cbc_dec_sim p iv : sim snd (cbc_dec_obj_b dc p iv) (cbc_dec_obj (mkCbc c p iv)).
Proof.
  apply sobj_sim; intros; auto using cbc_encrypt_b_s, cbc_decrypt_b_s, cbc_dec_write_b_s, cbc_dec_finish_b_s.
Qed.
Lemma cfb_enc_sim z p iv : (forall b t, enc c b = Ok t -> (z <= length t)%nat) ->
  sim snd (cfb_enc_obj_b dc z p iv) (cfb_enc_obj (mkCfb z c p iv)).
Proof.
  intros Z1. apply sobj_sim; intros; auto using cfb_encrypt_b_s, cfb_decrypt_b_s, cfb_enc_write_b_s, cfb_enc_finish_b_s.
Qed.
Lemma cfb_dec_sim z p iv : (forall b t, enc c b = Ok t -> (z <= length t)%nat) ->
  sim snd (cfb_dec_obj_b dc z p iv) (cfb_dec_obj (mkCfb z c p iv)).
Proof.
  intros Z1. apply sobj_sim; intros; auto using cfb_encrypt_b_s, cfb_decrypt_b_s, cfb_dec_write_b_s, cfb_dec_finish_b_s.
Qed.
Lemma ofb_sim iv : sim snd (ofb_obj_b dc iv) (ofb_obj (mkOfb c iv)).
Proof.
  apply sobj_sim; intros; auto using ofb_encrypt_b_s, ofb_write_b_s, ofb_finish_b_s.
Qed.
(** The CTR stream of ModesModel.v behind a state with scratch. *)
Definition ctr_er (s : ctr_state (H:=H)) : ctrs := let '(_, (k, d, p)) := s in mkCtrs (mkCtr c k) d p.
Lemma ctr_sim : sim ctr_er (ctr_obj_b dc) ctr_obj.
Proof.
  unfold sim, ctr_obj_b, ctr_obj. cbn [o_enc o_dec o_write o_finish o_pond o_drain o_reset].
  assert (E : forall s dst m, (ctr_er (fst (ctr_call_b dc s dst m)), snd (ctr_call_b dc s dst m)) = ctr_call ctr_encrypt (ctr_er s) dst m).
  { intros [sc [[k d] p]] dst m. unfold ctr_call_b, ctr_call, ctr_er. cbn [cs_ctr cs_data cs_pond].
    pose proof (ctr_encrypt_b_s sc k dst m) as Q. destruct (ctr_encrypt_b dc sc k dst m) as [sc1 [k1 r]]. cbn [snd] in Q. injection Q as -> ->.
    unfold ctr_encrypt. cbn [ctr_cipher ctr_ctr]. destruct (ctr_inner _ _ _ _ _) as [[k1 d1] [u|e|]]; reflexivity. }
  split; [exact E|]. split; [exact E|]. (split; [|split; [|split; [|split]]]).
  - intros [sc [[k d] p]] x. unfold ctr_write_b, ctr_write, ctr_er. cbn [fst snd cs_ctr cs_data cs_pond ctr_cipher ctr_ctr]. cbv zeta. rewrite I_n.
    destruct x as [|x l]; [reflexivity|].
    match goal with |- context [ctr_inner_b _ ?f ?sc ?k ?d ?x] => with_s (ctr_inner_b_s f sc k d x) end.
    destruct (ctr_inner _ _ _ _ _) as [[k1 d1] [u|e|]]; reflexivity.
  - intros [sc [[k d] p]]. unfold ctr_finish_b, ctr_finish, ctr_er. cbn [fst snd cs_ctr cs_data cs_pond ctr_cipher ctr_ctr]. cbv zeta.
    match goal with |- context [ctr_inner_b _ ?f ?sc ?k ?d ?x] => with_s (ctr_inner_b_s f sc k d x) end.
    destruct (ctr_inner _ _ _ _ _) as [[k1 d1] [u|e|]]; reflexivity.
  - intros [sc [[k d] p]]. reflexivity.
  - intros [sc [[k d] p]]. reflexivity.
  - intros [sc [[k d] p]]. reflexivity.
Qed.

(** ** Clones *)
Definition bsim {A} (R : A -> A -> Prop) (o : bobj A) : Prop :=
  (forall s s' dst m, R s s' -> R (fst (b_enc o s dst m)) (fst (b_enc o s' dst m)) /\ snd (b_enc o s dst m) = snd (b_enc o s' dst m)) /\
  (forall s s' dst m, R s s' -> R (fst (b_dec o s dst m)) (fst (b_dec o s' dst m)) /\ snd (b_dec o s dst m) = snd (b_dec o s' dst m)) /\
  (forall s s' iv, R s s' -> R (fst (b_set o s iv)) (fst (b_set o s' iv)) /\ snd (b_set o s iv) = snd (b_set o s' iv)) /\
  (forall s s', R s s' -> R (b_clone o s) s').
Lemma bsim_trace {A} (R : A -> A -> Prop) o : bsim R o -> forall h s s', R s s' -> btrace o s h = btrace o s' (filter not_clone h).
Proof.
  intros (E & D & T & C). induction h as [|[dst m|dst m|iv|] h IH]; intros s s' Hs; cbn [btrace filter not_clone].
  - reflexivity.
  - destruct (E s s' dst m Hs) as [E1 E2]. destruct (b_enc o s dst m) as [s1 [d r]], (b_enc o s' dst m) as [s1' [d' r']]. cbn [fst snd] in *.
    injection E2 as -> ->. destruct (bstop _); [reflexivity|]. rewrite (IH s1 s1') by assumption. reflexivity.
  - destruct (D s s' dst m Hs) as [E1 E2]. destruct (b_dec o s dst m) as [s1 [d r]], (b_dec o s' dst m) as [s1' [d' r']]. cbn [fst snd] in *.
    injection E2 as -> ->. destruct (bstop _); [reflexivity|]. rewrite (IH s1 s1') by assumption. reflexivity.
  - destruct (T s s' iv Hs) as [E1 E2]. destruct (b_set o s iv) as [s1 r], (b_set o s' iv) as [s1' r']. cbn [fst snd] in *.
    subst r'. destruct (bstop _); [reflexivity|]. rewrite (IH s1 s1') by assumption. reflexivity.
  - apply IH. apply C. assumption.
Qed.
Definition same_iv (s s' : scratch H * list Z) : Prop := snd s = snd s'.
Lemma lift_sim ch e d st e' d' :
  (forall iv sc dst m, snd (e iv sc dst m) = e' iv dst m) -> (forall iv sc dst m, snd (d iv sc dst m) = d' iv dst m) ->
  (forall s s' iv, same_iv s s' -> same_iv (fst (st s iv)) (fst (st s' iv)) /\ snd (st s iv) = snd (st s' iv)) ->
  bsim same_iv (mkB _ (lift_base e) (lift_base d) st (clone_iv (H:=H) ch)).
Proof.
  intros He Hd Hs. unfold bsim. cbn [b_enc b_dec b_set b_clone].
  split; [|split; [|split]].
  - intros s s' dst m R. unfold lift_base. pose proof (He (snd s) (fst s) dst m) as A. pose proof (He (snd s') (fst s') dst m) as B.
    destruct (e _ (fst s) dst m), (e _ (fst s') dst m). cbn [fst snd] in *. split; [exact R|]. rewrite A, B, R. reflexivity.
  - intros s s' dst m R. unfold lift_base. pose proof (Hd (snd s) (fst s) dst m) as A. pose proof (Hd (snd s') (fst s') dst m) as B.
    destruct (d _ (fst s) dst m), (d _ (fst s') dst m). cbn [fst snd] in *. split; [exact R|]. rewrite A, B, R. reflexivity.
  - exact Hs.
  - intros s s' R. exact R.
Qed.
Lemma set_sim e (s s' : scratch H * list Z) iv : same_iv s s' ->
  same_iv (fst (set_iv_b dc e s iv)) (fst (set_iv_b dc e s' iv)) /\ snd (set_iv_b dc e s iv) = snd (set_iv_b dc e s' iv).
Proof.
  intros R. unfold set_iv_b. destruct (dblk dc) as [n|]; [destruct (length iv =? n)%nat|]; split; try reflexivity. exact R.
Qed.
Lemma ecb_base_sim ch p : bsim same_iv (ecb_base dc ch p).
Proof.
  apply (lift_sim ch (fun _ => ecb_encrypt_b dc p) (fun _ => ecb_decrypt_b dc p) _ (fun _ => ecb_encrypt (mkEcb c p)) (fun _ => ecb_decrypt (mkEcb c p)));
    intros; auto using ecb_encrypt_b_s, ecb_decrypt_b_s.
Qed.
Lemma cbc_base_sim ch p : bsim same_iv (cbc_base dc ch p).
Proof.
  apply (lift_sim ch _ _ _ (fun iv => cbc_encrypt (mkCbc c p iv)) (fun iv => cbc_decrypt (mkCbc c p iv)));
    intros; auto using cbc_encrypt_b_s, cbc_decrypt_b_s, set_sim.
Qed.
Lemma cfb_base_sim ch z p : (forall b t, enc c b = Ok t -> (z <= length t)%nat) -> bsim same_iv (cfb_base dc ch z p).
Proof.
  intros Z1. apply (lift_sim ch _ _ _ (fun iv => cfb_encrypt (mkCfb z c p iv)) (fun iv => cfb_decrypt (mkCfb z c p iv)));
    intros; auto using cfb_encrypt_b_s, cfb_decrypt_b_s, set_sim.
Qed.
Lemma ofb_base_sim ch : bsim same_iv (ofb_base dc ch).
Proof.
  apply (lift_sim ch _ _ _ (fun iv => ofb_encrypt (mkOfb c iv)) (fun iv => ofb_encrypt (mkOfb c iv)));
    intros; auto using ofb_encrypt_b_s, set_sim.
Qed.
End S.
