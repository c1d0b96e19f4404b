(** Property C62: [update_iv] of the CBC, CFB and OFB objects when their random source may fail, and what an object does afterwards.
    A random source is the list of what its calls yield: [Some w] a word, [None] an error. *)
From Verif Require Import Base Words ModesModel ModesSpec PaddingProofs ModesLoops EcbCbcProofs ModesApi IvModel PropModes.

(** The words the first [k] calls yield, up to the first error. *)
Fixpoint words_before_error (k : nat) (rnd : list (option Z)) : list Z :=
  match k, rnd with
  | S k, Some w :: rnd => w :: words_before_error k rnd
  | _, _ => []
  end.
Definition needed (n : nat) : nat := ((n + 3) / 4)%nat.
Definition word_bytes (ws : list Z) : list Z := flat_map (be_bytes 4) ws.

Lemma gen_words_spec k : forall rnd iv, let ws := words_before_error k rnd in
  (length ws <= k)%nat /\
  gen_words k rnd iv = if (length ws =? k)%nat then (iv ++ word_bytes ws, Ok tt, skipn k rnd) else (iv ++ word_bytes ws, Err RandError, skipn (S (length ws)) rnd).
Proof.
  induction k as [|k IH]; intros rnd iv; [cbn; rewrite app_nil_r; auto|]. cbn [words_before_error gen_words].
  destruct rnd as [|[w|] rnd]; [cbn; rewrite app_nil_r; split; [lia|reflexivity]| |cbn; rewrite app_nil_r; split; [lia|reflexivity]].
  cbn zeta in *. destruct (IH rnd (iv ++ be_bytes 4 w)) as [L E]. cbn [length Nat.eqb]. split; [lia|]. rewrite E. unfold word_bytes. cbn [flat_map]. rewrite <- app_assoc. reflexivity.
Qed.
Lemma word_bytes_length ws : length (word_bytes ws) = (4 * length ws)%nat.
Proof. unfold word_bytes. induction ws as [|w ws IH]; [reflexivity|]. cbn [flat_map]. rewrite app_length, be_bytes_length, IH. cbn. lia. Qed.
Lemma initial_vec_exact n rnd : let ws := words_before_error (needed n) rnd in
  (length ws <= needed n)%nat /\ 
  default_initial_vec n rnd = (if (length ws =? needed n)%nat then (firstn n (word_bytes ws), Ok tt, skipn (needed n) rnd) else (word_bytes ws, Err RandError, skipn (S (length ws)) rnd)) /\
  ((length ws < needed n)%nat -> (length (word_bytes ws) < n)%nat) /\ (length ws = needed n -> length (firstn n (word_bytes ws)) = n).
Proof.
  intros ws. unfold default_initial_vec. fold (needed n). destruct (gen_words_spec (needed n) rnd []) as [L E]. fold ws in L, E. split; [exact L|]. split; [|split].
  - rewrite E. destruct (Nat.eqb_spec (length ws) (needed n)); reflexivity.
  - intros H. rewrite word_bytes_length. unfold needed in *. pose proof (Nat.div_mod_eq (n + 3) 4). pose proof (Nat.mod_upper_bound (n + 3) 4 ltac:(lia)). lia.
  - intros H. rewrite firstn_length, word_bytes_length, H. unfold needed. pose proof (Nat.div_mod_eq (n + 3) 4). pose proof (Nat.mod_upper_bound (n + 3) 4 ltac:(lia)). lia.
Qed.

(** What [update_iv] does: with enough words it installs and returns their first [n] bytes; if the source fails it returns the error, but the
    bytes obtained so far, too few, have replaced the old IV. *)
Theorem C62_update_iv : forall c n p s iv0 rnd, blk c = Some n -> let ws := words_before_error (needed n) rnd in
  (length ws = needed n -> let iv := firstn n (word_bytes ws) in length iv = n /\
     cbc_update (mkCbc c p iv0) rnd = (mkCbc c p iv, skipn (needed n) rnd, Ok iv) /\
     cfb_update (mkCfb s c p iv0) rnd = (mkCfb s c p iv, skipn (needed n) rnd, Ok iv) /\
     ofb_update (mkOfb c iv0) rnd = (mkOfb c iv, skipn (needed n) rnd, Ok iv)) /\
  (length ws <> needed n -> let iv := word_bytes ws in (length iv < n)%nat /\
     cbc_update (mkCbc c p iv0) rnd = (mkCbc c p iv, skipn (S (length ws)) rnd, Err RandError) /\
     cfb_update (mkCfb s c p iv0) rnd = (mkCfb s c p iv, skipn (S (length ws)) rnd, Err RandError) /\
     ofb_update (mkOfb c iv0) rnd = (mkOfb c iv, skipn (S (length ws)) rnd, Err RandError)).
Proof.
  intros c n p s iv0 rnd Hb ws. destruct (initial_vec_exact n rnd) as (L & E & S1 & S2). fold ws in L, E, S1, S2.
  assert (U : default_iv_size c = n) by (unfold default_iv_size; rewrite Hb; reflexivity).
  unfold cbc_update, cfb_update, ofb_update, cbc_update_iv, cfb_update_iv, ofb_update_iv, iv_check. cbn [cbc_cipher cfb_cipher ofb_cipher cbc_pad cfb_pad cfb_s]. rewrite U, E, Hb. split; intros H.
  - rewrite (proj2 (Nat.eqb_eq _ _) H). cbn zeta. cbn [fst]. rewrite (S2 H), Nat.eqb_refl. repeat split.
  - rewrite (proj2 (Nat.eqb_neq _ _) H). cbn zeta. cbn [fst]. split; [apply S1; lia|]. repeat split.
Qed.
Print Assumptions C62_update_iv.

Lemma bytes_parts k l : bytes l -> bytes (firstn k l) /\ bytes (skipn k l).
Proof. intros B. rewrite <- (firstn_skipn k l) in B. apply bytes_app in B. exact B. Qed.
Lemma CBC_inv_length c n E D : GoodCipher c n E D -> forall k iv m, length iv = n -> length m = (k * n)%nat -> bytes m -> length (CBC_inv D n iv m) = length m.
Proof.
  intros GC. pose proof (gc_pos _ _ _ _ GC) as N0. induction k as [|k IH]; intros iv m LI LM B.
  - destruct m; [|discriminate]. unfold CBC_inv. rewrite chunks_nil by exact N0. reflexivity.
  - assert (B1 : length (firstn n m) = n) by (rewrite firstn_length; lia). unfold CBC_inv. rewrite (chunks_step n m) by lia. cbn [CBCb_inv concat].
    change (concat (CBCb_inv D (firstn n m) (chunks n (skipn n m)))) with (CBC_inv D n (firstn n m) (skipn n m)).
    rewrite app_length, xorl_length, IH; [|exact B1|rewrite skipn_length; lia|apply bytes_parts, B].
    rewrite (proj1 (gc_D _ _ _ _ GC _ B1 (proj1 (bytes_parts n m B)))), LI, skipn_length. lia.
Qed.

(** With such a short IV: OFB refuses everything, CFB and CBC refuse to encrypt a segment or block, CFB refuses to decrypt ... *)
Theorem C62_short_iv_refused : forall c n E D, GoodCipher c n E D -> forall p s iv, (length iv < n)%nat -> (0 < s)%nat -> forall dst m,
  ofb_encrypt (mkOfb c iv) dst m = ([], Err InvalidParameter) /\ ofb_decrypt (mkOfb c iv) dst m = ([], Err InvalidParameter) /\
  ((s <= length m)%nat -> cfb_encrypt (mkCfb s c p iv) dst m = ([], Err InvalidParameter)) /\
  (m <> [] -> cfb_decrypt (mkCfb s c p iv) dst m = (if (length m mod s =? 0)%nat then [] else dst, Err InvalidParameter)) /\
  ((n <= length m)%nat -> cbc_encrypt (mkCbc c p iv) dst m = ([], Err InvalidParameter)).
Proof.
  intros c n E D GC p s iv L S0 dst m. pose proof (gc_pos _ _ _ _ GC) as N0. assert (Hn : bsz c = n) by (unfold bsz; rewrite (gc_blk _ _ _ _ GC); reflexivity).
  assert (BAD : enc c iv = Err InvalidParameter) by (apply (gc_enc_bad _ _ _ _ GC); lia).
  assert (OF : ofb_encrypt (mkOfb c iv) dst m = ([], Err InvalidParameter)).
  { unfold ofb_encrypt. cbn [ofb_cipher ofb_iv]. rewrite Hn. set (d := firstn _ m). cbn [ofb_inner ofb_cipher]. rewrite Hn, BAD. destruct (n <=? length d)%nat; cbn [fst snd]; rewrite ?BAD; reflexivity. }
  split; [exact OF|]. split; [exact OF|]. split; [|split].
  - intros H. unfold cfb_encrypt. cbn [cfb_enc_inner cfb_cipher cfb_s cfb_iv]. rewrite (proj2 (Nat.leb_le _ _) H), BAD. reflexivity.
  - intros H. unfold cfb_decrypt. cbn [cfb_s]. destruct (length m mod s =? 0)%nat; cbn [negb]; [|reflexivity].
    cbn [cfb_dec_inner cfb_cipher cfb_s cfb_iv]. destruct m as [|x m]; [contradiction|]. rewrite BAD. reflexivity.
  - intros H. unfold cbc_encrypt. cbn [cbc_cipher cbc_iv]. rewrite Hn. cbn [cbc_enc_full]. rewrite (proj2 (Nat.leb_le _ _) H).
    rewrite (gc_enc_bad _ _ _ _ GC); [reflexivity|]. unfold xor_into. rewrite app_length, xorl_length, skipn_length, firstn_length. lia.
Qed.
Print Assumptions C62_short_iv_refused.
(** ... but CBC decrypts, and leaves out bytes: those of the first block for which there is no byte of IV. *)
Theorem C62_short_iv_cbc_decrypt : forall c n E D, GoodCipher c n E D -> forall iv iv', (length iv < n)%nat -> length iv' = n -> firstn (length iv) iv' = iv ->
  forall dst ct, ct <> [] -> (length ct mod n = 0)%nat -> bytes ct -> let P := CBC_inv D n iv' ct in
  cbc_decrypt (mkCbc c EmptyPadding iv) dst ct = (firstn (length iv) P ++ skipn n P, Ok (length ct - (n - length iv))%nat).
Proof.
  intros c n E D GC iv iv' L L' F dst ct NE M BC P. pose proof (gc_pos _ _ _ _ GC) as N0. assert (Hn : bsz c = n) by (unfold bsz; rewrite (gc_blk _ _ _ _ GC); reflexivity).
  assert (GE : (n <= length ct)%nat).
  { destruct (Nat.lt_ge_cases (length ct) n) as [H|H]; [|exact H]. rewrite Nat.mod_small in M by exact H. destruct ct; [contradiction|discriminate]. }
  assert (B1 : length (firstn n ct) = n) by (rewrite firstn_length; lia).
  unfold cbc_decrypt. cbn [cbc_cipher cbc_iv cbc_pad]. rewrite Hn, M. cbn [Nat.eqb negb].
  assert (M2 : (length (skipn n ct) mod n = 0)%nat).
  { rewrite skipn_length. replace (length ct) with (length ct - n + 1 * n)%nat in M by lia. rewrite Nat.mod_add in M by lia. exact M. }
  assert (BD : length (D (firstn n ct)) = n) by (apply (gc_D _ _ _ _ GC); [exact B1|apply bytes_parts, BC]).
  assert (EL : cbc_dec_loop c (S (length ct)) n iv ct [] = (xorl iv (D (firstn n ct)) ++ CBC_inv D n (firstn n ct) (skipn n ct), Ok tt)).
  { cbn [cbc_dec_loop]. destruct ct as [|x ct'] eqn:EC; [contradiction|]. rewrite <- EC in *. rewrite Nat.min_l by exact GE. rewrite (gc_dec _ _ _ _ GC) by exact B1.
    rewrite (cbc_dec_loop_spec c n E D GC) by (try exact B1; try exact M2; rewrite skipn_length; lia). reflexivity. }
  rewrite EL.
  assert (EP : P = xorl (D (firstn n ct)) iv' ++ CBC_inv D n (firstn n ct) (skipn n ct)).
  { unfold P, CBC_inv. rewrite (chunks_step n ct) by lia. reflexivity. }
  assert (LX : length (xorl (D (firstn n ct)) iv') = n) by (rewrite xorl_length, BD, L'; lia).
  assert (E1 : firstn (length iv) P = xorl iv (D (firstn n ct))).
  { rewrite EP, firstn_app, LX. replace (length iv - n)%nat with 0%nat by lia. cbn [firstn]. rewrite app_nil_r.
    rewrite (xorl_comm (D (firstn n ct))), <- xorl_firstn, F. reflexivity. }
  assert (E2 : skipn n P = CBC_inv D n (firstn n ct) (skipn n ct)).
  { rewrite EP, skipn_app, LX, Nat.sub_diag, skipn_all2 by lia. reflexivity. }
  rewrite E1, E2. set (R := xorl iv (D (firstn n ct)) ++ CBC_inv D n (firstn n ct) (skipn n ct)).
  assert (LR : length R = (length ct - (n - length iv))%nat).
  { unfold R. rewrite app_length, xorl_length, BD, (CBC_inv_length c n E D GC (length (skipn n ct) / n)); [rewrite skipn_length; lia|exact B1| |apply bytes_parts, BC].
    pose proof (Nat.div_mod_eq (length (skipn n ct)) n). lia. }
  rewrite <- LR. reflexivity.
Qed.
Print Assumptions C62_short_iv_cbc_decrypt.

(** So after any calls the IV has the length of a block exactly when the last call that replaced it succeeded: a failed [update_iv] spoils
    the object until a successful [update_iv] or [set_iv]. *)
Inductive iv_op := UpdateIv | SetIv (iv : list Z).
Definition cbc_iv_step (st : cbc * list (option Z) * bool) (op : iv_op) : cbc * list (option Z) * bool :=
  let '(o, rnd, good) := st in
  match op with
  | UpdateIv => let '(o', rnd', r) := cbc_update o rnd in (o', rnd', match r with Ok _ => true | _ => false end)
  | SetIv iv => let '(o', r) := cbc_set_iv o iv in (o', rnd, match r with Ok _ => true | _ => good end)
  end.
Definition cfb_iv_step (st : cfb * list (option Z) * bool) (op : iv_op) : cfb * list (option Z) * bool :=
  let '(o, rnd, good) := st in
  match op with
  | UpdateIv => let '(o', rnd', r) := cfb_update o rnd in (o', rnd', match r with Ok _ => true | _ => false end)
  | SetIv iv => let '(o', r) := cfb_set_iv o iv in (o', rnd, match r with Ok _ => true | _ => good end)
  end.
Definition ofb_iv_step (st : ofb * list (option Z) * bool) (op : iv_op) : ofb * list (option Z) * bool :=
  let '(o, rnd, good) := st in
  match op with
  | UpdateIv => let '(o', rnd', r) := ofb_update o rnd in (o', rnd', match r with Ok _ => true | _ => false end)
  | SetIv iv => let '(o', r) := ofb_set_iv o iv in (o', rnd, match r with Ok _ => true | _ => good end)
  end.
Lemma iv_history c n p s ops : blk c = Some n -> forall b iv0 rnd, (length iv0 = n <-> b = true) ->
  (let '(o, _, good) := fold_left cbc_iv_step ops (mkCbc c p iv0, rnd, b) in cbc_cipher o = c /\ cbc_pad o = p /\ (length (cbc_iv o) = n <-> good = true)) /\
  (let '(o, _, good) := fold_left cfb_iv_step ops (mkCfb s c p iv0, rnd, b) in cfb_cipher o = c /\ cfb_pad o = p /\ cfb_s o = s /\ (length (cfb_iv o) = n <-> good = true)) /\
  (let '(o, _, good) := fold_left ofb_iv_step ops (mkOfb c iv0, rnd, b) in ofb_cipher o = c /\ (length (ofb_iv o) = n <-> good = true)).
Proof.
  intros Hb. induction ops as [|op ops IH]; intros good iv0 rnd G0.
  - cbn [fold_left cbc_cipher cbc_pad cbc_iv cfb_cipher cfb_pad cfb_s cfb_iv ofb_cipher ofb_iv]. repeat split; try apply G0.
  - cbn [fold_left]. destruct op as [|iv]; cbn [cbc_iv_step cfb_iv_step ofb_iv_step].
    + destruct (C62_update_iv c n p s iv0 rnd Hb) as [A B]. destruct (Nat.eq_dec (length (words_before_error (needed n) rnd)) (needed n)) as [Q|Q].
      * destruct (A Q) as (LN & E1 & E2 & E3). rewrite E1, E2, E3. apply IH. tauto.
      * destruct (B Q) as (LN & E1 & E2 & E3). rewrite E1, E2, E3. apply IH. split; [lia|discriminate].
    + destruct (C22_set_iv c n p iv0 iv s Hb) as [A B]. destruct (Nat.eq_dec (length iv) n) as [Q|Q].
      * destruct (A Q) as (E1 & E2 & E3). rewrite E1, E2, E3. apply IH. tauto.
      * destruct (B Q) as (E1 & E2 & E3). rewrite E1, E2, E3. apply IH. exact G0.
Qed.
Theorem C62_history : forall c n p s iv0 rnd ops, blk c = Some n -> length iv0 = n ->
  (let '(o, _, good) := fold_left cbc_iv_step ops (mkCbc c p iv0, rnd, true) in cbc_cipher o = c /\ cbc_pad o = p /\ (length (cbc_iv o) = n <-> good = true)) /\
  (let '(o, _, good) := fold_left cfb_iv_step ops (mkCfb s c p iv0, rnd, true) in cfb_cipher o = c /\ cfb_pad o = p /\ cfb_s o = s /\ (length (cfb_iv o) = n <-> good = true)) /\
  (let '(o, _, good) := fold_left ofb_iv_step ops (mkOfb c iv0, rnd, true) in ofb_cipher o = c /\ (length (ofb_iv o) = n <-> good = true)).
Proof. intros c n p s iv0 rnd ops Hb L0. apply (iv_history c n p s ops Hb). tauto. Qed.
Print Assumptions C62_history.

(** The full claim, that a call that fails leaves the object as it was, fails: after it the same ciphertext is decrypted to another text,
    with no error. *)
Theorem C62_failed_update_refuted : exists o rnd ct dst, let '(o', _, r) := cbc_update o rnd in
  r = Err RandError /\ (length (cbc_iv o) = 16)%nat /\ snd (cbc_decrypt o dst ct) = Ok 16%nat /\ snd (cbc_decrypt o' dst ct) = Ok 4%nat.
Proof.
  exists (mkCbc exc EmptyPadding exiv), [Some 5; None], (exmsg 16), []. vm_compute. repeat split.
Qed.
Print Assumptions C62_failed_update_refuted.
Example C62_met : blk exc = Some 16%nat /\ length exiv = 16%nat /\ needed 16 = 4%nat /\ words_before_error 4 [Some 1; Some 2; Some 3; Some 4; None] = [1; 2; 3; 4] /\
  words_before_error 4 [Some 1; None; Some 3] = [1] /\ word_bytes [1] = [0; 0; 0; 1] /\ (length (word_bytes [1%Z]) < 16)%nat /\ firstn 4 (word_bytes [1; 2; 3; 4]) = word_bytes [1] /\
  exmsg 16 <> [] /\ (length (exmsg 16) mod 16 = 0)%nat /\
  (let '(o, _, good) := fold_left cbc_iv_step [UpdateIv; SetIv [1]; UpdateIv; SetIv exiv] (mkCbc exc EmptyPadding exiv, [Some 1; None], true) in cbc_iv o = exiv /\ good = true).
Proof. repeat split; try discriminate. vm_compute. lia. Qed.
