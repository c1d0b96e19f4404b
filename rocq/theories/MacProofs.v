(** HMAC and CMAC objects compute their standards' values in every history. *)
From Verif Require Import Base Words ModesModel ModesSpec HashModel HashSpec MacModel MacSpec HashApi.

(** ** HMAC *)
Section HmacP.
Context {S : Type}.
Variables (D : digest S) (I : S -> Prop) (H : list Z -> list Z) (limit : Z) (B : nat).
Hypothesis HG : DigestOk D I H limit.
Hypothesis HB : d_block_size D = Some B.
Hypothesis HBl : (d_bits_len D / 8 <= B)%nat.
Notation MAC := (HMAC_value H B).

Definition hm_exec (st : hmac S * list (list Z)) (o : mop) : hmac S * list (list Z) :=
  let '(s, outs) := st in
  match o with
  | MWrite d => (hmac_write D s d, outs)
  | MChecksum => let '(s', dg) := hmac_checksum D s in (s', outs ++ [dg])
  | MReset => (hmac_reset D s, outs)
  | MSetKey k => (hmac_set_key D s k, outs)
  end.

Lemma one_digest s m : I s -> bytes m -> Z.of_nat (length m) < limit -> snd (d_checksum D (d_write D (d_reset D s) m)) = H m.
Proof.
  intros Hs Hm HL. destruct HG as [_ _ _ G _ _]. specialize (G s [m]). cbn [concat fold_left] in G. rewrite app_nil_r in G.
  apply G; auto.
Qed.
Lemma H_len m : bytes m -> Z.of_nat (length m) < limit -> length (H m) = (d_bits_len D / 8)%nat /\ bytes (H m).
Proof. destruct HG as [_ _ _ _ _ G]. apply G. Qed.
Lemma I_write s m : I s -> I (fst (d_checksum D (d_write D (d_reset D s) m))).
Proof. destruct HG as [G1 G2 G3 _ _ _]. auto. Qed.
Lemma I_repeat s m : I s -> d_checksum D (fst (d_checksum D (d_write D (d_reset D s) m))) = d_checksum D (d_write D (d_reset D s) m).
Proof. destruct HG as [G1 G2 G3 _ G4 _]. auto. Qed.
Lemma resize0_pad n l : (length l <= n)%nat -> resize0 n l = l ++ repeat 0 (n - length l).
Proof. intros L. unfold resize0. rewrite firstn_all2 by auto. reflexivity. Qed.
Lemma K0_ok key : bytes key -> Z.of_nat (length key) < limit -> length (HMAC_K0 H B key) = B /\ bytes (HMAC_K0 H B key).
Proof.
  intros Hk HL. unfold HMAC_K0.
  assert (L : (length (if (length key <=? B)%nat then key else H key) <= B)%nat /\ bytes (if (length key <=? B)%nat then key else H key)).
  { destruct (Nat.leb_spec (length key) B); [auto|]. destruct (H_len key Hk HL) as [-> Bk]. auto. }
  destruct L as [L Bk]. split; [rewrite app_length, repeat_length; lia|].
  apply bytes_app. split; [exact Bk|]. apply bytes_repeat. unfold byte. lia.
Qed.
Lemma gen_ok key df : I df -> bytes key -> Z.of_nat (length key) < limit ->
  exists df', I df' /\ generate_k0_io D key B df =
    (df', map (fun x => Z.lxor x 0x36) (HMAC_K0 H B key), map (fun x => Z.lxor x 0x5c) (HMAC_K0 H B key)).
Proof.
  intros Hi Hk HL. unfold generate_k0_io, HMAC_K0.
  destruct (Nat.ltb_spec (length key) B) as [L|L].
  - rewrite (proj2 (Nat.leb_le (length key) B)) by lia. rewrite resize0_pad by lia. eauto.
  - destruct (Nat.ltb_spec B (length key)) as [L2|L2].
    + rewrite (proj2 (Nat.leb_gt (length key) B)) by lia.
      pose proof (one_digest df key Hi Hk HL) as O. pose proof (I_write df key Hi) as O2. destruct (d_checksum D (d_write D (d_reset D df) key)) as [df' dg]. cbn [fst snd] in O, O2. rewrite O.
      destruct (H_len key Hk HL) as [Q _]. rewrite resize0_pad by lia. eauto.
    + rewrite (proj2 (Nat.leb_le (length key) B)) by lia. assert (E : length key = B) by lia. rewrite E, Nat.sub_diag. cbn [repeat].
      rewrite app_nil_r. eauto.
Qed.
Definition hrep (s : hmac S) (key m : list Z) (fin : bool) : Prop :=
  hm_ki s = map (fun x => Z.lxor x 0x36) (HMAC_K0 H B key) ++ m /\
  firstn B (hm_ko s) = map (fun x => Z.lxor x 0x5c) (HMAC_K0 H B key) /\
  hm_checked s = fin /\ I (hm_df s) /\
  if fin then snd (d_checksum D (hm_df s)) = MAC key m /\ d_checksum D (fst (d_checksum D (hm_df s))) = d_checksum D (hm_df s)
  else hm_ko s = map (fun x => Z.lxor x 0x5c) (HMAC_K0 H B key).
Lemma hb : hm_b D = B.
Proof. unfold hm_b. rewrite HB. reflexivity. Qed.
Lemma map_xor_ok c key : 0 <= c < 256 -> bytes key -> Z.of_nat (length key) < limit ->
  length (map (fun x => Z.lxor x c) (HMAC_K0 H B key)) = B /\ bytes (map (fun x => Z.lxor x c) (HMAC_K0 H B key)).
Proof.
  intros Hc Hk HL. destruct (K0_ok key Hk HL) as [L Bk]. split; [rewrite map_length; exact L|].
  apply Forall_map. eapply Forall_impl; [|exact Bk]. intros x Hx. apply lxor_byte; auto.
Qed.
Lemma hrep_write s key m fin d : bytes key -> Z.of_nat (length key) < limit -> hrep s key m fin ->
  hrep (hmac_write D s d) key (if fin then d else m ++ d) false.
Proof.
  intros Hk HL (R1 & R2 & R3 & Ri & R4). destruct (map_xor_ok 0x36 key ltac:(lia) Hk HL) as [L1 _].
  destruct (map_xor_ok 0x5c key ltac:(lia) Hk HL) as [L2 _].
  unfold hmac_write. rewrite R3, hb. destruct fin.
  - rewrite R1, R2. rewrite firstn_app, firstn_all2 by lia. rewrite L1, Nat.sub_diag, firstn_O, app_nil_r.
    repeat split; cbn [hm_ko hm_df]; [|exact Ri]. apply firstn_all2. lia.
  - rewrite R1, R4, <- app_assoc. repeat split; cbn [hm_ko hm_df]; [|exact Ri]. apply firstn_all2. lia.
Qed.
Lemma hrep_fresh s key m fin : bytes key -> Z.of_nat (length key) < limit -> hrep s key m fin -> hrep (hmac_reset D s) key [] false.
Proof.
  intros Hk HL (R1 & R2 & R3 & Ri & R4). destruct (map_xor_ok 0x36 key ltac:(lia) Hk HL) as [L1 _].
  destruct (map_xor_ok 0x5c key ltac:(lia) Hk HL) as [L2 _]. unfold hmac_reset. rewrite hb.
  unfold hrep. cbn [hm_ki hm_ko hm_checked hm_df]. rewrite R1, R2, firstn_app, L1, Nat.sub_diag, firstn_O.
  rewrite firstn_all2 by lia. repeat split; [|destruct HG; auto]. apply firstn_all2. lia.
Qed.
Lemma hrep_checksum s key m fin : bytes key -> Z.of_nat (length key) < limit -> bytes m ->
  Z.of_nat (B + length m) < limit -> Z.of_nat (B + d_bits_len D / 8) < limit -> hrep s key m fin ->
  snd (hmac_checksum D s) = MAC key m /\ hrep (fst (hmac_checksum D s)) key m true.
Proof.
  intros Hk HL Hm Hl1 Hl2 (R1 & R2 & R3 & Ri & R4). destruct (map_xor_ok 0x36 key ltac:(lia) Hk HL) as [L1 B1].
  destruct (map_xor_ok 0x5c key ltac:(lia) Hk HL) as [L2 B2]. unfold hmac_checksum. rewrite R3. destruct fin; cbn [negb].
  - destruct R4 as [R4 R5]. assert (Rc : I (fst (d_checksum D (hm_df s)))) by (destruct HG; auto).
    destruct (d_checksum D (hm_df s)) as [df dg] eqn:E. cbn [fst snd] in *. subst dg.
    split; [reflexivity|]. unfold hrep. cbn [hm_ki hm_ko hm_checked hm_df]. rewrite R5. cbn [fst snd]. rewrite R5. repeat (split; auto).
  - rewrite R1.
    assert (Q1 : bytes (map (fun x => Z.lxor x 54) (HMAC_K0 H B key) ++ m)) by (apply bytes_app; auto).
    assert (Q2 : Z.of_nat (length (map (fun x => Z.lxor x 54) (HMAC_K0 H B key) ++ m)) < limit) by (rewrite app_length, L1; exact Hl1).
    pose proof (one_digest (hm_df s) _ Ri Q1 Q2) as O1. pose proof (I_write (hm_df s) (map (fun x => Z.lxor x 54) (HMAC_K0 H B key) ++ m) Ri) as Ri2.
    destruct (d_checksum D (d_write D (d_reset D (hm_df s)) _)) as [df buf]. cbn [fst snd] in O1, Ri2. subst buf.
    destruct (H_len _ Q1 Q2) as [Q3 Q4]. rewrite R4.
    assert (Q5 : bytes (map (fun x => Z.lxor x 92) (HMAC_K0 H B key) ++ H (map (fun x => Z.lxor x 54) (HMAC_K0 H B key) ++ m))) by (apply bytes_app; auto).
    assert (Q6 : Z.of_nat (length (map (fun x => Z.lxor x 92) (HMAC_K0 H B key) ++ H (map (fun x => Z.lxor x 54) (HMAC_K0 H B key) ++ m))) < limit)
      by (rewrite app_length, L2, Q3; exact Hl2).
    pose proof (one_digest df _ Ri2 Q5 Q6) as O2.
    set (m2 := map (fun x => Z.lxor x 92) (HMAC_K0 H B key) ++ H (map (fun x => Z.lxor x 54) (HMAC_K0 H B key) ++ m)) in *.
    pose proof (I_repeat df m2 Ri2) as G3. pose proof (I_write df m2 Ri2) as Ri3.
    destruct (d_checksum D (d_write D (d_reset D df) _)) as [df2 dg] eqn:E2. cbn [fst snd] in *. subst dg.
    split; [reflexivity|]. unfold hrep. cbn [hm_ki hm_ko hm_checked hm_df]. split; [reflexivity|]. unfold m2.
    split; [rewrite firstn_app, L2, Nat.sub_diag, firstn_O, firstn_all2, app_nil_r by lia; reflexivity|]. split; [reflexivity|]. split; [exact Ri3|].
    fold m2. rewrite G3. cbn [fst snd]. split; [reflexivity|exact G3].
Qed.
Lemma hmac_history os : forall s key m fin outs, hrep s key m fin -> bytes key -> bytes m -> Forall mop_bytes os ->
  Z.of_nat (B + length key + length m + total_size os) < limit -> Z.of_nat (B + d_bits_len D / 8) < limit ->
  snd (fold_left hm_exec os (s, outs)) = outs ++ mac_run MAC key m fin os.
Proof.
  induction os as [|o os IH]; intros s key m fin outs R Hk Hm Fo HL HL2; cbn [fold_left mac_run]; [cbn [snd]; rewrite app_nil_r; reflexivity|].
  inversion Fo as [|? ? F1 F2]; subst. change (total_size (o :: os)) with (mop_size o + total_size os)%nat in HL.
  destruct o as [d| | |k]; cbn [hm_exec mop_size] in *.
  - apply IH; auto.
    + apply hrep_write; auto. lia.
    + destruct fin; [exact F1|]. apply bytes_app; auto.
    + destruct fin; rewrite ?app_length; lia.
  - destruct (hrep_checksum s key m fin) as [E R']; auto; try lia.
    destruct (hmac_checksum D s) as [s' dg]. cbn [fst snd] in *. subst dg. rewrite (IH s' key m true) by (auto; lia).
    rewrite <- app_assoc. reflexivity.
  - apply IH; auto; [|constructor|cbn [length]; lia]. apply (hrep_fresh s key m fin); auto. lia.
  - assert (Ri : I (hm_df s)) by apply R. destruct (gen_ok k (hm_df s) Ri F1) as [df' [Ri' E]]; [lia|]. unfold hmac_set_key. rewrite hb, E.
    apply IH; auto; [|constructor|cbn [length]; lia].
    unfold hmac_reset. rewrite hb. destruct (map_xor_ok 0x36 k ltac:(lia) F1 ltac:(lia)) as [L1 _].
    destruct (map_xor_ok 0x5c k ltac:(lia) F1 ltac:(lia)) as [L2 _].
    unfold hrep. cbn [hm_ki hm_ko hm_checked hm_df]. rewrite !firstn_all2 by (rewrite ?firstn_length; lia). rewrite app_nil_r.
    assert (Ri2 : I (d_reset D df')) by (destruct HG; auto). auto.
Qed.
Lemma hmac_correct key df os : I df -> bytes key -> Forall mop_bytes os ->
  Z.of_nat (B + length key + total_size os) < limit -> Z.of_nat (B + d_bits_len D / 8) < limit ->
  exists s, hmac_new D key df = Ok s /\ snd (fold_left hm_exec os (s, [])) = mac_run MAC key [] false os.
Proof.
  intros Hi Hk Fo HL HL2. unfold hmac_new. rewrite HB, (proj2 (Nat.ltb_ge _ _) HBl).
  destruct (gen_ok key df Hi Hk ltac:(lia)) as [df' [Hi' E]]. rewrite E. eexists. split; [reflexivity|].
  apply (hmac_history os _ key [] false []); auto; [|constructor|cbn [length]; lia].
  destruct (map_xor_ok 0x5c key ltac:(lia) Hk ltac:(lia)) as [L2 _].
  unfold hrep. cbn [hm_ki hm_ko hm_checked hm_df]. rewrite app_nil_r, firstn_all2 by lia. auto.
Qed.
End HmacP.
Lemma hmac_new_err {S} (D : digest S) key df :
  (exists s, hmac_new D key df = Ok s) <-> (exists b, d_block_size D = Some b /\ d_bits_len D / 8 <= b)%nat.
Proof.
  unfold hmac_new. destruct (d_block_size D) as [b|].
  - destruct (Nat.ltb_spec b (d_bits_len D / 8)).
    + split; [intros [s E]; discriminate E|]. intros (b' & E & L). injection E as <-. lia.
    + split; [eauto|]. intros _. destruct (generate_k0_io D key b df) as [[df' ki] ko]. eauto.
  - split; [intros [s E]; discriminate E|]. intros (b' & E & _). discriminate E.
Qed.
