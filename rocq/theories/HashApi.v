(** Hash objects against the standards' one-shot definitions. *)
From Verif Require Import Base Words HashModel HashSpec MdProofs WordW CompressProofs.

(** ** Digests that implement a hash function (used by HMAC, RSA and DSA) *)
Inductive GoodDigest {S} (D : digest S) (H : list Z -> list Z) (limit : Z) : Prop := mkGoodDigest :
  (forall s ws, Forall bytes ws -> Z.of_nat (length (concat ws)) < limit ->
     snd (d_checksum D (fold_left (d_write D) ws (d_reset D s))) = H (concat ws)) ->
  (forall s, d_checksum D (fst (d_checksum D s)) = d_checksum D s) ->
  (forall m, bytes m -> Z.of_nat (length m) < limit -> length (H m) = (d_bits_len D / 8)%nat /\ bytes (H m)) ->
  (forall s s', d_reset D s = d_reset D s') ->
  GoodDigest D H limit.

(** The same relative to an invariant [I] of the object's states. *)
Inductive DigestOk {S} (D : digest S) (I : S -> Prop) (H : list Z -> list Z) (limit : Z) : Prop := mkDigestOk :
  (forall s d, I s -> I (d_write D s d)) -> (forall s, I s -> I (fst (d_checksum D s))) -> (forall s, I s -> I (d_reset D s)) ->
  (forall s ws, I s -> Forall bytes ws -> Z.of_nat (length (concat ws)) < limit ->
     snd (d_checksum D (fold_left (d_write D) ws (d_reset D s))) = H (concat ws)) ->
  (forall s, I s -> d_checksum D (fst (d_checksum D s)) = d_checksum D s) ->
  (forall m, bytes m -> Z.of_nat (length m) < limit -> length (H m) = (d_bits_len D / 8)%nat /\ bytes (H m)) ->
  DigestOk D I H limit.
Lemma good_ok {S} (D : digest S) H limit : GoodDigest D H limit -> DigestOk D (fun _ => True) H limit.
Proof. intros [G1 G2 G3 G4]. constructor; auto. Qed.

Lemma flat_be_bytes k l : bytes (flat_map (be_bytes k) l) /\ length (flat_map (be_bytes k) l) = (length l * k)%nat.
Proof.
  induction l as [|x l [I1 I2]]; cbn [flat_map length]; [split; [constructor|reflexivity]|].
  split; [apply bytes_app; split; [apply be_bytes_bytes|exact I1]|]. rewrite app_length, be_bytes_length, I2. reflexivity.
Qed.
Lemma flat_le_bytes k l : bytes (flat_map (le_bytes k) l) /\ length (flat_map (le_bytes k) l) = (length l * k)%nat.
Proof.
  induction l as [|x l [I1 I2]]; cbn [flat_map length]; [split; [constructor|reflexivity]|].
  split; [apply bytes_app; split; [apply le_bytes_bytes|exact I1]|]. rewrite app_length, le_bytes_length, I2. reflexivity.
Qed.

Definition op_bytes (o : hop) : Prop := match o with HWrite d => bytes d | _ => True end.

Section Std.
Variables (B bits k n : nat) (w : Z) (ge : bool) (compress block : list Z -> list Z -> list Z).
Variables (pads : Z -> list (list Z)) (lenf : Z -> list Z) (zl : bool) (iv : list Z) (out : list Z -> list Z).
Hypothesis HB : (0 < B)%nat.
Hypothesis HBM : (Z.of_nat B | M64).
Hypothesis Hlen : forall L, length (lenf L) = length (lenf 0).
Hypothesis HlenB : (length (lenf 0) < B)%nat.
Hypothesis Hlb : forall L, bytes (lenf L).
Hypothesis HP : pads_ok B ge pads lenf.
Definition valid (H : list Z) : Prop := length H = n /\ Forall (ww w) H.
Hypothesis Hblock : forall H blk, valid H -> bytes blk -> length blk = B -> compress H blk = block H blk /\ valid (block H blk).
Hypothesis Hiv : valid iv.
Hypothesis Hout : forall H, valid H -> bytes (out H) /\ length (out H) = (n * k)%nat.
Hypothesis Hbits : (bits / 8 <= n * k)%nat.
Notation D := (md_digest B bits ge compress pads zl iv out).
Notation cut := (fun h => firstn (bits / 8) (out h)).
Definition H_of (m : list Z) : list Z := cut (iterate B block iv (pad_with B (lenf (Z.of_nat (length m))) m)).

Lemma pad_bytes L m : bytes m -> bytes (pad_with B (lenf L) m).
Proof using Hlb. clear - Hlb.
  intros Hm. unfold pad_with. repeat (apply bytes_app; split); auto.
  - repeat constructor; unfold byte; lia.
  - apply bytes_repeat. unfold byte; lia.
Qed.
Lemma iterate_ok h m L : valid h -> bytes m ->
  iterate B compress h (pad_with B (lenf L) m) = iterate B block h (pad_with B (lenf L) m) /\
  valid (iterate B block h (pad_with B (lenf L) m)).
Proof using HB Hlen HlenB Hlb Hblock. clear - HB Hlen HlenB Hlb Hblock.
  intros Hh Hm. unfold iterate.
  assert (M : (length (pad_with B (lenf L) m) mod B = 0)%nat) by (apply pad_mult; [exact HB|]; rewrite Hlen; exact HlenB).
  pose proof (chunks_lengths B _ ltac:(lia) M) as L1. pose proof (chunks_bytes B _ HB (pad_bytes L m Hm)) as L2.
  rewrite Forall_forall in L1, L2. apply fold_inv; auto.
Qed.
Lemma std_message s ws : Forall bytes ws -> Z.of_nat (length (concat ws)) < M64 ->
  snd (d_checksum D (fold_left (d_write D) ws (d_reset D s))) = H_of (concat ws).
Proof.
  intros Hws HL. rewrite (md_message B bits ge compress pads lenf zl iv out) by auto.
  rewrite (proj1 (iterate_ok iv _ _ Hiv (bytes_concat _ Hws))). reflexivity.
Qed.
Lemma H_of_length m : bytes m -> length (H_of m) = (bits / 8)%nat /\ bytes (H_of m).
Proof.
  intros Hm. unfold H_of. destruct (iterate_ok iv m (Z.of_nat (length m)) Hiv Hm) as [_ V]. destruct (Hout _ V) as [V1 V2].
  split; [rewrite firstn_length, V2; lia|apply bytes_firstn; exact V1].
Qed.
Lemma std_good : GoodDigest D H_of M64.
Proof.
  constructor.
  - exact std_message.
  - apply md_checksum_again.
  - intros m Hm _. cbn [d_bits_len md_digest]. apply H_of_length; auto.
  - reflexivity.
Qed.
(** The abstract object with the standard's block function. *)
Definition obj_ok (o : hobj) : Prop := valid (ob_h o) /\ bytes (ob_m o).
Lemma std_ob_run os : forall o outs, obj_ok o -> Forall op_bytes os ->
  fold_left (ob_step B compress lenf zl iv cut) os (o, outs) = fold_left (ob_step B block lenf zl iv cut) os (o, outs).
Proof.
  induction os as [|op os IH]; intros o outs [V1 V2] Fo; [reflexivity|]. inversion Fo as [|? ? F1 F2]; subst.
  cbn [fold_left]. destruct op as [d| |]; cbn [ob_step].
  - assert (E : ob_write B compress lenf zl o d = ob_write B block lenf zl o d).
    { unfold ob_write, ob_value, ob_padded. rewrite (proj1 (iterate_ok _ _ _ V1 V2)). reflexivity. }
    rewrite E. apply IH; auto. unfold ob_write. destruct (ob_fin o); split; cbn [ob_h ob_m]; auto.
    + unfold ob_value, ob_padded. apply iterate_ok; auto.
    + apply bytes_app; split; auto.
  - assert (E : ob_value B compress lenf o = ob_value B block lenf o).
    { unfold ob_value, ob_padded. rewrite (proj1 (iterate_ok _ _ _ V1 V2)). reflexivity. }
    rewrite E. apply IH; auto. split; auto.
  - apply IH; auto. split; [exact Hiv|apply Forall_nil].
Qed.
Lemma std_outs_length os : forall o outs, obj_ok o -> Forall op_bytes os -> Forall (fun d => length d = (bits / 8)%nat) outs ->
  Forall (fun d => length d = (bits / 8)%nat) (snd (fold_left (ob_step B block lenf zl iv cut) os (o, outs))).
Proof.
  induction os as [|op os IH]; intros o outs [V1 V2] Fo Fl; [exact Fl|]. inversion Fo as [|? ? F1 F2]; subst.
  cbn [fold_left]. destruct op as [d| |]; cbn [ob_step].
  - apply IH; auto. unfold ob_write. destruct (ob_fin o); split; cbn [ob_h ob_m]; auto.
    + unfold ob_value, ob_padded. apply iterate_ok; auto.
    + apply bytes_app; split; auto.
  - apply IH; auto; [split; auto|]. apply Forall_app. split; [exact Fl|]. constructor; [|constructor].
    unfold ob_value, ob_padded. destruct (iterate_ok _ _ (ob_count o) V1 V2) as [_ V]. destruct (Hout _ V) as [_ V3].
    rewrite firstn_length, V3. lia.
  - apply IH; auto. split; [exact Hiv|apply Forall_nil].
Qed.
Lemma std_history os : Forall op_bytes os ->
  snd (hrun D (md_init B iv) os) = ob_run B block lenf zl iv cut os /\
  Forall (fun d => length d = (bits / 8)%nat) (snd (hrun D (md_init B iv) os)).
Proof.
  intros Fo. rewrite (md_history B bits ge compress pads lenf zl iv out HB HBM HlenB HP). unfold ob_run.
  assert (O : obj_ok (mkObj iv [] 0 false)) by exact (conj Hiv (Forall_nil _)).
  rewrite std_ob_run by auto. split; [reflexivity|]. apply std_outs_length; auto.
Qed.
Lemma ob_writes blk ws : forall o outs, ob_fin o = false ->
  fold_left (ob_step B blk lenf zl iv cut) (map HWrite ws) (o, outs) = (mkObj (ob_h o) (ob_m o ++ concat ws) (ob_off o) false, outs).
Proof.
  induction ws as [|d ws IH]; intros o outs F; cbn [map fold_left concat].
  - rewrite app_nil_r. destruct o; cbn in *; subst; reflexivity.
  - cbn [ob_step]. unfold ob_write. rewrite F. rewrite IH by reflexivity. cbn [ob_h ob_m ob_off]. rewrite app_assoc. reflexivity.
Qed.
(** Two messages with a [checksum] between them and no [reset]. *)
Lemma std_two ws1 ws2 : Forall bytes ws1 -> Forall bytes ws2 -> ws2 <> [] ->
  let m1 := concat ws1 in let m2 := concat ws2 in
  let p1 := pad_with B (lenf (Z.of_nat (length m1))) m1 in
  let off := if zl then 0 else Z.of_nat (length p1) in
  Z.of_nat (length p1 + length m2) < M64 ->
  snd (hrun D (md_init B iv) (map HWrite ws1 ++ [HChecksum] ++ map HWrite ws2 ++ [HChecksum])) =
  [H_of m1; cut (iterate B block (iterate B block iv p1) (pad_with B (lenf (off + Z.of_nat (length m2))) m2))].
Proof.
  intros F1 F2 N. cbv zeta. intros HL.
  assert (L1 : Z.of_nat (length (concat ws1)) < M64).
  { eapply Z.le_lt_trans; [|exact HL]. unfold pad_with. rewrite !app_length. lia. }
  assert (FO : Forall op_bytes (map HWrite ws1 ++ [HChecksum] ++ map HWrite ws2 ++ [HChecksum])).
  { apply Forall_app. split; [apply Forall_map; exact F1|]. constructor; [exact I|]. apply Forall_app.
    split; [apply Forall_map; exact F2|]. constructor; [exact I|constructor]. }
  rewrite (proj1 (std_history _ FO)).
  unfold ob_run. rewrite !fold_left_app. rewrite ob_writes by reflexivity. cbn [ob_h ob_m ob_off app fold_left ob_step].
  destruct ws2 as [|d ws2]; [congruence|]. cbn [map fold_left ob_step]. unfold ob_write at 1. cbn [ob_fin ob_off].
  rewrite ob_writes by reflexivity. cbn [ob_h ob_m ob_off app fold_left ob_step snd concat].
  cbn [concat] in HL.
  unfold ob_value at 3. unfold ob_value, ob_padded, ob_count. cbn [ob_h ob_m ob_off]. rewrite Z.add_0_l.
  rewrite (Z.mod_small (Z.of_nat (length (concat ws1)))) by lia. rewrite !Z.mod_small.
  - unfold H_of. destruct zl; reflexivity.
  - destruct zl; rewrite ?Nat2Z.inj_add in HL; lia.
Qed.
(** When the counter survives, the second digest is that of the padded first message followed by the second. *)
Lemma std_two_ext ws1 ws2 : zl = false -> Forall bytes ws1 -> Forall bytes ws2 -> ws2 <> [] ->
  let m1 := concat ws1 in let m2 := concat ws2 in
  let p1 := pad_with B (lenf (Z.of_nat (length m1))) m1 in
  Z.of_nat (length p1 + length m2) < M64 ->
  snd (hrun D (md_init B iv) (map HWrite ws1 ++ [HChecksum] ++ map HWrite ws2 ++ [HChecksum])) = [H_of m1; H_of (p1 ++ m2)].
Proof.
  intros Zf F1 F2 N m1 m2 p1 HL. rewrite std_two by auto. rewrite Zf. fold m1. fold m2. fold p1. f_equal. f_equal.
  unfold H_of. rewrite app_length, Nat2Z.inj_add. f_equal. f_equal.
  assert (M : (length p1 mod B = 0)%nat) by (apply pad_mult; [exact HB|]; rewrite Hlen; exact HlenB).
  unfold pad_with at 2. rewrite <- app_assoc. unfold iterate. rewrite (chunks_app_mult B p1) by (auto; lia).
  rewrite fold_left_app. f_equal. f_equal. unfold pad_with. rewrite app_length.
  assert (E : forall lf, zeros B lf (length p1 + length m2) = zeros B lf (length m2)).
  { intros lf. unfold zeros. f_equal. rewrite Nat2Z.inj_add. apply Nat.mod_divides in M; [|lia]. destruct M as [q ->].
    rewrite Nat2Z.inj_mul. replace (Z.of_nat B - Z.of_nat lf - 1 - (Z.of_nat B * Z.of_nat q + Z.of_nat (length m2)))
      with (Z.of_nat B - Z.of_nat lf - 1 - Z.of_nat (length m2) + (- Z.of_nat q) * Z.of_nat B) by ring.
    apply Z_mod_plus_full. }
  rewrite E. reflexivity.
Qed.
End Std.

(** ** The nine fixed-length hashes *)
Lemma div64 : (Z.of_nat 64 | M64). Proof. exists (2 ^ 58). reflexivity. Qed.
Lemma div128 : (Z.of_nat 128 | M64). Proof. exists (2 ^ 57). reflexivity. Qed.
Lemma pads64 : pads_ok 64 false (sha_pads 64 8) (len_be 8). Proof. apply sha_pads_ok; lia. Qed.
Lemma pads128 : pads_ok 128 false (sha_pads 128 16) (len_be 16). Proof. apply sha_pads_ok; lia. Qed.
Lemma len_be_len lf L : length (len_be lf L) = length (len_be lf 0).
Proof. unfold len_be. rewrite !be_bytes_length. reflexivity. Qed.
Lemma len_le_len L : length (len_le L) = length (len_le 0).
Proof. unfold len_le. rewrite !le_bytes_length. reflexivity. Qed.
Lemma len_be_b lf L : bytes (len_be lf L). Proof. apply be_bytes_bytes. Qed.
Lemma len_le_b L : bytes (len_le L). Proof. apply le_bytes_bytes. Qed.
Lemma out_be_ok n w k H : valid n w H -> bytes (out_be k H) /\ length (out_be k H) = (n * k)%nat.
Proof. intros [V _]. unfold out_be. destruct (flat_be_bytes k H) as [A E]. rewrite E, V. auto. Qed.
Lemma out_le_ok n w H : valid n w H -> bytes (out_le H) /\ length (out_le H) = (n * 4)%nat.
Proof. intros [V _]. unfold out_le. destruct (flat_le_bytes 4 H) as [A E]. rewrite E, V. auto. Qed.
Definition vblock n w B (c b : list Z -> list Z -> list Z) : Prop :=
  forall H blk, valid n w H -> bytes blk -> length blk = B -> c H blk = b H blk /\ valid n w (b H blk).
Lemma md5_vb : vblock 4 32 64 md5_compress MD5_block.
Proof. intros H blk [V1 V2] Hb Hl. apply md5_block_ok; auto. Qed.
Lemma sha1_vb : vblock 5 32 64 sha1_compress SHA1_block.
Proof. intros H blk [V1 V2] Hb Hl. apply sha1_block_ok; auto. Qed.
Lemma sha256_vb : vblock 8 32 64 sha256_compress (SHA2_block P256).
Proof. intros H blk [V1 V2] Hb Hl. apply sha256_block_ok; auto. Qed.
Lemma sha512_vb : vblock 8 64 128 sha512_compress (SHA2_block P512).
Proof. intros H blk [V1 V2] Hb Hl. apply sha512_block_ok; auto. Qed.
Lemma sm3_vb : vblock 8 32 64 sm3_compress SM3_block.
Proof. intros H blk [V1 V2] Hb Hl. apply sm3_block_ok; auto. Qed.

Ltac viv := split; [reflexivity|apply Forall_forall; intros x Hx; cbn in Hx; repeat (destruct Hx as [<-|Hx]; [split; [discriminate|reflexivity]|]); destruct Hx].
Lemma md5_iv : valid 4 32 MD5_INIT. Proof. viv. Qed.
Lemma sha1_iv : valid 5 32 SHA1_INIT. Proof. viv. Qed.
Lemma sha256_iv : valid 8 32 SHA256_INIT. Proof. viv. Qed.
Lemma sha224_iv : valid 8 32 SHA224_INIT. Proof. viv. Qed.
Lemma sha512_iv : valid 8 64 SHA512_INIT. Proof. viv. Qed.
Lemma sha384_iv : valid 8 64 SHA512_384INIT. Proof. viv. Qed.
Lemma sha512_256_iv : valid 8 64 SHA512_256INIT. Proof. viv. Qed.
Lemma sha512_224_iv : valid 8 64 SHA512_224INIT. Proof. viv. Qed.
Lemma sm3_iv : valid 8 32 SM3_IV. Proof. viv. Qed.


(** ** What holds of each of them *)
Inductive HashFacts (D : digest mdst) (s0 : mdst) (h : merkle) (zl : bool) : Prop := mkHashFacts :
  GoodDigest D (mk_hash h) M64 -> (forall s, d_reset D s = s0) ->
  (forall os, Forall op_bytes os -> Forall (fun d => length d = (d_bits_len D / 8)%nat) (snd (hrun D s0 os))) ->
  (forall os, Forall op_bytes os -> snd (hrun D s0 os) = ob_run (mk_B h) (mk_block h) (mk_len h) zl (mk_iv h) (mk_out h) os) ->
  (forall ws1 ws2, Forall bytes ws1 -> Forall bytes ws2 -> ws2 <> [] ->
     let m1 := concat ws1 in let m2 := concat ws2 in
     let n1 := Z.of_nat (length m1) in let n2 := Z.of_nat (length m2) in
     let p1 := mk_pad h n1 m1 in
     Z.of_nat (length p1) + n2 < M64 ->
     snd (hrun D s0 (map HWrite ws1 ++ [HChecksum] ++ map HWrite ws2 ++ [HChecksum])) =
     [mk_hash h m1; if zl then mk_out h (mk_chain h (mk_chain h (mk_iv h) n1 m1) n2 m2) else mk_hash h (p1 ++ m2)]) ->
  HashFacts D s0 h zl.

Lemma facts_of B bits k n w ge compress pads zl out h :
  (0 < B)%nat -> (Z.of_nat B | M64) -> mk_B h = B ->
  (forall L, length (mk_len h L) = length (mk_len h 0)) -> (length (mk_len h 0) < B)%nat -> (forall L, bytes (mk_len h L)) ->
  pads_ok B ge pads (mk_len h) -> vblock n w B compress (mk_block h) -> valid n w (mk_iv h) ->
  (forall H, valid n w H -> bytes (out H) /\ length (out H) = (n * k)%nat) -> (bits / 8 <= n * k)%nat ->
  (forall H, valid n w H -> mk_out h H = firstn (bits / 8) (out H)) ->
  HashFacts (md_digest B bits ge compress pads zl (mk_iv h) out) (md_init B (mk_iv h)) h zl.
Proof.
  intros HB HBM EB Hlen HlenB Hlb HP Hvb Hiv Hout Hbits Hcut.
  assert (E : forall m, bytes m -> H_of B bits (mk_block h) (mk_len h) (mk_iv h) out m = mk_hash h m).
  { intros m Hm. unfold H_of, mk_hash, mk_chain, mk_pad. rewrite EB.
    destruct (iterate_ok B n w compress (mk_block h) (mk_len h) HB Hlen HlenB Hlb Hvb (mk_iv h) m (Z.of_nat (length m)) Hiv Hm) as [_ V].
    rewrite (Hcut _ V). reflexivity. }
  pose proof (std_good B bits k n w ge compress (mk_block h) pads (mk_len h) zl (mk_iv h) out HB HBM Hlen HlenB Hlb HP Hvb Hiv Hout Hbits) as [G1 G2 G3 G4].
  pose proof (std_history B bits k n w ge compress (mk_block h) pads (mk_len h) zl (mk_iv h) out HB HBM Hlen HlenB Hlb HP Hvb Hiv Hout Hbits) as SH.
  constructor.
  - constructor; auto.
    + intros s ws Hws HL. rewrite G1, E by auto using bytes_concat. reflexivity.
    + intros m Hm HL. rewrite <- E by auto. apply G3; auto.
  - reflexivity.
  - intros os Hos. apply SH; auto.
  - intros os Hos. rewrite (proj1 (SH os Hos)). rewrite EB.
    assert (Q : forall os o outs, obj_ok n w o -> Forall op_bytes os ->
       fold_left (ob_step B (mk_block h) (mk_len h) zl (mk_iv h) (fun h0 => firstn (bits / 8) (out h0))) os (o, outs) =
       fold_left (ob_step B (mk_block h) (mk_len h) zl (mk_iv h) (mk_out h)) os (o, outs)).
    { clear os Hos. induction os as [|op os IH]; intros o outs [V1 V2] Fo; [reflexivity|]. inversion Fo as [|? ? F1 F2]; subst.
      assert (V : valid n w (ob_value (mk_B h) (mk_block h) (mk_len h) o)).
      { unfold ob_value, ob_padded. apply (iterate_ok (mk_B h) n w compress); auto. }
      cbn [fold_left]. destruct op as [d| |]; cbn [ob_step].
      - apply IH; auto. unfold ob_write. destruct (ob_fin o); split; cbn [ob_h ob_m]; auto. apply bytes_app; auto.
      - rewrite (Hcut _ V). apply IH; auto. split; auto.
      - apply IH; auto. split; [exact Hiv|apply Forall_nil]. }
    unfold ob_run. rewrite Q; auto. split; [exact Hiv|apply Forall_nil].
  - intros ws1 ws2 F1 F2 N. cbv zeta. unfold mk_pad. rewrite EB. intros HL. rewrite <- Nat2Z.inj_add in HL.
    pose proof (bytes_concat _ F1) as Bm1. pose proof (bytes_concat _ F2) as Bm2.
    destruct zl.
    + rewrite (std_two B bits k n w ge compress (mk_block h) pads (mk_len h) true (mk_iv h) out) by auto.
      rewrite E by auto. f_equal. f_equal. unfold mk_chain, mk_pad. rewrite EB, Z.add_0_l.
      symmetry. apply Hcut. apply (iterate_ok B n w compress); auto. apply (iterate_ok B n w compress); auto.
    + rewrite (std_two_ext B bits k n w ge compress (mk_block h) pads (mk_len h) false (mk_iv h) out) by auto.
      rewrite !E; auto. apply bytes_app. split; [|auto]. apply pad_bytes; auto.
Qed.
Lemma facts_of_iv B bits k n w ge compress pads zl out h iv :
  mk_iv h = iv -> valid n w iv ->
  (0 < B)%nat -> (Z.of_nat B | M64) -> mk_B h = B ->
  (forall L, length (mk_len h L) = length (mk_len h 0)) -> (length (mk_len h 0) < B)%nat -> (forall L, bytes (mk_len h L)) ->
  pads_ok B ge pads (mk_len h) -> vblock n w B compress (mk_block h) ->
  (forall H, valid n w H -> bytes (out H) /\ length (out H) = (n * k)%nat) -> (bits / 8 <= n * k)%nat ->
  (forall H, valid n w H -> mk_out h H = firstn (bits / 8) (out H)) ->
  HashFacts (md_digest B bits ge compress pads zl iv out) (md_init B iv) h zl.
Proof. intros <-. intros. apply (facts_of B bits k n w); auto. Qed.
Lemma out_all bits n w k H : (bits / 8 = n * k)%nat -> valid n w H -> flat_map (be_bytes k) H = firstn (bits / 8) (out_be k H).
Proof.
  intros Eb [V _]. unfold out_be. symmetry. apply firstn_all2. rewrite (proj2 (flat_be_bytes k H)), V. lia.
Qed.
Lemma iv_256 : SHA256_H0 = SHA256_INIT. Proof. vm_compute. reflexivity. Qed.
Lemma iv_224 : SHA224_H0 = SHA224_INIT. Proof. vm_compute. reflexivity. Qed.
Lemma iv_512 : SHA512_H0 = SHA512_INIT. Proof. vm_compute. reflexivity. Qed.
Lemma iv_384 : SHA384_H0 = SHA512_384INIT. Proof. vm_compute. reflexivity. Qed.
Lemma iv_512_256 : SHA512t_H0 256 = SHA512_256INIT. Proof. vm_compute. reflexivity. Qed.
Lemma iv_512_224 : SHA512t_H0 224 = SHA512_224INIT. Proof. vm_compute. reflexivity. Qed.

Lemma md5_facts : HashFacts MD5 md5_init MD5_std true.
Proof.
  apply (facts_of 64 128 4 4 32 true md5_compress md5_pads true out_le MD5_std); cbn [MD5_std mk_B mk_len mk_iv mk_block mk_out];
    auto using len_le_len, len_le_b, md5_vb, md5_iv, div64, md5_pads_ok; try lia.
  - unfold len_le. rewrite le_bytes_length. lia.
  - intros H V. apply (out_le_ok 4 32); auto.
  - intros H [V _]. symmetry. apply firstn_all2. rewrite (proj2 (flat_le_bytes 4 H)), V. cbn. lia.
Qed.
Lemma len_be_lt lf B : (lf < B)%nat -> (length (len_be lf 0) < B)%nat.
Proof. unfold len_be. rewrite be_bytes_length. auto. Qed.
Ltac fin_facts vb iv :=
  cbn [SHA1_std SHA256_std SHA224_std SHA512_std SHA384_std SHA512t_std SM3_std mk_B mk_len mk_iv mk_block mk_out];
  first [ lia | (apply len_be_lt; lia) | apply div64 | apply div128 | reflexivity | apply len_be_len | apply len_be_b | apply pads64 | apply pads128
        | apply vb | apply iv | (intros H V; eapply out_be_ok; exact V) | (cbn; lia)
        | (intros H V; eapply out_all; [|exact V]; reflexivity) ].
Lemma sha1_facts : HashFacts SHA1 sha1_init SHA1_std true.
Proof.
  apply (facts_of 64 160 4 5 32 false sha1_compress (sha_pads 64 8) true (out_be 4) SHA1_std); fin_facts sha1_vb sha1_iv.
Qed.
Lemma sha256_facts : HashFacts SHA256 sha256_init SHA256_std true.
Proof.
  unfold SHA256, sha256_init.
  apply (facts_of_iv 64 256 4 8 32 false sha256_compress (sha_pads 64 8) true (out_be 4) SHA256_std SHA256_INIT); [cbn [SHA256_std mk_iv]; exact iv_256|exact sha256_iv|..]; fin_facts sha256_vb sha256_iv.
Qed.
Lemma sha224_facts : HashFacts SHA224 sha224_init SHA224_std true.
Proof.
  unfold SHA224, sha224_init.
  apply (facts_of_iv 64 224 4 8 32 false sha256_compress (sha_pads 64 8) true (out_be 4) SHA224_std SHA224_INIT); [cbn [SHA224_std mk_iv]; exact iv_224|exact sha224_iv|..]; fin_facts sha256_vb sha224_iv.
Qed.
Lemma sha512_facts : HashFacts SHA512 sha512_init SHA512_std false.
Proof.
  unfold SHA512, sha512_init.
  apply (facts_of_iv 128 512 8 8 64 false sha512_compress (sha_pads 128 16) false (out_be 8) SHA512_std SHA512_INIT); [cbn [SHA512_std mk_iv]; exact iv_512|exact sha512_iv|..]; fin_facts sha512_vb sha512_iv.
Qed.
Lemma sha384_facts : HashFacts SHA384 sha384_init SHA384_std false.
Proof.
  unfold SHA384, sha384_init.
  apply (facts_of_iv 128 384 8 8 64 false sha512_compress (sha_pads 128 16) false (out_be 8) SHA384_std SHA512_384INIT); [cbn [SHA384_std mk_iv]; exact iv_384|exact sha384_iv|..]; fin_facts sha512_vb sha384_iv.
Qed.
Lemma sha512t256_facts : HashFacts SHA512T256 sha512t256_init (SHA512t_std 256) false.
Proof.
  unfold SHA512T256, sha512t256_init.
  apply (facts_of_iv 128 256 8 8 64 false sha512_compress (sha_pads 128 16) false (out_be 8) (SHA512t_std 256) SHA512_256INIT); [cbn [SHA512t_std mk_iv]; exact iv_512_256|exact sha512_256_iv|..]; fin_facts sha512_vb sha512_256_iv.
Qed.
Lemma sha512t224_facts : HashFacts SHA512T224 sha512t224_init (SHA512t_std 224) false.
Proof.
  unfold SHA512T224, sha512t224_init.
  apply (facts_of_iv 128 224 8 8 64 false sha512_compress (sha_pads 128 16) false (out_be 8) (SHA512t_std 224) SHA512_224INIT); [cbn [SHA512t_std mk_iv]; exact iv_512_224|exact sha512_224_iv|..]; fin_facts sha512_vb sha512_224_iv.
Qed.
Lemma sm3_facts : HashFacts SM3 sm3_init SM3_std true.
Proof.
  apply (facts_of 64 256 4 8 32 false sm3_compress (sha_pads 64 8) true (out_be 4) SM3_std); fin_facts sm3_vb sm3_iv.
Qed.

(** ** Histories *)
Lemma hexec_acc {S} (D : digest S) os : forall s outs,
  fold_left (hexec D) os (s, outs) = (fst (fold_left (hexec D) os (s, [])), outs ++ snd (fold_left (hexec D) os (s, []))).
Proof.
  induction os as [|o os IH]; intros s outs; cbn [fold_left]; [cbn [fst snd]; rewrite app_nil_r; reflexivity|].
  destruct o as [d| |]; cbn [hexec].
  - apply IH.
  - destruct (d_checksum D s) as [s' dg]. rewrite IH, (IH s' ([] ++ [dg])). cbn [fst snd]. rewrite <- app_assoc. reflexivity.
  - apply IH.
Qed.
Lemma hrun_app {S} (D : digest S) s os1 os2 :
  snd (hrun D s (os1 ++ os2)) = snd (hrun D s os1) ++ snd (hrun D (fst (hrun D s os1)) os2).
Proof.
  unfold hrun. rewrite fold_left_app. destruct (fold_left (hexec D) os1 (s, [])) as [s1 o1]. rewrite hexec_acc. reflexivity.
Qed.
Lemma hrun_repeat {S} (D : digest S) n : (forall s, d_checksum D (fst (d_checksum D s)) = d_checksum D s) -> forall s,
  snd (hrun D s (repeat HChecksum n)) = repeat (snd (d_checksum D s)) n.
Proof.
  intros H. induction n as [|n IH]; intros s; [reflexivity|]. change (repeat HChecksum (Datatypes.S n)) with ([HChecksum] ++ repeat HChecksum n).
  rewrite hrun_app. destruct (d_checksum D s) as [s' dg] eqn:E.
  assert (E1 : hrun D s [HChecksum] = (s', [dg])) by (unfold hrun; cbn [fold_left hexec]; rewrite E; reflexivity).
  rewrite E1. cbn [fst snd app repeat].
  rewrite IH. specialize (H s). rewrite E in H. cbn [fst] in H. rewrite H. reflexivity.
Qed.
Lemma facts_repeat D s0 h zl : HashFacts D s0 h zl -> forall os n, Forall op_bytes os ->
  exists d, length d = (d_bits_len D / 8)%nat /\
    snd (hrun D s0 (os ++ repeat HChecksum (S n))) = snd (hrun D s0 os) ++ repeat d (S n).
Proof.
  intros [G R FL FH _] os n Fo. destruct G as [_ G2 _ _].
  exists (snd (d_checksum D (fst (hrun D s0 os)))). split.
  - specialize (FL (os ++ [HChecksum])). rewrite hrun_app in FL. unfold hrun in FL at 2. cbn [fold_left hexec] in FL.
    destruct (d_checksum D (fst (hrun D s0 os))) as [s' dg]. cbn [snd app] in *.
    assert (F2 : Forall op_bytes (os ++ [HChecksum])) by (apply Forall_app; split; [exact Fo|repeat constructor]).
    specialize (FL F2). apply Forall_app in FL. destruct FL as [_ FL]. inversion FL; auto.
  - rewrite hrun_app, hrun_repeat by auto. reflexivity.
Qed.
Lemma facts_reset D s0 h zl : HashFacts D s0 h zl -> forall os os',
  snd (hrun D s0 (os ++ [HReset] ++ os')) = snd (hrun D s0 os) ++ snd (hrun D s0 os').
Proof.
  intros [_ R _ _ _] os os'. rewrite hrun_app. f_equal. cbn [app].
  generalize (fst (hrun D s0 os)). intros s. unfold hrun. cbn [fold_left hexec]. rewrite R. reflexivity.
Qed.
Lemma facts_new D s0 h zl : HashFacts D s0 h zl -> forall ws, Forall bytes ws -> Z.of_nat (length (concat ws)) < M64 ->
  snd (d_checksum D (fold_left (d_write D) ws s0)) = mk_hash h (concat ws).
Proof. intros [G R _ _ _] ws Fw HL. destruct G as [G _ _ _]. rewrite <- (R s0). apply G; auto. Qed.

(** ** SHA-512/t *)
Lemma dec_digits_spec t : dec_digits t = dec3 t.
Proof. unfold dec_digits, dec3. cbn [map]. destruct (t <? 10)%nat; [reflexivity|]. destruct (t <? 100)%nat; reflexivity. Qed.
Lemma name_ok t : sha512t_name t = SHA512t_name t /\ bytes (SHA512t_name t) /\ (length (SHA512t_name t) <= 11)%nat.
Proof.
  unfold sha512t_name, SHA512t_name. rewrite dec_digits_spec. split; [reflexivity|].
  assert (Q : forall k, byte (Z.of_nat (48 + (t / k) mod 10))).
  { intros k. unfold byte. pose proof (Nat.mod_upper_bound (t / k) 10 ltac:(lia)). lia. }
  unfold dec3. cbn [map]. destruct (t <? 10)%nat; [|destruct (t <? 100)%nat]; cbn [skipn app length]; (split; [|lia]);
    repeat (constructor; [first [apply Q | unfold byte; lia]|]); constructor.
Qed.
Definition t_iv : list Z := map (fun e => Z.lxor e 0xa5a5a5a5a5a5a5a5) SHA512_INIT.
Lemma t_iv_ok : t_iv = map (Z.lxor 0xa5a5a5a5a5a5a5a5) SHA512_H0.
Proof. vm_compute. reflexivity. Qed.
Lemma t_iv_valid : valid 8 64 t_iv.
Proof. viv. Qed.
Notation rep512 := (rep 128 false sha512_compress (len_be 16) false).
Lemma h512 : (length (len_be 16 0) < 128)%nat. Proof. unfold len_be. rewrite be_bytes_length. lia. Qed.
Lemma pad128 t : length (pad_with 128 (len_be 16 (Z.of_nat (length (SHA512t_name t)))) (SHA512t_name t)) = 128%nat.
Proof.
  destruct (name_ok t) as (_ & _ & L). unfold pad_with. rewrite !app_length, repeat_length. unfold len_be at 2.
  rewrite be_bytes_length. cbn [length]. unfold zeros, len_be. rewrite be_bytes_length.
  change (Z.of_nat 128 - Z.of_nat 16 - 1) with 111. rewrite Z.mod_small by lia. lia.
Qed.
Lemma sha512t_state t : (t <= 512)%nat -> exists s, sha512t_new t = Some s /\ rep512 s (mkObj (SHA512t_H0 t) [] 128 false).
Proof.
  intros Ht. unfold sha512t_new. rewrite (proj2 (Nat.leb_le t 512) Ht). cbv zeta. eexists. split; [reflexivity|].
  fold t_iv.
  pose proof (rep_init 128 false sha512_compress (len_be 16) false t_iv (out_be 8) ltac:(lia) h512) as R0.
  pose proof (rep_write 128 512 false sha512_compress (sha_pads 128 16) (len_be 16) false SHA512_INIT (out_be 8) ltac:(lia) h512 pads128 _ _ (sha512t_name t) R0) as R1.
  pose proof (rep_finish 128 false sha512_compress (sha_pads 128 16) (len_be 16) false SHA512_INIT (out_be 8) ltac:(lia) div128 h512 pads128 _ _ R1) as [R2 V].
  cbv zeta in R2, V.
  unfold SHA512. cbn [d_write d_checksum md_digest fst] in *.
  set (s2 := md_finish 128 false sha512_compress (sha_pads 128 16) false (md_write 128 false sha512_compress (md_init 128 t_iv) (sha512t_name t))) in *.
  assert (VV : ob_value 128 sha512_compress (len_be 16) (mkObj t_iv (sha512t_name t) 0 false) = SHA512t_H0 t).
  { unfold ob_value, ob_padded, ob_count. cbn [ob_h ob_m ob_off]. destruct (name_ok t) as (-> & Bn & Ln).
    rewrite Z.add_0_l, Z.mod_small by (unfold M64; lia).
    rewrite (proj1 (iterate_ok 128 8 64 sha512_compress (SHA2_block P512) (len_be 16) ltac:(lia) (len_be_len 16) h512 (len_be_b 16) sha512_vb t_iv _ _ t_iv_valid Bn)).
    rewrite t_iv_ok. reflexivity. }
  destruct R2 as (Q1 & Q2 & Q3 & Q4 & Q5 & Q6 & Q7 & Q8 & Q9).
  unfold rep. cbn [md_len md_h md_idx md_buf md_checked ob_fin ob_off ob_h ob_m].
  split; [exact Q1|]. split; [intros G; discriminate G|]. split; [reflexivity|]. split; [reflexivity|]. split.
  - apply (holds_empty 128 sha512_compress (len_be 16) (out_be 8) ltac:(lia) h512); [exact Q5|exact Q7|]. cbn [md_h]. rewrite V. exact VV.
  - rewrite Q8. unfold ob_padded, ob_count, ob_write. cbn [ob_fin ob_h ob_m ob_off app].
    destruct (name_ok t) as (-> & Bn & Ln). rewrite Z.add_0_l, (Z.mod_small (Z.of_nat (length (SHA512t_name t)))) by (unfold M64; lia).
    rewrite pad128. reflexivity.
Qed.
Lemma sha512t_none t : (512 < t)%nat -> sha512t_new t = None.
Proof. intros H. unfold sha512t_new. rewrite (proj2 (Nat.leb_gt t 512)) by lia. reflexivity. Qed.
Lemma H0_valid t : valid 8 64 (SHA512t_H0 t).
Proof.
  unfold SHA512t_H0. rewrite <- t_iv_ok. destruct (name_ok t) as (_ & Bn & _).
  exact (proj2 (iterate_ok 128 8 64 sha512_compress (SHA2_block P512) (len_be 16) ltac:(lia) (len_be_len 16) h512 (len_be_b 16) sha512_vb t_iv _ _ t_iv_valid Bn)).
Qed.
Lemma sha512t_value t ws : (t <= 512)%nat -> Forall bytes ws -> Z.of_nat (length (concat ws)) + 128 < M64 ->
  exists s, sha512t_new t = Some s /\ (forall s', d_reset (SHA512T t) s' = s) /\
    snd (d_checksum (SHA512T t) (fold_left (d_write (SHA512T t)) ws s)) =
    sha512t_cut t (flat_map (be_bytes 8) (mk_chain (SHA512t_std t) (SHA512t_H0 t) (Z.of_nat (length (concat ws)) + 128) (concat ws))).
Proof.
  intros Ht Fw HL. destruct (sha512t_state t Ht) as (s & E & R). exists s. split; [exact E|].
  split; [intros s'; cbn [d_reset SHA512T]; rewrite E; reflexivity|].
  assert (G : forall ws s m, rep512 s (mkObj (SHA512t_H0 t) m 128 false) -> rep512 (fold_left (d_write SHA512) ws s) (mkObj (SHA512t_H0 t) (m ++ concat ws) 128 false)).
  { clear. intros ws. induction ws as [|d ws IH]; intros s m R; cbn [fold_left concat]; [rewrite app_nil_r; exact R|].
    rewrite app_assoc. apply IH.
    exact (rep_write 128 512 false sha512_compress (sha_pads 128 16) (len_be 16) false SHA512_INIT (out_be 8) ltac:(lia) h512 pads128 _ _ d R). }
  specialize (G ws s [] R). cbn [app] in G.
  destruct (rep_finish 128 false sha512_compress (sha_pads 128 16) (len_be 16) false SHA512_INIT (out_be 8) ltac:(lia) div128 h512 pads128 _ _ G) as [_ F].
  cbn [d_checksum d_write SHA512T]. unfold SHA512 at 1. cbn [d_checksum md_digest snd]. cbv zeta in F. rewrite F.
  unfold ob_value, ob_padded, ob_count. cbn [ob_h ob_m ob_off].
  rewrite Z.mod_small by lia. rewrite (Z.add_comm 128).
  destruct (iterate_ok 128 8 64 sha512_compress (SHA2_block P512) (len_be 16) ltac:(lia) (len_be_len 16) h512 (len_be_b 16) sha512_vb
     (SHA512t_H0 t) (concat ws) (Z.of_nat (length (concat ws)) + 128) (H0_valid t) (bytes_concat _ Fw)) as [-> V].
  rewrite <- (out_all 512 8 64 8 _ eq_refl V). reflexivity.
Qed.
Lemma sha512t_cut8 t dg : (t mod 8 = 0)%nat -> sha512t_cut t dg = firstn (t / 8) dg.
Proof.
  intros H. unfold sha512t_cut. rewrite H. change (0 <? Z.of_nat 0) with false. cbv iota.
  assert (E : ((t + 7) / 8 = t / 8)%nat).
  { pose proof (Nat.div_mod t 8 ltac:(lia)) as Q. rewrite H in Q. symmetry. apply Nat.div_unique with 7%nat; lia. }
  rewrite E. destruct (rev (firstn (t / 8) dg)) as [|x r] eqn:R.
  - rewrite <- (rev_involutive (firstn (t / 8) dg)), R. reflexivity.
  - rewrite <- (rev_involutive (firstn (t / 8) dg)), R. reflexivity.
Qed.
