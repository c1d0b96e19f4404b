(** The block functions equal those of the standards. *)
From Verif Require Import Base Words HashModel HashSpec WordW.

Ltac wwt := repeat first [ assumption | apply ww_XOR3 | apply ww_lxor | apply ww_ADD | apply ww_land | apply ww_lor | apply ww_NOT
   | apply ww_ROTL | apply ww_ROTR | apply ww_SHR | apply ww_Ch | apply ww_Maj | lia ].

(** ** SHA-2 *)
Section Sha2P.
Variables (P : sha2_params) (add : Z -> Z -> Z) (notw : Z -> Z) (s0 s1 d0 d1 : Z -> Z) (K : list Z) (wlen : nat).
Notation w := (s2_w P).
Hypothesis Hw : 0 <= w.
Hypothesis Hwl : (0 < wlen)%nat /\ 8 * Z.of_nat wlen = w /\ Z.to_nat (w / 8) = wlen.
Hypothesis Hrounds : (16 <= s2_rounds P)%nat.
Hypothesis Hadd : forall a b, add a b = ADD w a b.
Hypothesis Hnot : forall a, notw a = NOT w a.
Hypothesis HS0 : forall x, ww w x -> s0 x = BigSigma w (s2_S0 P) x /\ ww w (s0 x).
Hypothesis HS1 : forall x, ww w x -> s1 x = BigSigma w (s2_S1 P) x /\ ww w (s1 x).
Hypothesis Hs0 : forall x, ww w x -> d0 x = SmallSigma w (s2_s0 P) x /\ ww w (d0 x).
Hypothesis Hs1 : forall x, ww w x -> d1 x = SmallSigma w (s2_s1 P) x /\ ww w (d1 x).
Hypothesis HK : K = SHA2_K P.

Definition good8 (st : Z * Z * Z * Z * Z * Z * Z * Z) : Prop :=
  let '(a, b, c, d, e, f, g, h) := st in
  ww w a /\ ww w b /\ ww w c /\ ww w d /\ ww w e /\ ww w f /\ ww w g /\ ww w h.

Lemma sha2_words_spec blk : bytes blk -> length blk = (16 * wlen)%nat ->
  sha2_words add d0 d1 (s2_rounds P) wlen blk =
  extend (SHA2_next P) (s2_rounds P - 16) (map be_val (chunks (Z.to_nat (w / 8)) blk)) /\
  Forall (ww w) (sha2_words add d0 d1 (s2_rounds P) wlen blk).
Proof.
  intros Hb Hl. destruct Hwl as (Hp & E8 & ->). unfold sha2_words, be_words.
  assert (M : (length blk mod wlen = 0)%nat) by (rewrite Hl; apply Nat.mod_mul; lia).
  pose proof (chunks_be_ww wlen blk Hp Hb M) as F. rewrite E8 in F.
  assert (L : length (map be_val (chunks wlen blk)) = 16%nat).
  { rewrite map_length, chunks_count by auto. rewrite Hl. apply Nat.div_mul. lia. }
  set (W := map be_val (chunks wlen blk)) in *.
  pose proof (extend_fill (ww w) (sha2_ext add d0 d1) (SHA2_next P)) as X. rewrite L in X || idtac.
  destruct (X) with (n := (s2_rounds P - 16)%nat) (W := W) as [X1 X2]; auto; [|lia|].
  2:{ rewrite L in X1. rewrite X1. auto. }
  clear X. intros V tl HV FV. split; [|apply ww_ADD; auto].
  unfold sha2_ext, SHA2_next. rewrite !nth_app_l by lia. f_equal.
  rewrite !Hadd. rewrite (proj1 (Hs1 _ (nth_ww w V _ Hw FV))), (proj1 (Hs0 _ (nth_ww w V _ Hw FV))). reflexivity.
Qed.
Lemma sha2_compress_spec H blk : length H = 8%nat -> Forall (ww w) H -> bytes blk -> length blk = (16 * wlen)%nat ->
  sha2_compress add notw s0 s1 d0 d1 K (s2_rounds P) wlen H blk = SHA2_block P H blk /\
  length (SHA2_block P H blk) = 8%nat /\ Forall (ww w) (SHA2_block P H blk).
Proof.
  intros LH FH Hb Hl.
  destruct H as [|h0 [|h1 [|h2 [|h3 [|h4 [|h5 [|h6 [|h7 [|? ?]]]]]]]]]; try discriminate LH.
  unfold sha2_compress, SHA2_block. cbn [nth]. rewrite <- HK.
  destruct (sha2_words_spec blk Hb Hl) as [E FW]. rewrite <- E. clear E.
  set (W := sha2_words add d0 d1 (s2_rounds P) wlen blk) in *.
  repeat match goal with H : Forall _ (_ :: _) |- _ => apply Forall_cons_iff in H; destruct H as [? H] end.
  destruct (fold_inv good8 (sha2_round add notw s0 s1 K W) (SHA2_step P K W) (seq 0 (s2_rounds P))) with
    (a := (h0, h1, h2, h3, h4, h5, h6, h7)) as [F G].
  - intros [[[[[[[a b] c] d] e] f] g] h] i (A1 & A2 & A3 & A4 & A5 & A6 & A7 & A8) _.
    unfold sha2_round, SHA2_step. split.
    + rewrite !Hadd. rewrite (proj1 (HS1 e A5)), (proj1 (HS0 a A1)). unfold f_ch, f_maj. rewrite Hnot, !xor3_assoc. reflexivity.
    + repeat split; try apply ww_ADD; auto; apply A1 || apply A2 || apply A3 || apply A5 || apply A6 || apply A7.
  - repeat split; auto; match goal with H : ww _ ?x |- _ <= ?x => apply H | H : ww _ ?x |- ?x < _ => apply H end.
  - rewrite F. destruct (fold_left (SHA2_step P K W) _ _) as [[[[[[[a b] c] d] e] f] g] h].
    rewrite !Hadd. split; [reflexivity|]. split; [reflexivity|]. repeat constructor; apply ww_ADD; auto.
Qed.
End Sha2P.

Lemma sha256_K_ok : SHA256_K = SHA2_K P256.
Proof. vm_compute. reflexivity. Qed.
Lemma sha512_K_ok : SHA512_K = SHA2_K P512.
Proof. vm_compute. reflexivity. Qed.
Lemma sha256_block_ok H blk : length H = 8%nat -> Forall (ww 32) H -> bytes blk -> length blk = 64%nat ->
  sha256_compress H blk = SHA2_block P256 H blk /\ length (SHA2_block P256 H blk) = 8%nat /\ Forall (ww 32) (SHA2_block P256 H blk).
Proof.
  intros. apply (sha2_compress_spec P256); try exact sha256_K_ok; cbn [s2_w s2_rounds P256]; auto; try lia.
  all: try (intros x Hx; cbn [s2_S0 s2_S1 s2_s0 s2_s1 P256]; unfold sha256_s0, sha256_s1, sha256_d0, sha256_d1, BigSigma, SmallSigma;
    rewrite !rotr32_ROTR by (auto; lia); rewrite ?Z.shiftr_div_pow2 by lia; rewrite xor3_assoc; split; [reflexivity|]; fold (SHR 3 x) (SHR 10 x); wwt).
Qed.
Lemma sha512_block_ok H blk : length H = 8%nat -> Forall (ww 64) H -> bytes blk -> length blk = 128%nat ->
  sha512_compress H blk = SHA2_block P512 H blk /\ length (SHA2_block P512 H blk) = 8%nat /\ Forall (ww 64) (SHA2_block P512 H blk).
Proof.
  intros. apply (sha2_compress_spec P512); try exact sha512_K_ok; cbn [s2_w s2_rounds P512]; auto; try lia.
  all: try (intros x Hx; cbn [s2_S0 s2_S1 s2_s0 s2_s1 P512]; unfold sha512_s0, sha512_s1, sha512_d0, sha512_d1, BigSigma, SmallSigma;
    rewrite !rotr64_ROTR by (auto; lia); rewrite ?Z.shiftr_div_pow2 by lia; rewrite xor3_assoc; split; [reflexivity|]; fold (SHR 7 x) (SHR 6 x); wwt).
Qed.

(** ** SHA-1 *)
Definition good5 (st : Z * Z * Z * Z * Z) : Prop :=
  let '(a, b, c, d, e) := st in ww 32 a /\ ww 32 b /\ ww 32 c /\ ww 32 d /\ ww 32 e.
Lemma sha1_K_ok : forall t, (t < 80)%nat -> nth (t / 20) SHA1_K 0 = SHA1_Kt t.
Proof.
  intros t Ht. assert (E : forallb (fun t => nth (t / 20) SHA1_K 0 =? SHA1_Kt t) (seq 0 80) = true) by (vm_compute; reflexivity).
  rewrite forallb_forall in E. apply Z.eqb_eq. apply E. apply in_seq. lia.
Qed.
Definition sha1_fm (t : nat) : Z -> Z -> Z -> Z :=
  if (t <? 20)%nat then f_ch not32 else if (t <? 40)%nat then f_parity else if (t <? 60)%nat then f_maj else f_parity.
Lemma sha1_round_spec W t st : (t < 80)%nat -> good5 st ->
  sha1_round (sha1_fm t) (nth (t / 20) SHA1_K 0) st (nth t W 0) = SHA1_step W st t /\ good5 (SHA1_step W st t).
Proof.
  destruct st as [[[[a b] c] d] e]. intros Ht (A & Bq & C & Dq & E). rewrite sha1_K_ok by auto.
  unfold sha1_round, SHA1_step. rewrite !rotl32_ROTL by (auto; lia).
  assert (F : sha1_fm t b c d = SHA1_f t b c d).
  { unfold sha1_fm, SHA1_f, f_ch, f_parity, f_maj.
    destruct (t <? 20)%nat; [reflexivity|]. destruct (t <? 40)%nat; [apply xor3_assoc|]. destruct (t <? 60)%nat; apply xor3_assoc. }
  rewrite F. split; [reflexivity|]. repeat split; wwt; first [apply A|apply C|apply Dq|idtac]; apply (ww_ROTL 32 30 b); auto; lia.
Qed.
(** The ring of 16 words holds the last 16 words of the schedule. *)
Definition ring_ok (W w : list Z) (t : nat) : Prop :=
  length w = 16%nat /\ forall i, (t - 16 <= i < t)%nat -> nth (i mod 16) w 0 = nth i W 0.
Lemma upd_length a i v : (i < length a)%nat -> length (upd a i v) = length a.
Proof. intros H. unfold upd. rewrite app_length, firstn_length. cbn [length]. rewrite skipn_length. lia. Qed.
Lemma upd_nth a i v j : (i < length a)%nat -> nth j (upd a i v) 0 = if (j =? i)%nat then v else nth j a 0.
Proof.
  intros H. unfold upd. assert (L : length (firstn i a) = i) by (rewrite firstn_length; lia).
  destruct (Nat.eqb_spec j i) as [->|N].
  - rewrite app_nth2, L, Nat.sub_diag by lia. reflexivity.
  - destruct (Nat.ltb_spec j i).
    + rewrite app_nth1 by lia. apply nth_firstn. lia.
    + rewrite app_nth2 by lia. rewrite L. destruct (j - i)%nat as [|k] eqn:E; [lia|]. cbn [nth].
      rewrite <- (firstn_skipn (S i) a) at 2. rewrite app_nth2; rewrite firstn_length; [|lia]. f_equal. lia.
Qed.
Lemma sha1_ring W0 w t : Forall (ww 32) (extend SHA1_next 64 W0) -> length W0 = 16%nat -> (16 <= t < 80)%nat ->
  ring_ok (extend SHA1_next 64 W0) w t ->
  exists w', sha1_extract w t = (w', nth t (extend SHA1_next 64 W0) 0) /\ ring_ok (extend SHA1_next 64 W0) w' (S t).
Proof.
  intros FW L0 Ht [Lw R]. set (W := extend SHA1_next 64 W0) in *. unfold sha1_extract.
  assert (E : forall k, (k < t)%nat -> (t - 16 <= k)%nat -> nth (k mod 16) w 0 = nth k W 0) by (intros; apply R; lia).
  assert (M : forall a b, (a + 16 = b)%nat -> (b mod 16 = a mod 16)%nat) by (intros a b <-; replace (a + 16)%nat with (a + 1 * 16)%nat by lia; apply Nat.mod_add; lia).
  cbv zeta. rewrite (M (t - 3) (t + 13))%nat, (M (t - 8) (t + 8))%nat, (M (t - 14) (t + 2))%nat, (M (t - 16) t)%nat by lia.
  rewrite !E by lia.
  assert (N : nth t W 0 = SHA1_next (firstn t W)) by (apply extend_rec; lia).
  assert (LW : length W = 80%nat) by (unfold W; rewrite extend_length; lia).
  unfold SHA1_next in N. rewrite firstn_length, LW, Nat.min_l in N by lia. rewrite !nth_firstn in N by lia.
  rewrite rotl32_ROTL by (try lia; wwt; apply nth_ww; auto; lia). rewrite xor3_assoc. unfold XOR3. rewrite <- Z.lxor_assoc.
  rewrite Z.lxor_assoc in N |- *. rewrite Z.lxor_assoc. rewrite <- N. eexists. split; [reflexivity|].
  assert (Hm : ((t - 16) mod 16 < length w)%nat) by (rewrite Lw; apply Nat.mod_upper_bound; lia).
  split; [rewrite upd_length; auto|]. intros i Hi. rewrite upd_nth by auto.
  destruct (Nat.eqb_spec (i mod 16) ((t - 16) mod 16)) as [Q|Q].
  - assert (i = t); [|subst; reflexivity]. rewrite <- (M (t - 16) t)%nat in Q by lia.
    pose proof (Nat.div_mod i 16 ltac:(lia)). pose proof (Nat.div_mod t 16 ltac:(lia)). nia.
  - apply R. destruct (Nat.eq_dec i t) as [->|]; [|lia]. exfalso. apply Q. apply M. lia.
Qed.
Lemma sha1_loop_spec W0 f k : Forall (ww 32) (extend SHA1_next 64 W0) -> length W0 = 16%nat ->
  let W := extend SHA1_next 64 W0 in
  forall n lo w st, (16 <= lo)%nat -> (lo + n <= 80)%nat ->
  (forall t, (lo <= t < lo + n)%nat -> f = sha1_fm t /\ k = nth (t / 20) SHA1_K 0) ->
  ring_ok W w lo -> good5 st ->
  exists w', sha1_loop f k lo n (w, st) = (w', fold_left (SHA1_step W) (seq lo n) st) /\ ring_ok W w' (lo + n) /\
             good5 (fold_left (SHA1_step W) (seq lo n) st).
Proof.
  intros FW L0 W. induction n as [|n IH]; intros lo w st H1 H2 H3 R G; unfold sha1_loop; cbn [seq fold_left].
  - exists w. rewrite Nat.add_0_r. auto.
  - destruct (sha1_ring W0 w lo FW L0 ltac:(lia) R) as (w' & E & R'). rewrite E.
    destruct (H3 lo ltac:(lia)) as [Ef Ek]. 
    destruct (sha1_round_spec W lo st ltac:(lia) G) as [S1 S2]. rewrite <- Ef, <- Ek in S1. fold W. rewrite S1.
    destruct (IH (S lo) w' (SHA1_step W st lo)) as (w2 & A & B2 & C); auto; try lia.
    { intros t Ht. apply H3. lia. }
    exists w2. unfold sha1_loop in A. rewrite A. split; [reflexivity|]. split; [|exact C].
    replace (lo + S n)%nat with (S lo + n)%nat by lia. exact B2.
Qed.
Lemma sha1_block_ok H blk : length H = 5%nat -> Forall (ww 32) H -> bytes blk -> length blk = 64%nat ->
  sha1_compress H blk = SHA1_block H blk /\ length (SHA1_block H blk) = 5%nat /\ Forall (ww 32) (SHA1_block H blk).
Proof.
  intros LH FH Hb Hl.
  destruct H as [|h0 [|h1 [|h2 [|h3 [|h4 [|? ?]]]]]]; try discriminate LH.
  unfold sha1_compress, SHA1_block. cbn [nth]. unfold be_words.
  assert (M : (length blk mod 4 = 0)%nat) by (rewrite Hl; reflexivity).
  pose proof (chunks_be_ww 4 blk ltac:(lia) Hb M) as F. change (8 * Z.of_nat 4) with 32 in F.
  assert (L : length (map be_val (chunks 4 blk)) = 16%nat) by (rewrite map_length, chunks_count by (auto; lia); rewrite Hl; reflexivity).
  set (W0 := map be_val (chunks 4 blk)) in *.
  destruct (extend_fill (ww 32) (fun w j => upd w j (SHA1_next (firstn j w))) SHA1_next) with (n := 64%nat) (W := W0) as [_ FW]; auto; [|lia|].
  { intros V tl HV FV. split; [rewrite firstn_app, Nat.sub_diag, firstn_all, firstn_O, app_nil_r; reflexivity|].
    unfold SHA1_next. apply ww_ROTL; [lia|]. wwt; apply nth_ww; auto; lia. }
  set (W := extend SHA1_next 64 W0) in *.
  repeat match goal with H : Forall _ (_ :: _) |- _ => apply Forall_cons_iff in H; destruct H as [? H] end.
  assert (G0 : good5 (h0, h1, h2, h3, h4)) by (repeat split; auto; match goal with H : ww _ ?x |- _ <= ?x => apply H | H : ww _ ?x |- ?x < _ => apply H end).
  assert (E0 : sha1_loop0 W0 (h0, h1, h2, h3, h4) = fold_left (SHA1_step W) (seq 0 16) (h0, h1, h2, h3, h4) /\
               good5 (fold_left (SHA1_step W) (seq 0 16) (h0, h1, h2, h3, h4))).
  { unfold sha1_loop0. apply fold_inv; auto. intros a i Ga Hi. apply in_seq in Hi.
    destruct (sha1_round_spec W i a ltac:(lia) Ga) as [S1 S2]. split; [|exact S2]. rewrite <- S1.
    unfold W. rewrite extend_nth_low by lia. unfold sha1_fm. rewrite (proj2 (Nat.ltb_lt i 20)) by lia.
    rewrite (Nat.div_small i 20) by lia. reflexivity. }
  destruct E0 as [-> G1].
  set (st1 := fold_left (SHA1_step W) (seq 0 16) (h0, h1, h2, h3, h4)) in *.
  assert (R0 : ring_ok W W0 16).
  { split; [exact L|]. intros i Hi. rewrite Nat.mod_small by lia. unfold W. rewrite extend_nth_low by lia. reflexivity. }
  pose proof (sha1_loop_spec W0) as LS. fold W in LS.
  assert (Q : forall f k lo n, (16 <= lo)%nat -> (lo + n <= 80)%nat -> forallb (fun t => (t / 20 =? lo / 20)%nat) (seq lo n) = true ->
      k = nth (lo / 20) SHA1_K 0 -> f = sha1_fm lo -> forall t, (lo <= t < lo + n)%nat -> f = sha1_fm t /\ k = nth (t / 20) SHA1_K 0).
  { intros f k lo n P1 P2 P3 -> -> t Ht. rewrite forallb_forall in P3. specialize (P3 t ltac:(apply in_seq; lia)). apply Nat.eqb_eq in P3.
    rewrite P3. split; [|reflexivity]. unfold sha1_fm.
    assert (X : forall m, (m = 20 \/ m = 40 \/ m = 60)%nat -> (lo <? m)%nat = (t <? m)%nat).
    { intros m Hm. pose proof (Nat.div_mod t 20 ltac:(lia)). pose proof (Nat.div_mod lo 20 ltac:(lia)).
      pose proof (Nat.mod_upper_bound t 20 ltac:(lia)). pose proof (Nat.mod_upper_bound lo 20 ltac:(lia)).
      destruct (Nat.ltb_spec lo m), (Nat.ltb_spec t m); auto; lia. }
    rewrite !X by auto. reflexivity. }
  unfold SHA1_K. cbn [nth].
  destruct (LS (f_ch not32) 0x5A827999 FW L 4%nat 16%nat W0 st1) as (w1 & E1 & R1 & G2); auto; try lia.
  { apply Q; try lia; reflexivity. }
  rewrite E1. set (st2 := fold_left (SHA1_step W) (seq 16 4) st1) in *.
  destruct (LS f_parity 0x6ED9EBA1 FW L 20%nat 20%nat w1 st2 ltac:(lia) ltac:(lia)) as (w2 & E2 & R2 & G3); [|exact R1|exact G2|].
  { apply Q; try lia; reflexivity. }
  rewrite E2. set (st3 := fold_left (SHA1_step W) (seq 20 20) st2) in *.
  destruct (LS f_maj 0x8F1BBCDC FW L 20%nat 40%nat w2 st3 ltac:(lia) ltac:(lia)) as (w3 & E3 & R3 & G4); [|exact R2|exact G3|].
  { apply Q; try lia; reflexivity. }
  rewrite E3. set (st4 := fold_left (SHA1_step W) (seq 40 20) st3) in *.
  destruct (LS f_parity 0xCA62C1D6 FW L 20%nat 60%nat w3 st4 ltac:(lia) ltac:(lia)) as (w4 & E4 & R4 & G5); [|exact R3|exact G4|].
  { apply Q; try lia; reflexivity. }
  rewrite E4. unfold st4, st3, st2, st1. rewrite <- !fold_left_app.
  change (seq 0 16 ++ seq 16 4 ++ seq 20 20 ++ seq 40 20 ++ seq 60 20) with (seq 0 80).
  destruct (fold_left (SHA1_step W) (seq 0 80) _) as [[[[a b] c] d] e].
  split; [reflexivity|]. split; [reflexivity|]. repeat constructor; apply ww_ADD; lia.
Qed.

(** ** MD5 *)
Lemma md5_ops_ok : md5_ops =
  map (fun i => (nth (i mod 4) [rA; rD; rC; rB] rA, S (i / 16), MD5_g i, nth i MD5_T 0, MD5_S i)) (seq 0 64).
Proof. vm_compute. reflexivity. Qed.
Lemma md5_f_ok i x y z : (i < 64)%nat -> ww 32 x -> ww 32 y -> ww 32 z -> md5_f (S (i / 16)) x y z = MD5_F i x y z.
Proof.
  intros Hi X Y Z'. unfold MD5_F, md5_f.
  assert (Q : (i / 16 < 4)%nat) by (apply Nat.div_lt_upper_bound; lia).
  destruct (i / 16)%nat as [|[|[|q]]].
  - apply (ww_eq 32); [lia|wwt|wwt|]. intros j Hj.
    rewrite !Z.lxor_spec, !Z.land_spec, !Z.lor_spec, !Z.lxor_spec, !Z.land_spec, NOT_bits by auto.
    destruct (Z.testbit x j), (Z.testbit y j), (Z.testbit z j); reflexivity.
  - apply (ww_eq 32); [lia|wwt|wwt|]. intros j Hj.
    rewrite !Z.lxor_spec, !Z.land_spec, !Z.lor_spec, !Z.lxor_spec, !Z.land_spec, NOT_bits by auto.
    destruct (Z.testbit x j), (Z.testbit y j), (Z.testbit z j); reflexivity.
  - apply xor3_assoc.
  - assert (q = 0)%nat by lia. subst. reflexivity.
Qed.
Definition good4 (st : Z * Z * Z * Z) : Prop :=
  let '(a, b, c, d) := st in ww 32 a /\ ww 32 b /\ ww 32 c /\ ww 32 d.
(** RFC 1321 permutes the four variables instead of naming the assigned one. *)
Definition md5_rot (i : nat) (st : Z * Z * Z * Z) : Z * Z * Z * Z :=
  let '(a, b, c, d) := st in
  match (i mod 4)%nat with 0%nat => (a, b, c, d) | 1%nat => (b, c, d, a) | 2%nat => (c, d, a, b) | _ => (d, a, b, c) end.
Lemma md5_step_ok X i st : (i < 64)%nat -> good4 st ->
  md5_step X (md5_rot i st) (nth (i mod 4) [rA; rD; rC; rB] rA, S (i / 16), MD5_g i, nth i MD5_T 0, MD5_S i)
    = md5_rot (S i) (MD5_step X st i) /\ good4 (MD5_step X st i).
Proof.
  destruct st as [[[a b] c] d]. intros Hi (A & B & C & D).
  assert (SB : 0 <= MD5_S i <= 32).
  { assert (E : forallb (fun i => (0 <=? MD5_S i) && (MD5_S i <=? 32)) (seq 0 64) = true) by (vm_compute; reflexivity).
    rewrite forallb_forall in E. specialize (E i ltac:(apply in_seq; lia)). apply andb_true_iff in E. lia. }
  split.
  2:{ unfold MD5_step. repeat split; wwt; first [apply A|apply B|apply C|apply D]. }
  assert (N : md5_new (S (i / 16)) a b c d (nth (MD5_g i) X 0) (nth i MD5_T 0) (MD5_S i) =
    ADD 32 b (ROTL 32 (MD5_S i) (ADD 32 (ADD 32 (ADD 32 a (MD5_F i b c d)) (nth (MD5_g i) X 0)) (nth i MD5_T 0)))).
  { unfold md5_new. rewrite md5_f_ok by auto. rewrite rotl32_ROTL; [|apply ww_ADD; lia|exact SB].
    assert (C2 : add32 (MD5_F i b c d) a = ADD 32 a (MD5_F i b c d)) by (unfold add32, ADD; rewrite Z.add_comm; reflexivity).
    rewrite C2. reflexivity. }
  pose proof (Nat.mod_upper_bound i 4 ltac:(lia)) as M.
  assert (SM : (S i mod 4 = S (i mod 4) mod 4)%nat) by (replace (S i) with (i + 1)%nat by lia; rewrite Nat.add_mod, (Nat.add_comm (i mod 4)) by lia; reflexivity).
  unfold md5_rot, MD5_step, md5_step. rewrite SM.
  destruct (i mod 4)%nat as [|[|[|[|m]]]]; try lia; cbn [nth Nat.modulo Nat.divmod fst snd Nat.sub]; rewrite N; reflexivity.
Qed.
Lemma md5_block_ok H blk : length H = 4%nat -> Forall (ww 32) H -> bytes blk -> length blk = 64%nat ->
  md5_compress H blk = MD5_block H blk /\ length (MD5_block H blk) = 4%nat /\ Forall (ww 32) (MD5_block H blk).
Proof.
  intros LH FH Hb Hl.
  destruct H as [|h0 [|h1 [|h2 [|h3 [|? ?]]]]]; try discriminate LH.
  repeat match goal with H : Forall _ (_ :: _) |- _ => apply Forall_cons_iff in H; destruct H as [? H] end.
  unfold md5_compress, MD5_block. cbn [nth]. rewrite md5_ops_ok. unfold le_words.
  set (X := map le_val (chunks 4 blk)).
  assert (E : forall n i st, (i + n <= 64)%nat -> good4 st ->
    fold_left (md5_step X) (map (fun i => (nth (i mod 4) [rA; rD; rC; rB] rA, S (i / 16), MD5_g i, nth i MD5_T 0, MD5_S i)) (seq i n)) (md5_rot i st) =
    md5_rot (i + n) (fold_left (MD5_step X) (seq i n) st)).
  { induction n as [|n IH]; intros i st Hi G.
    - cbn [seq map fold_left]. rewrite Nat.add_0_r. reflexivity.
    - cbn [seq map fold_left]. destruct (md5_step_ok X i st ltac:(lia) G) as [S1 S2].
      rewrite S1, IH by (auto; lia). f_equal. lia. }
  specialize (E 64%nat 0%nat (h0, h1, h2, h3) ltac:(lia)). change (md5_rot 0 (h0, h1, h2, h3)) with (h0, h1, h2, h3) in E.
  rewrite E by (repeat split; match goal with H : ww _ ?x |- _ <= ?x => apply H | H : ww _ ?x |- ?x < _ => apply H end).
  destruct (fold_left (MD5_step X) _ _) as [[[a b] c] d].
  change (md5_rot (0 + 64) (a, b, c, d)) with (a, b, c, d). cbv iota beta.
  split; [|split; [reflexivity|repeat constructor; apply ww_ADD; lia]].
  repeat f_equal; unfold add32, ADD; rewrite Z.add_comm; reflexivity.
Qed.

(** ** SM3 *)
Lemma sm3_shift x d : 0 <= x < 2 ^ 24 -> byte d -> Z.lor ((Z.shiftl x 8) mod M32) d = x * 256 + d.
Proof.
  intros Hx Hd. rewrite Z.shiftl_mul_pow2 by lia. rewrite Z.mod_small by (unfold M32; lia).
  apply (lor_add_split 32 8); [lia|]. unfold ww. unfold byte in Hd. lia.
Qed.
Lemma sm3_load_step pre k n rest a b c d : byte a -> byte b -> byte c -> byte d ->
  fold_left (fun w kd => let '(k, d) := kd in upd w (k / 4) (Z.lor ((Z.shiftl (nth (k / 4) w 0) 8) mod M32) d))
    (combine (seq (4 * length pre) (4 * S n)) (a :: b :: c :: d :: rest)) (pre ++ repeat 0 (S k)) =
  fold_left (fun w kd => let '(k, d) := kd in upd w (k / 4) (Z.lor ((Z.shiftl (nth (k / 4) w 0) 8) mod M32) d))
    (combine (seq (4 * length (pre ++ [be_val [a; b; c; d]])) (4 * n)) rest) ((pre ++ [be_val [a; b; c; d]]) ++ repeat 0 k).
Proof.
  intros Ha Hb Hc Hd. replace (4 * S n)%nat with (S (S (S (S (4 * n))))) by lia.
  cbn [seq combine fold_left repeat].
  assert (D : forall j, (j < 4)%nat -> ((j + 4 * length pre) / 4 = length pre)%nat).
  { intros j Hj. rewrite (Nat.mul_comm 4), Nat.div_add by lia. rewrite Nat.div_small by lia. lia. }
  pose proof (D 0 ltac:(lia))%nat as D0. pose proof (D 1 ltac:(lia))%nat as D1.
  pose proof (D 2 ltac:(lia))%nat as D2. pose proof (D 3 ltac:(lia))%nat as D3.
  cbn [Nat.add] in D0, D1, D2, D3. rewrite D0, D1, D2, D3.
  repeat rewrite ?nth_middle, ?upd_app.
  unfold byte in *.
  rewrite (sm3_shift 0 a), (sm3_shift _ b), (sm3_shift _ c), (sm3_shift _ d) by (unfold byte; lia).
  rewrite be_val4, app_length. cbn [length].
  replace (4 * (length pre + 1))%nat with (S (3 + 4 * length pre)) by lia.
  replace (0 * 256 + a) with a by ring. rewrite <- app_assoc. reflexivity.
Qed.
Lemma sm3_load_ok blk : bytes blk -> length blk = 64%nat -> sm3_load blk = map be_val (chunks 4 blk) ++ repeat 0 52.
Proof.
  intros Hb Hl.
  assert (G : forall n pre blk k, bytes blk -> length blk = (4 * n)%nat ->
    fold_left (fun w kd => let '(k, d) := kd in upd w (k / 4) (Z.lor ((Z.shiftl (nth (k / 4) w 0) 8) mod M32) d))
    (combine (seq (4 * length pre) (4 * n)) blk) (pre ++ repeat 0 (n + k)) = pre ++ map be_val (chunks 4 blk) ++ repeat 0 k).
  { induction n as [|n IH]; intros pre b k B L.
    - destruct b; [|discriminate L]. reflexivity.
    - destruct b as [|x0 [|x1 [|x2 [|x3 b]]]]; try (cbn [length] in L; lia).
      unfold bytes in B. repeat match goal with H : Forall _ (_ :: _) |- _ => apply Forall_cons_iff in H; destruct H as [? H] end.
      change (S n + k)%nat with (S (n + k)). rewrite sm3_load_step by auto. rewrite IH by (auto; cbn [length] in L; lia).
      rewrite <- app_assoc. f_equal. change (x0 :: x1 :: x2 :: x3 :: b) with ([x0; x1; x2; x3] ++ b).
      rewrite chunks_app by (reflexivity || lia). reflexivity. }
  apply (G 16%nat [] blk 52%nat Hb Hl).
Qed.
Lemma sm3_p0_ok x : ww 32 x -> sm3_p0 x = SM3_P0 x.
Proof. intros H. unfold sm3_p0, SM3_P0. rewrite !rotl32_ROTL by (auto; lia). apply xor3_assoc. Qed.
Lemma sm3_p1_ok x : ww 32 x -> sm3_p1 x = SM3_P1 x.
Proof. intros H. unfold sm3_p1, SM3_P1. rewrite !rotl32_ROTL by (auto; lia). apply xor3_assoc. Qed.
Lemma sm3_words_ok blk : bytes blk -> length blk = 64%nat ->
  sm3_words blk = extend SM3_next 52 (map be_val (chunks 4 blk)) /\ Forall (ww 32) (sm3_words blk) /\ length (sm3_words blk) = 68%nat.
Proof.
  intros Hb Hl. unfold sm3_words. rewrite sm3_load_ok by auto.
  assert (M : (length blk mod 4 = 0)%nat) by (rewrite Hl; reflexivity).
  pose proof (chunks_be_ww 4 blk ltac:(lia) Hb M) as F. change (8 * Z.of_nat 4) with 32 in F.
  assert (L : length (map be_val (chunks 4 blk)) = 16%nat) by (rewrite map_length, chunks_count by (auto; lia); rewrite Hl; reflexivity).
  set (W0 := map be_val (chunks 4 blk)) in *.
  destruct (extend_fill (ww 32) sm3_ext SM3_next) with (n := 52%nat) (W := W0) as [E FW]; auto; [|lia|].
  - intros V tl HV FV. unfold sm3_ext, SM3_next. rewrite !nth_app_l by lia.
    pose proof (fun i => nth_ww 32 V i ltac:(lia) FV) as NV.
    rewrite !rotl32_ROTL by (auto; lia). rewrite !xor3_assoc. rewrite sm3_p1_ok by (wwt; apply NV).
    split; [reflexivity|]. unfold SM3_P1. wwt; apply NV.
  - rewrite L in E. rewrite E. split; [reflexivity|]. split; [exact FW|]. rewrite extend_length, L. reflexivity.
Qed.
Lemma sm3_ff_ok j x y z : sm3_ff j x y z = SM3_FF j x y z.
Proof. unfold sm3_ff, SM3_FF. destruct (j <? 16)%nat; [apply xor3_assoc|]. rewrite Z.lor_assoc. reflexivity. Qed.
Lemma sm3_gg_ok j x y z : sm3_gg j x y z = SM3_GG j x y z.
Proof. unfold sm3_gg, SM3_GG. destruct (j <? 16)%nat; [apply xor3_assoc|]. reflexivity. Qed.
Definition good8w := good8 P256.
Lemma sm3_block_ok H blk : length H = 8%nat -> Forall (ww 32) H -> bytes blk -> length blk = 64%nat ->
  sm3_compress H blk = SM3_block H blk /\ length (SM3_block H blk) = 8%nat /\ Forall (ww 32) (SM3_block H blk).
Proof.
  intros LH FH Hb Hl.
  destruct H as [|h0 [|h1 [|h2 [|h3 [|h4 [|h5 [|h6 [|h7 [|? ?]]]]]]]]]; try discriminate LH.
  repeat match goal with H : Forall _ (_ :: _) |- _ => apply Forall_cons_iff in H; destruct H as [? H] end.
  unfold sm3_compress, SM3_block. cbn [nth].
  destruct (sm3_words_ok blk Hb Hl) as (E & FW & LW). rewrite <- E. clear E.
  set (W := sm3_words blk) in *. set (W' := map _ _).
  destruct (fold_inv good8w (sm3_round W) (SM3_step W W') (seq 0 64)) with (a := (h0, h1, h2, h3, h4, h5, h6, h7)) as [F G].
  - intros [[[[[[[a b] c] d] e] f] g] h] i (A1 & A2 & A3 & A4 & A5 & A6 & A7 & A8) Hi. change (s2_w P256) with 32 in *.
    apply in_seq in Hi. assert (T : ww 32 (SM3_T i)) by (unfold SM3_T; destruct (i <? 16)%nat; split; reflexivity || discriminate).
    assert (IM : 0 <= Z.of_nat i mod 32 <= 32) by (pose proof (Z.mod_pos_bound (Z.of_nat i) 32); lia).
    assert (NW : nth i W' 0 = Z.lxor (nth i W 0) (nth (i + 4) W 0)).
    { unfold W'. rewrite nth_indep with (d' := (fun j => Z.lxor (nth j W 0) (nth (j + 4) W 0)) 64%nat) by (rewrite map_length, seq_length; lia).
      rewrite (map_nth (fun j => Z.lxor (nth j W 0) (nth (j + 4) W 0))), seq_nth by lia. reflexivity. }
    unfold sm3_round, SM3_step. rewrite NW. unfold sm3_t. fold (SM3_T i).
    rewrite !rotl32_ROTL by (auto; try lia; apply ww_ADD; lia). rewrite sm3_ff_ok, sm3_gg_ok, sm3_p0_ok by (apply ww_ADD; lia).
    split; [reflexivity|]. unfold good8w, good8. change (s2_w P256) with 32. unfold SM3_P0.
    repeat match goal with |- _ /\ _ => split; [wwt|] end; wwt.
  - unfold good8w, good8. change (s2_w P256) with 32. repeat match goal with |- _ /\ _ => split; [assumption|] end; assumption.
  - rewrite F. destruct (fold_left (SM3_step W W') _ _) as [[[[[[[a b] c] d] e] f] g] h].
    destruct G as (A1 & A2 & A3 & A4 & A5 & A6 & A7 & A8). change (s2_w P256) with 32 in *.
    split; [repeat (f_equal; [apply Z.lxor_comm|]); f_equal; apply Z.lxor_comm|]. split; [reflexivity|]. repeat (constructor; [wwt|]). constructor.
Qed.
