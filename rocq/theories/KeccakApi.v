(** SHA-3 as a digest, extendable output, and evaluation of the specification. *)
From Verif Require Import Base HashModel MdProofs HashApi KeccakModel KeccakSpec KeccakProofs SpongeProofs Sha3Proofs KeccakBij
  MacModel MacSpec MacProofs.

(** ** SHA-3 objects as digests *)
Definition s3_inv (bits : nat) (s : sha3st) : Prop := exists m fin, s3_good bits s m fin.
Lemma s3_writes bits ws : (0 < bits <= 512)%nat -> forall s m, s3_good bits s m false -> s3_good bits (fold_left sha3_write ws s) (m ++ h2b (concat ws)) false.
Proof.
  intros Hb. induction ws as [|d ws IH]; intros s m G; cbn [fold_left concat].
  - cbn [h2b flat_map]. rewrite app_nil_r. exact G.
  - rewrite h2b_app, app_assoc. apply IH. exact (s3_good_write bits Hb s m false d G).
Qed.
Lemma SHA3_length bits m : (0 < bits <= 512)%nat -> length (SHA3_bits bits m) = bits.
Proof.
  intros H. unfold SHA3_bits, KECCAK_c. apply SPONGE_length; [lia|]. intros S. apply (KECCAK_p_length 6 24).
Qed.
Lemma s3_value bits ws s : (0 < bits <= 512)%nat -> s3_good bits s [] false ->
  snd (sha3_checksum bits (fold_left sha3_write ws s)) = SHA3_hash bits (concat ws).
Proof.
  intros Hb G. pose proof (s3_writes bits ws Hb s [] G) as W. destruct (s3_good_checksum bits Hb _ _ _ W) as (E & _ & _). exact E.
Qed.
Lemma s3_digest_ok bits limit : (0 < bits <= 512)%nat -> (bits mod 8 = 0)%nat -> DigestOk (SHA3 bits) (s3_inv bits) (SHA3_hash bits) limit.
Proof.
  intros Hb H8. constructor; cbn [SHA3 d_write d_checksum d_reset d_bits_len].
  - intros s d (m & fin & G). eexists. eexists. apply s3_good_write; [exact Hb|]. exact G.
  - intros s (m & fin & G). destruct (s3_good_checksum bits Hb s m fin G) as (_ & G' & _). eexists. eexists. exact G'.
  - intros s (m & fin & G). exists [], false. eapply s3_good_reset; eauto.
  - intros s ws (m & fin & G) _ _. apply s3_value; auto. eapply s3_good_reset; eauto.
  - intros s (m & fin & G). apply (s3_good_checksum bits Hb s m fin G).
  - intros m _ _. unfold SHA3_hash. split; [|apply b2h_bytes]. rewrite b2h_length, SHA3_length by auto.
    pose proof (Nat.div_mod bits 8 ltac:(lia)) as D. rewrite H8 in D. rewrite D at 1. rewrite Nat.add_0_r, (Nat.mul_comm 8), Nat.div_add_l by lia. cbn. lia.
Qed.
Lemma hmac_sha3 bits key os : In bits [224; 256; 384; 512]%nat -> bytes key -> Forall mop_bytes os ->
  exists s, hmac_new (SHA3 bits) key (sha3_init bits) = Ok s /\
    snd (fold_left (hm_exec (SHA3 bits)) os (s, [])) = mac_run (HMAC_value (SHA3_hash bits) ((1600 - 2 * bits) / 8)) key [] false os.
Proof.
  intros Hin Hk Fo.
  assert (H : (0 < bits <= 512)%nat /\ (bits mod 8 = 0)%nat /\ (bits / 8 <= (1600 - 2 * bits) / 8)%nat).
  { cbn [In] in Hin. destruct Hin as [<-|[<-|[<-|[<-|[]]]]]; (split; [lia|]); (split; [reflexivity|]); apply Nat.leb_le; reflexivity. }
  destruct H as (Hb & H8 & HB).
  set (B := ((1600 - 2 * bits) / 8)%nat) in *.
  set (limit := Z.of_nat (B + length key + total_size os + B + bits / 8) + 1).
  apply (hmac_correct (SHA3 bits) (s3_inv bits) (SHA3_hash bits) limit B); auto.
  - apply s3_digest_ok; auto.
  - exists [], false. apply s3_good_new.
  - unfold limit. lia.
  - unfold limit. cbn [SHA3 d_bits_len]. lia.
Qed.

(** ** Extendable output *)
Definition is_raw (o : xop) : bool := match o with XRaw => true | _ => false end.
Lemma x_run_app strength os os' : forall raw d m cache, exists raw' d' m' cache',
  raw' = raw || existsb is_raw os /\ x_run strength raw d m cache (os ++ os') = x_run strength raw d m cache os ++ x_run strength raw' d' m' cache' os'.
Proof.
  induction os as [|o os IH]; intros raw d m cache; cbn [app existsb].
  - exists raw, d, m, cache. rewrite orb_false_r. split; reflexivity.
  - destruct o as [x| | |n|]; cbn [x_run is_raw orb].
    + match goal with |- context [x_run strength raw d ?m None (os ++ os')] => destruct (IH raw d m None) as (a & b & e & f & E1 & E2) end.
      exists a, b, e, f. split; [exact E1|]. exact E2.
    + cbv zeta. match goal with |- context [x_run strength raw d m ?c (os ++ os')] => destruct (IH raw d m c) as (a & b & e & f & E1 & E2) end.
      exists a, b, e, f. split; [exact E1|]. rewrite E2. reflexivity.
    + destruct (IH raw d [] None) as (a & b & c & e & E1 & E2); exists a, b, c, e. split; [exact E1|]. exact E2.
    + destruct (IH raw n [] None) as (a & b & c & e & E1 & E2); exists a, b, c, e. split; [exact E1|]. exact E2.
    + destruct (IH true d m cache) as (a & b & c & e & E1 & E2); exists a, b, c, e. split; [rewrite E1; cbn [orb]; rewrite orb_true_r; reflexivity|]. exact E2.
Qed.
Lemma x_run_writes strength ws os : forall raw d m, x_run strength raw d m None (map XWrite ws ++ os) = x_run strength raw d (m ++ h2b (concat ws)) None os.
Proof.
  induction ws as [|x ws IH]; intros raw d m; cbn [map app x_run concat].
  - cbn [h2b flat_map]. rewrite app_nil_r. reflexivity.
  - rewrite IH, h2b_app, app_assoc. reflexivity.
Qed.
Definition xrun (strength d : nat) (os : list xop) : list (list Z) := snd (fold_left x_exec os (shake_new strength d, [])).
Lemma xrun_ok strength d os : (0 < strength <= 512)%nat -> xrun strength d os = x_run strength false d [] None os.
Proof. intros H. apply (x_history strength H os _ false d [] None []). apply x_good_new. Qed.
Lemma set_len_discards strength d os n ws : (0 < strength <= 512)%nat ->
  xrun strength d (os ++ [XSetLen n] ++ map XWrite ws ++ [XChecksum]) =
  xrun strength d os ++ [XOF strength (existsb is_raw os) n (h2b (concat ws))].
Proof.
  intros H. rewrite !xrun_ok by auto. destruct (x_run_app strength os ([XSetLen n] ++ map XWrite ws ++ [XChecksum]) false d [] None) as (raw & d' & m & c & E1 & E2).
  rewrite E2. f_equal. cbn [app x_run]. rewrite x_run_writes. cbn [x_run app]. rewrite E1. reflexivity.
Qed.
Lemma firstn_app_le {A} n (a b : list A) : (n <= length a)%nat -> firstn n (a ++ b) = firstn n a.
Proof. intros H. rewrite firstn_app. replace (n - length a)%nat with 0%nat by lia. rewrite firstn_O, app_nil_r. reflexivity. Qed.
Lemma b2h_prefix k l : (8 * k <= length l)%nat -> b2h (firstn (8 * k) l) = firstn k (b2h l).
Proof.
  intros H. unfold b2h. rewrite firstn_length_le by auto. replace ((8 * k + 7) / 8)%nat with k
    by (replace (8 * k + 7)%nat with (k * 8 + 7)%nat by lia; rewrite Nat.div_add_l by lia; cbn; lia).
  rewrite firstn_map. replace (firstn k (seq 0 ((length l + 7) / 8))) with (seq 0 k).
  - apply map_ext_in. intros i Hi. apply in_seq in Hi. f_equal.
    rewrite <- (firstn_skipn (8 * k) l) at 2. rewrite skipn_app, firstn_length_le by auto.
    replace (8 * i - 8 * k)%nat with 0%nat by lia. rewrite skipn_O, firstn_app_le; [reflexivity|]. rewrite skipn_length, firstn_length_le by auto. lia.
  - assert (Hk : (k <= (length l + 7) / 8)%nat) by (apply Nat.div_le_lower_bound; lia).
    replace ((length l + 7) / 8)%nat with (k + ((length l + 7) / 8 - k))%nat by lia. rewrite seq_app, firstn_app_le by (rewrite seq_length; lia).
    rewrite firstn_all2 by (rewrite seq_length; lia). reflexivity.
Qed.
Lemma XOF_sponge strength raw d m : XOF strength raw d m =
  b2h (SPONGE (KECCAK_p 6 24) 1600 (1600 - 2 * strength) (m ++ if raw then [true; true] else [true; true; true; true]) d).
Proof. destruct raw; reflexivity. Qed.
Lemma XOF_prefix strength raw d1 d2 m : (0 < strength <= 512)%nat -> (d1 <= d2)%nat ->
  length (XOF strength raw d1 m) = ((d1 + 7) / 8)%nat /\
  firstn d1 (h2b (XOF strength raw d1 m)) = firstn d1 (h2b (XOF strength raw d2 m)) /\
  ((d1 mod 8 = 0)%nat -> XOF strength raw d1 m = firstn (d1 / 8) (XOF strength raw d2 m)).
Proof.
  intros Hs Hd. rewrite !XOF_sponge. set (N := m ++ if raw then [true; true] else [true; true; true; true]). set (r := (1600 - 2 * strength)%nat).
  assert (Hr : (0 < r <= 1600)%nat) by (unfold r; lia).
  assert (Hf : forall S, length (KECCAK_p 6 24 S) = 1600%nat) by (intros S; apply (KECCAK_p_length 6 24)).
  pose proof (SPONGE_prefix (KECCAK_p 6 24) 1600 r N d1 d2 Hr Hf Hd) as P.
  assert (L : forall d, length (SPONGE (KECCAK_p 6 24) 1600 r N d) = d) by (intros d; apply SPONGE_length; auto).
  set (S1 := SPONGE (KECCAK_p 6 24) 1600 r N d1) in *. pose proof (L d1) as L1. fold S1 in L1.
  pose proof (L d2) as L2. set (S2 := SPONGE (KECCAK_p 6 24) 1600 r N d2) in *.
  split; [rewrite b2h_length, L1; reflexivity|]. split.
  - pose proof (h2b_b2h S1) as Q1. rewrite L1 in Q1. rewrite Q1. rewrite <- P. pose proof (h2b_b2h S2) as Q2. rewrite L2 in Q2.
    rewrite <- Q2 at 1. rewrite firstn_firstn, Nat.min_l by auto. reflexivity.
  - intros H8. pose proof (Nat.div_mod d1 8 ltac:(lia)) as D. rewrite H8, Nat.add_0_r in D. rewrite <- P. rewrite D at 1. apply b2h_prefix. lia.
Qed.

(** ** Evaluating the specification a round at a time *)
Definition RND_str (l : nat) (S : list bool) (ir : Z) : list bool := to_string (2 ^ l) (RND l ir (to_array (2 ^ l) S)).
Lemma KECCAK_p_step l nr S : length S = (25 * 2 ^ l)%nat ->
  KECCAK_p l nr S = fold_left (RND_str l) (map (fun i => 12 + 2 * Z.of_nat l - Z.of_nat nr + Z.of_nat i) (seq 0 nr)) S.
Proof.
  intros L. assert (Hw : (0 < 2 ^ l)%nat) by (apply Nat.neq_0_lt_0, Nat.pow_nonzero; lia).
  unfold KECCAK_p. cbv zeta. rewrite fold_left_map. set (g := fun i => 12 + 2 * Z.of_nat l - Z.of_nat nr + Z.of_nat i).
  assert (Q : forall is A T, aeq (2 ^ l) A (to_array (2 ^ l) T) -> length T = (25 * 2 ^ l)%nat ->
    to_string (2 ^ l) (fold_left (fun A i => RND l (g i) A) is A) = fold_left (fun a i => RND_str l a (g i)) is T).
  { induction is as [|i is IH]; intros A T E LT; cbn [fold_left].
    - rewrite (to_string_ext _ _ _ Hw E). apply to_string_array; auto.
    - apply IH; [|apply to_string_length; auto]. unfold RND_str. eapply aeq_trans; [apply RND_ext; exact E|]. apply aeq_sym, to_array_string, Hw. }
  apply Q; [apply aeq_refl|exact L].
Qed.
