(** Properties C30-C34 and C56: Keccak-p, sponges, SHA-3 and SHAKE.
    Specification: KeccakSpec.v (FIPS 202 on bit strings).  [h2b] and [b2h] are the standard's conversions between bytes and
    bits.  [s3_run F] (Sha3Proofs.v) is an ideal hash object over bit messages: writes append, a write after [checksum] starts
    a new message, [checksum] returns [F] of the message.  [xrun strength d os] runs calls on a SHAKE object. *)
From Verif Require Import Base HashModel HashApi KeccakModel KeccakSpec KeccakProofs SpongeProofs Sha3Proofs KeccakBij
  MacModel MacSpec MacProofs KeccakApi.

(** ** C30 *)
(** Every history of byte writes, bit writes, checksums and resets of a SHA-3 object. *)
Theorem C30_sha3_histories : forall bits os, In bits [224; 256; 384; 512]%nat ->
  snd (fold_left (s3_exec bits) os (sha3_init bits, [])) = s3_run (fun m => b2h (SHA3_bits bits m)) [] false os.
Proof.
  intros bits os H. apply (s3_history bits) with (outs := []); [|apply s3_good_new];
  cbn [In] in H; destruct H as [<-|[<-|[<-|[<-|[]]]]]; lia.
Qed.
Print Assumptions C30_sha3_histories.
(** In particular every division of a byte message into writes. *)
Theorem C30_sha3_chunking : forall bits ws, In bits [224; 256; 384; 512]%nat ->
  snd (d_checksum (SHA3 bits) (fold_left (d_write (SHA3 bits)) ws (sha3_init bits))) = SHA3_hash bits (concat ws) /\
  length (SHA3_hash bits (concat ws)) = (bits / 8)%nat.
Proof.
  intros bits ws H.
  assert (Hb : (0 < bits <= 512)%nat /\ (bits mod 8 = 0)%nat) by (cbn [In] in H; destruct H as [<-|[<-|[<-|[<-|[]]]]]; split; lia || reflexivity).
  destruct Hb as [Hb H8]. split; [apply (s3_value bits ws (sha3_init bits) Hb), s3_good_new|].
  unfold SHA3_hash. rewrite b2h_length, SHA3_length by exact Hb.
  cbn [In] in H; destruct H as [<-|[<-|[<-|[<-|[]]]]]; reflexivity.
Qed.
Print Assumptions C30_sha3_chunking.
Theorem C30_shake_chunking : forall strength d ws, In strength [128; 256]%nat ->
  snd (shake_checksum (fold_left shake_write ws (shake_new strength d))) = SHAKE_hash strength d (concat ws) /\
  snd (shake_checksum (fold_left shake_write ws (to_raw_shake (shake_new strength d)))) = RawSHAKE_hash strength d (concat ws).
Proof.
  intros strength d ws H.
  assert (Hs : (0 < strength <= 512)%nat) by (cbn [In] in H; destruct H as [<-|[<-|[]]]; lia).
  assert (Q : forall ws s outs, fold_left x_exec (map XWrite ws) (s, outs) = (fold_left shake_write ws s, outs)).
  { induction ws0 as [|x ws0 IH]; intros s outs; [reflexivity|]. cbn [map fold_left x_exec]. apply IH. }
  assert (V : forall s raw, x_good strength s raw d [] None -> snd (shake_checksum (fold_left shake_write ws s)) = XOF strength raw d (h2b (concat ws))).
  { intros s raw G. pose proof (x_history strength Hs (map XWrite ws ++ [XChecksum]) s raw d [] None [] G) as X.
    rewrite x_run_writes, fold_left_app, Q in X. cbn [fold_left x_exec x_run app] in X.
    destruct (shake_checksum (fold_left shake_write ws s)) as [s' dg]. cbn [snd] in *. injection X as ->. reflexivity. }
  split; [apply (V (shake_new strength d) false), x_good_new|].
  apply (V (to_raw_shake (shake_new strength d)) true). destruct (x_good_new strength d) as (A & _ & B). split; [exact A|]. split; [reflexivity|exact B].
Qed.
Print Assumptions C30_shake_chunking.
Example C30_case : In 256%nat [224; 256; 384; 512]%nat /\ In 128%nat [128; 256]%nat /\
  s3_run (fun m => b2h m) [] false [SWrite [5; 6]; SBit 1; SBit 0; SChecksum; SChecksum; SWrite [7]; SChecksum; SReset; SChecksum] =
    [[5; 6; 1]; [5; 6; 1]; [7]; []].
Proof. split; [cbn; tauto|]. split; [cbn; tauto|]. reflexivity. Qed.

(** ** C31 *)
(** The step mappings of the code on all seven widths; [aeq w] is equality of [5 x 5 x w] bit arrays, [ab] reads cells as
    bits, [wf w] says that an array has those dimensions and cells 0 or 1. *)
Theorem C31_steps : forall l ir a out, (l <= 6)%nat -> let w := (2 ^ l)%nat in wf w a -> wf w out ->
  aeq w (ab (theta w a)) (THETA w (ab a)) /\ aeq w (ab (rho w a out)) (RHO w (ab a)) /\
  aeq w (ab (pi w a)) (PI (ab a)) /\ aeq w (ab (chi w a)) (CHI (ab a)) /\
  (0 <= ir < 2 ^ 28 -> aeq w (ab (iota w l ir a)) (IOTA l ir (ab a))).
Proof.
  intros l ir a out Hl w Wa Wo. assert (Hw : (0 < w)%nat) by (apply Nat.neq_0_lt_0, Nat.pow_nonzero; lia).
  split; [apply theta_ok|]. split; [apply rho_ok; auto|]. split; [apply pi_ok|]. split; [apply chi_ok|]. intros H. apply iota_ok; auto.
Qed.
Print Assumptions C31_steps.
(** Any sequence of calls of [permutation] on one object with a width of the standard and at most [12 + 2l] rounds. *)
Theorem C31_permutation : forall l nr k ds, (l <= 6)%nat -> (nr <= 12 + 2 * l)%nat -> keccak_new (25 * 2 ^ l) nr = Ok k ->
  perm_run k ds = map (fun d => if (length d <? (25 * 2 ^ l + 7) / 8)%nat then Err InvalidParameter
                                else Ok (b2h (KECCAK_p l nr (firstn (25 * 2 ^ l) (rev (h2b d)))))) ds.
Proof.
  intros l nr k ds Hl Hn E. destruct (keccak_new_ok _ _ _ E) as (l' & Hl' & Eb & W & E1 & E2 & E3 & E4).
  assert (Q : l' = l) by (apply (Nat.pow_inj_r 2); lia). rewrite Q in E2, E3. exact (perm_run_ok l nr ds Hn k W E1 E2 E3 E4).
Qed.
Print Assumptions C31_permutation.
Theorem C31_widths : forall b nr, (exists k, keccak_new b nr = Ok k) <-> exists l, (l <= 6)%nat /\ b = (25 * 2 ^ l)%nat.
Proof.
  intros b nr. split.
  - intros [k E]. destruct (keccak_new_ok _ _ _ E) as (l & Hl & Eb & _). eauto.
  - intros (l & Hl & ->). do 7 (destruct l as [|l]; [eexists; reflexivity|]). lia.
Qed.
Print Assumptions C31_widths.
(** The permutation is one: every string of the width is the image of exactly one. *)
Theorem C31_bijective : forall l nr T, length T = (25 * 2 ^ l)%nat ->
  exists S, (length S = (25 * 2 ^ l)%nat /\ KECCAK_p l nr S = T) /\
    forall S', length S' = (25 * 2 ^ l)%nat /\ KECCAK_p l nr S' = T -> S' = S.
Proof. exact KECCAK_p_bij. Qed.
Print Assumptions C31_bijective.
(** The library accepts any number of rounds; beyond [12 + 2l], where the round index is negative, the round constants are
    not the standard's. *)
Theorem C31_many_rounds_refuted : exists l nr k d, keccak_new (25 * 2 ^ l) nr = Ok k /\ length d = 4%nat /\ bytes d /\
  perm_run k [d] <> [Ok (b2h (KECCAK_p l nr (firstn (25 * 2 ^ l) (rev (h2b d)))))].
Proof.
  exists 0%nat, 15%nat. eexists. exists [0; 0; 0; 0]. split; [reflexivity|]. split; [reflexivity|].
  split; [apply bytes_forallb; reflexivity|]. rewrite KECCAK_p_step by reflexivity. vm_compute. discriminate.
Qed.
Print Assumptions C31_many_rounds_refuted.
Example C31_case : (exists k, keccak_new (25 * 2 ^ 3) 18 = Ok k) /\ (18 <= 12 + 2 * 3)%nat /\
  wf 8 (cvt_from_slice [1; 2; 3] 8) /\ length (repeat true 200) = (25 * 2 ^ 3)%nat.
Proof. split; [eexists; reflexivity|]. split; [lia|]. split; [apply from_slice_wf|reflexivity]. Qed.

(** ** C56 *)
(** The bytes given to [permutation] are read backwards relative to the bytes it returns: without rounds the result is the
    bit reversal of the (last bytes of the) input, not the input. *)
Theorem C56_byte_order : forall l k d, (l <= 6)%nat -> keccak_new (25 * 2 ^ l) 0 = Ok k -> ((25 * 2 ^ l + 7) / 8 <= length d)%nat ->
  snd (permutation k d) = Ok (b2h (firstn (25 * 2 ^ l) (rev (h2b d)))).
Proof.
  intros l k d Hl E HL. pose proof (C31_permutation l 0 k [d] Hl ltac:(lia) E) as P. cbn [perm_run map] in P.
  destruct (permutation k d) as [k' r]. cbn [snd]. apply (f_equal (hd Panic)) in P. cbn [hd] in P. rewrite P.
  destruct (Nat.ltb_spec (length d) ((25 * 2 ^ l + 7) / 8)) as [X|_]; [lia|].
  assert (B : (25 * 2 ^ l <= 8 * length d)%nat) by (pose proof (Nat.div_mod (25 * 2 ^ l + 7) 8 ltac:(lia)); pose proof (Nat.mod_upper_bound (25 * 2 ^ l + 7) 8 ltac:(lia)); lia).
  rewrite KECCAK_p_step by (rewrite firstn_length_le; [reflexivity|rewrite rev_length, h2b_length; exact B]). reflexivity.
Qed.
Print Assumptions C56_byte_order.
Theorem C56_composition_refuted : exists k d, keccak_new 200 0 = Ok k /\ bytes d /\ length d = 25%nat /\ snd (permutation k d) <> Ok d.
Proof.
  eexists. exists (1 :: repeat 0 24). split; [reflexivity|]. split; [apply bytes_forallb; reflexivity|]. split; [reflexivity|]. vm_compute. discriminate.
Qed.
Print Assumptions C56_composition_refuted.
Example C56_case : (25 * 2 ^ 3 + 7) / 8 = 25 /\ exists k, keccak_new (25 * 2 ^ 3) 0 = Ok k.
Proof. split; [reflexivity|]. eexists. reflexivity. Qed.

(** ** C32 *)
(** A shorter output is a prefix of a longer one (bit for bit, byte for byte when it is whole bytes), for both variants. *)
Theorem C32_prefix : forall strength d1 d2 ws, In strength [128; 256]%nat -> (d1 <= d2)%nat -> forall raw : bool,
  let start d := if raw then to_raw_shake (shake_new strength d) else shake_new strength d in
  let out d := snd (shake_checksum (fold_left shake_write ws (start d))) in
  length (out d1) = ((d1 + 7) / 8)%nat /\ firstn d1 (h2b (out d1)) = firstn d1 (h2b (out d2)) /\
  ((d1 mod 8 = 0)%nat -> out d1 = firstn (d1 / 8) (out d2)).
Proof.
  intros strength d1 d2 ws H Hd raw start out.
  assert (E : forall d, out d = XOF strength raw d (h2b (concat ws))).
  { intros d. destruct (C30_shake_chunking strength d ws H) as [A B]. unfold out, start, XOF. destruct raw; [exact B|exact A]. }
  rewrite !E. apply XOF_prefix; [|exact Hd]. cbn [In] in H; destruct H as [<-|[<-|[]]]; lia.
Qed.
Print Assumptions C32_prefix.
(** Changing the output length discards everything absorbed before. *)
Theorem C32_set_len : forall strength d os n ws, In strength [128; 256]%nat ->
  xrun strength d (os ++ [XSetLen n] ++ map XWrite ws ++ [XChecksum]) =
  xrun strength d os ++ [XOF strength (existsb is_raw os) n (h2b (concat ws))].
Proof. intros strength d os n ws H. apply set_len_discards. cbn [In] in H; destruct H as [<-|[<-|[]]]; lia. Qed.
Print Assumptions C32_set_len.
Example C32_case : In 128%nat [128; 256]%nat /\ (16 <= 4096)%nat /\ (16 mod 8 = 0)%nat.
Proof. split; [cbn; tauto|]. split; [lia|reflexivity]. Qed.

(** ** C33 *)
(** Sponges over any standard width at any rate up to the width compute the standard's sponge function, call after call. *)
Theorem C33_sponge : forall l nr rate k cs, (l <= 6)%nat -> (nr <= 12 + 2 * l)%nat -> keccak_new (25 * 2 ^ l) nr = Ok k ->
  (0 < rate <= 25 * 2 ^ l)%nat -> Forall (fun '(data, n, _) => (n <= 8 * length data)%nat) cs ->
  exists s, sponge_new k rate = Ok s /\
    sponge_run s cs = Ok (map (fun '(data, n, want) => b2h (SPONGE (KECCAK_p l nr) (25 * 2 ^ l) rate (firstn n (h2b data)) want)) cs).
Proof.
  intros l nr rate k cs Hl Hn E Hr F. destruct (keccak_new_ok _ _ _ E) as (l' & Hl' & Eb & W & E1 & E2 & E3 & E4).
  assert (Q : l' = l) by (apply (Nat.pow_inj_r 2); lia). rewrite Q in E2, E3.
  exists (mkSponge rate k []). split; [unfold sponge_new; rewrite (proj2 (Nat.ltb_lt 0 rate)) by lia; reflexivity|].
  exact (sponge_run_ok l nr rate cs Hn Hr F (mkSponge rate k []) eq_refl W E1 E2 E3 E4).
Qed.
Print Assumptions C33_sponge.
(** The rate check never refuses: rates 0 and beyond the width are accepted for every permutation. *)
Theorem C33_every_rate_accepted : forall b nr k rate, keccak_new b nr = Ok k -> sponge_new k rate = Ok (mkSponge rate k []).
Proof.
  intros b nr k rate E. destruct (keccak_new_ok _ _ _ E) as (l & Hl & Eb & W & E1 & _). unfold sponge_new.
  destruct (Nat.ltb_spec 0 rate) as [H|H]; [reflexivity|]. rewrite E1, Eb. replace rate with 0%nat by lia.
  assert (0 < 2 ^ l)%nat by (apply Nat.neq_0_lt_0, Nat.pow_nonzero; lia). rewrite (proj2 (Nat.ltb_lt 0 _)) by lia. reflexivity.
Qed.
Print Assumptions C33_every_rate_accepted.
Theorem C33_rate_check_refuted : exists b nr k rate s, keccak_new b nr = Ok k /\ ~ (0 < rate < b)%nat /\ sponge_new k rate = Ok s.
Proof.
  exists 1600%nat, 24%nat, k1600, 1601%nat, (mkSponge 1601 k1600 []). split; [exact k1600_new|]. split; [lia|].
  apply (C33_every_rate_accepted 1600 24), k1600_new.
Qed.
Print Assumptions C33_rate_check_refuted.
(** With rate 0 every use panics; with a rate beyond the width two different messages collide at every output length. *)
Theorem C33_bad_rates : forall b nr k, keccak_new b nr = Ok k ->
  (forall s data n want, sponge_new k 0 = Ok s -> sponge_call s data n want = Panic) /\
  (forall rate s want, (b < rate)%nat -> sponge_new k rate = Ok s ->
    exists d1 d2 s1 s2 out, bytes d1 /\ bytes d2 /\ length d1 = length d2 /\ (b + 1 <= 8 * length d1)%nat /\
      firstn (b + 1) (h2b d1) <> firstn (b + 1) (h2b d2) /\
      sponge_call s d1 (b + 1) want = Ok (s1, out) /\ sponge_call s d2 (b + 1) want = Ok (s2, out)).
Proof.
  intros b nr k E. pose proof (C33_every_rate_accepted b nr k) as A. split.
  - intros s data n want Es. rewrite A in Es by exact E. assert (s = mkSponge 0 k []) by congruence. subst s.
    unfold sponge_call. destruct (n <=? 8 * length data)%nat; [|reflexivity]. apply sponge_rate0. reflexivity.
  - intros rate s want Hr Es. rewrite A in Es by exact E. assert (s = mkSponge rate k []) by congruence. subst s.
    destruct (keccak_new_ok _ _ _ E) as (l & Hl & Eb & W & E1 & E2 & _).
    destruct (coll_sponge b rate (mkSponge rate k []) want Hr eq_refl) as (s1 & s2 & d & H1 & H2); [cbn [sp_k]; rewrite E2, Eb; reflexivity|].
    exists (coll0 b), (coll1 b), s1, s2, d. destruct (coll_bytes b) as [B0 B1]. destruct (coll_len b) as [L0 L1].
    split; [exact B0|]. split; [exact B1|]. split; [lia|].
    split; [rewrite L0; pose proof (Nat.div_mod b 8 ltac:(lia)); pose proof (Nat.mod_upper_bound b 8 ltac:(lia)); lia|].
    split; [|auto]. intros X. pose proof (f_equal (fun l => nth b l false) X) as Y. cbv beta in Y. rewrite !nth_firstn_b in Y by lia.
    destruct (coll_bits b b) as [Z0 Z1]. rewrite Z0, Z1, Nat.eqb_refl in Y. discriminate Y.
Qed.
Print Assumptions C33_bad_rates.
Example C33_case : (0 < 1344 <= 25 * 2 ^ 6)%nat /\ Forall (fun '(data, n, _) => (n <= 8 * length data)%nat) [([1; 2; 3], 20%nat, 999%nat); ([], 0%nat, 1%nat)].
Proof. split; [cbn; lia|]. repeat (constructor; [cbn; lia|]). constructor. Qed.

(** ** C34 *)
(** All histories: [x_run] keeps the last digest as a cache that only a write, a reset or a change of length empties. *)
Theorem C34_histories : forall strength d os, In strength [128; 256]%nat -> xrun strength d os = x_run strength false d [] None os.
Proof. intros strength d os H. apply xrun_ok. cbn [In] in H; destruct H as [<-|[<-|[]]]; lia. Qed.
Print Assumptions C34_histories.
(** Switching to the raw variant before the first [checksum] gives the raw function of everything written. *)
Theorem C34_switch_before : forall strength d ws1 ws2, In strength [128; 256]%nat ->
  xrun strength d (map XWrite ws1 ++ [XRaw] ++ map XWrite ws2 ++ [XChecksum]) = [RawSHAKE_hash strength d (concat ws1 ++ concat ws2)].
Proof.
  intros strength d ws1 ws2 H. rewrite C34_histories by exact H. rewrite x_run_writes. cbn [app x_run]. rewrite x_run_writes. cbn [app x_run].
  unfold XOF, RawSHAKE_hash. rewrite h2b_app. reflexivity.
Qed.
Print Assumptions C34_switch_before.
(** After a [checksum] the switch has no effect on the next [checksum], which returns the old digest again. *)
Theorem C34_switch_after : forall strength d os, In strength [128; 256]%nat ->
  exists v, xrun strength d (os ++ [XChecksum; XRaw; XChecksum]) = xrun strength d os ++ [v; v].
Proof.
  intros strength d os H. rewrite !C34_histories by exact H.
  destruct (x_run_app strength os [XChecksum; XRaw; XChecksum] false d [] None) as (raw & d' & m & c & _ & E2). rewrite E2. eexists. reflexivity.
Qed.
Print Assumptions C34_switch_after.
Theorem C34_stale_refuted : exists strength d m, In strength [128; 256]%nat /\ bytes m /\
  xrun strength d [XWrite m; XChecksum; XRaw; XChecksum] <> [SHAKE_hash strength d m; RawSHAKE_hash strength d m].
Proof.
  exists 256%nat, 8%nat, []. split; [cbn; tauto|]. split; [constructor|].
  destruct (C30_shake_chunking 256 8 [] ltac:(cbn; tauto)) as [E1 E2]. cbn [fold_left concat] in E1, E2.
  rewrite C34_histories by (cbn; tauto). cbn [x_run app h2b flat_map]. intros X. apply (f_equal (fun l => hd [] (tl l))) in X. cbn [hd tl] in X.
  change (SHAKE_hash 256 8 [] = RawSHAKE_hash 256 8 []) in X. rewrite <- E1, <- E2 in X. revert X.
  assert (Q : forall a b, hd 0 a =? hd 0 b = false -> a <> b) by (intros a b E ->; rewrite Z.eqb_refl in E; discriminate E).
  apply Q. vm_compute. reflexivity.
Qed.
Print Assumptions C34_stale_refuted.
Example C34_case : In 128%nat [128; 256]%nat /\ existsb is_raw [XWrite [1]; XRaw] = true.
Proof. split; [cbn; tauto|reflexivity]. Qed.

(** ** C28 over SHA-3 *)
Theorem C28_sha3 : forall bits key os, In bits [224; 256; 384; 512]%nat -> bytes key -> Forall mop_bytes os ->
  exists s, hmac_new (SHA3 bits) key (sha3_init bits) = Ok s /\
    snd (fold_left (hm_exec (SHA3 bits)) os (s, [])) = mac_run (HMAC_value (SHA3_hash bits) ((1600 - 2 * bits) / 8)) key [] false os.
Proof. exact hmac_sha3. Qed.
Print Assumptions C28_sha3.
Example C28_sha3_case : Forall mop_bytes [MWrite [1; 2]; MChecksum; MSetKey [3]; MChecksum] /\ (1600 - 2 * 256) / 8 = 136.
Proof. split; [repeat (constructor; [first [exact I|apply bytes_forallb; reflexivity]|]); constructor|reflexivity]. Qed.
