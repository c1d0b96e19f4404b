(** Property C87: how CMAC tags relate to each other, and to encryption under the same key.
    Specification: MacSpec.v, ModesSpec.v.  [cmac_tag c b m t] (PropMacEq.v): a new object to which [m] is written returns [t]. *)
From Verif Require Import Base ModesModel ModesSpec AesModel AesSpec AesApi Sm4Model DesModel HashModel HashSpec MdProofs HashApi PropHash
  MacModel MacSpec MacProofs CmacProofs MacApi PropMac PropDes PropMacEq.
From Verif Require PropModes.

Lemma zero_xor k l : length l = k -> xorl (repeat 0 k) l = l.
Proof. intros <-. induction l as [|x l IH]; [reflexivity|]. cbn [length repeat]. unfold xorl in *. cbn [combine map]. rewrite IH. destruct x; reflexivity. Qed.
(** ** One collision gives infinitely many *)
(** Whether the last block of a message is a whole one, and the message with its padding written out. *)
Definition complete (b : nat) (m : list Z) : bool := ((0 <? length m)%nat && (length m mod b =? 0)%nat)%bool.
Definition full (b : nat) (m : list Z) : list Z := if complete b m then m else m ++ [0x80] ++ repeat 0 (b - length m mod b - 1).

Lemma full_split c b E D (HG : GoodCipher c b E D) m : bytes m -> exists w r, m = w ++ r /\ (length w mod b = 0)%nat /\ (length r <= b)%nat /\ (r = [] -> w = []) /\
  complete b m = (length r =? b)%nat /\ full b m = w ++ (if complete b m then r else r ++ [0x80] ++ repeat 0 (b - length r - 1)).
Proof.
  intros B. pose proof (gc_pos _ _ _ _ HG) as P. destruct (split_message c b E D HG m) as (w & r & -> & MW & LR & RW). exists w, r.
  assert (ML : ((length w + length r) mod b = length r mod b)%nat) by (rewrite Nat.add_mod, MW, Nat.add_0_l, Nat.mod_mod by lia; reflexivity).
  assert (CC : complete b (w ++ r) = (length r =? b)%nat).
  { unfold complete. rewrite app_length, ML. destruct (Nat.eqb_spec (length r) b) as [Q|Q].
    - rewrite Q, Nat.mod_same, Nat.eqb_refl, (proj2 (Nat.ltb_lt 0 (length w + b))) by lia. reflexivity.
    - rewrite Nat.mod_small by lia. destruct r as [|z r]; [rewrite (RW eq_refl); reflexivity|]. apply andb_false_iff. right. reflexivity. }
  repeat (split; [solve [reflexivity|assumption]|]). unfold full. rewrite CC. destruct (Nat.eqb_spec (length r) b) as [Q|Q]; [reflexivity|].
  rewrite app_length, ML, Nat.mod_small, <- app_assoc by lia. reflexivity.
Qed.
Definition chain (E : list Z -> list Z) (b : nat) (m : list Z) : list Z := fold_left (fun C M => E (xorl C M)) (chunks b m) (repeat 0 b).
Section Rel.
Variables (c : cipher) (b : nat) (E D : list Z -> list Z) (R : Z).
Hypothesis HG : GoodCipher c b E D.
Hypothesis HR : block_size_to_rb b = Some R.
Definition subkey (m : list Z) : list Z := if complete b m then CMAC_K1 E b R else CMAC_K2 E b R.
Lemma subkey_good m : good b (subkey m).
Proof. destruct (sub_ok b E R) as (S1 & S2 & S3 & S4). unfold subkey. destruct (complete b m); split; assumption. Qed.
Lemma zero_good : good b (repeat 0 b). Proof. split; [apply repeat_length|apply bytes_repeat; unfold byte; lia]. Qed.
Lemma full_ok m : bytes m -> bytes (full b m) /\ (length (full b m) mod b = 0)%nat /\ full b m <> [].
Proof using HG.
  intros B. pose proof (gc_pos _ _ _ _ HG) as P. unfold full, complete. destruct ((0 <? length m)%nat && (length m mod b =? 0)%nat)%bool eqn:C.
  - apply andb_true_iff in C as [C1 C2]. apply Nat.eqb_eq in C2. apply Nat.ltb_lt in C1. split; [exact B|]. split; [exact C2|]. destruct m; [cbn in C1; lia|discriminate].
  - split; [apply bytes_app; split; [exact B|apply bytes_app; split; [repeat constructor; unfold byte; lia|apply bytes_repeat; unfold byte; lia]]|].
    split; [|destruct m; discriminate]. rewrite !app_length, repeat_length. cbn [length]. pose proof (Nat.div_mod (length m) b ltac:(lia)) as DM. pose proof (Nat.mod_upper_bound (length m) b ltac:(lia)).
    replace (length m + (1 + (b - length m mod b - 1)))%nat with ((length m / b + 1) * b)%nat by nia. apply Nat.mod_mul. lia.
Qed.
Lemma chunks_one y : length y = b -> chunks b y = [y].
Proof using HG. intros L. pose proof (gc_pos _ _ _ _ HG) as P. rewrite <- (app_nil_r y) at 1. rewrite chunks_app, chunks_nil by lia. reflexivity. Qed.
(** Both the tag and the chaining value after the padded message come from one block. *)
Lemma value_chain m : bytes m -> exists v, good b v /\ CMAC_value E b R m = E (xorl v (subkey m)) /\ chain E b (full b m) = E v.
Proof using HG.
  intros B. pose proof (gc_pos _ _ _ _ HG) as P. destruct (full_split c b E D HG m B) as (w & r & EM & MW & LR & RW & CC & FF).
  set (y := if complete b m then r else r ++ [0x80] ++ repeat 0 (b - length r - 1)) in *.
  assert (Bwr : bytes w /\ bytes r) by (rewrite EM in B; apply bytes_app in B; exact B). destruct Bwr as [Bw Br].
  assert (Y : good b y).
  { unfold y. rewrite CC. destruct (Nat.eqb_spec (length r) b) as [Q|Q]; [split; assumption|]. split; [rewrite !app_length, repeat_length; cbn [length]; lia|].
    apply bytes_app; split; [exact Br|apply bytes_app; split; [repeat constructor; unfold byte; lia|apply bytes_repeat; unfold byte; lia]]. }
  set (V := fold_left (fun C M => E (xorl C M)) (chunks b w) (repeat 0 b)).
  assert (GV : good b V) by (apply (fold_good c b E D HG); [apply zero_good|apply (chunks_good c b E D HG); assumption]).
  exists (xorl V y). split; [apply xor_good; assumption|]. split.
  - rewrite EM at 1. rewrite (value_split c b E D R HG w r MW LR RW), fold_left_app. fold V. cbn [fold_left]. f_equal. rewrite xorl_assoc. f_equal.
    unfold last_blk, y, subkey. rewrite CC. destruct (length r =? b)%nat; reflexivity.
  - unfold chain. rewrite FF. rewrite chunks_app_mult by (auto; lia). rewrite fold_left_app. fold V. rewrite chunks_one by apply Y. reflexivity.
Qed.
Lemma value_after p w : (length p mod b = 0)%nat -> bytes p -> bytes w -> w <> [] ->
  exists bs, Forall (good b) bs /\ forall p', (length p' mod b = 0)%nat -> CMAC_value E b R (p' ++ w) = fold_left (fun C M => E (xorl C M)) bs (chain E b p').
Proof using HG.
  intros MP Bp Bw NW. pose proof (gc_pos _ _ _ _ HG) as P. destruct (split_message c b E D HG w) as (w1 & r & -> & MW & LR & RW). apply bytes_app in Bw as [Bw Br].
  exists (chunks b w1 ++ [last_blk b E R r]). split.
  - apply Forall_app. split; [apply (chunks_good c b E D HG); assumption|]. constructor; [apply last_good; assumption|constructor].
  - intros p' MP'. rewrite app_assoc, (value_split c b E D R HG (p' ++ w1) r); [|rewrite app_length, Nat.add_mod, MP', MW by lia; apply Nat.mod_0_l; lia|exact LR|].
    + rewrite chunks_app_mult by (auto; lia). rewrite <- app_assoc, fold_left_app. reflexivity.
    + intros ->. rewrite (RW eq_refl) in NW. contradiction (NW eq_refl).
Qed.
End Rel.
(** For two messages that both end in a whole block, or both do not: their tags agree exactly when the tags agree after any common
    continuation of the padded messages. *)
Theorem C87_collision_extends : forall c b E D R m1 m2 w t1 t2 u1 u2, GoodCipher c b E D -> block_size_to_rb b = Some R ->
  bytes m1 -> bytes m2 -> bytes w -> w <> [] -> complete b m1 = complete b m2 ->
  cmac_tag c b m1 t1 -> cmac_tag c b m2 t2 -> cmac_tag c b (full b m1 ++ w) u1 -> cmac_tag c b (full b m2 ++ w) u2 ->
  t1 = t2 <-> u1 = u2.
Proof.
  intros c b E D R m1 m2 w t1 t2 u1 u2 HG HR B1 B2 Bw NW CC T1 T2 U1 U2.
  destruct (full_ok c b E D HG m1 B1) as (F1 & L1 & _). destruct (full_ok c b E D HG m2 B2) as (F2 & L2 & _).
  apply (tag_value c b E D R HG HR) in T1; [|exact B1]. apply (tag_value c b E D R HG HR) in T2; [|exact B2].
  apply (tag_value c b E D R HG HR) in U1; [|apply bytes_app; auto]. apply (tag_value c b E D R HG HR) in U2; [|apply bytes_app; auto].
  destruct (value_chain c b E D R HG m1 B1) as (v1 & G1 & V1 & W1). destruct (value_chain c b E D R HG m2 B2) as (v2 & G2 & V2 & W2).
  destruct (value_after c b E D R HG _ w L1 F1 Bw NW) as (bs & FB & VA). rewrite (VA _ L1), W1 in U1. rewrite (VA _ L2), W2 in U2. subst t1 t2 u1 u2. rewrite V1, V2.
  assert (KE : subkey b E R m2 = subkey b E R m1) by (unfold subkey; rewrite CC; reflexivity). rewrite KE. pose proof (subkey_good b E R m1) as GK. split; intros Q.
  - apply (E_inj c b E D HG) in Q; [|apply xor_good; assumption|apply xor_good; assumption]. destruct GK as [K1 _], G1, G2. apply xorl_inj_l in Q; [|lia|lia]. rewrite Q. reflexivity.
  - apply (fold_inj c b E D HG) in Q; [|apply (gc_E _ _ _ _ HG); apply G1|apply (gc_E _ _ _ _ HG); apply G2|exact FB].
    apply (E_inj c b E D HG) in Q; [|assumption|assumption]. rewrite Q. reflexivity.
Qed.
Print Assumptions C87_collision_extends.

(** ** Encryption under the same key gives the tags away *)
(** What someone does who can have messages encrypted with CBC under some IV they know, by calling [enc]: encrypt the IV itself, which
    gives the subkeys, then the padded message with the IV and the subkey added at its ends.  Only public functions are used. *)
Definition cmac_by_cbc (b : nat) (R : Z) (iv : list Z) (enc : list Z -> list Z) (m : list Z) : list Z :=
  let K1 := gf_double b R (firstn b (enc iv)) in
  let K2 := gf_double b R K1 in
  let k := ((length m - 1) / b * b)%nat in
  let r := skipn k m in
  let x := if (length r =? b)%nat then xorl r K1 else xorl (r ++ [0x80] ++ repeat 0 (b - length r - 1)) K2 in
  let q := firstn k m ++ x in
  lastn b (firstn (length q) (enc (xorl (firstn b q) iv ++ skipn b q))).

Section Cbc.
Variables (c : cipher) (b : nat) (E D : list Z -> list Z) (R : Z).
Hypothesis HG : GoodCipher c b E D.
Hypothesis HR : block_size_to_rb b = Some R.
Notation step := (fun C M => E (xorl C M)).
Lemma cbcb_snoc bs x : forall iv, CBCb E iv (bs ++ [x]) = CBCb E iv bs ++ [fold_left step (bs ++ [x]) iv].
Proof.
  induction bs as [|p bs IH]; intros iv; cbn [CBCb app fold_left]; [rewrite (xorl_comm x); reflexivity|]. rewrite IH, (xorl_comm p). reflexivity.
Qed.
Lemma last_of_cbc iv q : good b iv -> (length q mod b = 0)%nat -> bytes q -> q <> [] -> lastn b (CBC E b iv q) = fold_left step (chunks b q) iv.
Proof using HG.
  intros GI MQ BQ NQ. pose proof (gc_pos _ _ _ _ HG) as P. unfold CBC. pose proof (chunks_good c b E D HG q MQ BQ) as F.
  assert (NC : chunks b q <> []). { intros C. apply NQ. rewrite <- (concat_chunks b q), C by lia. reflexivity. }
  destruct (exists_last NC) as (bs & x & EC). rewrite EC in F |- *. rewrite cbcb_snoc, concat_app. cbn [concat]. rewrite app_nil_r.
  destruct (fold_good c b E D HG _ iv GI F) as [L _]. unfold lastn. rewrite app_length, L, Nat.add_sub, skipn_app, skipn_all, Nat.sub_diag. reflexivity.
Qed.
Lemma cbc_len iv q : good b iv -> (length q mod b = 0)%nat -> bytes q -> length (CBC E b iv q) = length q.
Proof using HG.
  intros GI MQ BQ. pose proof (gc_pos _ _ _ _ HG) as P. pose proof (chunks_good c b E D HG q MQ BQ) as F. rewrite <- (concat_chunks b q) at 2 by lia. unfold CBC.
  revert iv GI F. induction (chunks b q) as [|x bs IH]; intros iv GI F; [reflexivity|]. inversion F as [|? ? X F']; subst. cbn [CBCb concat]. rewrite !app_length.
  assert (GX : good b (E (xorl x iv))) by (destruct (xor_good b x iv X GI) as [A B]; exact (gc_E _ _ _ _ HG _ A B)). rewrite (IH _ GX F'), (proj1 GX), (proj1 X). reflexivity.
Qed.
Lemma cmac_by_cbc_ok iv enc m : good b iv -> bytes m ->
  (forall q, (length q mod b = 0)%nat -> bytes q -> firstn (length q) (enc q) = CBC E b iv q) -> cmac_by_cbc b R iv enc m = CMAC_value E b R m.
Proof using HG.
  intros GI Bm O. pose proof (gc_pos _ _ _ _ HG) as P. unfold cmac_by_cbc.
  assert (K0 : firstn b (enc iv) = E (repeat 0 b)).
  { destruct GI as [LI BI]. rewrite <- LI at 1. rewrite O by (auto; rewrite LI; apply Nat.mod_same; lia). unfold CBC. rewrite (chunks_one c b E D HG iv LI). cbn [CBCb concat]. rewrite app_nil_r. f_equal.
    rewrite <- (xorl_cancel (repeat 0 b) iv) by (rewrite repeat_length; lia). rewrite zero_xor by exact LI. reflexivity. }
  rewrite K0. fold (CMAC_K1 E b R). fold (CMAC_K2 E b R). set (k := ((length m - 1) / b * b)%nat). set (w := firstn k m). set (r := skipn k m).
  assert (EM : m = w ++ r) by (symmetry; apply firstn_skipn).
  pose proof (Nat.div_mod (length m - 1) b ltac:(lia)) as DM. pose proof (Nat.mod_upper_bound (length m - 1) b ltac:(lia)) as UM.
  assert (LW : length w = k) by (unfold w; apply firstn_length_le; unfold k; nia).
  assert (LRR : length r = (length m - k)%nat) by (unfold r; apply skipn_length).
  assert (MW : (length w mod b = 0)%nat) by (rewrite LW; unfold k; apply Nat.mod_mul; lia).
  assert (LR : (length r <= b)%nat) by (rewrite LRR; unfold k; nia).
  assert (RW : r = [] -> w = []).
  { intros Q. apply length_zero_iff_nil. rewrite LW. apply (f_equal (@length Z)) in Q. cbn [length] in Q. rewrite LRR in Q. unfold k in *. destruct (length m) as [|l]; [cbn; rewrite Nat.div_0_l by lia; reflexivity|]. nia. }
  assert (BB : bytes w /\ bytes r) by (rewrite EM in Bm; apply bytes_app in Bm; exact Bm). destruct BB as [Bw Br].
  change (if (length r =? b)%nat then xorl r (CMAC_K1 E b R) else xorl (r ++ [0x80] ++ repeat 0 (b - length r - 1)) (CMAC_K2 E b R)) with (last_blk b E R r).
  pose proof (last_good b E R r LR Br) as GL. rewrite EM at 1. rewrite (value_split c b E D R HG w r MW LR RW).
  assert (CQ : chunks b w ++ [last_blk b E R r] = chunks b (w ++ last_blk b E R r)) by (rewrite chunks_app_mult by (auto; lia); rewrite (chunks_one c b E D HG _ (proj1 GL)); reflexivity).
  rewrite CQ. set (q := w ++ last_blk b E R r) in *.
  assert (LQ : (length q mod b = 0)%nat) by (unfold q; rewrite app_length, (proj1 GL), Nat.add_mod, MW, Nat.mod_same by lia; apply Nat.mod_0_l; lia).
  assert (BQ : bytes q) by (apply bytes_app; split; [exact Bw|apply GL]).
  assert (QL : (b <= length q)%nat) by (unfold q; rewrite app_length, (proj1 GL); lia). clearbody q. clear - HG GI O LQ BQ QL P.
  set (p := firstn b q). set (s := skipn b q). assert (LP : length p = b) by (apply firstn_length_le; exact QL).
  assert (EQ : q = p ++ s) by (symmetry; apply firstn_skipn).
  assert (BP : bytes p /\ bytes s) by (rewrite EQ in BQ; apply bytes_app in BQ; exact BQ). destruct BP as [BP BS].
  assert (GX : good b (xorl p iv)) by (apply xor_good; [split; assumption|exact GI]).
  assert (LE : length q = length (xorl p iv ++ s)) by (rewrite EQ, !app_length, (proj1 GX), LP; reflexivity).
  rewrite LE, O; [|rewrite <- LE; exact LQ|apply bytes_app; split; [apply GX|exact BS]].
  rewrite last_of_cbc; [|exact GI|rewrite <- LE; exact LQ|apply bytes_app; split; [apply GX|exact BS]|destruct (xorl p iv) as [|z l]; [destruct GX as [G _]; cbn in G; lia|discriminate]].
  rewrite EQ, !chunks_app by (try apply GX; lia). cbn [fold_left]. f_equal. f_equal. rewrite zero_xor by exact LP. rewrite (xorl_comm iv). apply xorl_cancel. destruct GI. lia.
Qed.
End Cbc.
(** With either padding, for every message of any length: the tag, from two encryptions. *)
Theorem C87_cbc_gives_tags : forall c b E D R pad iv dst m, GoodCipher c b E D -> block_size_to_rb b = Some R -> In pad [EmptyPadding; DefaultPadding c] ->
  length iv = b -> bytes iv -> bytes m ->
  cmac_tag c b m (cmac_by_cbc b R iv (fun q => fst (cbc_encrypt (mkCbc c pad iv) dst q)) m).
Proof.
  intros c b E D R pad iv dst m HG HR IP LI BI Bm. rewrite (cmac_by_cbc_ok c b E D R HG); [apply (tag_exists c b E D R HG HR); exact Bm|split; assumption|exact Bm|].
  intros q MQ BQ. assert (GI : good b iv) by (split; assumption). pose proof (cbc_len c b E D HG iv q GI MQ BQ) as LC. destruct IP as [<-|[<-|[]]].
  - destruct (PropModes.C13_cbc_empty c b E D HG iv dst dst q LI BI BQ) as [H _]. rewrite (proj1 (H MQ)). cbn [fst]. rewrite <- LC. apply firstn_all.
  - rewrite (PropModes.C13_cbc_default_exact c b E D HG iv dst q LI BI BQ). cbn [fst]. unfold whole. rewrite MQ, Nat.sub_0_r, firstn_all, firstn_app, LC, Nat.sub_diag, firstn_O, app_nil_r, <- LC. apply firstn_all.
Qed.
Print Assumptions C87_cbc_gives_tags.

(** The other modes apply the block cipher to one chosen block (ECB to the message, OFB and CFB to the IV); with that the standard's
    formula can be evaluated. *)
Lemma value_ext c b E D R F m (HG : GoodCipher c b E D) : (forall x, length x = b -> bytes x -> F x = E x) -> bytes m -> CMAC_value F b R m = CMAC_value E b R m.
Proof.
  intros X B. pose proof (gc_pos _ _ _ _ HG) as P. destruct (zero_good b) as [ZL ZB]. destruct (sub_ok b E R) as (S1 & S2 & S3 & S4).
  assert (K1 : CMAC_K1 F b R = CMAC_K1 E b R) by (unfold CMAC_K1; rewrite X by assumption; reflexivity).
  assert (K2 : CMAC_K2 F b R = CMAC_K2 E b R) by (unfold CMAC_K2; rewrite K1; reflexivity).
  unfold CMAC_value. rewrite K1, K2. set (cc := ((0 <? length m)%nat && (length m mod b =? 0)%nat)%bool). set (k := if cc then (length m - b)%nat else (length m / b * b)%nat).
  pose proof (Nat.div_mod (length m) b ltac:(lia)) as DM. pose proof (Nat.mod_upper_bound (length m) b ltac:(lia)) as UM.
  assert (BB : bytes (firstn k m) /\ bytes (skipn k m)) by (apply bytes_app; rewrite firstn_skipn; exact B). destruct BB as [Bw Br].
  assert (KL : (k <= length m)%nat /\ (k mod b = 0)%nat /\ if cc then length (skipn k m) = b else (length (skipn k m) < b)%nat).
  { rewrite skipn_length. unfold k. destruct cc eqn:C; unfold cc in C.
    - apply andb_true_iff in C as [C1 C2]. apply Nat.ltb_lt in C1. apply Nat.eqb_eq in C2. assert (length m / b <> 0)%nat by nia. split; [lia|]. split; [|nia].
      replace (length m - b)%nat with ((length m / b - 1) * b)%nat by nia. apply Nat.mod_mul. lia.
    - split; [nia|]. split; [apply Nat.mod_mul; lia|nia]. }
  destruct KL as (KL & KM & KR). set (r := skipn k m) in *. clearbody r.
  set (l := if cc then xorl r (CMAC_K1 E b R) else xorl (r ++ [0x80] ++ repeat 0 (b - length r - 1)) (CMAC_K2 E b R)).
  assert (GL : good b l).
  { unfold l. destruct cc; apply xor_good; split; auto; [rewrite !app_length, repeat_length; cbn [length]; lia|].
    apply bytes_app; split; [exact Br|apply bytes_app; split; [repeat constructor; unfold byte; lia|apply bytes_repeat; unfold byte; lia]]. }
  clearbody l. pose proof (chunks_good c b E D HG (firstn k m) ltac:(rewrite firstn_length_le by exact KL; exact KM) Bw) as FG.
  assert (FE : fold_left (fun C M => F (xorl C M)) (chunks b (firstn k m)) (repeat 0 b) = fold_left (fun C M => E (xorl C M)) (chunks b (firstn k m)) (repeat 0 b)).
  { assert (GZ : good b (repeat 0 b)) by (split; assumption). revert FG GZ. generalize (repeat 0 b). induction (chunks b (firstn k m)) as [|x bs IH]; intros v FG GV; [reflexivity|].
    inversion FG as [|? ? GX FG']; subst. cbn [fold_left]. destruct (xor_good b v x GV GX) as [A1 A2]. rewrite X by assumption. apply IH; [exact FG'|]. exact (gc_E _ _ _ _ HG _ A1 A2). }
  rewrite FE. pose proof (fold_good c b E D HG _ _ (zero_good b) FG) as GV. destruct (xor_good b _ l GV GL) as [A1 A2]. apply X; assumption.
Qed.
Theorem C87_modes_give_tags : forall c b E D R m F, GoodCipher c b E D -> block_size_to_rb b = Some R -> bytes m ->
  (forall x, length x = b -> bytes x -> In (F x) [fst (ecb_encrypt (mkEcb c EmptyPadding) [] x); fst (ofb_encrypt (mkOfb c x) [] (repeat 0 b));
     fst (cfb_encrypt (mkCfb b c EmptyPadding x) [] (repeat 0 b)); fst (cbc_encrypt (mkCbc c EmptyPadding (repeat 0 b)) [] x)]) ->
  cmac_tag c b m (CMAC_value F b R m).
Proof.
  intros c b E D R m F HG HR Bm O. rewrite (value_ext c b E D R F m HG); [apply (tag_exists c b E D R HG HR); exact Bm| |exact Bm].
  pose proof (gc_pos _ _ _ _ HG) as P. destruct (zero_good b) as [ZL ZB]. intros x LX BX. destruct (gc_E _ _ _ _ HG x LX BX) as [LE BE].
  assert (MX : (length x mod b = 0)%nat) by (rewrite LX; apply Nat.mod_same; lia).
  assert (ZE : xorl (repeat 0 b) (E x) = E x) by (apply zero_xor; exact LE).
  destruct (O x LX BX) as [Q|[Q|[Q|[Q|[]]]]]; rewrite <- Q.
  - destruct (PropModes.C10_ecb_empty c b E D HG [] [] x BX) as [H _]. destruct (H MX) as [H1 _]. rewrite H1. cbn [fst]. unfold ECB. rewrite (chunks_one c b E D HG x LX). cbn [map concat]. apply app_nil_r.
  - destruct (PropModes.C18_ofb c b E D HG x [] (repeat 0 b) LX BX) as (_ & H & _). rewrite H. cbn [fst]. unfold OFB. rewrite ZL.
    assert (NB : nblocks b b = 1%nat).
    { unfold nblocks. replace (b + b - 1)%nat with (1 * b + (b - 1))%nat by lia. rewrite Nat.div_add_l, Nat.div_small by lia. reflexivity. }
    rewrite NB. cbn [seq map concat Nat.iter nat_rect]. rewrite app_nil_r. exact ZE.
  - destruct (PropModes.C16_cfb_empty c b E D HG x b [] [] (repeat 0 b) LX BX ZB ltac:(lia)) as (H & _). rewrite H. cbn [fst]. unfold whole. rewrite ZL, Nat.mod_same, Nat.sub_0_r by lia.
    rewrite <- ZL at 2. rewrite firstn_all. unfold CFB. rewrite (chunks_one c b E D HG _ ZL). cbn [CFBb concat]. rewrite app_nil_r. rewrite <- LE at 2. rewrite firstn_all. exact ZE.
  - destruct (PropModes.C13_cbc_empty c b E D HG (repeat 0 b) [] [] x ZL ZB BX) as [H _]. rewrite (proj1 (H MX)). cbn [fst]. unfold CBC. rewrite (chunks_one c b E D HG x LX). cbn [CBCb concat]. rewrite app_nil_r.
    rewrite (xorl_comm x), zero_xor by exact LX. reflexivity.
Qed.
Print Assumptions C87_modes_give_tags.
(** An AES key, two messages whose tags collide, the same two continued; a tag made with CBC encryptions. *)
Example C87_case : exists c E D m1 m2 t u, GoodCipher c 16 E D /\ block_size_to_rb 16 = Some 0x87 /\ m1 <> m2 /\ complete 16 m1 = true /\ complete 16 m2 = true /\
  cmac_tag c 16 m1 t /\ cmac_tag c 16 m2 t /\ cmac_tag c 16 (m1 ++ [9]) u /\ cmac_tag c 16 (m2 ++ [9]) u /\
  cmac_tag c 16 (repeat 5 20) (cmac_by_cbc 16 0x87 (repeat 6 16) (fun q => fst (cbc_encrypt (mkCbc c (DefaultPadding c) (repeat 6 16)) [] q)) (repeat 5 20)).
Proof.
  destruct (proj1 C07_all_are_block_permutations (repeat 7 16) ltac:(apply bytes_forallb; reflexivity) ltac:(cbn; tauto)) as (a & E & D & _ & G).
  set (c := aes_cipher a) in G. clearbody c.
  assert (B : forall x k, 0 <= x < 256 -> good k (repeat x k)) by (intros; split; [apply repeat_length|apply bytes_repeat; unfold byte; lia]).
  assert (GE : forall x, good 16 x -> good 16 (E x)) by (intros x [X1 X2]; exact (gc_E _ _ _ _ G x X1 X2)).
  set (y := xorl (xorl (E (repeat 1 16)) (repeat 2 16)) (E (repeat 3 16))).
  assert (GY : good 16 y) by (apply xor_good; [apply xor_good; [apply GE, B; lia|apply B; lia]|apply GE, B; lia]).
  assert (V : forall p q, good 16 p -> good 16 q -> CMAC_value E 16 0x87 (p ++ q) = E (xorl (xorl (E p) q) (CMAC_K1 E 16 0x87))).
  { intros p q [P1 P2] [Q1 Q2]. rewrite (value_split c 16 E D 0x87 G p q); [|rewrite P1; reflexivity|lia|intros ->; discriminate Q1].
    rewrite (chunks_one c 16 E D G p P1). cbn [app fold_left]. rewrite (zero_xor 16 p P1). unfold last_blk. rewrite Q1, Nat.eqb_refl, xorl_assoc. reflexivity. }
  set (m1 := repeat 1 16 ++ repeat 2 16). set (m2 := repeat 3 16 ++ y).
  assert (B1 : bytes m1) by (apply bytes_forallb; reflexivity). assert (B2 : bytes m2) by (apply bytes_app; split; [apply B; lia|apply GY]).
  assert (C1 : complete 16 m1 = true) by reflexivity.
  assert (C2 : complete 16 m2 = true) by (unfold complete, m2; rewrite app_length, repeat_length, (proj1 GY); reflexivity).
  assert (VV : CMAC_value E 16 0x87 m2 = CMAC_value E 16 0x87 m1).
  { unfold m1, m2. rewrite !V by (first [exact GY|apply B; lia]). f_equal. f_equal. unfold y. rewrite (xorl_comm (E (repeat 3 16))). apply xorl_cancel.
    rewrite xorl_length, repeat_length, (proj1 (GE _ (B 1 16%nat ltac:(lia)))), (proj1 (GE _ (B 3 16%nat ltac:(lia)))). lia. }
  assert (T1 : cmac_tag c 16 m1 (CMAC_value E 16 0x87 m1)) by (apply (tag_exists c 16 E D 0x87 G eq_refl); exact B1).
  assert (T2 : cmac_tag c 16 m2 (CMAC_value E 16 0x87 m1)) by (rewrite <- VV; apply (tag_exists c 16 E D 0x87 G eq_refl); exact B2).
  assert (B9 : bytes [9]) by (apply bytes_forallb; reflexivity).
  assert (U1 : cmac_tag c 16 (m1 ++ [9]) (CMAC_value E 16 0x87 (m1 ++ [9]))) by (apply (tag_exists c 16 E D 0x87 G eq_refl), bytes_app; auto).
  assert (U2 : cmac_tag c 16 (m2 ++ [9]) (CMAC_value E 16 0x87 (m2 ++ [9]))) by (apply (tag_exists c 16 E D 0x87 G eq_refl), bytes_app; auto).
  assert (F1 : full 16 m1 = m1) by (unfold full; rewrite C1; reflexivity). assert (F2 : full 16 m2 = m2) by (unfold full; rewrite C2; reflexivity).
  destruct (C87_collision_extends c 16 E D 0x87 m1 m2 [9] _ _ _ _ G eq_refl B1 B2 B9 ltac:(discriminate) ltac:(rewrite C1, C2; reflexivity) T1 T2
    ltac:(rewrite F1; exact U1) ltac:(rewrite F2; exact U2)) as [H _]. specialize (H eq_refl).
  exists c, E, D, m1, m2. eexists. eexists. split; [exact G|]. split; [reflexivity|]. split; [discriminate|]. split; [exact C1|]. split; [exact C2|].
  split; [exact T1|]. split; [exact T2|]. split; [exact U1|]. split; [rewrite H; exact U2|].
  apply (C87_cbc_gives_tags c 16 E D 0x87); [exact G|reflexivity|right; left; reflexivity|reflexivity|apply B; lia|apply B; lia].
Qed.
