(** Property C61: ECDSA with the CurveP224 implementation of the curve.  Signing and key generation multiply the base point with the
    curve object's own code, which changes some coordinates (C58); verification uses the generic code of the parameters.
    [returned], [bad_coordinate] are in P224Spec.v, [ec_multiple], [ECDSA_nonce], [ECDSA_key] in EcdsaSpec.v. *)
From Coq Require Import Znumtheory String.
From Verif Require Import Base HashModel HashSpec HashApi PropHash MacApi NumTheory RsaModel RsaEncModel DsaModel DsaSpec DsaProofs
  EllModel EllSpec EllApi AesSpec EcdsaModel EcdsaSpec EcdsaGroup EcdsaProofs PropDsa PropEc PropEcdsa PropCurves PropOrder
  P224Model P224Spec P224Api PropP224 P224Ecdsa CurveGroup.
Local Open Scope Z_scope.

(** CurveP224 as ECDSA sees it, p224.rs:41-48, 706-813; ecdsa.rs:105, 178 use its [scalar_base_point]. *)
Definition p224_obj : ec_obj := mkEco p224 (fun k => Some (c224_scalar_base k)).
Definition G224 : pt := decode (cp_gx p224, cp_gy p224).
(** A signer whose curve is CurveP224, in any state. *)
Definition p224_signer {S} (I : S -> Prop) (d : Z) (o : ecdsa S) : Prop :=
  es_curve o = p224_obj /\ (exists pk, es_kp o = inr (mkEpriv pk d)) /\ es_dbytes o = Some (to_be_bytes d) /\ I (es_hf o).
(** The signature of [z] with private key [d] and nonce [k], with [returned x] in place of x. *)
Definition p224_signature (d z k r s : Z) : Prop :=
  exists x y, ec_multiple (cp_p p224) (Z.to_nat k) G224 (Some (x, y)) /\ 0 <= x < cp_p p224 /\ r = returned x mod cp_n p224 /\
    0 < r < cp_n p224 /\ 0 < s < cp_n p224 /\ (s * k) mod cp_n p224 = (z + d * r) mod cp_n p224.

Lemma in224 : In p224 builtin_curves. Proof. left. reflexivity. Qed.
Lemma group224 : group_of p224. Proof. exact (C50_prime_order p224 in224). Qed.
Lemma G224_eq : decode (cp_gx p224, cp_gy p224) = G224. Proof. reflexivity. Qed.
Lemma base224 k x y : 0 < k < cp_n p224 -> curve_scalar_base p224 k = Some (x, y) -> eo_base p224_obj k = Some (returned x, returned y).
Proof.
  intros K E. unfold p224_obj. cbn [eo_base]. rewrite (C58_scalar_base_point k ltac:(lia)), E. reflexivity.
Qed.
Lemma multiple224 k x y : 0 < k < cp_n p224 -> curve_scalar_base p224 k = Some (x, y) -> 0 <= x < cp_p p224 /\ 0 <= y < cp_p p224 /\ ec_multiple (cp_p p224) (Z.to_nat k) G224 (Some (x, y)).
Proof.
  intros K E. destruct (base_point p224 group224 k K) as (x' & y' & E' & X & Y & O & DS & _). rewrite E in E'. injection E' as <- <-.
  split; [exact X|]. split; [exact Y|]. rewrite <- G224_eq. apply (multiple_ok p224 p224_sound); [exact (proj1 (proj2 group224))|]. rewrite Z2Nat.id by lia. exists x, y. split; [exact E|].
  rewrite DS. apply same_refl.
Qed.
Lemma multiple224_inv k x y x' y' : 0 < k < cp_n p224 -> curve_scalar_base p224 k = Some (x, y) -> ec_multiple (cp_p p224) (Z.to_nat k) G224 (Some (x', y')) -> 0 <= x' < cp_p p224 -> x' = x.
Proof.
  intros K E M X'. destruct (base_point p224 group224 k K) as (u & v & E' & X & Y & O & DS & _). rewrite E in E'. injection E' as <- <-.
  rewrite <- G224_eq in M. apply (multiple_ok p224 p224_sound) in M; [|exact (proj1 (proj2 group224))]. rewrite Z2Nat.id in M by lia.
  destruct M as (u & v & EU & SP). unfold curve_scalar_base in E. rewrite E in EU. injection EU as <- <-. rewrite DS in SP. symmetry. exact (base_inj p224 group224 _ _ _ _ X X' SP).
Qed.
Lemma tsig224 d z k r s : 0 < k < cp_n p224 -> tsig p224_obj returned d z k r s <-> p224_signature d z k r s.
Proof.
  intros K. unfold tsig, p224_signature. change (eo_params p224_obj) with p224. split.
  - intros (x & y & E & R). exists x, y. destruct (multiple224 k x y K E) as (X & Y & M). split; [exact M|]. split; [exact X|exact R].
  - intros (x & y & M & X & R). destruct (base_point p224 group224 k K) as (u & v & E & _). rewrite (multiple224_inv k u v x y K E M X) in R. exists u, v. split; [exact E|exact R].
Qed.
Lemma returned_mod x : 0 <= x < cp_p p224 -> returned x mod cp_n p224 = x mod cp_n p224 <-> bad_coordinate x = false.
Proof.
  intros X. assert (EP : cp_p p224 = P224) by reflexivity. rewrite EP in X. clear EP. unfold returned. destruct (bad_coordinate x) eqn:B; [|tauto]. split; [|discriminate]. intros E. exfalso.
  unfold bad_coordinate in B. apply orb_true_iff in B. destruct B as [B|B].
  - apply Z.eqb_eq in B. subst x. revert E. vm_compute. discriminate.
  - apply andb_true_iff in B. destruct B as [B _]. apply Z.ltb_lt in B. rewrite (Z.mod_small _ P224) in E by (unfold P224; lia).
    assert (N : 2 ^ 97 < cp_n p224) by reflexivity. rewrite !Z.mod_small in E by lia. lia.
Qed.

Lemma z_nonneg n h : bytes h -> 0 <= DSA_z n h.
Proof. intros B. unfold DSA_z. apply Z.div_pos; [apply be_val_bound, B|]. apply Z.pow_pos_nonneg; lia. Qed.

(** Objects just made, and after any calls, are signers. *)
Theorem C61_objects : forall (S : Type) (D : digest S) (I : S -> Prop) H limit hf pk d ws ops, DigestOk D I H limit -> I hf ->
  p224_signer I d (fst (fold_left (ecdsa_step D) ops (ecdsa_new hf p224_obj (inr (mkEpriv pk d)), ws))).
Proof.
  intros S D I H limit hf pk d ws ops HG Hhf.
  assert (K : forall ops st, p224_signer I d (fst st) -> p224_signer I d (fst (fold_left (ecdsa_step D) ops st))).
  { clear -HG. induction ops as [|op ops IH]; intros [o ws] HI; [exact HI|]. cbn [fold_left]. apply IH. destruct HI as (A & B & C & E). cbn [fst] in *.
    destruct op as [fuel sc msg|sc msg]; cbn [ecdsa_step fst snd].
    - destruct (ec_sign_keeps D I H limit HG fuel o ws sc msg E) as (A' & B' & C' & E'). unfold p224_signer. rewrite A', B', C'. auto.
    - destruct (ec_verify_keeps D I H limit HG o sc msg E) as (A' & B' & C' & E'). unfold p224_signer. rewrite A', B', C'. auto. }
  apply K. split; [reflexivity|]. split; [exists pk; reflexivity|]. split; [reflexivity|exact Hhf].
Qed.
Print Assumptions C61_objects.

(** Which signature [sign] makes. *)
Theorem C61_sign_exact : forall (S : Type) (D : digest S) (I : S -> Prop) H limit d o fuel ws sc msg, DigestOk D I H limit ->
  p224_signer I d o -> bytes msg -> Z.of_nat (length msg) < limit ->
  Z.of_nat (length (to_be_bytes d)) + Z.of_nat (length (H msg)) + 32 < 2 ^ 64 ->
  let key := ECDSA_key (to_be_bytes d) (firstn 14 (flat_map (be_bytes 4) ws)) (H msg) in
  let nonce := ECDSA_nonce (cp_n p224) 36 key ECDSA_IV in
  let signature k r s := p224_signature d (DSA_z 224 (H msg)) k r s in
  let '(_, ws', sc', out) := ecdsa_sign D fuel o ws sc msg in
  ws' = skipn 4 ws /\ (out = Ok tt \/ out = Panic) /\
  (out = Panic <-> forall i, (i < fuel)%nat -> ~ exists r s, signature (nonce i) r s) /\
  (out = Ok tt -> exists i r s, (i < fuel)%nat /\ signature (nonce i) r s /\ (forall j, (j < i)%nat -> ~ exists r s, signature (nonce j) r s) /\
     sigc_to_bigint sc' = Ok (r, s)).
Proof.
  intros S D I H limit d o fuel ws sc msg HG (EC & (pk & KP) & DB & IH) B L LL key nonce signature.
  pose proof (tsign_ok D I H limit HG returned returned fuel o ws sc msg pk d) as SO. cbv zeta in SO. rewrite EC in SO. change (eo_params p224_obj) with p224 in SO.
  specialize (SO group224 base224 KP DB IH B L LL).
  change (entropy_len p224) with 14%nat in SO. rewrite draw_bytes_eq in SO. cbn [fst snd] in SO.
  change (element_len p224) with 36%nat in SO. change (Z.of_nat (bits_len (cp_n p224))) with 224 in SO. change (Nat.max 1 ((14 + 3) / 4)) with 4%nat in SO.
  fold key in SO. fold nonce in SO.
  assert (NR : forall i, 0 < nonce i < cp_n p224) by (intros i; apply nonce_range; reflexivity).
  assert (SI : forall i r s, tsig p224_obj returned d (DSA_z 224 (H msg)) (nonce i) r s <-> signature (nonce i) r s) by (intros i r s; exact (tsig224 d _ _ r s (NR i))).
  destruct (ecdsa_sign D fuel o ws sc msg) as [[[o' ws'] sc'] out]. cbn [fst snd] in SO. destruct SO as [-> [(i & r & s & LI & SG & BE & -> & ->)|[BE ->]]].
  - apply SI in SG. split; [reflexivity|]. split; [left; reflexivity|]. split.
    + split; [discriminate|]. intros X. exfalso. apply (X i LI). exists r, s. exact SG.
    + intros _. exists i, r, s. split; [exact LI|]. split; [exact SG|]. split.
      * intros j J (r' & s' & F). apply (BE j J). exists r', s'. apply SI, F.
      * destruct SG as (_ & _ & _ & _ & _ & R & V & _). apply sigc_set_get; lia.
  - split; [reflexivity|]. split; [right; reflexivity|]. split; [|discriminate]. split; [intros _ i LI (r' & s' & F); apply (BE i LI); exists r', s'; apply SI, F|reflexivity].
Qed.
Print Assumptions C61_sign_exact.

(** A signature made with CurveP224 passes verification with the matching public key exactly when the x of its nonce's point came back
    unchanged. *)
Theorem C61_sign_verify_iff : forall (S : Type) (D : digest S) (I : S -> Prop) H limit d qx qy o o1 o2 fuel ws ws1 sc sc1 msg, DigestOk D I H limit ->
  p224_signer I d o -> 0 <= d -> curve_scalar_base p224 d = Some (qx, qy) -> verifier I p224 qx qy o2 ->
  bytes msg -> Z.of_nat (length msg) < limit -> Z.of_nat (length (to_be_bytes d)) + Z.of_nat (length (H msg)) + 32 < 2 ^ 64 ->
  ecdsa_sign D fuel o ws sc msg = (o1, ws1, sc1, Ok tt) ->
  exists i x y, (i < fuel)%nat /\
    let k := ECDSA_nonce (cp_n p224) 36 (ECDSA_key (to_be_bytes d) (firstn 14 (flat_map (be_bytes 4) ws)) (H msg)) ECDSA_IV i in
    ec_multiple (cp_p p224) (Z.to_nat k) G224 (Some (x, y)) /\ 0 <= x < cp_p p224 /\
    snd (ecdsa_verify D o2 sc1 msg) = if bad_coordinate x then Err VerificationFailed else Ok tt.
Proof.
  intros S D I H limit d qx qy o o1 o2 fuel ws ws1 sc sc1 msg HG SI D0 EQ VE B L LL E.
  assert (Z0 : 0 <= DSA_z 224 (H msg)) by (apply z_nonneg; destruct HG as [_ _ _ _ _ G6]; exact (proj2 (G6 msg B L))).
  pose proof (C61_sign_exact S D I H limit d o fuel ws sc msg HG SI B L LL) as SX. cbv zeta in SX. rewrite E in SX. destruct SX as (_ & _ & _ & SX).
  destruct (SX eq_refl) as (i & r & s & LI & SG & _ & ES). clear SX.
  set (k := ECDSA_nonce _ _ _ _ i) in *. assert (K : 0 < k < cp_n p224) by (apply nonce_range; reflexivity).
  destruct SG as (x & y & M & X & ER & R & V & EK). exists i, x, y. split; [exact LI|]. cbv zeta. fold k. split; [exact M|]. split; [exact X|].
  destruct (multiple_order p224 group224 d qx qy D0 EQ) as (OQ & MQ & _).
  destruct (C47_verify_iff S D I H limit p224 qx qy o2 sc1 r s msg HG group224 VE OQ MQ B L ES) as [OUT ACC]. cbv zeta in OUT, ACC.
  change (Z.of_nat (bits_len (cp_n p224))) with 224 in ACC.
  destruct (base_point p224 group224 k K) as (u & v & EB & _). assert (EX := multiple224_inv k u v x y K EB M X).
  rewrite (accepted_iff p224 group224 d _ k r s qx qy u v K D0 Z0 EQ EB R V EK), ER, <- EX, (returned_mod x X) in ACC.
  destruct (bad_coordinate x); [destruct OUT as [OUT|OUT]; [apply ACC in OUT; discriminate|exact OUT]|apply ACC; reflexivity].
Qed.
Print Assumptions C61_sign_verify_iff.

(** Key generation: the public key goes through [returned]. *)
Theorem C61_auto_generate_key : forall (S : Type) (hf : S) ws,
  let d := be_val (firstn 36 (flat_map (be_bytes 4) ws)) mod (cp_n p224 - 1) + 1 in
  1 <= d <= cp_n p224 - 1 /\ exists qx qy, curve_scalar_base p224 d = Some (qx, qy) /\
    auto_generate_key hf ws p224_obj = Ok (ecdsa_new hf p224_obj (inr (mkEpriv (mkEpub (returned qx) (returned qy)) d)), skipn 9 ws).
Proof.
  intros S hf ws d. assert (DR : 0 < d < cp_n p224).
  { unfold d. pose proof (Z.mod_pos_bound (be_val (firstn 36 (flat_map (be_bytes 4) ws))) (cp_n p224 - 1) ltac:(reflexivity)). lia. }
  split; [lia|]. destruct (base_point p224 group224 d DR) as (x & y & E & _). exists x, y. split; [exact E|].
  unfold auto_generate_key, rand_field_element. change (eo_params p224_obj) with p224. change (element_len p224) with 36%nat. rewrite draw_bytes_eq.
  change (Nat.max 1 ((36 + 3) / 4)) with 9%nat. change (field_element p224 (firstn 36 (flat_map (be_bytes 4) ws))) with d. rewrite (base224 d x y DR E). reflexivity.
Qed.
Print Assumptions C61_auto_generate_key.

(** The two claims one would want are false.  There are nonces in [1, n-1] whose signatures are never accepted ... *)
Definition bad_y := 22306114503078803651991611310894074284070894439240364052766147430796.
Lemma bad_on : is_on_curve p224 536870911 bad_y = true. Proof. vm_compute. reflexivity. Qed.
Theorem C61_accepted_refuted : exists k, 1 <= k <= cp_n p224 - 1 /\
  forall d qx qy z r s, 0 <= d -> 0 <= z -> curve_scalar_base p224 d = Some (qx, qy) -> p224_signature d z k r s ->
    ~ ECDSA_accepts (cp_p p224) (cp_n p224) G224 (decode (qx, qy)) z r s.
Proof.
  destruct (C60_private_key p224 536870911 bad_y in224 bad_on) as (k & K & E & _); [split; (discriminate || reflexivity)|split; (discriminate || reflexivity)|].
  exists k. split; [exact K|]. intros d qx qy z r s D0 Z0 EQ (x & y & M & X & ER & R & V & EK).
  assert (K' : 0 < k < cp_n p224) by lia. assert (EX := multiple224_inv k _ _ x y K' E M X). subst x. intros A. rewrite <- G224_eq in A.
  apply (accepted_iff p224 group224 d z k r s qx qy _ _ K' D0 Z0 EQ E R V EK) in A. rewrite ER in A. apply (returned_mod 536870911 X) in A. vm_compute in A. discriminate.
Qed.
Print Assumptions C61_accepted_refuted.
(** ... and there are random words from which key generation makes a public key that is not on the curve. *)
Lemma draw_any m : forall v, 0 <= v < 256 ^ Z.of_nat (4 * m) -> exists ws, length ws = m /\ Forall (fun w => 0 <= w < 2 ^ 32) ws /\ be_val (flat_map (be_bytes 4) ws) = v.
Proof.
  induction m as [|m IH]; intros v V; [exists []; cbn in *; split; [reflexivity|]; split; [constructor|lia]|].
  set (B := 256 ^ Z.of_nat (4 * m)) in *. assert (B0 : 0 < B) by (apply Z.pow_pos_nonneg; lia).
  replace (256 ^ Z.of_nat (4 * S m)) with (2 ^ 32 * B) in V.
  2: { unfold B. replace (Z.of_nat (4 * S m)) with (4 + Z.of_nat (4 * m)) by lia. rewrite Z.pow_add_r by lia. reflexivity. }
  destruct (IH (v mod B) (Z.mod_pos_bound v B B0)) as (ws & LW & FW & E).
  assert (Q : 0 <= v / B < 2 ^ 32) by (split; [apply Z.div_pos; lia|apply Z.div_lt_upper_bound; lia]).
  exists (v / B :: ws). split; [cbn; congruence|]. split; [constructor; assumption|]. cbn [flat_map]. rewrite be_val_app, E, be_val_bytes.
  rewrite (proj2 (flat_be_bytes 4 ws)), LW.
  change (256 ^ Z.of_nat 4) with (2 ^ 32). rewrite (Z.mod_small (v / B)) by exact Q. replace (m * 4)%nat with (4 * m)%nat by lia. fold B.
  pose proof (Z.div_mod v B ltac:(lia)). lia.
Qed.
Theorem C61_key_on_curve_refuted : exists ws, Forall (fun w => 0 <= w < 2 ^ 32) ws /\
  forall (S : Type) (hf : S), exists d qx qy ws', auto_generate_key hf ws p224_obj = Ok (ecdsa_new hf p224_obj (inr (mkEpriv (mkEpub qx qy) d)), ws') /\
    is_on_curve p224 qx qy = false /\ c224_is_on_curve qx qy = false.
Proof.
  set (x3 := 6249846793029195505132993417681461260653261761075236472107163931605).
  assert (ON : is_on_curve p224 x3 (P224 - 1) = true) by (vm_compute; reflexivity).
  assert (RG : forall a, ((0 <=? a) && (a <? cp_p p224) = true)%bool -> 0 <= a < cp_p p224).
  { intros a A. apply andb_true_iff in A. destruct A as [A1 A2]. apply Z.leb_le in A1. apply Z.ltb_lt in A2. split; assumption. }
  destruct (C60_private_key p224 x3 (P224 - 1) in224 ON) as (k & K & E & _); [apply RG; vm_compute; reflexivity|apply RG; vm_compute; reflexivity|]. clear RG.
  assert (NB : cp_n p224 < 2 ^ 224) by reflexivity.
  destruct (draw_any 9 (k - 1)) as (ws & LW & FW & EW); [change (256 ^ Z.of_nat (4 * 9)) with (2 ^ 288); lia|].
  exists ws. split; [exact FW|]. intros S hf. destruct (C61_auto_generate_key S hf ws) as (_ & qx & qy & EQ & A). cbv zeta in *.
  rewrite firstn_all2 in EQ, A by (rewrite (proj2 (flat_be_bytes 4 ws)), LW; lia). rewrite EW in EQ, A.
  rewrite Z.mod_small in EQ, A by lia. replace (k - 1 + 1) with k in EQ, A by lia. rewrite E in EQ. injection EQ as <- <-.
  exists k, (returned x3), (returned (P224 - 1)). eexists. split; [exact A|]. 
  replace (returned x3) with x3 by (vm_compute; reflexivity). replace (returned (P224 - 1)) with (2 ^ 28 - 1) by (vm_compute; reflexivity). split; [vm_compute; reflexivity|].
  rewrite (C58_is_on_curve_generic x3 (2 ^ 28 - 1)) by (unfold x3; lia). vm_compute. reflexivity.
Qed.
Print Assumptions C61_key_on_curve_refuted.

Example C61_met : p224_signer (fun _ => True) 100 (ecdsa_new ([] : list Z) p224_obj (inr (mkEpriv (mkEpub 1 2) 100))) /\
  DigestOk Sum2 (fun _ => True) sum2_hash (2 ^ 64) /\ bytes [5; 6] /\ Z.of_nat (length (to_be_bytes 100)) + Z.of_nat (length (sum2_hash [5; 6])) + 32 < 2 ^ 64 /\
  bad_coordinate (cp_gx p224) = false.
Proof.
  split; [split; [reflexivity|]; split; [exists (mkEpub 1 2); reflexivity|]; split; reflexivity|]. split; [apply sum2_ok|].
  split; [repeat (apply Forall_cons; [split; lia|]); constructor|]. split; vm_compute; reflexivity.
Qed.
(** With the nonce 1, private key 5 and z = 3 there is a signature. *)
Example C61_signature_met : exists r s, p224_signature 5 3 1 r s.
Proof.
  assert (E : curve_scalar_base p224 1 = Some (cp_gx p224, cp_gy p224)) by (vm_compute; reflexivity).
  assert (K : 0 < 1 < cp_n p224) by (split; reflexivity). destruct (multiple224 1 _ _ K E) as (X & Y & M).
  exists (cp_gx p224 mod cp_n p224), ((3 + 5 * (cp_gx p224 mod cp_n p224)) mod cp_n p224), (cp_gx p224), (cp_gy p224).
  split; [exact M|]. split; [exact X|]. split; [vm_compute; reflexivity|]. split; [vm_compute; split; reflexivity|]. split; [vm_compute; split; reflexivity|]. vm_compute. reflexivity.
Qed.
