(** Property C47: ECDSA signatures.  Specification: EcdsaSpec.v.
    [D] computes the hash function [H] on messages shorter than [limit] from states satisfying [I].  [ws] are the words the random
    source yields.  [fuel] bounds the nonces tried by a call of [sign], whose loop has no bound. *)
From Coq Require Import Znumtheory String.
From Verif Require Import Base HashModel HashSpec HashApi PropHash MacApi NumTheory RsaModel RsaEncModel DsaModel DsaSpec DsaProofs
  EllModel EllSpec EllApi AesSpec EcdsaModel EcdsaSpec EcdsaGroup EcdsaProofs PropDsa PropEc.

Definition group_of (c : curve) : Prop := ECDSA_group (cp_p c) (cp_b c) (cp_n c) (decode (cp_gx c, cp_gy c)).
(** An ECDSA object with curve parameters [c] and private key [d], in any state; the object's own multiplication of the base point
    agrees with the one of [c]. *)
Definition signer {S} (I : S -> Prop) (c : curve) (d : Z) (o : ecdsa S) : Prop :=
  eo_params (es_curve o) = c /\ (forall k, 0 < k < cp_n c -> eo_base (es_curve o) k = curve_scalar_base c k) /\
  (exists pk, es_kp o = inr (mkEpriv pk d)) /\ es_dbytes o = Some (to_be_bytes d) /\ I (es_hf o).
(** One with public key (qx, qy). *)
Definition verifier {S} (I : S -> Prop) (c : curve) (qx qy : Z) (o : ecdsa S) : Prop :=
  eo_params (es_curve o) = c /\ ekp_public (es_kp o) = mkEpub qx qy /\ I (es_hf o).

(** An object just made, and one after any calls, is a signer and a verifier. *)
Inductive ecdsa_op := OpSign (fuel : nat) (sc : sigc) (msg : list Z) | OpVerify (sc : sigc) (msg : list Z).
Definition ecdsa_step {S} (D : digest S) (st : ecdsa S * list Z) (op : ecdsa_op) : ecdsa S * list Z :=
  match op with
  | OpSign fuel sc msg => fst (fst (ecdsa_sign D fuel (fst st) (snd st) sc msg))
  | OpVerify sc msg => (fst (ecdsa_verify D (fst st) sc msg), snd st)
  end.
Theorem C47_objects : forall (S : Type) (D : digest S) (I : S -> Prop) H limit hf eo kp ws ops, DigestOk D I H limit -> I hf ->
  let o := fst (fold_left (ecdsa_step D) ops (ecdsa_new hf eo kp, ws)) in
  (forall pk d, kp = inr (mkEpriv pk d) -> (forall k, 0 < k < cp_n (eo_params eo) -> eo_base eo k = curve_scalar_base (eo_params eo) k) -> signer I (eo_params eo) d o) /\
  (forall qx qy, ekp_public kp = mkEpub qx qy -> verifier I (eo_params eo) qx qy o).
Proof.
  intros S D I H limit hf eo kp ws ops HG Hhf.
  assert (K : forall ops st, I (es_hf (fst st)) -> let o' := fst (fold_left (ecdsa_step D) ops st) in
    es_curve o' = es_curve (fst st) /\ es_kp o' = es_kp (fst st) /\ es_dbytes o' = es_dbytes (fst st) /\ I (es_hf o')).
  { clear -HG. induction ops as [|op ops IH]; intros [o ws] HI; [cbn; auto|]. cbn [fold_left].
    assert (ST : let o1 := fst (ecdsa_step D (o, ws) op) in es_curve o1 = es_curve o /\ es_kp o1 = es_kp o /\ es_dbytes o1 = es_dbytes o /\ I (es_hf o1)).
    { destruct op as [fuel sc msg|sc msg]; cbn [ecdsa_step fst snd]; [apply (ec_sign_keeps D I H limit HG), HI|apply (ec_verify_keeps D I H limit HG), HI]. }
    destruct ST as (A & B & C & E). destruct (IH (ecdsa_step D (o, ws) op) E) as (A' & B' & C' & E'). cbn [fst].
    split; [congruence|]. split; [congruence|]. split; [congruence|exact E']. }
  destruct (K ops (ecdsa_new hf eo kp, ws) Hhf) as (A & B & C & E). cbn [fst ecdsa_new es_curve es_kp es_dbytes] in *. split.
  - intros pk d -> BASE. unfold signer. rewrite A, B, C. split; [reflexivity|]. split; [exact BASE|]. split; [exists pk; reflexivity|]. split; [reflexivity|exact E].
  - intros qx qy EK. unfold verifier. rewrite A, B. split; [reflexivity|]. split; [exact EK|exact E].
Qed.
Print Assumptions C47_objects.

(** Which signature [sign] makes: the standard's, for the first of the derived nonces that has one; and what it takes from the source. *)
Theorem C47_sign_exact : forall (S : Type) (D : digest S) (I : S -> Prop) H limit c d o fuel ws sc msg, DigestOk D I H limit ->
  group_of c -> signer I c d o -> bytes msg -> Z.of_nat (length msg) < limit ->
  Z.of_nat (length (to_be_bytes d)) + Z.of_nat (length (H msg)) + 32 < 2 ^ 64 ->
  let elen := Nat.min 32 ((cp_bits c + 7) / 16) in
  let key := ECDSA_key (to_be_bytes d) (firstn elen (flat_map (be_bytes 4) ws)) (H msg) in
  let nonce := ECDSA_nonce (cp_n c) (cp_bits c / 8 + 8) key ECDSA_IV in
  let signature k r s := ECDSA_signature (cp_p c) (cp_n c) (decode (cp_gx c, cp_gy c)) d (DSA_z (Z.of_nat (bits_len (cp_n c))) (H msg)) k r s in
  let '(_, ws', sc', out) := ecdsa_sign D fuel o ws sc msg in
  ws' = skipn (Nat.max 1 ((elen + 3) / 4)) ws /\ (out = Ok tt \/ out = Panic) /\
  (out = Panic <-> forall i, (i < fuel)%nat -> ~ exists r s, signature (nonce i) r s) /\
  (out = Ok tt -> exists i r s, (i < fuel)%nat /\ signature (nonce i) r s /\ (forall j, (j < i)%nat -> ~ exists r s, signature (nonce j) r s) /\
     sigc_to_bigint sc' = Ok (r, s)).
Proof.
  intros S D I H limit c d o fuel ws sc msg HG GR (EC & BASE & (pk & KP) & DB & IH) B L LL elen key nonce signature. subst c.
  pose proof (sign_ok D I H limit HG fuel o ws sc msg pk d GR BASE KP DB IH B L LL) as SO. cbv zeta in SO.
  change (entropy_len (eo_params (es_curve o))) with elen in SO. rewrite draw_bytes_eq in SO. cbn [fst snd] in SO.
  destruct (ecdsa_sign D fuel o ws sc msg) as [[[o' ws'] sc'] out]. cbn [fst snd] in SO. destruct SO as [-> [(i & r & s & LI & SG & BE & -> & ->)|[BE ->]]].
  - split; [reflexivity|]. split; [left; reflexivity|]. split.
    + split; [discriminate|]. intros X. exfalso. apply (X i LI). exists r, s. exact SG.
    + intros _. exists i, r, s. split; [exact LI|]. split; [exact SG|]. split; [exact BE|]. destruct SG as (_ & _ & _ & _ & _ & R & V & _). apply sigc_set_get; lia.
  - split; [reflexivity|]. split; [right; reflexivity|]. split; [|discriminate]. split; [intros _; exact BE|reflexivity].
Qed.
Print Assumptions C47_sign_exact.
(** The nonces are in [1, n-1] whatever the key stream. *)
Theorem C47_nonce_range : forall n len key iv j, 1 < n -> 1 <= ECDSA_nonce n len key iv j <= n - 1.
Proof. intros n len key iv j N. pose proof (nonce_range n len key iv j N). lia. Qed.
Print Assumptions C47_nonce_range.
(** For a nonce there is at most one signature, and r and s are in [1, n-1]. *)
Theorem C47_signature_unique : forall c d z k r s r' s', group_of c -> 0 < k < cp_n c ->
  ECDSA_signature (cp_p c) (cp_n c) (decode (cp_gx c, cp_gy c)) d z k r s -> ECDSA_signature (cp_p c) (cp_n c) (decode (cp_gx c, cp_gy c)) d z k r' s' ->
  r = r' /\ s = s' /\ 1 <= r <= cp_n c - 1 /\ 1 <= s <= cp_n c - 1.
Proof.
  intros c d z k r s r' s' GR K A B. destruct (sig_det (params_obj c) GR d z k r s r' s' K A B) as [-> ->].
  destruct A as (_ & _ & _ & _ & _ & R & V & _). repeat split; lia.
Qed.
Print Assumptions C47_signature_unique.

(** [verify] accepts exactly the signatures the standard accepts, for a public key in the group of order n. *)
Theorem C47_verify_iff : forall (S : Type) (D : digest S) (I : S -> Prop) H limit c qx qy o sc r s msg, DigestOk D I H limit ->
  group_of c -> verifier I c qx qy o -> on_curve (cp_p c) (cp_b c) (decode (qx, qy)) -> ec_multiple (cp_p c) (Z.to_nat (cp_n c)) (decode (qx, qy)) None ->
  bytes msg -> Z.of_nat (length msg) < limit -> sigc_to_bigint sc = Ok (r, s) ->
  let out := snd (ecdsa_verify D o sc msg) in
  (out = Ok tt \/ out = Err VerificationFailed) /\
  (out = Ok tt <-> ECDSA_accepts (cp_p c) (cp_n c) (decode (cp_gx c, cp_gy c)) (decode (qx, qy)) (DSA_z (Z.of_nat (bits_len (cp_n c))) (H msg)) r s).
Proof.
  intros S D I H limit c qx qy o sc r s msg HG GR (EC & EK & IH) OQ MQ B L ES.
  exact (verify_ok D I H limit HG o c qx qy r s msg EC EK GR OQ MQ IH B L sc ES).
Qed.
Print Assumptions C47_verify_iff.
(** r or s outside [1, n-1] is refused, on any curve, for any key. *)
Theorem C47_range : forall (S : Type) (D : digest S) o sc r s msg, sigc_to_bigint sc = Ok (r, s) ->
  ~ (1 <= r <= cp_n (eo_params (es_curve o)) - 1 /\ 1 <= s <= cp_n (eo_params (es_curve o)) - 1) -> snd (ecdsa_verify D o sc msg) = Err VerificationFailed.
Proof.
  intros S D o sc r s msg ES N. unfold ecdsa_verify. rewrite ES. cbn [snd]. unfold ec_verify_inner.
  assert (EO : es_curve (ec_hash D o msg) = es_curve o) by (unfold ec_hash; destruct (hash_run D (es_hf o) [msg]); reflexivity). rewrite EO.
  destruct (negb (Z.sgn r =? 1)) eqn:R; cbn [orb]; [reflexivity|]. apply sgn1 in R. destruct (negb (Z.sgn s =? 1)) eqn:V; cbn [orb]; [reflexivity|]. apply sgn1 in V.
  destruct (Z.leb_spec (cp_n (eo_params (es_curve o))) r); cbn [orb]; [reflexivity|]. destruct (Z.leb_spec (cp_n (eo_params (es_curve o))) s); cbn [orb]; [reflexivity|].
  exfalso. apply N. lia.
Qed.
Print Assumptions C47_range.

(** Every signature made verifies under the matching public key. *)
Theorem C47_sign_verify : forall (S : Type) (D : digest S) (I : S -> Prop) H limit c d qx qy o o1 o2 fuel ws ws1 sc sc1 msg, DigestOk D I H limit ->
  group_of c -> signer I c d o -> 0 <= d -> curve_scalar_base c d = Some (qx, qy) -> verifier I c qx qy o2 ->
  bytes msg -> Z.of_nat (length msg) < limit -> Z.of_nat (length (to_be_bytes d)) + Z.of_nat (length (H msg)) + 32 < 2 ^ 64 ->
  ecdsa_sign D fuel o ws sc msg = (o1, ws1, sc1, Ok tt) -> snd (ecdsa_verify D o2 sc1 msg) = Ok tt.
Proof.
  intros S D I H limit c d qx qy o o1 o2 fuel ws ws1 sc sc1 msg HG GR SI D0 EQ VE B L LL E.
  pose proof (C47_sign_exact S D I H limit c d o fuel ws sc msg HG GR SI B L LL) as SX. cbv zeta in SX. rewrite E in SX. destruct SX as (_ & _ & _ & SX).
  destruct (SX eq_refl) as (i & r & s & _ & SG & _ & ES). destruct (multiple_order c GR d qx qy D0 EQ) as (OQ & MQ & _).
  apply (C47_verify_iff S D I H limit c qx qy o2 sc1 r s msg HG GR VE OQ MQ B L ES).
  assert (N2 : 2 < cp_n c) by apply GR.
  assert (HB : bytes (H msg)) by (destruct HG as [_ _ _ _ _ G6]; destruct (G6 msg B L); auto).
  refine (signature_accepted c GR d _ _ r s qx qy (nonce_range (cp_n c) _ _ _ _ ltac:(lia)) D0 _ EQ SG).
  rewrite <- (hash_number c) by exact HB. apply hash_nonneg, HB.
Qed.
Print Assumptions C47_sign_verify.
(** A public key alone cannot sign. *)
Theorem C47_needs_private_key : forall (S : Type) (D : digest S) o fuel ws sc msg pk, es_kp o = inl pk ->
  let '(_, ws', sc', out) := ecdsa_sign D fuel o ws sc msg in ws' = ws /\ sc' = sc /\ out = Err InvalidPrivateKey.
Proof.
  intros S D o fuel ws sc msg pk E. unfold ecdsa_sign, ec_hash. destruct (hash_run D (es_hf o) [msg]) as [s' dg]. unfold ec_sign_inner. cbn [es_kp]. rewrite E. cbn. auto.
Qed.
Print Assumptions C47_needs_private_key.
(** Key generation: the private key is in [1, n-1] and the public key its multiple of the base point. *)
Theorem C47_auto_generate_key : forall (S : Type) (hf : S) ws eo, group_of (eo_params eo) ->
  (forall k, 0 < k < cp_n (eo_params eo) -> eo_base eo k = curve_scalar_base (eo_params eo) k) ->
  let c := eo_params eo in let len := (cp_bits c / 8 + 8)%nat in
  let d := be_val (firstn len (flat_map (be_bytes 4) ws)) mod (cp_n c - 1) + 1 in
  1 <= d <= cp_n c - 1 /\ exists qx qy, curve_scalar_base c d = Some (qx, qy) /\
    auto_generate_key hf ws eo = Ok (ecdsa_new hf eo (inr (mkEpriv (mkEpub qx qy) d)), skipn ((len + 3) / 4) ws).
Proof.
  intros S hf ws eo GR BASE c len d. destruct (keygen_ok hf ws eo GR BASE) as (qx & qy & E & R & A).
  split; [change (0 < d < cp_n c) in R; lia|]. exists qx, qy. split; [exact E|exact A].
Qed.
Print Assumptions C47_auto_generate_key.
(** How a curve is seen to satisfy [group_of]. *)
Theorem C47_group_criterion : forall c, sound_curve (cp_p c) (cp_b c) -> on_curve (cp_p c) (cp_b c) (decode (cp_gx c, cp_gy c)) ->
  decode (cp_gx c, cp_gy c) <> None -> prime (cp_n c) -> 2 < cp_n c -> curve_scalar_base c (cp_n c) = Some (0, 0) <-> group_of c.
Proof. exact group_criterion. Qed.
Print Assumptions C47_group_criterion.

(** The curve of 271 points, a private key, and a message signed and verified with SHA-512 and AES-256 inside. *)
Lemma toy9_group : group_of toy9.
Proof.
  apply C47_group_criterion.
  - exact toy9_sound.
  - exists 0. reflexivity.
  - discriminate.
  - exact (primeb_ok 20 271 eq_refl).
  - reflexivity.
  - vm_compute. reflexivity.
Qed.
Definition toy_signer : ecdsa (list Z) := ecdsa_new [] (params_obj toy9) (inr (mkEpriv (mkEpub 18 167) 100)).
Example C47_met : group_of toy9 /\ DigestOk Sum2 (fun _ => True) sum2_hash (2 ^ 64) /\ signer (fun _ => True) toy9 100 toy_signer /\
  verifier (fun _ => True) toy9 18 167 toy_signer /\ curve_scalar_base toy9 100 = Some (18, 167).
Proof.
  split; [exact toy9_group|]. split; [apply sum2_ok|].
  split; [split; [reflexivity|]; split; [reflexivity|]; split; [eexists; reflexivity|]; split; reflexivity|].
  split; [repeat split|]. vm_compute; reflexivity.
Qed.
Example C47_sign_case : let '(_, ws, sc, out) := ecdsa_sign Sum2 2 toy_signer [1; 2; 3] sigc_new [5; 6] in (ws, sc, out) = ([2; 3], sigc_from 20 211, Ok tt).
Proof. vm_compute. reflexivity. Qed.
Example C47_verify_case : snd (ecdsa_verify Sum2 toy_signer (sigc_from 20 211) [5; 6]) = Ok tt /\
  snd (ecdsa_verify Sum2 toy_signer (sigc_from 20 211) [5; 7]) = Err VerificationFailed /\ snd (ecdsa_verify Sum2 toy_signer (sigc_from 20 271) [5; 6]) = Err VerificationFailed.
Proof. vm_compute. repeat split. Qed.
