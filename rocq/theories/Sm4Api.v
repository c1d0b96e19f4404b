(** SM4 facts at the level of the public interface. *)
From Verif Require Import Base Words ModesModel ModesSpec Sm4Model Sm4Spec Sm4Proofs.

Lemma ok_inj {A} (x y : A) : Ok x = Ok y -> x = y.
Proof. congruence. Qed.
Lemma sm4_new_ok key k : sm4_from_slice key = Ok k -> length key = 16%nat /\ k = sm4_rk key.
Proof.
  unfold sm4_from_slice. destruct (length key =? 16)%nat eqn:E; cbn [negb]; intros H; [|discriminate].
  apply Nat.eqb_eq in E. split; [exact E|]. symmetry. exact (ok_inj _ _ H).
Qed.
Lemma sm4_is_std key b : bytes key -> length key = 16%nat -> bytes b -> length b = 16%nat ->
  exists k, sm4_from_slice key = Ok k /\
    sm4_encrypt k b = Ok (SM4_enc key b) /\ sm4_decrypt k b = Ok (SM4_dec key b).
Proof.
  intros Hk Hl Hb Hlb. exists (sm4_rk key). unfold sm4_from_slice, sm4_encrypt, sm4_decrypt. rewrite Hl, Hlb.
  cbn [negb Nat.eqb]. unfold sm4_rk. rewrite sm4_enc_std, sm4_dec_std by auto. auto.
Qed.
Lemma sm4_roundtrip key b k : bytes key -> sm4_from_slice key = Ok k -> bytes b -> length b = 16%nat ->
  exists c d, sm4_encrypt k b = Ok c /\ sm4_decrypt k c = Ok b /\
              sm4_decrypt k b = Ok d /\ sm4_encrypt k d = Ok b.
Proof.
  intros Hk H Hb Hl. destruct (sm4_new_ok _ _ H) as [Hkl ->]. pose proof (sm4_good key Hkl) as G.
  destruct (gc_E _ _ _ _ G b Hl Hb) as [L1 B1]. destruct (gc_D _ _ _ _ G b Hl Hb) as [L2 B2].
  do 2 eexists.
  split; [apply (gc_enc _ _ _ _ G); auto|].
  split; [rewrite <- (gc_DE _ _ _ _ G b Hl Hb) at 2; apply (gc_dec _ _ _ _ G); auto|].
  split; [apply (gc_dec _ _ _ _ G); auto|].
  rewrite <- (gc_ED _ _ _ _ G b Hl Hb) at 2; apply (gc_enc _ _ _ _ G); auto.
Qed.
