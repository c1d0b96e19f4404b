(** Concrete keys and a one-byte digest, to show that the hypotheses of the RSA theorems are met. *)
From Verif Require Import Base HashModel HashApi NumTheory RsaModel RsaProofs RsaEncModel RsaSpec RsaEncProofs RsaSigProofs RsaApi.

Fixpoint nodupb (l : list Z) : bool := match l with [] => true | x :: l => negb (existsb (Z.eqb x) l) && nodupb l end.
Lemma nodupb_ok l : nodupb l = true -> NoDup l.
Proof.
  induction l as [|x l IH]; [constructor|]. cbn [nodupb]. rewrite andb_true_iff, negb_true_iff. intros [H1 H2]. constructor; [|apply IH, H2].
  intros I. assert (T : existsb (Z.eqb x) l = true); [|congruence]. apply existsb_exists. exists x. split; [exact I|apply Z.eqb_refl].
Qed.
(** A key with its CRT values. *)
Definition mk_key (primes : list Z) (e d : Z) : privkey :=
  mkPriv (mkPub (zprod primes) e) d primes (match primes with p :: q :: ps => Some (precompute p q d ps) | _ => None end).
Definition key_check (fuel : nat) (primes : list Z) (e d : Z) : bool :=
  forallb (primeb fuel) primes && nodupb primes && (1 <? zprod primes) && (0 <=? e) && (0 <=? d) && forallb (fun p => (e * d) mod (p - 1) =? 1) primes.
Lemma key_check_ok fuel primes e d : key_check fuel primes e d = true -> key_ok (mk_key primes e d).
Proof.
  unfold key_check. rewrite !andb_true_iff, Z.ltb_lt, !Z.leb_le, !forallb_forall. intros (((((H1 & H2) & H3) & H4) & H5) & H6).
  split; [|split].
  - refine (conj _ (conj (nodupb_ok _ H2) (conj eq_refl (conj H3 (conj H5 _))))).
    + apply Forall_forall. intros p Ip. exact (primeb_ok _ _ (H1 p Ip)).
    + unfold pre_ok, mk_key. cbn [sk_pre sk_primes sk_d]. destruct primes as [|p [|q ps]]; [left; reflexivity|left; reflexivity|right; eauto].
  - exact H4.
  - intros p Ip. apply Z.eqb_eq. exact (H6 p Ip).
Qed.
(** 96 bits: twelve bytes. *)
Definition key12 : privkey := mk_key [65521; 65519; 65497; 65479; 65449; 65447] 65537 76530389879594218438673.
Lemma key12_ok : key_ok key12. Proof. apply (key_check_ok 255). vm_compute. reflexivity. Qed.
(** 90 bits. *)
Definition key90 : privkey := mk_key [65521; 65519; 65497; 65479; 65449; 1021] 65537 5647918911948558593.
Lemma key90_ok : key_ok key90. Proof. apply (key_check_ok 255). vm_compute. reflexivity. Qed.
(** 512 bits. *)
Definition key64 : privkey := mk_key [65521; 65519; 65497; 65479; 65449; 65447; 65437; 65423; 65419; 65413; 65407; 65393; 65381; 65371; 65357; 65353; 65327; 65323; 65309; 65293; 65287; 65269; 65267; 65257; 65239; 65213; 65203; 65183; 65179; 65173; 65171; 65167] 65537 2541853234116203139146580586847764284374252017907719755753210938383008051873349670261568954544925126750993.
Lemma key64_ok : key_ok key64. Proof. apply (key_check_ok 255). vm_compute. reflexivity. Qed.
Lemma key64_bits : bits_len (pk_n (sk_pk key64)) = 512%nat. Proof. vm_compute. reflexivity. Qed.

(** A digest of one byte: the sum of the bytes written. *)
Definition sum_hash (m : list Z) : list Z := [fold_left Z.add m 0 mod 256].
Definition SumDigest : digest (list Z) := {|
  d_block_size := Some 64%nat; d_bits_len := 8%nat; d_write := fun s d => s ++ d; d_checksum := fun s => (s, sum_hash s); d_reset := fun _ => [] |}.
Lemma sum_digest_ok limit : DigestOk SumDigest (fun _ => True) sum_hash limit.
Proof.
  apply good_ok. constructor.
  - intros s ws _ _. cbn [d_checksum d_reset SumDigest snd]. f_equal.
    assert (G : forall a, fold_left (fun s d => s ++ d) ws a = a ++ concat ws).
    { induction ws as [|w ws IH]; intros a; cbn [fold_left concat]; [rewrite app_nil_r; reflexivity|]. rewrite IH, app_assoc. reflexivity. }
    exact (G []).
  - reflexivity.
  - intros m _ _. split; [reflexivity|]. constructor; [unfold byte; apply Z.mod_pos_bound; lia|constructor].
  - reflexivity.
Qed.
