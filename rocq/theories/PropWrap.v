(** Property C63: the wrapper types SHA and SHA3 (one object type for a whole family of hash functions) behave as the algorithm
    they were constructed for, through every history of calls. *)
From Verif Require Import Base HashModel HashSpec MdProofs HashApi KeccakModel KeccakSpec SpongeProofs Sha3Proofs PropHash PropKeccak WrapModel.

(** ** SHA *)
(** A history of calls on a SHA wrapper object: the final object and the digests produced. *)
Definition w_exec (st : sha_type * list (list Z)) (o : hop) : sha_type * list (list Z) :=
  let '(s, outs) := st in
  match o with
  | HWrite d => (sha_write s d, outs)
  | HChecksum => let '(s, dg) := sha_checksum s in (s, outs ++ [dg])
  | HReset => (sha_reset s, outs)
  end.
Definition w_run (s : sha_type) (os : list hop) : sha_type * list (list Z) := fold_left w_exec os (s, []).

(** The constructors: the wrapper object, the algorithm object it stands for, and its initial state. *)
Definition sha_constructors : list (sha_type * digest mdst * mdst) :=
  [(sha_sha1, SHA1, sha1_init); (sha_sha224, SHA224, sha224_init); (sha_sha256, SHA256, sha256_init);
   (sha_sha384, SHA384, sha384_init); (sha_sha512, SHA512, sha512_init);
   (sha_sha512_224, SHA512T224, sha512t224_init); (sha_sha512_256, SHA512T256, sha512t256_init)].

(** The wrapper [w] is an object of algorithm [D] in state [s]. *)
Definition stands_for (w : sha_type) (D : digest mdst) (s : mdst) : Prop :=
  match w with
  | TSha1 x => D = SHA1 /\ x = s | TSha224 x => D = SHA224 /\ x = s | TSha256 x => D = SHA256 /\ x = s
  | TSha384 x => D = SHA384 /\ x = s | TSha512 x => D = SHA512 /\ x = s
  | TSha512T224 x => D = SHA512T224 /\ x = s | TSha512T256 x => D = SHA512T256 /\ x = s
  | TSha512T t x => D = SHA512T t /\ x = s
  end.
Lemma stands_step w D s outs o : stands_for w D s ->
  stands_for (fst (w_exec (w, outs) o)) D (fst (hexec D (s, outs) o)) /\ snd (w_exec (w, outs) o) = snd (hexec D (s, outs) o).
Proof.
  intros W. destruct w; destruct W as [-> ->]; destruct o as [d| |]; cbn [w_exec hexec sha_write sha_checksum sha_reset fst snd stands_for];
    try (split; [split; reflexivity|reflexivity]);
    match goal with |- context [d_checksum ?D s] => destruct (d_checksum D s) as [s' dg] end;
    cbn [fst snd stands_for]; (split; [split; reflexivity|reflexivity]).
Qed.
Lemma stands_run os : forall w D s outs, stands_for w D s ->
  stands_for (fst (fold_left w_exec os (w, outs))) D (fst (fold_left (hexec D) os (s, outs))) /\
  snd (fold_left w_exec os (w, outs)) = snd (fold_left (hexec D) os (s, outs)).
Proof.
  induction os as [|o os IH]; intros w D s outs W; [split; [exact W|reflexivity]|].
  cbn [fold_left]. destruct (stands_step w D s outs o W) as [A B].
  destruct (w_exec (w, outs) o) as [w' outs']. destruct (hexec D (s, outs) o) as [s' outs2]. cbn [fst snd] in A, B. subst outs2.
  exact (IH w' D s' outs' A).
Qed.
Lemma stands_sizes w D s : stands_for w D s -> sha_bits_len w = d_bits_len D /\ sha_block_size w = d_block_size D.
Proof. intros W. destruct w; destruct W as [-> _]; split; reflexivity. Qed.
Lemma constructors_stand w D s0 : In (w, D, s0) sha_constructors -> stands_for w D s0.
Proof.
  intros H. cbv [sha_constructors] in H. cbn [In] in H.
  repeat (destruct H as [H|H]; [apply pair_equal_spec in H; destruct H as [H E3]; apply pair_equal_spec in H; destruct H as [E1 E2];
    rewrite <- E1, <- E2, <- E3; split; reflexivity|]).
  destruct H.
Qed.

(** Through every history the wrapper produces the digests of its algorithm, and reports its sizes. *)
Theorem C63_sha_histories : forall w D s0, In (w, D, s0) sha_constructors -> forall os,
  snd (w_run w os) = snd (hrun D s0 os) /\
  sha_bits_len (fst (w_run w os)) = d_bits_len D /\ sha_block_size (fst (w_run w os)) = d_block_size D.
Proof.
  intros w D s0 H os. destruct (stands_run os w D s0 [] (constructors_stand w D s0 H)) as [A B].
  split; [exact B|]. exact (stands_sizes _ _ _ A).
Qed.
Print Assumptions C63_sha_histories.

(** What the last digest is, against the standard: after any history ended by [reset] (or none), a message written in any pieces. *)
Definition w_hashes (w : sha_type) (bits block : nat) (H : list Z -> list Z) : Prop :=
  (forall os, sha_bits_len (fst (w_run w os)) = bits /\ sha_block_size (fst (w_run w os)) = Some block) /\
  forall ws, Forall bytes ws -> Z.of_nat (length (concat ws)) < 2 ^ 64 ->
    snd (w_run w (map HWrite ws ++ [HChecksum])) = [H (concat ws)] /\
    forall os, snd (w_run w (os ++ HReset :: map HWrite ws ++ [HChecksum])) = snd (w_run w os) ++ [H (concat ws)].
Lemma hexec_writes {S} (D : digest S) ws : forall s outs,
  fold_left (hexec D) (map HWrite ws) (s, outs) = (fold_left (d_write D) ws s, outs).
Proof. induction ws as [|x ws IH]; intros s outs; [reflexivity|]. cbn [map fold_left hexec]. apply IH. Qed.
Lemma hexec_message {S} (D : digest S) ws s outs :
  snd (fold_left (hexec D) (map HWrite ws ++ [HChecksum]) (s, outs)) = outs ++ [snd (d_checksum D (fold_left (d_write D) ws s))].
Proof.
  rewrite fold_left_app, hexec_writes. cbn [fold_left hexec].
  destruct (d_checksum D (fold_left (d_write D) ws s)) as [s' dg]. reflexivity.
Qed.
Lemma computes_hashes w D s0 H bits block : In (w, D, s0) sha_constructors -> computes D s0 H ->
  d_bits_len D = bits -> d_block_size D = Some block -> w_hashes w bits block H.
Proof.
  intros Hin C E1 E2. split.
  - intros os. rewrite <- E1, <- E2. apply (C63_sha_histories w D s0 Hin os).
  - intros ws Fw HL. destruct (C ws Fw HL) as [A B]. split.
    + rewrite (proj1 (C63_sha_histories w D s0 Hin _)). unfold hrun. rewrite hexec_message, A. reflexivity.
    + intros os. rewrite !(proj1 (C63_sha_histories w D s0 Hin _)). unfold hrun.
      rewrite fold_left_app. destruct (fold_left (hexec D) os (s0, [])) as [s outs]. cbn [fold_left hexec snd].
      rewrite hexec_message, B. reflexivity.
Qed.
Theorem C63_sha_standard :
  w_hashes sha_sha1 160 64 SHA1_hash /\ w_hashes sha_sha224 224 64 SHA224_hash /\ w_hashes sha_sha256 256 64 SHA256_hash /\
  w_hashes sha_sha384 384 128 SHA384_hash /\ w_hashes sha_sha512 512 128 SHA512_hash /\
  w_hashes sha_sha512_224 224 128 (SHA512t_hash 224) /\ w_hashes sha_sha512_256 256 128 (SHA512t_hash 256).
Proof.
  destruct C23_chunking as (_ & H1 & H224 & H256 & H384 & H512 & Ha & Hb & _).
  split; [apply (computes_hashes sha_sha1 SHA1 sha1_init _ _ _ ltac:(cbv [sha_constructors]; cbn [In]; tauto) H1 eq_refl eq_refl)|].
  split; [apply (computes_hashes sha_sha224 SHA224 sha224_init _ _ _ ltac:(cbv [sha_constructors]; cbn [In]; tauto) H224 eq_refl eq_refl)|].
  split; [apply (computes_hashes sha_sha256 SHA256 sha256_init _ _ _ ltac:(cbv [sha_constructors]; cbn [In]; tauto) H256 eq_refl eq_refl)|].
  split; [apply (computes_hashes sha_sha384 SHA384 sha384_init _ _ _ ltac:(cbv [sha_constructors]; cbn [In]; tauto) H384 eq_refl eq_refl)|].
  split; [apply (computes_hashes sha_sha512 SHA512 sha512_init _ _ _ ltac:(cbv [sha_constructors]; cbn [In]; tauto) H512 eq_refl eq_refl)|].
  split; [apply (computes_hashes sha_sha512_224 SHA512T224 sha512t224_init _ _ _ ltac:(cbv [sha_constructors]; cbn [In]; tauto) Ha eq_refl eq_refl)|].
  apply (computes_hashes sha_sha512_256 SHA512T256 sha512t256_init _ _ _ ltac:(cbv [sha_constructors]; cbn [In]; tauto) Hb eq_refl eq_refl).
Qed.
Print Assumptions C63_sha_standard.

(** [SHA::sha512t] returns an object exactly for lengths up to 512, never panics, and the object behaves as the SHA512T object of
    that length (whose digests C27 describes). *)
Theorem C63_sha512t : forall t,
  ((t > 512)%nat -> sha_sha512t t = Ok None) /\
  ((t <= 512)%nat -> exists w s0, sha_sha512t t = Ok (Some w) /\ sha512t_new t = Some s0 /\
     forall os, snd (w_run w os) = snd (hrun (SHA512T t) s0 os) /\
       sha_bits_len (fst (w_run w os)) = t /\ sha_block_size (fst (w_run w os)) = Some 128%nat).
Proof.
  intros t. split; intros Ht; unfold sha_sha512t.
  - destruct (Nat.leb_spec t 512); [lia|reflexivity].
  - destruct (Nat.leb_spec t 512); [|lia]. destruct (proj2 (C27_domain t) Ht) as [s0 E]. rewrite E.
    exists (TSha512T t s0), s0. split; [reflexivity|]. split; [reflexivity|]. intros os.
    destruct (stands_run os (TSha512T t s0) (SHA512T t) s0 []) as [A B]; [split; reflexivity|].
    split; [exact B|]. exact (stands_sizes _ _ _ A).
Qed.
Print Assumptions C63_sha512t.

(** ** SHA3 *)
Definition w3_exec (st : sha3_type * list (list Z)) (o : sop) : sha3_type * list (list Z) :=
  let '(s, outs) := st in
  match o with
  | SWrite d => (sha3w_write s d, outs)
  | SBit v => (sha3w_write_bit s v, outs)
  | SChecksum => let '(s, d) := sha3w_checksum s in (s, outs ++ [d])
  | SReset => (sha3w_reset s, outs)
  end.
Definition w3_run (s : sha3_type) (os : list sop) : sha3_type * list (list Z) := fold_left w3_exec os (s, []).
Definition stands3 (w : sha3_type) (bits : nat) (s : sha3st) : Prop :=
  match w with
  | T3_224 x => bits = 224%nat /\ x = s | T3_256 x => bits = 256%nat /\ x = s
  | T3_384 x => bits = 384%nat /\ x = s | T3_512 x => bits = 512%nat /\ x = s
  end.
Lemma stands3_run os : forall w bits s outs, stands3 w bits s ->
  stands3 (fst (fold_left w3_exec os (w, outs))) bits (fst (fold_left (s3_exec bits) os (s, outs))) /\
  snd (fold_left w3_exec os (w, outs)) = snd (fold_left (s3_exec bits) os (s, outs)).
Proof.
  induction os as [|o os IH]; intros w bits s outs W; [split; [exact W|reflexivity]|].
  cbn [fold_left].
  destruct w; destruct W as [-> ->]; destruct o as [d|v| |];
    cbn [w3_exec s3_exec sha3w_write sha3w_write_bit sha3w_checksum sha3w_reset SHA3 d_write d_checksum d_reset];
    try (apply IH; split; reflexivity);
    match goal with |- context [sha3_checksum ?b s] => destruct (sha3_checksum b s) as [s' dg] end;
    apply IH; split; reflexivity.
Qed.
Definition sha3_constructors : list (sha3_type * nat) :=
  [(sha3w_sha224, 224%nat); (sha3w_sha256, 256%nat); (sha3w_sha384, 384%nat); (sha3w_sha512, 512%nat)].
(** Every history of byte writes, bit writes, checksums and resets gives the standard's SHA-3 of the bits written. *)
Theorem C63_sha3_histories : forall w bits, In (w, bits) sha3_constructors -> forall os,
  snd (w3_run w os) = s3_run (fun m => b2h (SHA3_bits bits m)) [] false os /\
  sha3w_bits_len (fst (w3_run w os)) = bits /\
  sha3w_block_size (fst (w3_run w os)) = Some ((1600 - 2 * bits) / 8)%nat.
Proof.
  intros w bits H os.
  assert (W : stands3 w bits (sha3_init bits) /\ In bits [224; 256; 384; 512]%nat).
  { cbv [sha3_constructors] in H. cbn [In] in H.
    repeat (destruct H as [H|H]; [apply pair_equal_spec in H; destruct H as [E1 E2]; rewrite <- E1, <- E2; split;
      [split; reflexivity|cbn [In]; tauto]|]). destruct H. }
  destruct W as [W Hb]. destruct (stands3_run os w bits (sha3_init bits) [] W) as [A B]. unfold w3_run.
  split; [rewrite B; apply C30_sha3_histories; exact Hb|].
  destruct (fst (fold_left w3_exec os (w, []))); destruct A as [-> _]; split; reflexivity.
Qed.
Print Assumptions C63_sha3_histories.
Example C63_met : In (sha_sha384, SHA384, sha384_init) sha_constructors /\ In (sha3w_sha256, 256%nat) sha3_constructors /\
  snd (w_run sha_sha1 [HWrite [97; 98]; HReset; HWrite [97]; HWrite [98; 99]; HChecksum]) = [SHA1_hash [97; 98; 99]] /\
  length (snd (w3_run sha3w_sha512 [SWrite [1]; SBit 1; SChecksum; SChecksum])) = 2%nat /\
  match sha_sha512t 200 with Ok (Some _) => True | _ => False end /\ sha_sha512t 513 = Ok None.
Proof.
  split; [cbv [sha_constructors]; cbn [In]; tauto|]. split; [cbv [sha3_constructors]; cbn [In]; tauto|].
  split; [vm_compute; reflexivity|]. split; [vm_compute; reflexivity|]. split; [vm_compute; exact I|reflexivity].
Qed.
