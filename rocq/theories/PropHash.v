(** Properties C23-C27: MD5, SHA-1, SHA-2 and SM3 objects.
    Specification: HashSpec.v (RFC 1321, FIPS 180-4, GB/T 32905, with constants derived from prime roots where the
    standard defines them so).  [hrun D s os] runs a history of calls ([HWrite d], [HChecksum], [HReset]) and returns the
    final state and the digests produced. *)
From Verif Require Import Base HashModel HashSpec MdProofs WordW CompressProofs HashApi.

(** The library's fixed-length hashes: the object, its initial state, the standard's function, and whether
    [checksum] clears the byte counter. *)
Definition repo_hashes : list (digest mdst * mdst * merkle * bool) :=
  [(MD5, md5_init, MD5_std, true); (SHA1, sha1_init, SHA1_std, true);
   (SHA224, sha224_init, SHA224_std, true); (SHA256, sha256_init, SHA256_std, true);
   (SHA384, sha384_init, SHA384_std, false); (SHA512, sha512_init, SHA512_std, false);
   (SHA512T224, sha512t224_init, SHA512t_std 224, false); (SHA512T256, sha512t256_init, SHA512t_std 256, false);
   (SM3, sm3_init, SM3_std, true)].
Lemma repo_facts D s0 h zl : In (D, s0, h, zl) repo_hashes -> HashFacts D s0 h zl.
Proof.
  intros H. cbv [repo_hashes] in H. cbn [In] in H.
  repeat (destruct H as [H|H]; [apply pair_equal_spec in H; destruct H as [H E4]; apply pair_equal_spec in H; destruct H as [H E3];
    apply pair_equal_spec in H; destruct H as [E1 E2]; rewrite <- E1, <- E2, <- E3, <- E4;
    first [exact md5_facts|exact sha1_facts|exact sha224_facts|exact sha256_facts|exact sha384_facts|exact sha512_facts
          |exact sha512t224_facts|exact sha512t256_facts|exact sm3_facts]|]).
  destruct H.
Qed.

(** ** C23 *)
Definition computes (D : digest mdst) (s0 : mdst) (H : list Z -> list Z) : Prop :=
  forall ws, Forall bytes ws -> Z.of_nat (length (concat ws)) < 2 ^ 64 ->
    snd (d_checksum D (fold_left (d_write D) ws s0)) = H (concat ws) /\
    (forall s, snd (d_checksum D (fold_left (d_write D) ws (d_reset D s))) = H (concat ws)).
Lemma facts_computes D s0 h zl : HashFacts D s0 h zl -> computes D s0 (mk_hash h).
Proof.
  intros F ws Fw HL. pose proof (facts_new D s0 h zl F ws Fw HL) as N. split; [exact N|]. intros s.
  destruct F as [_ R _ _ _]. rewrite R. exact N.
Qed.
Lemma computes_ext D s0 h zl H : HashFacts D s0 h zl -> (forall m, mk_hash h m = H m) -> computes D s0 H.
Proof.
  intros F E ws Fw HL. destruct (facts_computes D s0 h zl F ws Fw HL) as [A B]. rewrite <- E. auto.
Qed.
Theorem C23_chunking :
  computes MD5 md5_init MD5_hash /\ computes SHA1 sha1_init SHA1_hash /\
  computes SHA224 sha224_init SHA224_hash /\ computes SHA256 sha256_init SHA256_hash /\
  computes SHA384 sha384_init SHA384_hash /\ computes SHA512 sha512_init SHA512_hash /\
  computes SHA512T224 sha512t224_init (SHA512t_hash 224) /\ computes SHA512T256 sha512t256_init (SHA512t_hash 256) /\
  computes SM3 sm3_init SM3_hash.
Proof.
  split; [exact (computes_ext _ _ _ _ _ md5_facts (fun m => proj1 (std_hashes m)))|].
  split; [exact (computes_ext _ _ _ _ _ sha1_facts (fun m => proj1 (proj2 (std_hashes m))))|].
  split; [exact (computes_ext _ _ _ _ _ sha224_facts (fun m => proj1 (proj2 (proj2 (proj2 (std_hashes m))))))|].
  split; [exact (computes_ext _ _ _ _ _ sha256_facts (fun m => proj1 (proj2 (proj2 (std_hashes m)))))|].
  split; [exact (computes_ext _ _ _ _ _ sha384_facts (fun m => proj1 (proj2 (proj2 (proj2 (proj2 (proj2 (std_hashes m))))))))|].
  split; [exact (computes_ext _ _ _ _ _ sha512_facts (fun m => proj1 (proj2 (proj2 (proj2 (proj2 (std_hashes m)))))))|].
  split; [exact (computes_ext _ _ _ _ _ sha512t224_facts (fun m => proj1 (proj2 (proj2 (proj2 (proj2 (proj2 (proj2 (std_hashes m)))))))  224%nat))|].
  split; [exact (computes_ext _ _ _ _ _ sha512t256_facts (fun m => proj1 (proj2 (proj2 (proj2 (proj2 (proj2 (proj2 (std_hashes m)))))))  256%nat))|].
  exact (computes_ext _ _ _ _ _ sm3_facts (fun m => proj2 (proj2 (proj2 (proj2 (proj2 (proj2 (proj2 (std_hashes m))))))))).
Qed.
Print Assumptions C23_chunking.
Example C23_case : let ws := [repeat 7 55; []; repeat 9 20; repeat 1 64] in
  Forall bytes ws /\ Z.of_nat (length (concat ws)) < 2 ^ 64 /\
  snd (d_checksum MD5 (fold_left (d_write MD5) ws md5_init)) = MD5_hash (repeat 7 55 ++ repeat 9 20 ++ repeat 1 64).
Proof.
  intros ws. assert (A : Forall bytes ws) by (repeat (constructor; [apply bytes_forallb; reflexivity|]); constructor).
  assert (B : Z.of_nat (length (concat ws)) < 2 ^ 64) by reflexivity.
  split; [exact A|]. split; [exact B|]. rewrite (proj1 (proj1 C23_chunking ws A B)). reflexivity.
Qed.

(** ** C24 *)
Theorem C24_blocks : forall n w H blk, length H = n -> Forall (fun x => 0 <= x < 2 ^ w) H -> bytes blk ->
  (n = 4%nat -> w = 32 -> length blk = 64%nat -> md5_compress H blk = MD5_block H blk) /\
  (n = 5%nat -> w = 32 -> length blk = 64%nat -> sha1_compress H blk = SHA1_block H blk) /\
  (n = 8%nat -> w = 32 -> length blk = 64%nat -> sha256_compress H blk = SHA2_block P256 H blk) /\
  (n = 8%nat -> w = 64 -> length blk = 128%nat -> sha512_compress H blk = SHA2_block P512 H blk) /\
  (n = 8%nat -> w = 32 -> length blk = 64%nat -> sm3_compress H blk = SM3_block H blk).
Proof.
  intros n w H blk Hn Hw Hb. repeat split; intros E1 E2 Hl; rewrite E1 in Hn; rewrite E2 in Hw;
    [exact (proj1 (md5_block_ok H blk Hn Hw Hb Hl))|exact (proj1 (sha1_block_ok H blk Hn Hw Hb Hl))
    |exact (proj1 (sha256_block_ok H blk Hn Hw Hb Hl))|exact (proj1 (sha512_block_ok H blk Hn Hw Hb Hl))
    |exact (proj1 (sm3_block_ok H blk Hn Hw Hb Hl))].
Qed.
Print Assumptions C24_blocks.
Example C24_case : Forall (fun x => 0 <= x < 2 ^ 32) SM3_IV /\ sm3_compress SM3_IV (repeat 0xab 64) = SM3_block SM3_IV (repeat 0xab 64) /\
  sm3_compress SM3_IV (repeat 0xab 64) <> SM3_IV.
Proof. split; [exact (proj2 sm3_iv)|]. vm_compute. split; [reflexivity|discriminate]. Qed.

(** ** C25 *)
Theorem C25_repeat_and_length : forall D s0 h zl, In (D, s0, h, zl) repo_hashes -> forall os n, Forall op_bytes os ->
  exists d, length d = (d_bits_len D / 8)%nat /\
    snd (hrun D s0 (os ++ repeat HChecksum (S n))) = snd (hrun D s0 os) ++ repeat d (S n).
Proof. exact (fun D s0 h zl H => facts_repeat D s0 h zl (repo_facts D s0 h zl H)). Qed.
Print Assumptions C25_repeat_and_length.
Theorem C25_reset_is_new : forall D s0 h zl, In (D, s0, h, zl) repo_hashes -> forall os os',
  snd (hrun D s0 (os ++ [HReset] ++ os')) = snd (hrun D s0 os) ++ snd (hrun D s0 os').
Proof. exact (fun D s0 h zl H => facts_reset D s0 h zl (repo_facts D s0 h zl H)). Qed.
Print Assumptions C25_reset_is_new.
Example C25_case : In (SHA1, sha1_init, SHA1_std, true) repo_hashes /\ Forall op_bytes [HWrite [1; 2; 3]; HChecksum; HReset; HWrite [5]] /\ d_bits_len SHA1 = 160%nat.
Proof.
  split; [cbn; tauto|]. split; [repeat (constructor; [first [exact I | apply bytes_forallb; reflexivity]|]); constructor|reflexivity].
Qed.

(** ** C26 *)
(** Any history of calls: every digest is that of the abstract object [ob_run] (MdProofs.v), in which a
    write after [checksum] continues from the final chaining value with a fresh buffer. *)
Theorem C26_histories : forall D s0 h zl, In (D, s0, h, zl) repo_hashes -> forall os, Forall op_bytes os ->
  snd (hrun D s0 os) = ob_run (mk_B h) (mk_block h) (mk_len h) zl (mk_iv h) (mk_out h) os.
Proof. intros D s0 h zl H. destruct (repo_facts D s0 h zl H) as [_ _ _ F _]. exact F. Qed.
Print Assumptions C26_histories.
(** Two messages: with the counter cleared the second digest chains from the first with the length of the second
    only; with the counter kept (the SHA-512 family) it is the digest of padded-first followed by second. *)
Theorem C26_continuation : forall D s0 h zl, In (D, s0, h, zl) repo_hashes ->
  forall ws1 ws2, Forall bytes ws1 -> Forall bytes ws2 -> ws2 <> [] ->
  let m1 := concat ws1 in let m2 := concat ws2 in
  let n1 := Z.of_nat (length m1) in let n2 := Z.of_nat (length m2) in
  let p1 := mk_pad h n1 m1 in
  Z.of_nat (length p1) + n2 < 2 ^ 64 ->
  snd (hrun D s0 (map HWrite ws1 ++ [HChecksum] ++ map HWrite ws2 ++ [HChecksum])) =
  [mk_hash h m1; if zl then mk_out h (mk_chain h (mk_chain h (mk_iv h) n1 m1) n2 m2) else mk_hash h (p1 ++ m2)].
Proof. intros D s0 h zl H. destruct (repo_facts D s0 h zl H) as [_ _ _ _ F]. exact F. Qed.
Print Assumptions C26_continuation.
(** For every one of the hashes: the second digest is neither that of the second message nor that of both, and an
    empty write after [checksum] changes the digest. *)
Definition second_digest (D : digest mdst) (s0 : mdst) (m1 m2 : list Z) : list Z :=
  nth 1 (snd (hrun D s0 [HWrite m1; HChecksum; HWrite m2; HChecksum])) [].
Fixpoint leqb (a b : list Z) : bool :=
  match a, b with [], [] => true | x :: a, y :: b => (x =? y) && leqb a b | _, _ => false end.
Lemma leqb_refl a : leqb a a = true.
Proof. induction a as [|x a IH]; [reflexivity|]. cbn [leqb]. rewrite Z.eqb_refl, IH. reflexivity. Qed.
Lemma leqb_neq a b : leqb a b = false -> a <> b.
Proof. intros H E. rewrite E, leqb_refl in H. discriminate H. Qed.
(** The comparison on the objects alone (their one-message digests are the standard's by C23). *)
Definition one_digest (D : digest mdst) (s0 : mdst) (m : list Z) : list Z := snd (d_checksum D (d_write D s0 m)).
Definition bad_continuation (e : digest mdst * mdst * merkle * bool) : bool :=
  let '(D, s0, h, _) := e in
  let r1 := d_checksum D (d_write D s0 [97]) in
  let d2 := one_digest D (fst r1) [98] in
  negb (leqb d2 (one_digest D s0 [98])) && negb (leqb d2 (one_digest D s0 [97; 98])) && negb (leqb (one_digest D (fst r1) []) (snd r1)).
Lemma bad_all : forallb bad_continuation repo_hashes = true.
Proof. vm_compute. reflexivity. Qed.
Lemma second_one D s0 m1 m2 : second_digest D s0 m1 m2 = one_digest D (fst (d_checksum D (d_write D s0 m1))) m2.
Proof.
  unfold second_digest, one_digest, hrun. cbn [fold_left hexec]. destruct (d_checksum D (d_write D s0 m1)) as [s d]. cbn [fst app hexec].
  destruct (d_checksum D (d_write D s m2)) as [s' d']. reflexivity.
Qed.
Lemma one_std D s0 h zl m : In (D, s0, h, zl) repo_hashes -> bytes m -> Z.of_nat (length m) < 2 ^ 64 -> one_digest D s0 m = mk_hash h m.
Proof.
  intros H Hm HL. pose proof (facts_new D s0 h zl (repo_facts D s0 h zl H) [m]) as N. cbn [concat fold_left] in N. rewrite app_nil_r in N.
  apply N; [constructor; [exact Hm|constructor]|exact HL].
Qed.
Theorem C26_neither_refuted : forall D s0 h zl, In (D, s0, h, zl) repo_hashes ->
  exists m1 m2, bytes m1 /\ bytes m2 /\
    second_digest D s0 m1 m2 <> mk_hash h m2 /\ second_digest D s0 m1 m2 <> mk_hash h (m1 ++ m2) /\
    second_digest D s0 m1 [] <> mk_hash h m1.
Proof.
  intros D s0 h zl H. pose proof (proj1 (forallb_forall _ _) bad_all _ H) as B. cbn [bad_continuation] in B. cbv zeta in B.
  apply andb_true_iff in B. destruct B as [B B3]. apply andb_true_iff in B. destruct B as [B1 B2].
  exists [97], [98]. split; [apply bytes_forallb; reflexivity|]. split; [apply bytes_forallb; reflexivity|].
  rewrite !second_one. assert (Q : forall m, forallb (fun b => (0 <=? b) && (b <? 256)) m = true -> Z.of_nat (length m) < 2 ^ 64 -> mk_hash h m = one_digest D s0 m)
    by (intros m Hm HL; symmetry; apply (one_std D s0 h zl m H); [apply bytes_forallb; exact Hm|exact HL]).
  cbn [app]. rewrite !Q by reflexivity.
  split; [apply leqb_neq, negb_true_iff, B1|]. split; [apply leqb_neq, negb_true_iff, B2|apply leqb_neq, negb_true_iff, B3].
Qed.
Print Assumptions C26_neither_refuted.
Example C26_case : In (SHA512, sha512_init, SHA512_std, false) repo_hashes /\ Forall bytes [[97]; []] /\ Forall bytes [[98; 99]] /\ [[98; 99]] <> [] /\
  Z.of_nat (length (mk_pad SHA512_std 1 [97])) + 2 < 2 ^ 64.
Proof.
  split; [cbn; tauto|]. do 2 (split; [repeat (apply Forall_cons; [apply bytes_forallb; reflexivity|]); apply Forall_nil|]). split; [discriminate|reflexivity].
Qed.

(** ** C27 *)
(** The constructor accepts exactly t <= 512. *)
Theorem C27_domain : forall t, (exists s, sha512t_new t = Some s) <-> (t <= 512)%nat.
Proof.
  intros t. split.
  - intros [s E]. destruct (Nat.leb_spec t 512) as [L|L]; [exact L|]. rewrite (sha512t_none t L) in E. discriminate E.
  - intros L. destruct (sha512t_state t L) as (s & E & _). exists s. exact E.
Qed.
Print Assumptions C27_domain.
(** What it computes, from [new] and from [reset] alike: the standard's chaining, with a length field 1024 bits too
    large. *)
Theorem C27_value : forall t ws, (t <= 512)%nat -> (t mod 8 = 0)%nat -> Forall bytes ws ->
  Z.of_nat (length (concat ws)) + 128 < 2 ^ 64 ->
  exists s, sha512t_new t = Some s /\ (forall s', d_reset (SHA512T t) s' = s) /\
    snd (d_checksum (SHA512T t) (fold_left (d_write (SHA512T t)) ws s)) =
    firstn (t / 8) (flat_map (be_bytes 8)
      (mk_chain (SHA512t_std t) (SHA512t_H0 t) (Z.of_nat (length (concat ws)) + 128) (concat ws))).
Proof.
  intros t ws Ht H8 Fw HL. destruct (sha512t_value t ws Ht Fw HL) as (s & E & R & V). exists s. split; [exact E|]. split; [exact R|].
  rewrite V. apply sha512t_cut8. exact H8.
Qed.
Print Assumptions C27_value.
(** So the generic type is not SHA-512/t, although the fixed types SHA512T224 and SHA512T256 are (C23). *)
Theorem C27_not_standard_refuted : exists t m s, In t [224; 256]%nat /\ bytes m /\ sha512t_new t = Some s /\
  snd (d_checksum (SHA512T t) (d_write (SHA512T t) s m)) <> SHA512t_hash t m.
Proof.
  destruct (sha512t_new 256) as [s|] eqn:E; [|discriminate E].
  exists 256%nat, [97; 98; 99], s. split; [cbn; tauto|]. split; [apply bytes_forallb; reflexivity|]. split; [exact E|].
  assert (Q : match sha512t_new 256 with Some s => leqb (one_digest (SHA512T 256) s [97; 98; 99]) (one_digest SHA512T256 sha512t256_init [97; 98; 99]) | None => true end = false)
    by (vm_compute; reflexivity).
  rewrite E in Q. apply leqb_neq in Q. intros X. apply Q. unfold one_digest at 1. rewrite X.
  rewrite <- (proj1 (proj2 (proj2 (proj2 (proj2 (proj2 (proj2 (std_hashes [97; 98; 99]))))))) 256%nat).
  rewrite (one_std SHA512T256 sha512t256_init (SHA512t_std 256) false [97; 98; 99]);
    [exact eq_refl|do 7 right; left; exact eq_refl|apply bytes_forallb; reflexivity|reflexivity].
Qed.
Print Assumptions C27_not_standard_refuted.
(** For t not a multiple of 8 the last byte keeps the top bits of the byte but shifts them down. *)
Theorem C27_partial_byte_refuted : exists t dg, bytes dg /\ length dg = 64%nat /\ (t <= 512)%nat /\
  sha512t_cut t dg <> left_bits t dg.
Proof.
  exists 11%nat, (repeat 0xff 64). split; [apply bytes_forallb; reflexivity|]. split; [reflexivity|]. split; [lia|].
  vm_compute. discriminate.
Qed.
Print Assumptions C27_partial_byte_refuted.
Example C27_case : (256 <= 512)%nat /\ (256 mod 8 = 0)%nat /\ Forall bytes [[97]; [98; 99]] /\
  Z.of_nat (length (concat [[97]; [98; 99]])) + 128 < 2 ^ 64.
Proof. split; [lia|]. split; [reflexivity|]. split; [repeat (constructor; [apply bytes_forallb; reflexivity|]); constructor|]. reflexivity. Qed.
