(** Property C74: what equal digests imply, and what a digest gives away.
    The fixed-length hashes of the library (MD5, SHA-1, SHA-2, SM3) chain a block function over the padded message.
    Specification: [steps], the inputs the block function gets when a message is hashed, and [glue], the bytes the
    standards append to a message of [n] bytes. *)
From Verif Require Import Base HashModel HashSpec MdProofs WordW CompressProofs HashApi PropHash.

(** The pairs of chaining value and block to which the block function is applied, in order. *)
Fixpoint trace (f : list Z -> list Z -> list Z) (v : list Z) (bs : list (list Z)) : list (list Z * list Z) :=
  match bs with
  | [] => []
  | b :: bs => (v, b) :: trace f (f v b) bs
  end.
Definition steps (h : merkle) (m : list Z) : list (list Z * list Z) :=
  trace (mk_block h) (mk_iv h) (chunks (mk_B h) (mk_pad h (Z.of_nat (length m)) m)).
(** The value after the last block. *)
Definition last_value (h : merkle) (m : list Z) : list Z := mk_chain h (mk_iv h) (Z.of_nat (length m)) m.
(** The bytes appended to a message of [n] bytes. *)
Definition glue (h : merkle) (n : nat) : list Z :=
  [0x80] ++ repeat 0 (zeros (mk_B h) (length (mk_len h (Z.of_nat n))) n) ++ mk_len h (Z.of_nat n).
(** A collision of the block function met while hashing the two messages. *)
Definition block_collision (h : merkle) (m1 m2 : list Z) : Prop :=
  exists v1 b1 v2 b2, In (v1, b1) (steps h m1) /\ In (v2, b2) (steps h m2) /\ (v1, b1) <> (v2, b2) /\ mk_block h v1 b1 = mk_block h v2 b2.
(** The digest an object gives for the message written in the pieces [ws]. *)
Definition digest_of (D : digest mdst) (s0 : mdst) (ws : list (list Z)) : list Z := snd (d_checksum D (fold_left (d_write D) ws s0)).
(** The hashes whose digest is the whole last value. *)
Definition full_hashes : list (digest mdst * mdst * merkle * bool) :=
  [(MD5, md5_init, MD5_std, true); (SHA1, sha1_init, SHA1_std, true); (SHA256, sha256_init, SHA256_std, true);
   (SHA512, sha512_init, SHA512_std, false); (SM3, sm3_init, SM3_std, true)].

(** ** Facts of the nine hashes *)
Record MdFacts (h : merkle) : Prop := {
  mf_B : (0 < mk_B h)%nat;
  mf_len : forall L, length (mk_len h L) = length (mk_len h 0);
  mf_lt : (length (mk_len h 0) < mk_B h)%nat;
  mf_inj : forall a b, 0 <= a < 2 ^ 61 -> 0 <= b < 2 ^ 61 -> mk_len h a = mk_len h b -> a = b }.
Lemma len_be_inj lf a b : (8 <= lf)%nat -> 0 <= a < 2 ^ 61 -> 0 <= b < 2 ^ 61 -> len_be lf a = len_be lf b -> a = b.
Proof.
  unfold len_be. intros L A B E. apply (f_equal be_val) in E. rewrite !be_val_bytes in E.
  assert (P : 2 ^ 64 <= 256 ^ Z.of_nat lf).
  { change 256 with (2 ^ 8). rewrite <- Z.pow_mul_r by lia. apply Z.pow_le_mono_r; lia. }
  assert (Q : 2 ^ 64 = 8 * 2 ^ 61) by reflexivity. rewrite !Z.mod_small in E by lia. lia.
Qed.
Lemma len_le_inj a b : 0 <= a < 2 ^ 61 -> 0 <= b < 2 ^ 61 -> len_le a = len_le b -> a = b.
Proof.
  unfold len_le. intros A B E. apply (f_equal le_val) in E. rewrite !le_val_bytes in E.
  assert (Q : 256 ^ Z.of_nat 8 = 8 * 2 ^ 61) by reflexivity. rewrite Q in E. rewrite !Z.mod_small in E by lia. lia.
Qed.
Lemma be_facts (h : merkle) lf : mk_len h = len_be lf -> (8 <= lf < mk_B h)%nat -> MdFacts h.
Proof.
  intros E L. split; rewrite ?E; [lia|apply len_be_len|apply len_be_lt; lia|intros a b; apply len_be_inj; lia].
Qed.
Lemma repo_md D s0 h zl : In (D, s0, h, zl) repo_hashes -> MdFacts h.
Proof.
  intros H. cbv [repo_hashes] in H. cbn [In] in H.
  repeat (destruct H as [H|H]; [apply pair_equal_spec in H; destruct H as [H E4]; apply pair_equal_spec in H; destruct H as [H E3]; rewrite <- E3; clear
    |]); [..|destruct H].
  - split; cbn [MD5_std mk_B mk_len]; [lia|apply len_le_len|unfold len_le; rewrite le_bytes_length; lia|apply len_le_inj].
  - apply (be_facts SHA1_std 8); [reflexivity|cbn [SHA1_std mk_B]; lia].
  - apply (be_facts SHA224_std 8); [reflexivity|cbn [SHA224_std mk_B]; lia].
  - apply (be_facts SHA256_std 8); [reflexivity|cbn [SHA256_std mk_B]; lia].
  - apply (be_facts SHA384_std 16); [reflexivity|cbn [SHA384_std mk_B]; lia].
  - apply (be_facts SHA512_std 16); [reflexivity|cbn [SHA512_std mk_B]; lia].
  - apply (be_facts (SHA512t_std 224) 16); [reflexivity|cbn [SHA512t_std mk_B]; lia].
  - apply (be_facts (SHA512t_std 256) 16); [reflexivity|cbn [SHA512t_std mk_B]; lia].
  - apply (be_facts SM3_std 8); [reflexivity|cbn [SM3_std mk_B]; lia].
Qed.

(** ** Traces *)
Lemma trace_app f bs b : forall v, trace f v (bs ++ [b]) = trace f v bs ++ [(fold_left f bs v, b)].
Proof. induction bs as [|x bs IH]; intros v; cbn; [reflexivity|]. rewrite IH. reflexivity. Qed.
Definition pair_dec (x y : list Z * list Z) : {x = y} + {x <> y}.
Proof. decide equality; apply (list_eq_dec Z.eq_dec). Defined.
Lemma same_number f bs1 : forall bs2 v, length bs1 = length bs2 -> bs1 <> bs2 -> fold_left f bs1 v = fold_left f bs2 v ->
  exists v1 b1 v2 b2, In (v1, b1) (trace f v bs1) /\ In (v2, b2) (trace f v bs2) /\ (v1, b1) <> (v2, b2) /\ f v1 b1 = f v2 b2.
Proof.
  induction bs1 as [|x1 l1 IH] using rev_ind; intros bs2 v L N E.
  - destruct bs2; [contradiction|discriminate].
  - destruct bs2 as [|x2 l2 _] using rev_ind; [rewrite app_length in L; cbn in L; lia|].
    rewrite !app_length in L. cbn in L. rewrite !fold_left_app in E. cbn in E. rewrite !trace_app.
    destruct (pair_dec (fold_left f l1 v, x1) (fold_left f l2 v, x2)) as [Q|Q].
    + injection Q as Q1 Q2. subst x2. assert (N' : l1 <> l2) by (intros X; apply N; subst; reflexivity).
      destruct (IH l2 v ltac:(lia) N' Q1) as (v1 & b1 & v2 & b2 & I1 & I2 & NE & EE).
      exists v1, b1, v2, b2. repeat split; auto; apply in_or_app; auto.
    + exists (fold_left f l1 v), x1, (fold_left f l2 v), x2. repeat split; auto; apply in_or_app; right; left; reflexivity.
Qed.
(** The last block. *)
Lemma last_block B m : (0 < B)%nat -> (length m mod B = 0)%nat -> m <> [] ->
  exists bs b, chunks B m = bs ++ [b] /\ length b = B /\ m = concat bs ++ b.
Proof.
  intros HB HM N. pose proof (chunks_lengths B m ltac:(lia) HM) as F. pose proof (concat_chunks B m HB) as E.
  destruct (chunks B m) as [|b bs _] using rev_ind; [cbn in E; congruence|].
  apply Forall_app in F. destruct F as [_ F]. inversion F; subst. exists bs, b. split; [reflexivity|]. split; [reflexivity|].
  rewrite concat_app. cbn. rewrite app_nil_r. reflexivity.
Qed.
Lemma suffix_eq {A} (a1 b1 c1 a2 b2 c2 : list A) : length b1 = length b2 -> b1 = a1 ++ c1 -> b2 = a2 ++ c2 -> length c1 = length c2 -> b1 = b2 -> c1 = c2.
Proof.
  intros L E1 E2 LC E. subst b1 b2. rewrite !app_length in L. apply (f_equal (skipn (length a1))) in E.
  rewrite skipn_app, skipn_all, Nat.sub_diag, skipn_O in E. cbn in E. replace (length a1) with (length a2) in E by lia.
  rewrite skipn_app, skipn_all, Nat.sub_diag, skipn_O in E. exact E.
Qed.
Lemma block_ends {A} (a b c d : list A) : a ++ b = c ++ d -> (length d <= length b)%nat -> exists x, b = x ++ d.
Proof.
  intros E L. exists (firstn (length b - length d) b).
  assert (X : skipn (length b - length d) b = d).
  { pose proof (f_equal (skipn (length a + (length b - length d))) E) as Q. rewrite !skipn_app in Q.
    rewrite (skipn_all2 a) in Q by lia. replace (length a + (length b - length d) - length a)%nat with (length b - length d)%nat in Q by lia.
    pose proof (f_equal (@length A) E) as LL. rewrite !app_length in LL. rewrite (skipn_all2 c) in Q by lia.
    replace (length a + (length b - length d) - length c)%nat with 0%nat in Q by lia. exact Q. }
  rewrite <- X at 2. symmetry. apply firstn_skipn.
Qed.

Lemma pad_glue h m : mk_pad h (Z.of_nat (length m)) m = m ++ glue h (length m).
Proof. reflexivity. Qed.
Lemma pad_blocks h m : MdFacts h -> (length (mk_pad h (Z.of_nat (length m)) m) mod mk_B h = 0)%nat.
Proof. intros [B L LT _]. unfold mk_pad. apply pad_mult; [exact B|]. rewrite L. exact LT. Qed.
Lemma pad_len_eq h m1 m2 : length m1 = length m2 -> mk_pad h (Z.of_nat (length m1)) m1 = mk_pad h (Z.of_nat (length m2)) m2 -> m1 = m2.
Proof.
  intros L E. rewrite !pad_glue, <- L in E. apply (f_equal (firstn (length m1))) in E. rewrite firstn_app, firstn_all, Nat.sub_diag in E.
  cbn in E. rewrite app_nil_r in E. rewrite L in E. rewrite firstn_app, firstn_all, Nat.sub_diag in E. cbn in E. rewrite app_nil_r in E. exact E.
Qed.
Lemma reduction h m1 m2 : MdFacts h -> m1 <> m2 -> Z.of_nat (length m1) < 2 ^ 61 -> Z.of_nat (length m2) < 2 ^ 61 ->
  last_value h m1 = last_value h m2 -> block_collision h m1 m2.
Proof.
  intros F N L1 L2 E. unfold block_collision, steps. unfold last_value, mk_chain, iterate in E.
  pose proof (pad_blocks h m1 F) as M1. pose proof (pad_blocks h m2 F) as M2. pose proof F as [HB HL LT INJ].
  destruct (Nat.eq_dec (length m1) (length m2)) as [L|L].
  - apply same_number; [|intros X|exact E].
    + rewrite !chunks_count by (auto; lia). rewrite !pad_glue, !app_length, L. reflexivity.
    + apply N, (pad_len_eq h); [exact L|]. rewrite <- (concat_chunks (mk_B h) (mk_pad h _ m1)), X, concat_chunks by lia. reflexivity.
  - assert (NE : forall m, mk_pad h (Z.of_nat (length m)) m <> []).
    { intros m X. rewrite pad_glue in X. destruct m; discriminate. }
    destruct (last_block (mk_B h) _ HB M1 (NE m1)) as (l1 & x1 & C1 & X1 & P1).
    destruct (last_block (mk_B h) _ HB M2 (NE m2)) as (l2 & x2 & C2 & X2 & P2).
    rewrite C1, C2 in *. rewrite !fold_left_app in E. cbn in E. rewrite !trace_app.
    exists (fold_left (mk_block h) l1 (mk_iv h)), x1, (fold_left (mk_block h) l2 (mk_iv h)), x2.
    split; [apply in_or_app; right; left; reflexivity|]. split; [apply in_or_app; right; left; reflexivity|]. split; [|exact E].
    intros Q. injection Q as _ Q.
    assert (S : forall m l x, mk_pad h (Z.of_nat (length m)) m = concat l ++ x -> length x = mk_B h -> exists a, x = a ++ mk_len h (Z.of_nat (length m))).
    { intros m l x P X. apply (block_ends (concat l) x (m ++ [0x80] ++ repeat 0 (zeros (mk_B h) (length (mk_len h (Z.of_nat (length m)))) (length m)))).
      - rewrite <- P. rewrite pad_glue. unfold glue. rewrite <- !app_assoc. reflexivity.
      - rewrite HL, X. lia. }
    destruct (S m1 l1 x1 P1 X1) as [a1 A1]. destruct (S m2 l2 x2 P2 X2) as [a2 A2].
    assert (Y : mk_len h (Z.of_nat (length m1)) = mk_len h (Z.of_nat (length m2))).
    { apply (suffix_eq a1 x1 _ a2 x2 _); auto; [congruence|]. rewrite HL, (HL (Z.of_nat (length m2))). reflexivity. }
    apply INJ in Y; lia.
Qed.
Lemma digest_std D s0 h zl ws : In (D, s0, h, zl) repo_hashes -> Forall bytes ws -> Z.of_nat (length (concat ws)) < 2 ^ 61 ->
  digest_of D s0 ws = mk_out h (last_value h (concat ws)).
Proof.
  intros H F L. assert (X : 2 ^ 61 < M64) by reflexivity. exact (facts_new D s0 h zl (repo_facts D s0 h zl H) ws F ltac:(lia)).
Qed.

(** ** C74: from two messages with one digest to a collision inside *)
Theorem C74_collision : forall D s0 h zl ws1 ws2, In (D, s0, h, zl) repo_hashes -> Forall bytes ws1 -> Forall bytes ws2 ->
  concat ws1 <> concat ws2 -> Z.of_nat (length (concat ws1)) < 2 ^ 61 -> Z.of_nat (length (concat ws2)) < 2 ^ 61 ->
  digest_of D s0 ws1 = digest_of D s0 ws2 ->
  let v1 := last_value h (concat ws1) in let v2 := last_value h (concat ws2) in
  block_collision h (concat ws1) (concat ws2) \/ (v1 <> v2 /\ mk_out h v1 = mk_out h v2).
Proof.
  intros D s0 h zl ws1 ws2 H F1 F2 N L1 L2 E v1 v2. rewrite !(digest_std D s0 h zl) in E by assumption.
  destruct (list_eq_dec Z.eq_dec v1 v2) as [Q|Q]; [left|right; split; [exact Q|exact E]].
  apply reduction; auto. exact (repo_md D s0 h zl H).
Qed.
Print Assumptions C74_collision.

(** ** The hashes that output the whole last value *)
Record FullFacts (h : merkle) (val : list Z -> Prop) (parse : list Z -> list Z) : Prop := {
  ff_iv : val (mk_iv h);
  ff_block : forall v b, val v -> bytes b -> length b = mk_B h -> val (mk_block h v b);
  ff_out : forall v, val v -> parse (mk_out h v) = v;
  ff_len : forall n, bytes (mk_len h n) }.
Lemma words_be k v : (0 < k)%nat -> Forall (ww (8 * Z.of_nat k)) v -> map be_val (chunks k (flat_map (be_bytes k) v)) = v.
Proof.
  intros K F. induction F as [|x l X F IH]; [cbn [flat_map]; rewrite chunks_nil by exact K; reflexivity|].
  cbn [flat_map]. rewrite chunks_app by (auto using be_bytes_length). cbn [map]. rewrite IH, be_val_bytes. f_equal.
  apply Z.mod_small. unfold ww in X. rewrite Z.pow_mul_r in X by lia. exact X.
Qed.
Lemma words_le k v : (0 < k)%nat -> Forall (ww (8 * Z.of_nat k)) v -> map le_val (chunks k (flat_map (le_bytes k) v)) = v.
Proof.
  intros K F. induction F as [|x l X F IH]; [cbn [flat_map]; rewrite chunks_nil by exact K; reflexivity|].
  cbn [flat_map]. rewrite chunks_app by (auto using le_bytes_length). cbn [map]. rewrite IH, le_val_bytes. f_equal.
  apply Z.mod_small. unfold ww in X. rewrite Z.pow_mul_r in X by lia. exact X.
Qed.
Lemma full_facts D s0 h zl : In (D, s0, h, zl) full_hashes -> In (D, s0, h, zl) repo_hashes /\ exists val parse, FullFacts h val parse.
Proof.
  intros H. split.
  - cbv [full_hashes repo_hashes] in *. cbn [In] in *. tauto.
  - cbv [full_hashes] in H. cbn [In] in H.
    repeat (destruct H as [H|H]; [apply pair_equal_spec in H; destruct H as [H E4]; apply pair_equal_spec in H; destruct H as [H E3]; rewrite <- E3; clear
      |]); [..|destruct H].
    + exists (valid 4 32), (fun d => map le_val (chunks 4 d)). split; cbn [MD5_std mk_iv mk_block mk_B mk_out mk_len].
      * exact md5_iv.
      * intros v b V B L. exact (proj2 (md5_vb v b V B L)).
      * intros v [_ V]. apply words_le; [lia|exact V].
      * apply len_le_b.
    + exists (valid 5 32), (fun d => map be_val (chunks 4 d)). split; cbn [SHA1_std mk_iv mk_block mk_B mk_out mk_len].
      * exact sha1_iv.
      * intros v b V B L. exact (proj2 (sha1_vb v b V B L)).
      * intros v [_ V]. apply words_be; [lia|exact V].
      * intros n. apply len_be_b.
    + exists (valid 8 32), (fun d => map be_val (chunks 4 d)). split; cbn [SHA256_std mk_iv mk_block mk_B mk_out mk_len].
      * rewrite iv_256. exact sha256_iv.
      * intros v b V B L. exact (proj2 (sha256_vb v b V B L)).
      * intros v [_ V]. apply words_be; [lia|exact V].
      * intros n. apply len_be_b.
    + exists (valid 8 64), (fun d => map be_val (chunks 8 d)). split; cbn [SHA512_std mk_iv mk_block mk_B mk_out mk_len].
      * rewrite iv_512. exact sha512_iv.
      * intros v b V B L. exact (proj2 (sha512_vb v b V B L)).
      * intros v [_ V]. apply words_be; [lia|exact V].
      * intros n. apply len_be_b.
    + exists (valid 8 32), (fun d => map be_val (chunks 4 d)). split; cbn [SM3_std mk_iv mk_block mk_B mk_out mk_len].
      * exact sm3_iv.
      * intros v b V B L. exact (proj2 (sm3_vb v b V B L)).
      * intros v [_ V]. apply words_be; [lia|exact V].
      * intros n. apply len_be_b.
Qed.
Lemma glue_bytes h n : bytes (mk_len h (Z.of_nat n)) -> bytes (glue h n).
Proof.
  intros F. unfold glue. apply bytes_app; split; [repeat constructor; unfold byte; lia|].
  apply bytes_app; split; [apply bytes_repeat; unfold byte; lia|exact F].
Qed.
Lemma last_valid h val parse m : MdFacts h -> FullFacts h val parse -> bytes m -> val (last_value h m).
Proof.
  intros F [I S _ LB] B. pose proof (pad_blocks h m F) as M. pose proof F as [HB _ _ _].
  unfold last_value, mk_chain, iterate.
  assert (PB : bytes (mk_pad h (Z.of_nat (length m)) m)) by (rewrite pad_glue; apply bytes_app; split; [exact B|apply glue_bytes, LB]).
  pose proof (chunks_lengths (mk_B h) _ ltac:(lia) M) as L1. pose proof (chunks_bytes (mk_B h) _ HB PB) as L2.
  revert I L1 L2. generalize (mk_iv h). induction (chunks (mk_B h) (mk_pad h (Z.of_nat (length m)) m)) as [|b bs IH]; intros v V L1 L2; [exact V|].
  inversion L1; subst. inversion L2; subst. cbn [fold_left]. apply IH; auto.
Qed.

Theorem C74_collision_full : forall D s0 h zl ws1 ws2, In (D, s0, h, zl) full_hashes -> Forall bytes ws1 -> Forall bytes ws2 ->
  concat ws1 <> concat ws2 -> Z.of_nat (length (concat ws1)) < 2 ^ 61 -> Z.of_nat (length (concat ws2)) < 2 ^ 61 ->
  digest_of D s0 ws1 = digest_of D s0 ws2 -> block_collision h (concat ws1) (concat ws2).
Proof.
  intros D s0 h zl ws1 ws2 H F1 F2 N L1 L2 E. destruct (full_facts D s0 h zl H) as (H' & val & parse & FF).
  pose proof (repo_md D s0 h zl H') as F. destruct (C74_collision D s0 h zl ws1 ws2 H' F1 F2 N L1 L2 E) as [C|[C C']]; [exact C|exfalso].
  apply C. rewrite <- (ff_out h val parse FF _ (last_valid h val parse _ F FF (bytes_concat _ F1))), C'.
  apply (ff_out h val parse FF), (last_valid h val parse _ F FF), bytes_concat, F2.
Qed.
Print Assumptions C74_collision_full.

(** ** C74: length extension *)
Lemma glue_join h m x : MdFacts h ->
  last_value h (m ++ glue h (length m) ++ x) = iterate (mk_B h) (mk_block h) (last_value h m) (x ++ glue h (length m + length (glue h (length m)) + length x)).
Proof.
  intros F. pose proof (pad_blocks h m F) as M. pose proof F as [HB _ _ _]. unfold last_value, mk_chain. rewrite !pad_glue in *.
  unfold iterate. rewrite !app_length. rewrite (Nat.add_assoc (length m)). rewrite (app_assoc m), <- (app_assoc (m ++ _)).
  rewrite (chunks_app_mult (mk_B h) (m ++ glue h (length m))) by (auto; lia). rewrite fold_left_app. reflexivity.
Qed.
Theorem C74_extension : forall D s0 h zl, In (D, s0, h, zl) full_hashes ->
  exists extend : list Z -> nat -> list Z -> list Z,
  forall ws x, Forall bytes ws -> bytes x ->
    let n := length (concat ws) in
    Z.of_nat (n + length (glue h n) + length x) < 2 ^ 61 ->
    digest_of D s0 (ws ++ [glue h n; x]) = extend (digest_of D s0 ws) n x.
Proof.
  intros D s0 h zl H. destruct (full_facts D s0 h zl H) as (H' & val & parse & FF). pose proof (repo_md D s0 h zl H') as F.
  exists (fun d n x => mk_out h (iterate (mk_B h) (mk_block h) (parse d) (x ++ glue h (n + length (glue h n) + length x)))).
  intros ws x Fw Bx n L. pose proof (glue_bytes h n (ff_len h val parse FF _)) as G.
  assert (EC : concat (ws ++ [glue h n; x]) = concat ws ++ glue h n ++ x) by (rewrite concat_app; cbn [concat]; rewrite app_nil_r; reflexivity).
  rewrite !(digest_std D s0 h zl) by (first [exact H' | exact Fw | (apply Forall_app; split; [exact Fw|exact (Forall_cons _ G (Forall_cons _ Bx (Forall_nil _)))])
    | (rewrite EC, !app_length; fold n; lia) | (fold n; lia)]).
  rewrite EC. unfold n at 1. rewrite (glue_join h (concat ws) x F).
  rewrite (ff_out h val parse FF) by (apply (last_valid h val parse _ F FF), bytes_concat, Fw). reflexivity.
Qed.
Print Assumptions C74_extension.

(** ** C74: MD5 is not collision free
    Two messages of 128 bytes (X. Wang and H. Yu, 2005); whatever follows them, the digests are equal. *)
Definition md5_a : list Z := be_bytes 128 0xd131dd02c5e6eec4693d9a0698aff95c2fcab58712467eab4004583eb8fb7f8955ad340609f4b30283e488832571415a085125e8f7cdc99fd91dbdf280373c5bd8823e3156348f5bae6dacd436c919c6dd53e2b487da03fd02396306d248cda0e99f33420f577ee8ce54b67080a80d1ec69821bcb6a8839396f9652b6ff72a70.
Definition md5_b : list Z := be_bytes 128 0xd131dd02c5e6eec4693d9a0698aff95c2fcab50712467eab4004583eb8fb7f8955ad340609f4b30283e4888325f1415a085125e8f7cdc99fd91dbd7280373c5bd8823e3156348f5bae6dacd436c919c6dd53e23487da03fd02396306d248cda0e99f33420f577ee8ce54b67080280d1ec69821bcb6a8839396f965ab6ff72a70.
Lemma md5_ab : md5_a <> md5_b /\ length md5_a = 128%nat /\ length md5_b = 128%nat /\ iterate 64 MD5_block MD5_H0 md5_a = iterate 64 MD5_block MD5_H0 md5_b.
Proof. assert (X : (nth 19 md5_a 0 =? nth 19 md5_b 0) = false) by (vm_compute; reflexivity).
  split; [intros E; rewrite E, Z.eqb_refl in X; discriminate X|]. clear X. split; [|split]; vm_compute; reflexivity. Qed.
Lemma same_suffix h a b x : MdFacts h -> length a = length b -> (length a mod mk_B h = 0)%nat ->
  iterate (mk_B h) (mk_block h) (mk_iv h) a = iterate (mk_B h) (mk_block h) (mk_iv h) b -> last_value h (a ++ x) = last_value h (b ++ x).
Proof.
  intros [HB _ _ _] L M E. unfold last_value, mk_chain. rewrite !pad_glue, !app_length, <- L, <- !app_assoc. unfold iterate in *.
  rewrite (chunks_app_mult (mk_B h) a) by (auto; lia). rewrite (chunks_app_mult (mk_B h) b) by (rewrite <- ?L; auto; lia).
  rewrite !fold_left_app, E. reflexivity.
Qed.
Lemma md5_family a b : bytes a -> bytes b -> length a = 128%nat -> length b = 128%nat ->
  iterate 64 MD5_block MD5_H0 a = iterate 64 MD5_block MD5_H0 b ->
  forall x, bytes x -> Z.of_nat (length x) < 2 ^ 60 -> digest_of MD5 md5_init [a; x] = digest_of MD5 md5_init [b; x].
Proof.
  intros BA BB LA LB E x B L. assert (I : In (MD5, md5_init, MD5_std, true) repo_hashes) by (left; reflexivity).
  assert (Q : 128 + 2 ^ 60 < 2 ^ 61) by reflexivity.
  assert (LL : forall y, length y = 128%nat -> Z.of_nat (length (concat [y; x])) < 2 ^ 61).
  { intros y Y. cbn [concat]. rewrite !app_length, Y. cbn [length]. lia. }
  rewrite (digest_std MD5 md5_init MD5_std true [a; x] I (Forall_cons _ BA (Forall_cons _ B (Forall_nil _))) (LL a LA)).
  rewrite (digest_std MD5 md5_init MD5_std true [b; x] I (Forall_cons _ BB (Forall_cons _ B (Forall_nil _))) (LL b LB)).
  cbn [concat]. rewrite app_nil_r. apply f_equal. refine (same_suffix MD5_std a b x (repo_md MD5 md5_init MD5_std true I) _ _ E).
  - rewrite LA, LB. reflexivity.
  - rewrite LA. reflexivity.
Qed.
Theorem C74_md5_refuted : md5_a <> md5_b /\
  forall x, bytes x -> Z.of_nat (length x) < 2 ^ 60 -> digest_of MD5 md5_init [md5_a; x] = digest_of MD5 md5_init [md5_b; x].
Proof.
  destruct md5_ab as (N & LA & LB & E).
  exact (conj N (md5_family md5_a md5_b (be_bytes_bytes _ _) (be_bytes_bytes _ _) LA LB E)).
Qed.
Print Assumptions C74_md5_refuted.

(** Cases: the two messages meet the hypotheses of the collision theorem; extending "abc". *)
Lemma case_of a b x : bytes a -> bytes b -> bytes x -> length a = 128%nat -> length b = 128%nat -> a <> b -> Z.of_nat (length x) < 2 ^ 60 ->
  digest_of MD5 md5_init [a; x] = digest_of MD5 md5_init [b; x] -> block_collision MD5_std (a ++ x) (b ++ x).
Proof.
  intros BA BB BX LA LB N LX E. assert (Q : 128 + 2 ^ 60 < 2 ^ 61) by reflexivity.
  pose proof (C74_collision_full MD5 md5_init MD5_std true [a; x] [b; x] ltac:(left; reflexivity)
    (Forall_cons _ BA (Forall_cons _ BX (Forall_nil _))) (Forall_cons _ BB (Forall_cons _ BX (Forall_nil _)))) as C.
  cbn [concat] in C. rewrite !app_nil_r, !app_length, LA, LB in C. apply C; [|lia|lia|exact E].
  intros X. apply N. apply app_inv_tail in X. exact X.
Qed.
Example C74_case : block_collision MD5_std (md5_a ++ [1; 2; 3]) (md5_b ++ [1; 2; 3]).
Proof.
  destruct md5_ab as (N & LA & LB & _). assert (BX : bytes [1; 2; 3]) by (repeat constructor; unfold byte; lia).
  exact (case_of md5_a md5_b [1; 2; 3] (be_bytes_bytes _ _) (be_bytes_bytes _ _) BX LA LB N eq_refl (proj2 C74_md5_refuted [1; 2; 3] BX eq_refl)).
Qed.
Example C74_glue : glue SHA256_std 3 = 0x80 :: repeat 0 52 ++ [0; 0; 0; 0; 0; 0; 0; 24].
Proof. reflexivity. Qed.
