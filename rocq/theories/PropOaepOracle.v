(** Property C89: what the texts of OAEP decryption errors give away.  A block with a non-zero first byte is refused with one text, a
    block with a zero first byte and the wrong label hash with another (oaep.rs:133, :142).  Whoever sees which text it was, for
    ciphertexts of their own choice, computes every message encrypted with OAEP (J. Manger, CRYPTO 2001); below the attack is a
    program that asks at most 16 k + 512 questions.  [key_ok], [usable], [DigestOk], [EME_OAEP] are described in PropRsa.v. *)
From Coq Require Import Znumtheory String.
From Verif Require Import Base Words HashModel HashSpec HashApi PropHash MacApi NumTheory RsaModel RsaProofs RsaEncModel RsaSpec RsaEncProofs RsaSigProofs RsaApi RsaCases PropRsa PropRsaRel RsaTextModel.
Local Open Scope Z_scope.

(** ** The texts *)
(** Dropping the texts gives the operation of C43. *)
Theorem C89_same_operation : forall (S : Type) (D : digest S) kp label s rd c,
  oaep_decrypt D kp label s rd c = (fst (oaep_decrypt_t D kp label s rd c), answer_kind (snd (oaep_decrypt_t D kp label s rd c))).
Proof.
  intros S D kp label s rd c. unfold oaep_decrypt, oaep_decrypt_t. destruct (_ =? _)%nat; [reflexivity|]. destruct (kp_private kp) as [sk|]; [|reflexivity].
  destruct (pub_is_valid (sk_pk sk)); [|reflexivity|reflexivity]. cbv zeta. destruct (_ || _); [reflexivity|]. destruct (priv_decrypt sk (be_val c) rd) as [m|e|]; [|reflexivity|reflexivity].
  destruct (hash_run D s [label]) as [s1 lh]. unfold oaep_decode, oaep_decode_t. cbv zeta. destruct (negb _); [reflexivity|].
  destruct (mgf1_xor D s1 _ _) as [s2 sd]. destruct (mgf1_xor D s2 _ _) as [s3 db]. destruct (negb _); [reflexivity|]. destruct (oaep_scan _); reflexivity.
Qed.
Print Assumptions C89_same_operation.

Section Attack.
(** [below s]: the answer to the question "is s m mod n below B?". *)
Variables (below : Z -> bool) (n B : Z).
(** Doubling while the answer is yes. *)
Fixpoint scale (fuel : nat) (a : Z) : Z * list Z :=
  match fuel with
  | O => (a, [])
  | Datatypes.S fuel => if below (2 * a) then let '(r, q) := scale fuel (2 * a) in (r, 2 * a :: q) else (a, [2 * a])
  end.
(** Counting up to the first yes. *)
Fixpoint sweep (fuel : nat) (a f : Z) : Z * list Z :=
  match fuel with
  | O => (f, [])
  | Datatypes.S fuel => if below (f * a) then (f, [f * a]) else let '(r, q) := sweep fuel a (f + 1) in (r, f * a :: q)
  end.
(** One more binary digit per question. *)
Fixpoint refine (fuel : nat) (a f : Z) : Z * list Z :=
  match fuel with
  | O => (f, [])
  | Datatypes.S fuel =>
    let '(r, q) := refine fuel a (if below ((2 * f - 1) * a) then 2 * f - 1 else 2 * f) in (r, (2 * f - 1) * a :: q)
  end.
(** The number found, and the questions asked. *)
Definition manger (bits : nat) : Z * list Z :=
  let '(a, q1) := scale bits 1 in
  let '(f, q2) := sweep (Z.to_nat (2 * n / B)) a 2 in
  let '(g, q3) := refine bits a f in
  ((2 ^ Z.of_nat bits * n + g - 1) / g / a, q1 ++ q2 ++ q3).

Variable m : Z.
Hypothesis m_pos : 0 < m.
Hypothesis room : 2 * B <= n.
Definition truly (s : Z) : Prop := below s = (s * m mod n <? B).
Lemma scale_ok fuel : forall a, 0 < a -> a * m < B -> B <= 2 ^ Z.of_nat fuel * (a * m) -> Forall truly (snd (scale fuel a)) ->
  let a' := fst (scale fuel a) in 0 < a' /\ a' * m < B <= 2 * (a' * m) /\ (List.length (snd (scale fuel a)) <= fuel)%nat.
Proof.
  induction fuel as [|fuel IH]; intros a A L G F; [change (2 ^ Z.of_nat 0) with 1 in G; lia|]. cbn [scale] in *. destruct (below (2 * a)) eqn:E.
  - specialize (IH (2 * a)). destruct (scale fuel (2 * a)) as [r q]. cbn [fst snd] in *. pose proof (Forall_inv F) as R. pose proof (Forall_inv_tail F) as F'. cbv beta in R. unfold truly in R. rewrite E in R. symmetry in R. apply Z.ltb_lt in R.
    rewrite Z.mod_small in R by nia. destruct IH as (I1 & I2 & I3); [lia|lia| |exact F'|repeat split; try lia; cbn [List.length]; lia].
    rewrite Nat2Z.inj_succ, Z.pow_succ_r in G by lia. lia.
  - cbn [fst snd] in *. pose proof (Forall_inv F) as R. pose proof (Forall_inv_tail F) as F'. cbv beta in R. unfold truly in R. rewrite E in R. symmetry in R. apply Z.ltb_ge in R.
    rewrite Z.mod_small in R by nia. repeat split; try lia. cbn [List.length]. lia.
Qed.
Section Scaled.
Variables a M : Z.
Hypothesis EM : M = a * m.
Hypothesis M1 : M < B.
Hypothesis M2 : B <= 2 * M.
Lemma ask f : truly (f * a) -> below (f * a) = (f * M mod n <? B). Proof. unfold truly. intros ->. rewrite EM, Z.mul_assoc. reflexivity. Qed.
Lemma sweep_ok fuel : forall f, 2 <= f -> (f - 1) * M < n -> n <= (f - 1 + Z.of_nat fuel) * M -> Forall truly (snd (sweep fuel a f)) ->
  let f' := fst (sweep fuel a f) in 2 <= f' /\ (f' - 1) * M < n <= f' * M /\ (List.length (snd (sweep fuel a f)) <= fuel)%nat.
Proof.
  induction fuel as [|fuel IH]; intros f F2 L G F; [change (Z.of_nat 0) with 0 in G; lia|]. cbn [sweep] in *. destruct (below (f * a)) eqn:E.
  - cbn [fst snd] in *. pose proof (Forall_inv F) as R. pose proof (Forall_inv_tail F) as F'. cbv beta in R. rewrite (ask f R) in E. apply Z.ltb_lt in E. destruct (Z.lt_ge_cases (f * M) n) as [C|C].
    + rewrite Z.mod_small in E by nia. nia.
    + cbn [List.length]. repeat split; lia.
  - specialize (IH (f + 1)). destruct (sweep fuel a (f + 1)) as [r q]. cbn [fst snd] in *. pose proof (Forall_inv F) as R. pose proof (Forall_inv_tail F) as F'. cbv beta in R. rewrite (ask f R) in E. apply Z.ltb_ge in E.
    destruct (Z.lt_ge_cases (f * M) n) as [C|C].
    + rewrite Nat2Z.inj_succ in G. destruct IH as (I1 & I2 & I3); [lia| | |exact F'|cbn [List.length]; repeat split; lia].
      * replace (f + 1 - 1) with f by lia. exact C.
      * replace (f + 1 - 1 + Z.of_nat fuel) with (f - 1 + Z.succ (Z.of_nat fuel)) by lia. exact G.
    + exfalso. assert (X : f * M mod n = f * M - n); [|lia].
      symmetry. apply (Z.mod_unique _ n 1); lia.
Qed.
Lemma refine_ok fuel : forall i f, (f - 1) * M < i * n <= f * M -> Forall truly (snd (refine fuel a f)) ->
  let f' := fst (refine fuel a f) in (f' - 1) * M < 2 ^ Z.of_nat fuel * i * n <= f' * M /\ (List.length (snd (refine fuel a f)) <= fuel)%nat.
Proof.
  induction fuel as [|fuel IH]; intros i f L F; [cbn [refine fst snd List.length]; change (2 ^ Z.of_nat 0) with 1; split; lia|]. cbn [refine] in *.
  specialize (IH (2 * i) (if below ((2 * f - 1) * a) then 2 * f - 1 else 2 * f)).
  destruct (refine fuel a (if below ((2 * f - 1) * a) then 2 * f - 1 else 2 * f)) as [r q]. cbn [fst snd] in *. pose proof (Forall_inv F) as R. pose proof (Forall_inv_tail F) as F'. cbv beta in R.
  rewrite (ask (2 * f - 1) R) in IH. rewrite Nat2Z.inj_succ, Z.pow_succ_r by lia. replace (2 * 2 ^ Z.of_nat fuel * i * n) with (2 ^ Z.of_nat fuel * (2 * i) * n) by ring.
  destruct IH as [I1 I2]; [|exact F'|split; [exact I1|cbn [List.length]; lia]].
  destruct (Z.lt_ge_cases ((2 * f - 1) * M) (2 * i * n)) as [C|C].
  - assert (X : (2 * f - 1) * M mod n = (2 * f - 1) * M - (2 * i - 1) * n) by (symmetry; apply (Z.mod_unique _ n (2 * i - 1)); lia).
    rewrite (proj2 (Z.ltb_ge _ _)); lia.
  - assert (X : (2 * f - 1) * M mod n = (2 * f - 1) * M - 2 * i * n) by (symmetry; apply (Z.mod_unique _ n (2 * i)); lia).
    rewrite (proj2 (Z.ltb_lt _ _)); lia.
Qed.
End Scaled.
Lemma manger_ok bits : B = 2 ^ Z.of_nat bits -> m < B -> Forall truly (snd (manger bits)) ->
  fst (manger bits) = m /\ (List.length (snd (manger bits)) <= 2 * bits + Z.to_nat (2 * n / B))%nat.
Proof.
  intros EB L F. assert (B0 : 0 < B) by lia. unfold manger in *. pose proof (scale_ok bits 1) as P1. destruct (scale bits 1) as [a q1]. cbn [fst snd] in P1.
  pose proof (sweep_ok a (a * m) eq_refl) as P2. specialize (P2). destruct (sweep (Z.to_nat (2 * n / B)) a 2) as [f q2] eqn:E2.
  pose proof (refine_ok a (a * m) eq_refl) as P3. destruct (refine bits a f) as [g q3] eqn:E3. cbn [fst snd] in *.
  apply Forall_app in F. destruct F as [F1 F]. apply Forall_app in F. destruct F as [F2 F3].
  destruct P1 as (A0 & [A1 A2] & Q1); [lia|lia|rewrite <- EB; nia|exact F1|]. set (M := a * m) in *.
  specialize (P2 A1 A2 (Z.to_nat (2 * n / B)) 2). rewrite E2 in P2. cbn [fst snd] in P2. destruct P2 as (G2 & [G3 G4] & Q2); [lia|lia| |exact F2|].
  { rewrite Z2Nat.id by (apply Z.div_pos; lia). pose proof (Z.div_mod (2 * n) B ltac:(lia)). pose proof (Z.mod_pos_bound (2 * n) B ltac:(lia)). nia. }
  specialize (P3 A1 A2 bits 1 f). rewrite E3 in P3. cbn [fst snd] in P3. destruct P3 as ([G5 G6] & Q3); [lia|exact F3|].
  rewrite !app_length. split; [|lia]. rewrite <- EB in *. replace (B * 1 * n) with (B * n) in * by ring.
  assert (GM : M <= g - 1) by nia. assert (X : (B * n + g - 1) / g = M) by (symmetry; apply (Z.div_unique _ g M (B * n + g - 1 - g * M)); nia).
  rewrite X. unfold M. rewrite Z.mul_comm. apply Z.div_mul. lia.
Qed.
End Attack.

(** ** Which answer a block gets *)
Lemma first_byte k x : (0 < k)%nat -> 0 <= x < 256 ^ Z.of_nat k -> nth 0 (I2OSP x k) 0 = 0 <-> x < 256 ^ Z.of_nat (k - 1).
Proof.
  intros K X. unfold I2OSP. pose proof (be_val_bytes k x) as V. rewrite Z.mod_small in V by exact X. pose proof (be_bytes_length k x) as L. pose proof (be_bytes_bytes k x) as B.
  destruct (be_bytes k x) as [|b l]; [cbn in L; lia|]. cbn [nth List.length] in *. pose proof (Forall_inv B) as Bb. apply Forall_inv_tail in B. pose proof (be_val_bound l B) as U.
  replace (k - 1)%nat with (List.length l) by lia. change (b :: l) with ([b] ++ l) in V. rewrite be_val_app in V. replace (be_val [b]) with b in V by (cbn; lia). unfold byte in Bb. split; [intros ->; lia|]. intros Q. nia.
Qed.
Section Texts.
Context {S : Type}.
Variables (D : digest S) (I : S -> Prop) (H : list Z -> list Z) (limit : Z) (h : nat).
Hypothesis HG : DigestOk D I H limit.
Hypothesis HB : d_bits_len D = (8 * h)%nat.
Hypothesis Hh : (0 < h)%nat.
Let h8 : (d_bits_len D mod 8 = 0)%nat. Proof. rewrite HB, Nat.mul_comm. apply Nat.mod_mul. lia. Qed.
Let hpos : (0 < d_bits_len D)%nat. Proof. lia. Qed.
Let hd : (d_bits_len D / 8)%nat = h. Proof. rewrite HB, Nat.mul_comm. apply Nat.div_mul. lia. Qed.
Let HL : hlen D = h. Proof. unfold hlen. rewrite HB. replace (8 * h + 7)%nat with (7 + h * 8)%nat by lia. rewrite Nat.div_add by lia. reflexivity. Qed.
Lemma text_eq sk label s rd c : key_ok sk -> pub_is_valid (sk_pk sk) = Ok tt -> I s -> bytes label -> Z.of_nat (List.length label) < limit ->
  (1 <= List.length c <= modulus_len (sk_pk sk))%nat -> (2 * h + 2 <= modulus_len (sk_pk sk))%nat -> OS2IP c <= pk_n (sk_pk sk) -> usable (pk_n (sk_pk sk)) rd ->
  exists s1, I s1 /\ oaep_decrypt_t D (inr sk) label s rd c = oaep_decode_t D s1 (H label) (I2OSP (OS2IP c ^ sk_d sk mod pk_n (sk_pk sk)) (modulus_len (sk_pk sk))).
Proof.
  intros K V Hs BL LL LC L2 C U. pose proof (key_N sk K) as N. unfold oaep_decrypt_t. cbn [kp_private]. rewrite (proj2 (Nat.eqb_neq _ _)) by lia.
  rewrite V, HL. rewrite (proj2 (Nat.ltb_ge _ _)) by lia. rewrite (proj2 (Nat.ltb_ge _ _)) by lia. cbn [orb].
  unfold OS2IP in *. rewrite priv_decrypt_ok by assumption.
  destruct (hash_run_ok D I H limit HG s [label] Hs) as (s1 & E1 & I1).
  { apply Forall_cons; [exact BL|constructor]. } { cbn [concat]. rewrite app_nil_r. exact LL. }
  rewrite E1. cbn [concat]. rewrite app_nil_r. exists s1. split; [exact I1|]. rewrite fix_len_ok; [reflexivity|].
  destruct (modulus_len_bounds _ N) as [_ [_ HU]]. pose proof (pow_range (be_val c) (sk_d sk) _ N). lia.
Qed.
Lemma text_mask s lhash k DB seed : I s -> List.length seed = h -> List.length DB = (k - h - 1)%nat -> bytes seed -> bytes DB -> Z.of_nat k + 4 < limit -> (h + 1 <= k)%nat ->
  snd (oaep_decode_t D s lhash (OAEP_mask H h k DB seed)) =
    if negb (list_eqb lhash (firstn h DB)) then Refused VerificationFailed (Some text_label)
    else match oaep_scan (skipn h DB) with Ok i => Opened (skipn (h + i) DB) | Err e => Refused e (Some text_format) | Panic => Panicked end.
Proof.
  intros Hs Ls Ld Bs Bd LK Hk. pose proof (mask_parts D I H limit HG h8 hpos k DB seed) as MP. rewrite hd in MP.
  destruct (MP Ls Ld Bs Bd LK Hk) as (EM & Lms & Lmd & Bms & Bmd & X1 & X2). clear MP.
  rewrite EM. set (md := xorl DB (MGF1 H h seed (k - h - 1))) in *. set (ms := xorl seed (MGF1 H h md h)) in *.
  unfold oaep_decode_t. rewrite HL. cbn [nth]. change (negb (0 =? 0)) with false. cbv iota zeta.
  change (skipn 1 (0 :: ms ++ md)) with (ms ++ md). rewrite (firstn_exact h ms md Lms).
  replace (skipn (h + 1) (0 :: ms ++ md)) with md by (change (0 :: ms ++ md) with (([0] ++ ms) ++ md); symmetry; apply skipn_exact; rewrite app_length; cbn [List.length]; lia).
  pose proof (mgf1_xor_ok D I H limit HG h8 hpos s md ms Hs Bmd) as Q1. rewrite hd in Q1. destruct Q1 as (s2 & E2 & I2); [lia|]. rewrite E2, Lms, X1.
  pose proof (mgf1_xor_ok D I H limit HG h8 hpos s2 seed md I2 Bs) as Q2. rewrite hd in Q2. destruct Q2 as (s3 & E3 & I3); [lia|]. rewrite E3, Lmd, X2.
  destruct (list_eqb lhash (firstn h DB)); reflexivity.
Qed.
End Texts.

Theorem C89_text : forall (S : Type) (D : digest S) (I : S -> Prop) H limit h sk label s rd c,
  DigestOk D I H limit -> d_bits_len D = (8 * h)%nat -> (0 < h)%nat ->
  key_ok sk -> pub_is_valid (sk_pk sk) = Ok tt -> I s -> bytes label -> Z.of_nat (List.length label) < limit ->
  (2 * h + 2 <= modulus_len (sk_pk sk))%nat -> Z.of_nat (modulus_len (sk_pk sk)) + 4 < limit -> usable (pk_n (sk_pk sk)) rd ->
  (1 <= List.length c <= modulus_len (sk_pk sk))%nat -> OS2IP c <= pk_n (sk_pk sk) ->
  let k := modulus_len (sk_pk sk) in let x := OS2IP c ^ sk_d sk mod pk_n (sk_pk sk) in
  let a := snd (oaep_decrypt_t D (inr sk) label s rd c) in
  (256 ^ Z.of_nat (k - 1) <= x -> a = Refused VerificationFailed (Some "Invalid message encoding format"%string)) /\
  (x < 256 ^ Z.of_nat (k - 1) -> exists DB seed, I2OSP x k = OAEP_mask H h k DB seed /\ List.length seed = h /\ List.length DB = (k - h - 1)%nat /\
     (firstn h DB <> H label -> a = Refused VerificationFailed (Some "Invalid label hash value"%string)) /\
     (firstn h DB = H label -> (exists m, a = Opened m) \/ a = Refused VerificationFailed (Some "Invalid message encoding format"%string))).
Proof.
  intros S D I H limit h sk label s rd c HG HB Hh K V Hs BL LL L2 LK U LC C k x a.
  assert (h8 : (d_bits_len D mod 8 = 0)%nat) by (rewrite HB, Nat.mul_comm; apply Nat.mod_mul; lia). assert (hpos : (0 < d_bits_len D)%nat) by lia.
  assert (hd : (d_bits_len D / 8)%nat = h) by (rewrite HB, Nat.mul_comm; apply Nat.div_mul; lia).
  destruct (text_eq D I H limit h HG HB Hh sk label s rd c K V Hs BL LL LC L2 C U) as (s1 & I1 & E). fold k x in E. pose proof (key_N sk K) as N.
  destruct (modulus_len_bounds _ N) as [K0 [_ KU]]. fold k in K0, KU. assert (X : 0 <= x < 256 ^ Z.of_nat k) by (pose proof (pow_range (OS2IP c) (sk_d sk) _ N); unfold x; lia).
  pose proof (first_byte k x K0 X) as FB. split; intros Q.
  - unfold a. rewrite E. unfold oaep_decode_t. destruct (Z.eqb_spec (nth 0 (I2OSP x k) 0) 0) as [Z0|Z0]; [exfalso; apply FB in Z0; lia|]. cbn [negb snd]. reflexivity.
  - apply FB in Q. fold k in L2, LK. pose proof (mask_surj D I H limit HG h8 hpos k (I2OSP x k)) as MS. rewrite hd in MS.
    destruct MS as (DB & seed & EM & Ls & Ld & Bs & Bd); [apply be_bytes_bytes|apply be_bytes_length|lia|exact LK|exact Q|].
    exists DB, seed. refine (conj EM (conj Ls (conj Ld _))).
    pose proof (text_mask D I H limit h HG HB Hh s1 (H label) k DB seed I1 Ls Ld Bs Bd LK ltac:(lia)) as T.
    assert (EA : a = snd (oaep_decode_t D s1 (H label) (OAEP_mask H h k DB seed))) by (unfold a; rewrite E, EM; reflexivity). rewrite T in EA. split.
    + intros NE. rewrite EA, list_eqb_neq by congruence. reflexivity.
    + intros EQ. rewrite EQ in EA. rewrite (proj2 (list_eqb_spec _ _) eq_refl) in EA. cbn [negb] in EA. rewrite EA. clear. generalize (skipn h DB). intros l.
      destruct (oaep_scan l) as [i|e|] eqn:SC.
      * left. eexists. reflexivity.
      * right. f_equal. revert e SC. induction l as [|y l IH]; intros e; cbn [oaep_scan]; [discriminate|]. destruct (y =? 0); [|destruct (y =? 1); [discriminate|intros Q; injection Q as <-; reflexivity]].
        destruct (oaep_scan l) as [i|e1|]; cbn [rmap]; [discriminate| |discriminate]. intros Q. injection Q as <-. exact (IH e1 eq_refl).
      * exfalso. revert SC. induction l as [|y l IH]; cbn [oaep_scan]; [discriminate|]. destruct (y =? 0); [|destruct (y =? 1); discriminate].
        destruct (oaep_scan l) as [i|e1|]; cbn [rmap]; try discriminate. auto.
Qed.
Print Assumptions C89_text.

(** ** The attack *)
(** The question s about the ciphertext [c]: c times the encryption of s, which is what s times the unknown number encrypts to. *)
Definition question (pk : pubkey) (c : list Z) (s : Z) : list Z := I2OSP ((OS2IP c * pub_encrypt pk s) mod pk_n pk) (modulus_len pk).
(** What is looked at: whether the answer is something else than a refusal with the text of oaep.rs:133. *)
Definition other_text (a : answer) : bool :=
  match a with Opened _ => true | Refused _ (Some t) => negb (String.eqb t "Invalid message encoding format") | _ => false end.
Lemma scale_len below fuel : forall a, (List.length (snd (scale below fuel a)) <= fuel)%nat.
Proof. induction fuel as [|f IH]; intros a; [cbn; lia|]. cbn [scale]. specialize (IH (2 * a)). destruct (below _); [|cbn; lia]. destruct (scale below f (2 * a)). cbn [snd List.length] in *. lia. Qed.
Lemma sweep_len below fuel a : forall f, (List.length (snd (sweep below fuel a f)) <= fuel)%nat.
Proof. induction fuel as [|n IH]; intros f; [cbn; lia|]. cbn [sweep]. specialize (IH (f + 1)). destruct (below _); [cbn; lia|]. destruct (sweep below n a (f + 1)). cbn [snd List.length] in *. lia. Qed.
Lemma refine_len below fuel a : forall f, (List.length (snd (refine below fuel a f)) <= fuel)%nat.
Proof. induction fuel as [|n IH]; intros f; [cbn; lia|]. cbn [refine]. match goal with |- context [refine below n a ?g] => specialize (IH g); destruct (refine below n a g) end. cbn [snd List.length] in *. lia. Qed.
Theorem C89_few_questions : forall below pk, 1 < pk_n pk -> let k := modulus_len pk in
  (List.length (snd (manger below (pk_n pk) (256 ^ Z.of_nat (k - 1)) (8 * (k - 1)))) <= 16 * k + 512)%nat.
Proof.
  intros below pk N k. destruct (modulus_len_bounds pk N) as [K0 [KL KU]]. fold k in K0, KL, KU. set (B := 256 ^ Z.of_nat (k - 1)) in *. unfold manger.
  pose proof (scale_len below (8 * (k - 1)) 1) as P1. destruct (scale below (8 * (k - 1)) 1) as [a q1].
  pose proof (sweep_len below (Z.to_nat (2 * pk_n pk / B)) a 2) as P2. destruct (sweep below _ a 2) as [f q2].
  pose proof (refine_len below (8 * (k - 1)) a f) as P3. destruct (refine below _ a f) as [g q3]. cbn [snd] in *. rewrite !app_length.
  assert (B0 : 0 < B) by (apply Z.pow_pos_nonneg; lia).
  assert (Q : 2 * pk_n pk / B < 512); [|assert (Z.to_nat (2 * pk_n pk / B) <= 512)%nat by (apply Nat2Z.inj_le; rewrite Z2Nat.id by (apply Z.div_pos; lia); lia); lia].
  apply Z.div_lt_upper_bound; [exact B0|]. replace (Z.of_nat k) with (Z.of_nat (k - 1) + 1) in KU by lia. rewrite Z.pow_add_r in KU by lia. fold B in KU. lia.
Qed.
Print Assumptions C89_few_questions.

(** Whatever state the object is in and whatever it draws at each question: the number comes out, or one of the few blocks asked about,
    multiples of an unknown number, happened to have the right label hash under its masks. *)
Theorem C89_recovers : forall (S : Type) (D : digest S) (I : S -> Prop) H limit h sk label (st : Z -> S) (rd : Z -> option (list Z)) c,
  DigestOk D I H limit -> d_bits_len D = (8 * h)%nat -> (0 < h)%nat ->
  key_ok sk -> pub_is_valid (sk_pk sk) = Ok tt -> (forall s, I (st s)) -> bytes label -> Z.of_nat (List.length label) < limit ->
  (2 * h + 2 <= modulus_len (sk_pk sk))%nat -> Z.of_nat (modulus_len (sk_pk sk)) + 4 < limit -> (forall s, usable (pk_n (sk_pk sk)) (rd s)) ->
  let n := pk_n (sk_pk sk) in let k := modulus_len (sk_pk sk) in let B := 256 ^ Z.of_nat (k - 1) in let m := OS2IP c ^ sk_d sk mod n in
  0 < OS2IP c < n -> 2 * B <= n -> m < B ->
  let found := manger (fun s => other_text (snd (oaep_decrypt_t D (inr sk) label (st s) (rd s) (question (sk_pk sk) c s)))) n B (8 * (k - 1)) in
  fst found = m \/
  exists s DB seed, In s (snd found) /\ I2OSP ((s * m) mod n) k = OAEP_mask H h k DB seed /\ List.length seed = h /\ List.length DB = (k - h - 1)%nat /\ firstn h DB = H label.
Proof.
  intros S D I H limit h sk label st rd c HG HB Hh K V Hs BL LL L2 LK U n k B m C2 R MB found.
  set (below := fun s => other_text (snd (oaep_decrypt_t D (inr sk) label (st s) (rd s) (question (sk_pk sk) c s)))) in found.
  pose proof (key_N sk K) as N. fold n in N. assert (D0 : 0 <= sk_d sk) by apply K. assert (E0 : 0 <= pk_e (sk_pk sk)) by apply K.
  destruct (modulus_len_bounds _ N) as [K0 [_ KU]]. fold k n in K0, KU.
  set (lucky := fun s => exists DB seed, I2OSP ((s * m) mod n) k = OAEP_mask H h k DB seed /\ List.length seed = h /\ List.length DB = (k - h - 1)%nat /\ firstn h DB = H label).
  assert (ASK : forall s, truly below n B m s \/ lucky s).
  { intros s. set (y := (OS2IP c * pub_encrypt (sk_pk sk) s) mod n). assert (Y : 0 <= y < n) by (apply Z.mod_pos_bound; lia).
    assert (VY : OS2IP (question (sk_pk sk) c s) = y) by (unfold question, OS2IP, I2OSP; rewrite be_val_bytes; apply Z.mod_small; fold n k; unfold OS2IP in y; fold y; lia).
    assert (EX : OS2IP (question (sk_pk sk) c s) ^ sk_d sk mod n = (s * m) mod n).
    { rewrite VY. unfold y, pub_encrypt. fold n. rewrite powmod_ok, Z.mul_mod_idemp_r by lia. rewrite pow_mod_idemp, Z.pow_mul_l by exact D0. rewrite Z.mul_mod by lia. pose proof (key_ok_ident sk s K) as KI. fold n in KI. rewrite KI. fold m.
      rewrite Z.mul_mod_idemp_r by lia. f_equal. ring. }
    destruct (C89_text S D I H limit h sk label (st s) (rd s) (question (sk_pk sk) c s) HG HB Hh K V (Hs s) BL LL L2 LK (U s)) as [T1 T2].
    { unfold question, I2OSP. rewrite be_bytes_length. fold k. lia. } { rewrite VY. fold n. lia. }
    fold n in T1, T2. rewrite EX in T1, T2. fold k B in T1, T2. unfold truly, below. destruct (Z.ltb_spec ((s * m) mod n) B) as [Q|Q].
    - destruct (T2 Q) as (DB & seed & EM & Ls & Ld & A1 & A2). destruct (list_eq_dec Z.eq_dec (firstn h DB) (H label)) as [EQ|NE].
      + right. exists DB, seed. auto.
      + left. rewrite (A1 NE). reflexivity.
    - left. rewrite (T1 Q). reflexivity. }
  destruct (Exists_dec (fun s => ~ truly below n B m s) (snd found)) as [X|X].
  - intros s. unfold truly. destruct (Bool.bool_dec (below s) (s * m mod n <? B)); tauto.
  - right. apply Exists_exists in X. destruct X as (s & IS & NT). destruct (ASK s) as [Q|(DB & seed & Q)]; [contradiction|]. exists s, DB, seed. tauto.
  - left. assert (m0 : 0 < m).
    { assert (0 <= m < n) by (apply Z.mod_pos_bound; lia). destruct (Z.eq_dec m 0) as [Z0|Z0]; [|lia]. exfalso.
      pose proof (sign_primitive sk (OS2IP c) K) as SP. fold n in SP. specialize (SP ltac:(lia)). fold m in SP. rewrite Z0 in SP. destruct (C82_fixed_points sk K) as [F0 _]. lia. }
    refine (proj1 (manger_ok below n B m m0 R (8 * (k - 1)) _ MB _)).
    + unfold B. rewrite Nat2Z.inj_mul. change (Z.of_nat 8) with 8. rewrite Z.pow_mul_r by lia. reflexivity.
    + apply Forall_forall. intros s IS. unfold truly. destruct (Bool.bool_dec (below s) (s * m mod n <? B)) as [Q|Q]; [exact Q|]. exfalso. apply X, Exists_exists. exists s. split; [exact IS|exact Q].
Qed.
Print Assumptions C89_recovers.

(** For messages: from the ciphertext, the public key and the texts, to the message; reading it off the number needs no key. *)
Theorem C89_message : forall (S : Type) (D : digest S) (I : S -> Prop) H limit h sk kp label s0 s1 ws msg c (st : Z -> S) (rd : Z -> option (list Z)),
  DigestOk D I H limit -> d_bits_len D = (8 * h)%nat -> (0 < h)%nat ->
  key_ok sk -> kp_public kp = sk_pk sk -> pub_is_valid (sk_pk sk) = Ok tt -> I s0 -> I s1 -> (forall s, I (st s)) -> bytes label -> Z.of_nat (List.length label) < limit ->
  bytes msg -> (List.length msg + 2 * h + 2 <= modulus_len (sk_pk sk))%nat -> Z.of_nat (modulus_len (sk_pk sk)) + 4 < limit -> (h <= 4 * List.length ws)%nat ->
  (forall s, usable (pk_n (sk_pk sk)) (rd s)) ->
  let n := pk_n (sk_pk sk) in let k := modulus_len (sk_pk sk) in let B := 256 ^ Z.of_nat (k - 1) in
  snd (oaep_encrypt D kp label s0 ws msg) = Ok c -> OS2IP c <> 0 -> 2 * B <= n ->
  let found := manger (fun s => other_text (snd (oaep_decrypt_t D (inr sk) label (st s) (rd s) (question (sk_pk sk) c s)))) n B (8 * (k - 1)) in
  snd (oaep_decode D s1 (H label) (I2OSP (fst found) k)) = Ok msg \/
  exists s DB seed, In s (snd found) /\ I2OSP ((s * (OS2IP c ^ sk_d sk mod n)) mod n) k = OAEP_mask H h k DB seed /\
    List.length seed = h /\ List.length DB = (k - h - 1)%nat /\ firstn h DB = H label.
Proof.
  intros S D I H limit h sk kp label s0 s1 ws msg c st rd HG HB Hh K EK V Hs0 Hs1 Hs BL LL BM LM LK LW U n k B EC C0 R found.
  assert (h8 : (d_bits_len D mod 8 = 0)%nat) by (rewrite HB, Nat.mul_comm; apply Nat.mod_mul; lia). assert (hpos : (0 < d_bits_len D)%nat) by lia.
  assert (hd : (d_bits_len D / 8)%nat = h) by (rewrite HB, Nat.mul_comm; apply Nat.div_mul; lia).
  pose proof (key_N sk K) as N. fold n in N. destruct (modulus_len_bounds _ N) as [K0 [_ KU]]. fold k n in K0, KU.
  destruct (C43_encrypt S D I H limit h kp label s0 ws msg HG HB Hh) as (s2 & _ & E); rewrite ?EK; auto. rewrite EK in E. fold k n in E. rewrite E in EC. cbn [snd] in EC. injection EC as <-.
  destruct (OAEP_DB_ok D I H limit h HG HB Hh k label msg BL LL BM LM) as [Ld Bd]. pose proof (rand_bytes_ok D h8 hpos h ws LW) as [Ls Bs]. unfold rand_bytes in Ls, Bs.
  set (seed := firstn h (flat_map (be_bytes 4) ws)) in *. set (EM := EME_OAEP H h k label msg seed) in *.
  pose proof (mask_parts D I H limit HG h8 hpos k (OAEP_DB H h k label msg) seed) as MP. rewrite hd in MP. fold k in LM, LK. destruct (MP Ls Ld Bs Bd LK ltac:(lia)) as (EE & Lms & Lmd & Bms & Bmd & _). clear MP.
  assert (BE : bytes EM) by (unfold EM, EME_OAEP; rewrite EE; apply Forall_cons; [apply byte0|]; apply bytes_app; split; assumption).
  assert (LE : List.length EM = k) by (unfold EM, EME_OAEP; rewrite EE; cbn [List.length]; rewrite app_length; lia).
  assert (RB : 0 <= OS2IP EM < B).
  { split; [apply be_val_bound; exact BE|]. unfold EM, EME_OAEP. rewrite EE. apply be_val_lead0; [apply bytes_app; split; assumption|rewrite app_length; lia]. }
  assert (RN : 0 <= OS2IP EM ^ pk_e (sk_pk sk) mod n < n) by (apply Z.mod_pos_bound; lia).
  assert (VC : OS2IP (I2OSP (OS2IP EM ^ pk_e (sk_pk sk) mod n) k) = OS2IP EM ^ pk_e (sk_pk sk) mod n) by (unfold OS2IP at 1, I2OSP; rewrite be_val_bytes; apply Z.mod_small; lia).
  set (c := I2OSP (OS2IP EM ^ pk_e (sk_pk sk) mod n) k) in *.
  assert (MC : OS2IP c ^ sk_d sk mod n = OS2IP EM) by (rewrite VC; apply enc_dec_pow; [exact K|fold n; lia]).
  destruct (C89_recovers S D I H limit h sk label st rd c HG HB Hh K V Hs BL LL ltac:(fold k; lia) LK U) as [F|F].
  - fold n. lia.
  - exact R.
  - fold n. rewrite MC. exact (proj2 RB).
  - left. fold n k B found in F. rewrite F, MC. unfold I2OSP, OS2IP. rewrite <- LE at 1. rewrite be_bytes_val by exact BE. unfold EM, EME_OAEP.
    pose proof (oaep_decode_mask D I H limit HG h8 hpos s1 (H label) k (OAEP_DB H h k label msg) seed) as OM. rewrite hd in OM. destruct (OM Hs1 Ls Ld Bs Bd LK ltac:(lia)) as (s3 & _ & Q). rewrite Q. cbn [snd].
    rewrite (firstn_DB D I H limit h HG HB Hh k label msg BL LL). rewrite (proj2 (list_eqb_spec _ _) eq_refl).
    assert (LH : List.length (H label) = h) by (apply (H_len D I H limit h HG HB Hh); assumption).
    unfold OAEP_DB. rewrite skipn_exact by exact LH. cbn [app]. rewrite oaep_scan_zeros. cbn [rbind]. f_equal.
    replace (h + Datatypes.S (k - List.length msg - 2 * h - 2))%nat with (List.length (H label ++ repeat 0 (k - List.length msg - 2 * h - 2) ++ [1])) by (rewrite !app_length, repeat_length; cbn [List.length]; clear - LM LH; lia).
    change (1 :: msg) with ([1] ++ msg). rewrite !app_assoc. rewrite <- (app_assoc (H label)). apply skipn_exact. reflexivity.
  - right. fold n k B found in F. exact F.
Qed.
Print Assumptions C89_message.

(** A key with a 42-bit modulus, six bytes; [7; 8] encrypted under the label [1; 2].  44 questions are asked. *)
Definition key6 : privkey := mk_key [16103; 16127; 16139] 3 698401138263.
Definition case6 : list Z := [1; 162; 14; 113; 251; 7].
Definition found6 : Z * list Z :=
  manger (fun s => other_text (snd (oaep_decrypt_t SumDigest (inr key6) [1; 2] [] None (question (sk_pk key6) case6 s)))) (pk_n (sk_pk key6)) (256 ^ 5) 40.
Example C89_case : key_ok key6 /\ pub_is_valid (sk_pk key6) = Ok tt /\ modulus_len (sk_pk key6) = 6%nat /\ 2 * 256 ^ 5 <= pk_n (sk_pk key6) /\
  snd (oaep_encrypt SumDigest (inl (sk_pk key6)) [1; 2] [] [0x63000000] [7; 8]) = Ok case6 /\
  snd (oaep_decode SumDigest [] (sum_hash [1; 2]) (I2OSP (fst found6) 6)) = Ok [7; 8].
Proof.
  split; [apply (key_check_ok 255); vm_compute; reflexivity|]. split; [vm_compute; reflexivity|]. split; [vm_compute; reflexivity|]. split; [vm_compute; discriminate|].
  split; [vm_compute; reflexivity|]. vm_compute. reflexivity.
Qed.
