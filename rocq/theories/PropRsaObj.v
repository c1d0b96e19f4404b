(** Properties C64 and C65: RSA scheme objects as callers meet them.  C64: objects constructed with a generated key, and the lengths they report.
    C65: results do not depend on what the object did before.
    [gens] are the attempts of the key generator's retry loop, [gen_ok]: the prime generator returns primes of the requested size. *)
From Coq Require Import Uint63 Znumtheory.
From Verif Require Import Base Words HashModel HashSpec HashApi PropHash NumTheory RsaModel RsaProofs RsaEncModel RsaSpec RsaEncProofs RsaSigProofs RsaApi RsaCases
  PropRsa RsaObjModel RsaObjProofs Mont MontPow CurvePrimes.
Local Open Scope Z_scope.

(** ** C64 *)
Lemma supported t : check_hash_is_support t = Ok tt.
Proof. destruct t; reflexivity. Qed.
Lemma generated bits few gens sk : Forall gen_ok gens -> (6 <= bits)%nat -> generate_key bits few gens = Ok sk ->
  key_ok sk /\ priv_is_valid sk = Ok tt /\ bits_len (pk_n (sk_pk sk)) = bits /\ pub_is_valid (sk_pk sk) = Ok tt /\ modulus_len (sk_pk sk) = ((bits + 7) / 8)%nat.
Proof.
  intros G B E. destruct (C57_generated_keys 2 bits few gens sk G ltac:(lia) E (gen_two_distinct bits few gens sk G E)) as (K & V & _ & HB & EE).
  split; [exact K|]. split; [exact V|]. split; [exact HB|]. split; [apply C40_public_iff; rewrite EE; lia|]. unfold modulus_len. rewrite HB. reflexivity.
Qed.
Lemma hlen8 {S} (D : digest S) h : d_bits_len D = (8 * h)%nat -> hlen D = h.
Proof. intros E. unfold hlen. rewrite E. symmetry. apply (Nat.div_unique _ 8 _ 7); lia. Qed.
Lemma ceil8 b n : ((b + 7) / 8 <= n)%nat <-> (b <= 8 * n)%nat.
Proof. pose proof (Nat.div_mod_eq (b + 7) 8). pose proof (Nat.mod_upper_bound (b + 7) 8 ltac:(lia)). lia. Qed.

(** PKCS1: which sizes are refused, and what is returned otherwise.  The lower bound compares bits with a number of bytes. *)
Theorem C64_pkcs1_auto : forall (S : Type) (D : digest S) h t bits few gens, d_bits_len D = (8 * h)%nat -> Forall gen_ok gens ->
  let r := pkcs1_auto D t bits few gens in
  ((bits <= 11 + h)%nat -> r = Err InvalidParameter) /\
  ((11 + h < bits)%nat -> forall sk, generate_key bits few gens = Ok sk -> r = if (bits <=? 88)%nat then Err InvalidParameter else Ok sk) /\
  ((11 + h < bits)%nat -> forall e, generate_key bits few gens = Err e -> r = Err e).
Proof.
  intros S D h t bits few gens HB G r. unfold r, pkcs1_auto, pkcs1_new_uncheck. rewrite supported, (hlen8 D h HB). cbn [rbind]. split; [|split].
  - intros L. rewrite (proj2 (Nat.leb_le _ _) L). reflexivity.
  - intros L sk E. rewrite (proj2 (Nat.leb_gt _ _) L), E. cbn [rbind kp_public]. destruct (generated bits few gens sk G ltac:(lia) E) as (_ & _ & _ & _ & M).
    rewrite M. destruct (Nat.leb_spec ((bits + 7) / 8) 11) as [Q|Q]; destruct (Nat.leb_spec bits 88) as [R|R]; try reflexivity.
    + apply ceil8 in Q. lia.
    + assert ((bits + 7) / 8 <= 11)%nat by (apply ceil8; lia). lia.
  - intros L e E. rewrite (proj2 (Nat.leb_gt _ _) L), E. reflexivity.
Qed.
Print Assumptions C64_pkcs1_auto.
(** An object that was created encrypts every message up to the length it reports and decrypts it again, and refuses longer ones. *)
Theorem C64_pkcs1_encrypts : forall (S : Type) (D : digest S) h t bits few gens sk, d_bits_len D = (8 * h)%nat -> Forall gen_ok gens ->
  pkcs1_auto D t bits few gens = Ok sk ->
  bits_len (pk_n (sk_pk sk)) = bits /\ priv_is_valid sk = Ok tt /\ (1 <= pkcs1_max_message_len (inr sk))%nat /\
  forall ws rd msg, bytes msg -> (1 <= length msg)%nat ->
    ((length msg <= pkcs1_max_message_len (inr sk))%nat -> (modulus_len (sk_pk sk) - length msg - 3 <= length (nonzero_bytes ws))%nat -> usable (pk_n (sk_pk sk)) rd ->
       exists c, pkcs1_encrypt (inr sk) ws msg = Ok c /\ pkcs1_decrypt (inr sk) rd c = Ok msg) /\
    ((pkcs1_max_message_len (inr sk) < length msg)%nat -> pkcs1_encrypt (inr sk) ws msg = Err InvalidParameter).
Proof.
  intros S D h t bits few gens sk HB G E. destruct (C64_pkcs1_auto S D h t bits few gens HB G) as (A1 & A2 & A3).
  destruct (Nat.le_gt_cases bits (11 + h)) as [L|L]; [rewrite (A1 L) in E; discriminate|].
  destruct (generate_key bits few gens) as [sk'|e|] eqn:EG; [|rewrite (A3 L e eq_refl) in E; discriminate|].
  2:{ unfold pkcs1_auto in E. rewrite supported in E. cbn [rbind] in E. rewrite EG in E. destruct (_ <=? _)%nat in E; discriminate. }
  rewrite (A2 L sk' eq_refl) in E. destruct (Nat.leb_spec bits 88) as [|L8]; [discriminate|]. injection E as ->.
  destruct (generated bits few gens sk G ltac:(lia) EG) as (K & V & B & PV & M). unfold pkcs1_max_message_len. cbn [kp_public].
  assert (M12 : (12 <= modulus_len (sk_pk sk))%nat). { rewrite M. apply Nat.div_le_lower_bound; lia. }
  split; [exact B|]. split; [exact V|]. split; [lia|]. intros ws rd msg BM L1. split.
  - intros L2 LW U. destruct (C41_roundtrip sk ws rd msg K PV BM L1 ltac:(lia) LW U) as (c & E1 & _ & _ & _ & E2). exists c. split; assumption.
  - intros L2. apply (C41_rejections (inr sk) ws rd msg [] ); [exact PV|cbn [kp_public]; lia|cbn [kp_public]; lia].
Qed.
Print Assumptions C64_pkcs1_encrypts.
(** It signs exactly when the modulus has room for the hash identifier, the digest and eleven bytes; otherwise no call of [sign] or [verify] ever succeeds. *)
Theorem C64_pkcs1_signs_iff : forall (S : Type) (D : digest S) (I : S -> Prop) H limit h t oid bits few gens sk,
  DigestOk D I H limit -> d_bits_len D = (8 * h)%nat -> pkcs1_hash t = Some (oid, h) -> Forall gen_ok gens -> pkcs1_auto D t bits few gens = Ok sk ->
  forall s rd msg, I s -> bytes msg -> Z.of_nat (length msg) < limit -> usable (pk_n (sk_pk sk)) rd ->
  let room := (length (DigestInfo oid (H msg)) + 11 <= modulus_len (sk_pk sk))%nat in
  (room -> exists sg, snd (pkcs1_sign D t (inr sk) s rd msg) = Ok sg /\ snd (pkcs1_verify D t (inr sk) s sg msg) = Ok tt) /\
  (~ room -> snd (pkcs1_sign D t (inr sk) s rd msg) = Err InvalidPrivateKey /\ forall sg, snd (pkcs1_verify D t (inr sk) s sg msg) = Err VerificationFailed).
Proof.
  intros S D I H limit h t oid bits few gens sk HG HB T G E s rd msg Hs B L U room.
  assert (K : key_ok sk).
  { unfold pkcs1_auto in E. rewrite supported in E. cbn [rbind] in E. destruct (Nat.leb_spec bits (11 + hlen D)) as [|Q]; [discriminate|].
    destruct (generate_key bits few gens) as [sk'| |] eqn:EG; cbn [rbind] in E; try discriminate.
    destruct (pkcs1_new_uncheck t (inr sk')); cbn [rbind] in E; try discriminate. injection E as ->.
    exact (proj1 (generated bits few gens sk G ltac:(lia) EG)). }
  split.
  - intros R. destruct (C42_sign_verify S D I H limit h t oid sk (inr sk) s s rd msg HG HB T K eq_refl Hs Hs B L R U) as (sg & E1 & _ & E2). exists sg. split; assumption.
  - intros R. assert (LH : length (H msg) = h).
    { destruct HG as [_ _ _ _ _ G6]. destruct (G6 msg B L) as [G6a _]. rewrite G6a, HB, Nat.mul_comm. apply Nat.div_mul. lia. }
    destruct (prefix_digestinfo t oid h (H msg) T LH) as (pre & EP & ED). unfold room in R. rewrite <- ED, app_length, LH in R.
    unfold pkcs1_sign, pkcs1_verify. rewrite EP, (hlen8 D h HB). cbn [kp_private kp_public].
    rewrite (proj2 (Nat.ltb_lt _ _)) by lia. split; [reflexivity|]. reflexivity.
Qed.
Print Assumptions C64_pkcs1_signs_iff.
(** So an object can be created that never signs: 512 bits with SHA-512. *)
Definition p256b : Z := 115792089129476408754968425830019827176341023639478039051622859772338780460813.
Lemma prime_p256b : prime p256b.
Proof.
  apply (cert_ok_prime [26959946667150639794667015087019625940457807714424391721682722368061]
    {| ce_m := {| mo_n := p256b; mo_len := 10; mo_l := [244274957; 242766456; 157830412; 156969231; 111337660; 268435441; 268435455; 268435455; 268435451; 15]%uint63;
                  mo_inv := 102150203%uint63; mo_k := [] |};
       ce_fs := [(26959946667150639794667015087019625940457807714424391721682722368061, 1, 2)] |}).
  - constructor; [exact prime_n224|constructor].
  - vm_compute. reflexivity.
Qed.
Definition gen256 (i bits : nat) : option Z :=
  if (bits =? 256)%nat then nth_error [115792089210356248762697446949407573529996955224135760342422259061068512044369; p256b] i else None.
Lemma gen256_ok : gen_ok gen256.
Proof.
  intros i bits p Q. unfold gen256 in Q. destruct (Nat.eqb_spec bits 256) as [->|]; [|discriminate].
  destruct i as [|[|i]]; cbn [nth_error] in Q; [| |destruct i; discriminate]; injection Q as <-.
  - split; [exact prime_n256|]. vm_compute. reflexivity.
  - split; [exact prime_p256b|]. vm_compute. reflexivity.
Qed.
Lemma gen256_key : exists sk, generate_key 512 false [gen256] = Ok sk.
Proof. eexists. vm_compute. reflexivity. Qed.
Theorem C64_never_signs_refuted : exists sk, pkcs1_auto SHA512 TSHA512 512 false [gen256] = Ok sk /\
  forall s rd msg, snd (pkcs1_sign SHA512 TSHA512 (inr sk) s rd msg) = Err InvalidPrivateKey.
Proof.
  destruct gen256_key as [sk E]. exists sk.
  assert (G : Forall gen_ok [gen256]) by (constructor; [exact gen256_ok|constructor]).
  split.
  - rewrite (proj1 (proj2 (C64_pkcs1_auto _ SHA512 64 TSHA512 512 false [gen256] eq_refl G)) ltac:(lia) sk E). reflexivity.
  - intros s rd msg. destruct (generated 512 false [gen256] sk G ltac:(lia) E) as (_ & _ & _ & _ & M).
    unfold pkcs1_sign. cbn [hash_prefix kp_private]. rewrite M. reflexivity.
Qed.
Print Assumptions C64_never_signs_refuted.

(** OAEP: sizes up to 2h+2 bits are refused at once, sizes up to 8(2h+2) bits only after the key has been generated. *)
Theorem C64_oaep_auto : forall (S : Type) (D : digest S) h bits few gens, d_bits_len D = (8 * h)%nat -> (2 <= h)%nat -> Forall gen_ok gens ->
  let r := oaep_auto D bits few gens in
  ((bits <= 2 * h + 2)%nat -> r = Err InvalidParameter) /\
  ((2 * h + 2 < bits)%nat -> forall sk, generate_key bits few gens = Ok sk -> r = if (bits <=? 8 * (2 * h + 2))%nat then Err InvalidParameter else Ok sk) /\
  ((2 * h + 2 < bits)%nat -> forall e, generate_key bits few gens = Err e -> r = Err e).
Proof.
  intros S D h bits few gens HB H2 G r. unfold r, oaep_auto, oaep_new_uncheck. rewrite (hlen8 D h HB). split; [|split].
  - intros L. rewrite (proj2 (Nat.leb_le _ _) L). reflexivity.
  - intros L sk E. rewrite (proj2 (Nat.leb_gt _ _) L), E. cbn [rbind kp_public]. destruct (generated bits few gens sk G ltac:(lia) E) as (_ & _ & _ & _ & M).
    rewrite M. destruct (Nat.leb_spec ((bits + 7) / 8) (2 * h + 2)) as [Q|Q]; destruct (Nat.leb_spec bits (8 * (2 * h + 2))) as [R|R]; try reflexivity.
    + apply ceil8 in Q. lia.
    + assert ((bits + 7) / 8 <= 2 * h + 2)%nat by (apply ceil8; lia). lia.
  - intros L e E. rewrite (proj2 (Nat.leb_gt _ _) L), E. reflexivity.
Qed.
Print Assumptions C64_oaep_auto.
(** An object that was created encrypts and decrypts every message up to [max_message_len], which is at least one, and refuses longer ones. *)
Theorem C64_oaep_encrypts : forall (S : Type) (D : digest S) (I : S -> Prop) H limit h bits few gens sk,
  DigestOk D I H limit -> d_bits_len D = (8 * h)%nat -> (2 <= h)%nat -> Forall gen_ok gens -> oaep_auto D bits few gens = Ok sk ->
  exists n, oaep_max_message_len D (inr sk) = Ok n /\ (1 <= n)%nat /\ bits_len (pk_n (sk_pk sk)) = bits /\ priv_is_valid sk = Ok tt /\
  forall label s ws rd msg, I s -> bytes label -> Z.of_nat (length label) < limit -> bytes msg -> Z.of_nat (modulus_len (sk_pk sk)) + 4 < limit ->
    ((length msg <= n)%nat -> (h <= 4 * length ws)%nat -> usable (pk_n (sk_pk sk)) rd ->
       exists c, snd (oaep_encrypt D (inr sk) label s ws msg) = Ok c /\ snd (oaep_decrypt D (inr sk) label s rd c) = Ok msg) /\
    ((n < length msg)%nat -> snd (oaep_encrypt D (inr sk) label s ws msg) = Err InvalidParameter).
Proof.
  intros S D I H limit h bits few gens sk HG HB H2 G E. destruct (C64_oaep_auto S D h bits few gens HB H2 G) as (A1 & A2 & A3).
  destruct (Nat.le_gt_cases bits (2 * h + 2)) as [L|L]; [rewrite (A1 L) in E; discriminate|].
  destruct (generate_key bits few gens) as [sk'|e|] eqn:EG; [|rewrite (A3 L e eq_refl) in E; discriminate|].
  2:{ unfold oaep_auto in E. rewrite EG in E. destruct (_ <=? _)%nat in E; discriminate. }
  rewrite (A2 L sk' eq_refl) in E. destruct (Nat.leb_spec bits (8 * (2 * h + 2))) as [|L8]; [discriminate|]. injection E as ->.
  destruct (generated bits few gens sk G ltac:(lia) EG) as (K & V & B & PV & M).
  assert (MK : (2 * h + 3 <= modulus_len (sk_pk sk))%nat). { rewrite M. apply Nat.div_le_lower_bound; lia. }
  exists (modulus_len (sk_pk sk) - 2 * h - 2)%nat. unfold oaep_max_message_len. rewrite (hlen8 D h HB). cbn [kp_public].
  rewrite (proj2 (Nat.ltb_ge _ _)) by lia. split; [reflexivity|]. split; [lia|]. split; [exact B|]. split; [exact V|].
  intros label s ws rd msg Hs BL LL BM LK. split.
  - intros LM LW U. destruct (C43_roundtrip S D I H limit h sk (inr sk) label label s s ws rd msg HG HB ltac:(lia) K eq_refl PV Hs Hs BL LL BL LL BM ltac:(lia) LK LW U) as (c & E1 & _ & E2 & _).
    exists c. split; assumption.
  - intros LM. rewrite (C43_too_long S D h (inr sk) label s ws msg HB ltac:(lia)); [reflexivity|exact PV|cbn [kp_public]; lia|cbn [kp_public]; lia].
Qed.
Print Assumptions C64_oaep_encrypts.
(** The early refusal covers a small part of the sizes that are refused: with SHA-256, 67 to 528 bits fail after the key was generated. *)
Theorem C64_oaep_late_refuted : exists bits gens sk, Forall gen_ok gens /\ generate_key bits false gens = Ok sk /\
  oaep_auto SHA256 bits false gens = Err InvalidParameter /\ (2 * 32 + 2 < bits)%nat.
Proof.
  assert (G : Forall gen_ok [gen256]) by (constructor; [exact gen256_ok|constructor]).
  destruct gen256_key as [sk E]. exists 512%nat, [gen256], sk. split; [exact G|]. split; [exact E|]. split; [|lia].
  rewrite (proj1 (proj2 (C64_oaep_auto _ SHA256 32 512 false [gen256] eq_refl ltac:(lia) G)) ltac:(lia) sk E). reflexivity.
Qed.
Print Assumptions C64_oaep_late_refuted.

(** PSS: the salt length chosen, and when the object is created. *)
Theorem C64_pss_auto : forall (S : Type) (D : digest S) h salt bits few gens, d_bits_len D = (8 * h)%nat -> (0 < h)%nat -> Forall gen_ok gens ->
  let sl := match salt with None => h | Some 0%nat => ((bits + 7) / 8 - (2 + h))%nat | Some x => x end in
  let fits := (8 * (h + sl + 1) + 2 <= bits)%nat in
  let r := pss_auto D salt bits few gens in
  (~ fits -> r = Err InvalidParameter) /\
  (fits -> (forall e, generate_key bits few gens = Err e -> r = Err e) /\
     forall sk, generate_key bits few gens = Ok sk -> r = Ok (sk, sl) /\ bits_len (pk_n (sk_pk sk)) = bits /\ priv_is_valid sk = Ok tt).
Proof.
  intros S D h salt bits few gens HB H0 G sl fits r.
  assert (ES : compute_salt_len D salt bits = sl).
  { unfold compute_salt_len, sl. rewrite (hlen8 D h HB). destruct salt as [[|x]|]; reflexivity. }
  assert (EF : ((bits - 1 + 7) / 8 <? hlen D + sl + 2)%nat = true <-> ~ fits).
  { rewrite Nat.ltb_lt, (hlen8 D h HB). unfold fits. pose proof (Nat.div_mod_eq (bits - 1 + 7) 8). pose proof (Nat.mod_upper_bound (bits - 1 + 7) 8 ltac:(lia)). lia. }
  unfold r, pss_auto. cbn zeta. rewrite ES. split.
  - intros F. rewrite (proj2 EF F). reflexivity.
  - intros F. assert (EF' : ((bits - 1 + 7) / 8 <? hlen D + sl + 2)%nat = false).
    { destruct (_ <? _)%nat eqn:Q; [|reflexivity]. exfalso. exact (proj1 EF eq_refl F). }
    rewrite EF'. split; [intros e E; rewrite E; reflexivity|]. intros sk E. rewrite E. cbn [rbind]. unfold fits in F.
    destruct (generated bits few gens sk G ltac:(lia) E) as (_ & V & B & _ & _). split; [|split; [exact B|exact V]].
    unfold pss_new_uncheck. cbn zeta. cbn [kp_public]. rewrite B. rewrite (proj2 (Nat.eqb_neq _ _)) by lia.
    assert (EC : compute_salt_len D (Some sl) bits = sl).
    { unfold compute_salt_len. rewrite (hlen8 D h HB). destruct (Nat.ltb_spec 0 sl) as [Q|Q]; [reflexivity|].
      pose proof (Nat.div_mod_eq (bits + 7) 8). pose proof (Nat.mod_upper_bound (bits + 7) 8 ltac:(lia)).
      destruct salt as [[|x]|]; unfold sl in *; lia. }
    rewrite EC, EF'. reflexivity.
Qed.
Print Assumptions C64_pss_auto.
(** An object that was created signs every message; blinding on or off. *)
Theorem C64_pss_signs : forall (S : Type) (D : digest S) (I : S -> Prop) H limit h salt bits few gens sk sl s ws rd msg,
  DigestOk D I H limit -> d_bits_len D = (8 * h)%nat -> (0 < h)%nat -> Forall gen_ok gens -> pss_auto D salt bits few gens = Ok (sk, sl) ->
  I s -> bytes msg -> Z.of_nat (length msg) < limit -> Z.of_nat bits + 8 < limit -> (sl <= 4 * length ws)%nat -> usable (pk_n (sk_pk sk)) rd ->
  exists sg, snd (pss_sign D (inr sk) sl s ws rd msg) = Ok sg /\ length sg = modulus_len (sk_pk sk) /\
    ((bits mod 512 = 0)%nat -> snd (pss_verify D false (inr sk) sl s sg msg) = Ok tt).
Proof.
  intros S D I H limit h salt bits few gens sk sl s ws rd msg HG HB H0 G E Hs B L LK LW U.
  destruct (C64_pss_auto S D h salt bits few gens HB H0 G) as (A1 & A2). cbn zeta in A1, A2.
  set (x := match salt with None => h | Some 0%nat => ((bits + 7) / 8 - (2 + h))%nat | Some x => x end) in *.
  destruct (le_dec (8 * (h + x + 1) + 2) bits) as [F|F]; [|rewrite (A1 F) in E; discriminate]. destruct (A2 F) as (A3 & A4).
  destruct (generate_key bits few gens) as [k|e|] eqn:EG; [|rewrite (A3 e eq_refl) in E; discriminate|].
  2:{ unfold pss_auto in E. cbn zeta in E. rewrite EG in E. destruct (_ <? _)%nat in E; discriminate. }
  destruct (A4 k eq_refl) as (A5 & A6 & A7). rewrite A5 in E. injection E as <- <-.
  destruct (generated bits few gens k G ltac:(lia) EG) as (K & _ & _ & _ & M).
  assert (EM : (h + x + 2 <= em_len (bits_len (pk_n (sk_pk k)) - 1))%nat).
  { rewrite A6. unfold em_len. apply Nat.div_le_lower_bound; lia. }
  assert (EL : Z.of_nat (em_len (bits_len (pk_n (sk_pk k)) - 1)) + 8 < limit).
  { rewrite A6. unfold em_len. assert ((bits - 1 + 7) / 8 <= bits)%nat by (apply Nat.div_le_upper_bound; lia). lia. }
  destruct (C44_sign S D I H limit h k x s ws rd msg HG HB H0 K Hs B L EM EL LW U) as (s' & _ & ES). rewrite ES. cbn [snd]. eexists. split; [reflexivity|].
  split; [apply be_bytes_length|]. intros M5. rewrite <- A6 in M5.
  destruct (C44_sign_verify_512 S D I H limit h k (inr k) x s s ws rd msg HG HB H0 M5 K eq_refl Hs Hs B L EM EL LW U) as (sg & E1 & E2).
  rewrite ES in E1. cbn [snd] in E1. injection E1 as <-. exact E2.
Qed.
Print Assumptions C64_pss_signs.
(** [Some(0)] asks for the longest salt: for moduli of [8k+1] bits it is computed one byte too long and creation always fails, although a salt
    of one byte less is accepted. *)
Theorem C64_pss_longest_salt_refuted : forall (S : Type) (D : digest S) h k few gens, d_bits_len D = (8 * h)%nat -> (0 < h)%nat -> (h + 1 < k)%nat -> Forall gen_ok gens ->
  let bits := (8 * k + 1)%nat in
  pss_auto D (Some 0%nat) bits few gens = Err InvalidParameter /\
  forall sk, generate_key bits few gens = Ok sk -> (h + 2 < k)%nat -> pss_auto D (Some (k - h - 2)%nat) bits few gens = Ok (sk, (k - h - 2)%nat).
Proof.
  intros S D h k few gens HB H0 L G bits. split.
  - apply (proj1 (C64_pss_auto S D h (Some 0%nat) bits few gens HB H0 G)). unfold bits.
    assert (E8 : ((8 * k + 1 + 7) / 8 = k + 1)%nat) by (symmetry; apply (Nat.div_unique _ 8 _ 0); lia). cbv beta iota zeta. rewrite E8. lia.
  - intros sk E L2. destruct (k - h - 2)%nat as [|x] eqn:EX; [lia|]. apply (C64_pss_auto S D h (Some (Datatypes.S x)) bits few gens HB H0 G); [unfold bits; lia|exact E].
Qed.
Print Assumptions C64_pss_longest_salt_refuted.
(** The hypotheses are met: the generator above gives 512-bit objects of all three kinds. *)
Example C64_case : Forall gen_ok [gen256] /\ exists sk, pkcs1_auto SHA256 TSHA256 512 false [gen256] = Ok sk /\ oaep_auto SHA1 512 false [gen256] = Ok sk /\
  pss_auto SHA1 (Some 0%nat) 512 false [gen256] = Ok (sk, 42%nat) /\ pss_auto SHA1 None 512 false [gen256] = Ok (sk, 20%nat).
Proof.
  assert (G : Forall gen_ok [gen256]) by (constructor; [exact gen256_ok|constructor]). split; [exact G|].
  destruct gen256_key as [sk E]. exists sk.
  split; [rewrite (proj1 (proj2 (C64_pkcs1_auto _ SHA256 32 TSHA256 512 false [gen256] eq_refl G)) ltac:(lia) sk E); reflexivity|].
  split; [rewrite (proj1 (proj2 (C64_oaep_auto _ SHA1 20 512 false [gen256] eq_refl ltac:(lia) G)) ltac:(lia) sk E); reflexivity|].
  split; [apply (C64_pss_auto _ SHA1 20 (Some 0%nat) 512 false [gen256] eq_refl ltac:(lia) G); [apply Nat.leb_le; vm_compute; reflexivity|exact E]|].
  apply (C64_pss_auto _ SHA1 20 None 512 false [gen256] eq_refl ltac:(lia) G); [apply Nat.leb_le; vm_compute; reflexivity|exact E].
Qed.

(** ** C65 *)
(** The results of a sequence of calls on one object. *)
Fixpoint results {O P R} (call : O -> P -> O * R) (o : O) (ops : list P) : list R :=
  match ops with [] => [] | p :: ops => let '(o, r) := call o p in r :: results call o ops end.
Section History.
Context {S : Type}.
Variables (D : digest S) (I : S -> Prop) (H : list Z -> list Z) (limit : Z).
Hypothesis HG : DigestOk D I H limit.
Hypothesis H8 : (d_bits_len D mod 8 = 0)%nat.
Hypothesis Hpos : (0 < d_bits_len D)%nat.

Definition pkcs1_op_ok (op : pkcs1_op) : Prop :=
  match op with P1Sign _ msg | P1Verify _ msg => bytes msg /\ Z.of_nat (length msg) < limit | _ => True end.
Lemma pkcs1_history t kp b s0 : I s0 -> forall ops s, Forall pkcs1_op_ok ops -> I s ->
  results (pkcs1_call D t) (mkPkcs1 kp s b) ops = map (fun op => snd (pkcs1_call D t (mkPkcs1 kp s0 b) op)) ops.
Proof.
  intros Hs0. induction ops as [|op ops IH]; intros s F Hs; [reflexivity|]. inversion F as [|? ? Ok F']; subst. cbn [results map].
  destruct op as [ws msg|draws c|draws msg|sg msg]; cbn [pkcs1_call p1_kp p1_hf p1_blind pkcs1_op_ok] in *.
  - f_equal. apply IH; assumption.
  - f_equal. apply IH; assumption.
  - destruct Ok as [B L]. destruct (st_pkcs1_sign D I H limit HG t kp (blinding b draws) msg B L) as [r ST].
    destruct (ST s Hs) as (s1 & E1 & I1), (ST s0 Hs0) as (s2 & E2 & _). rewrite E1, E2. cbn [snd]. f_equal. apply IH; assumption.
  - destruct Ok as [B L]. destruct (st_pkcs1_verify D I H limit HG t kp sg msg B L) as [r ST].
    destruct (ST s Hs) as (s1 & E1 & I1), (ST s0 Hs0) as (s2 & E2 & _). rewrite E1, E2. cbn [snd]. f_equal. apply IH; assumption.
Qed.

Definition oaep_op_ok (op : oaep_op) : Prop :=
  match op with OaEncrypt _ msg => bytes msg | OaDecrypt _ _ => True | OaSetLabel l => bytes l /\ Z.of_nat (length l) < limit end.
(** The label in force: the last one set, or the one given at creation. *)
Fixpoint label_after (l : list Z) (ops : list oaep_op) : list Z :=
  match ops with [] => l | OaSetLabel l' :: ops => label_after l' ops | _ :: ops => label_after l ops end.
Lemma oaep_history kp b s0 : I s0 -> Z.of_nat (modulus_len (kp_public kp)) + 4 < limit -> forall ops l s, Forall oaep_op_ok ops ->
  bytes l -> Z.of_nat (length l) < limit -> I s -> forall i op, nth_error ops i = Some op ->
  nth_error (results (oaep_call D) (mkOaep kp s l b) ops) i = Some (snd (oaep_call D (mkOaep kp s0 (label_after l (firstn i ops)) b) op)).
Proof.
  intros Hs0 LK. induction ops as [|op ops IH]; intros l s F BL LL Hs i q N; [destruct i; discriminate|]. inversion F as [|? ? Ok F']; subst. cbn [results].
  destruct op as [ws msg|draws c|l']; cbn [oaep_call oa_kp oa_hf oa_label oa_blind oaep_op_ok] in *.
  - destruct (st_oaep_encrypt D I H limit HG H8 Hpos kp l ws msg BL LL Ok LK) as [r ST].
    destruct (ST s Hs) as (s1 & E1 & I1), (ST s0 Hs0) as (s2 & E2 & _). rewrite E1. destruct i as [|i]; cbn [nth_error firstn label_after] in *.
    + injection N as <-. cbn [oaep_call oa_kp oa_hf oa_label oa_blind]. rewrite E2. reflexivity.
    + exact (IH l s1 F' BL LL I1 i q N).
  - destruct (st_oaep_decrypt D I H limit HG H8 Hpos kp l (blinding b draws) c BL LL LK) as [r ST].
    destruct (ST s Hs) as (s1 & E1 & I1), (ST s0 Hs0) as (s2 & E2 & _). rewrite E1. destruct i as [|i]; cbn [nth_error firstn label_after] in *.
    + injection N as <-. cbn [oaep_call oa_kp oa_hf oa_label oa_blind]. rewrite E2. reflexivity.
    + exact (IH l s1 F' BL LL I1 i q N).
  - destruct Ok as [BL' LL']. destruct i as [|i]; cbn [nth_error firstn label_after] in *; [injection N as <-; reflexivity|exact (IH l' s F' BL' LL' Hs i q N)].
Qed.

Definition pss_op_ok (op : pss_op) : Prop :=
  match op with PsSign _ _ msg | PsVerify _ msg => bytes msg /\ Z.of_nat (length msg) < limit end.
Lemma pss_history chk kp sl b s0 : I s0 -> Z.of_nat (modulus_len (kp_public kp)) + 8 < limit -> forall ops s, Forall pss_op_ok ops -> I s ->
  results (pss_call D chk) (mkPss kp sl s b) ops = map (fun op => snd (pss_call D chk (mkPss kp sl s0 b) op)) ops.
Proof.
  intros Hs0 LK. induction ops as [|op ops IH]; intros s F Hs; [reflexivity|]. inversion F as [|? ? Ok F']; subst. cbn [results map].
  destruct op as [ws draws msg|sg msg]; cbn [pss_call ps_kp ps_slen ps_hf ps_blind pss_op_ok] in *; destruct Ok as [B L].
  - destruct (st_pss_sign D I H limit HG H8 Hpos kp sl ws (blinding b draws) msg B L LK) as [r ST].
    destruct (ST s Hs) as (s1 & E1 & I1), (ST s0 Hs0) as (s2 & E2 & _). rewrite E1, E2. cbn [snd]. f_equal. apply IH; assumption.
  - destruct (st_pss_verify D I H limit HG H8 Hpos chk kp sl sg msg B L LK) as [r ST].
    destruct (ST s Hs) as (s1 & E1 & I1), (ST s0 Hs0) as (s2 & E2 & _). rewrite E1, E2. cbn [snd]. f_equal. apply IH; assumption.
Qed.
End History.

(** The same calls give the same results whatever was called before, including calls that failed or panicked inside a caught call.
    [s0]: the digest as handed to the constructor, [I s0]: usable. *)
Theorem C65_pkcs1 : forall (S : Type) (D : digest S) (I : S -> Prop) H limit h t kp b s0 ops,
  DigestOk D I H limit -> d_bits_len D = (8 * h)%nat -> (0 < h)%nat -> I s0 -> Forall (pkcs1_op_ok limit) ops ->
  results (pkcs1_call D t) (mkPkcs1 kp s0 b) ops = map (fun op => snd (pkcs1_call D t (mkPkcs1 kp s0 b) op)) ops.
Proof. intros S D I H limit h t kp b s0 ops HG HB H0 Hs F. exact (pkcs1_history D I H limit HG t kp b s0 Hs ops s0 F Hs). Qed.
Print Assumptions C65_pkcs1.
Lemma mod8 h : (8 * h mod 8 = 0)%nat. Proof. rewrite Nat.mul_comm. apply Nat.mod_mul. lia. Qed.
(** OAEP: the only thing remembered is the label. *)
Theorem C65_oaep : forall (S : Type) (D : digest S) (I : S -> Prop) H limit h kp b label s0 ops,
  DigestOk D I H limit -> d_bits_len D = (8 * h)%nat -> (0 < h)%nat -> I s0 -> Forall (oaep_op_ok limit) ops ->
  bytes label -> Z.of_nat (length label) < limit -> Z.of_nat (modulus_len (kp_public kp)) + 4 < limit ->
  forall i op, nth_error ops i = Some op ->
  nth_error (results (oaep_call D) (mkOaep kp s0 label b) ops) i = Some (snd (oaep_call D (mkOaep kp s0 (label_after label (firstn i ops)) b) op)).
Proof.
  intros S D I H limit h kp b label s0 ops HG HB H0 Hs F BL LL LK.
  exact (oaep_history D I H limit HG ltac:(rewrite HB; apply mod8) ltac:(lia) kp b s0 Hs LK ops label s0 F BL LL Hs).
Qed.
Print Assumptions C65_oaep.
Theorem C65_pss : forall (S : Type) (D : digest S) (I : S -> Prop) H limit h chk kp sl b s0 ops,
  DigestOk D I H limit -> d_bits_len D = (8 * h)%nat -> (0 < h)%nat -> I s0 -> Forall (pss_op_ok limit) ops -> Z.of_nat (modulus_len (kp_public kp)) + 8 < limit ->
  results (pss_call D chk) (mkPss kp sl s0 b) ops = map (fun op => snd (pss_call D chk (mkPss kp sl s0 b) op)) ops.
Proof.
  intros S D I H limit h chk kp sl b s0 ops HG HB H0 Hs F LK.
  exact (pss_history D I H limit HG ltac:(rewrite HB; apply mod8) ltac:(lia) chk kp sl b s0 Hs LK ops s0 F Hs).
Qed.
Print Assumptions C65_pss.
(** What this means for a pair of objects with the same key: a message encrypted by one after any history is decrypted by the other after any history
    that left the same label in force, and a signature made by one is accepted by the other. *)
Theorem C65_oaep_pair : forall (S : Type) (D : digest S) (I : S -> Prop) H limit h sk kp b b' label label' s0 ops ops' i j ws draws msg c,
  DigestOk D I H limit -> d_bits_len D = (8 * h)%nat -> (0 < h)%nat -> key_ok sk -> kp_public kp = sk_pk sk -> pub_is_valid (sk_pk sk) = Ok tt ->
  I s0 -> Forall (oaep_op_ok limit) ops -> Forall (oaep_op_ok limit) ops' ->
  bytes label -> Z.of_nat (length label) < limit -> bytes label' -> Z.of_nat (length label') < limit -> Z.of_nat (modulus_len (sk_pk sk)) + 4 < limit ->
  nth_error ops i = Some (OaEncrypt ws msg) -> nth_error (results (oaep_call D) (mkOaep kp s0 label b) ops) i = Some (Ok c) ->
  nth_error ops' j = Some (OaDecrypt draws c) -> label_after label (firstn i ops) = label_after label' (firstn j ops') ->
  (length msg + 2 * h + 2 <= modulus_len (sk_pk sk))%nat -> (h <= 4 * length ws)%nat -> usable (pk_n (sk_pk sk)) (blinding b' draws) ->
  nth_error (results (oaep_call D) (mkOaep (inr sk) s0 label' b') ops') j = Some (Ok msg).
Proof.
  intros S D I H limit h sk kp b b' label label' s0 ops ops' i j ws draws msg c HG HB H0 K EK PV Hs F F' BL LL BL' LL' LK N R N' EL LM LW U.
  rewrite (C65_oaep S D I H limit h kp b label s0 ops HG HB H0 Hs F BL LL ltac:(rewrite EK; exact LK) i _ N) in R.
  rewrite (C65_oaep S D I H limit h (inr sk) b' label' s0 ops' HG HB H0 Hs F' BL' LL' LK j _ N'), <- EL.
  set (l := label_after label (firstn i ops)) in *.
  assert (BLl : bytes l /\ Z.of_nat (length l) < limit).
  { subst l. clear - F BL LL. revert label BL LL i. induction ops as [|op ops IH]; intros label BL LL i; [destruct i; split; assumption|].
    inversion F as [|? ? Q F2]; subst. destruct i as [|i]; [split; assumption|]. destruct op as [w m|d c0|l']; cbn [firstn label_after]; try (apply (IH F2); assumption).
    destruct Q as [Q1 Q2]. apply (IH F2); assumption. }
  assert (BM : bytes msg).
  { apply nth_error_In in N. rewrite Forall_forall in F. exact (F _ N). }
  cbn [oaep_call oa_kp oa_hf oa_label oa_blind] in R |- *.
  destruct (C43_roundtrip S D I H limit h sk kp l l s0 s0 ws (blinding b' draws) msg HG HB H0 K EK PV Hs Hs (proj1 BLl) (proj2 BLl) (proj1 BLl) (proj2 BLl) BM LM LK LW U) as (c' & E1 & _ & E2 & _).
  destruct (oaep_encrypt D kp l s0 ws msg) as [s1 r1]. cbn [snd] in R, E1. injection R as R. rewrite R in E1. injection E1 as <-.
  destruct (oaep_decrypt D (inr sk) l s0 (blinding b' draws) c) as [s2 r2]. cbn [snd] in E2 |- *. rewrite E2. reflexivity.
Qed.
Print Assumptions C65_oaep_pair.
Theorem C65_pkcs1_pair : forall (S : Type) (D : digest S) (I : S -> Prop) H limit h t oid sk kp b b' s0 ops ops' i j draws msg sg,
  DigestOk D I H limit -> d_bits_len D = (8 * h)%nat -> pkcs1_hash t = Some (oid, h) -> key_ok sk -> kp_public kp = sk_pk sk ->
  I s0 -> Forall (pkcs1_op_ok limit) ops -> Forall (pkcs1_op_ok limit) ops' -> usable (pk_n (sk_pk sk)) (blinding b draws) ->
  (length (DigestInfo oid (H msg)) + 11 <= modulus_len (sk_pk sk))%nat ->
  nth_error ops i = Some (P1Sign draws msg) -> nth_error (results (pkcs1_call D t) (mkPkcs1 (inr sk) s0 b) ops) i = Some (Ok sg) ->
  nth_error ops' j = Some (P1Verify sg msg) -> nth_error (results (pkcs1_call D t) (mkPkcs1 kp s0 b') ops') j = Some (Ok []).
Proof.
  intros S D I H limit h t oid sk kp b b' s0 ops ops' i j draws msg sg HG HB T K EK Hs F F' U LK N R N'.
  assert (H0 : (0 < h)%nat) by (destruct t; cbn in T; try discriminate; injection T as _ <-; lia).
  rewrite (C65_pkcs1 S D I H limit h t (inr sk) b s0 ops HG HB H0 Hs F), (map_nth_error _ _ _ N) in R.
  rewrite (C65_pkcs1 S D I H limit h t kp b' s0 ops' HG HB H0 Hs F'), (map_nth_error _ _ _ N').
  assert (BM : bytes msg /\ Z.of_nat (length msg) < limit) by (apply nth_error_In in N; rewrite Forall_forall in F; exact (F _ N)).
  cbn [pkcs1_call p1_kp p1_hf p1_blind] in R |- *.
  destruct (C42_sign_verify S D I H limit h t oid sk kp s0 s0 (blinding b draws) msg HG HB T K EK Hs Hs (proj1 BM) (proj2 BM) LK U) as (sg' & E1 & _ & E2).
  destruct (pkcs1_sign D t (inr sk) s0 (blinding b draws) msg) as [s1 r1]. cbn [snd] in R, E1. injection R as R. rewrite R in E1. injection E1 as <-.
  destruct (pkcs1_verify D t kp s0 sg msg) as [s2 r2]. cbn [snd] in E2 |- *. rewrite E2. reflexivity.
Qed.
Print Assumptions C65_pkcs1_pair.
(** A case: a label is set, a decryption fails, and a later decryption on the same object succeeds. *)
Example C65_case : exists c, results (oaep_call SumDigest) (mkOaep (inr key12) [] [1] false)
    [OaEncrypt [77] [5; 6; 7]; OaSetLabel [2]; OaDecrypt [] c; OaSetLabel [1]; OaDecrypt [] [9]; OaDecrypt [] c] =
  [Ok c; Ok []; Err VerificationFailed; Ok []; Err VerificationFailed; Ok [5; 6; 7]] /\
  Forall (oaep_op_ok (2 ^ 64)) [OaEncrypt [77] [5; 6; 7]; OaSetLabel [2]; OaDecrypt [] c; OaSetLabel [1]; OaDecrypt [] [9]; OaDecrypt [] c].
Proof.
  exists [147; 130; 150; 239; 23; 211; 154; 171; 93; 14; 119; 54]. split; [vm_compute; reflexivity|].
  repeat (apply Forall_cons; [first [exact Logic.I|apply bytes_forallb; reflexivity|split; [apply bytes_forallb; reflexivity|reflexivity]]|]). constructor.
Qed.
