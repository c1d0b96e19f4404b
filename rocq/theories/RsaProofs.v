(** RSA primitives: CRT and blinding compute the plain power; validation; generation. *)
From Coq Require Import Znumtheory Zpow_facts.
From Verif Require Import Base NumTheory RsaModel.

Lemma powmod_ok a e n : n <> 0 -> powmod a e n = a ^ e mod n.
Proof. apply Zpow_mod_correct. Qed.

Lemma garner_step X r p m1 coeff a : 0 < r -> 0 < p -> Z.gcd r p = 1 -> m1 = X mod r -> a = X mod p ->
  (coeff * r) mod p = 1 mod p -> m1 + ((a - m1) * coeff) mod p * r = X mod (r * p).
Proof.
  intros R P G -> -> HC. set (mi := ((X mod p - X mod r) * coeff) mod p).
  pose proof (Z.mod_pos_bound ((X mod p - X mod r) * coeff) p P) as Bi. fold mi in Bi.
  pose proof (Z.mod_pos_bound X r R) as Br.
  apply (Z.mod_unique_pos X (r * p) ((X - (X mod r + mi * r)) / (r * p))); [nia|].
  assert (D : (r * p | X - (X mod r + mi * r))).
  { apply coprime_divide_mul; [exact G| |].
    - exists (X / r - mi). pose proof (Z.div_mod X r ltac:(lia)). nia.
    - apply mod_eq_divide; [lia|]. rewrite Zplus_mod. unfold mi. rewrite Zmult_mod_idemp_l.
      rewrite <- Z.mul_assoc, <- Zmult_mod_idemp_r, HC, Zmult_mod_idemp_r, Z.mul_1_r.
      rewrite <- Zplus_mod. replace (X mod r + (X mod p - X mod r)) with (X mod p) by ring. rewrite Zmod_mod. reflexivity. }
  destruct D as [k E]. rewrite E, Z.div_mul by nia. lia.
Qed.

Section Crt.
Variables (c d : Z).
Hypothesis Hd : 0 <= d.

Lemma exp_red p : prime p -> d mod (p - 1) <> 0 -> powmod c (d mod (p - 1)) p = c ^ d mod p.
Proof.
  intros P N. pose proof (prime_ge_2 p P) as P2. rewrite powmod_ok by lia.
  destruct (Z.eq_dec p 2) as [->|P3]; [exfalso; apply N; apply Z.mod_1_r|].
  apply pow_exp_mod_pos; [exact P| |exact Hd]. pose proof (Z.mod_pos_bound d (p - 1) ltac:(lia)). lia.
Qed.

Lemma crt_loop_ok ps : forall r m1, 0 < r -> Forall prime ps -> NoDup ps -> (forall p, In p ps -> Z.gcd r p = 1) ->
  (forall p, In p ps -> d mod (p - 1) <> 0) -> m1 = c ^ d mod r ->
  crt_loop c m1 (crt_values d r ps) ps = Ok (c ^ d mod (r * zprod ps)).
Proof.
  induction ps as [|p ps IH]; intros r m1 R HP ND G HD ->.
  - cbn [crt_values crt_loop zprod fold_right]. rewrite Z.mul_1_r. reflexivity.
  - inversion HP as [|? ? P1 P2]; subst. inversion ND as [|? ? N1 N2]; subst.
    pose proof (prime_ge_2 p P1) as Pp. cbn [crt_values crt_loop cv_coeff cv_exp cv_r].
    destruct (inv_mod_coprime r p ltac:(lia) (G p (or_introl eq_refl))) as (co & E & B & HC).
    unfold mod_inverse. rewrite E. rewrite (exp_red p P1 (HD p (or_introl eq_refl))).
    pose proof (Z.mod_pos_bound ((c ^ d mod p - c ^ d mod r) * co) p ltac:(lia)) as Bm.
    rewrite (proj2 (Z.ltb_ge _ 0)) by lia.
    rewrite (garner_step (c ^ d) r p _ co _ R ltac:(lia) (G p (or_introl eq_refl)) eq_refl eq_refl HC).
    rewrite IH.
    + cbn [zprod fold_right]. fold (zprod ps). rewrite Z.mul_assoc. reflexivity.
    + nia.
    + exact P2.
    + exact N2.
    + intros q Iq. rewrite Z.gcd_comm. apply Zgcd_1_rel_prime, rel_prime_mult; apply Zgcd_1_rel_prime; rewrite Z.gcd_comm.
      * apply G. right. exact Iq.
      * rewrite Forall_forall in P2. apply primes_coprime; [exact P1|apply P2, Iq|]. intros ->. contradiction.
    + intros q Iq. apply HD. right. exact Iq.
    + reflexivity.
Qed.

Lemma crt_decrypt_ok p q ps : Forall prime (p :: q :: ps) -> NoDup (p :: q :: ps) ->
  (forall x, In x (p :: q :: ps) -> d mod (x - 1) <> 0) ->
  crt_decrypt (precompute p q d ps) (p :: q :: ps) c = Ok (c ^ d mod zprod (p :: q :: ps)).
Proof.
  intros HP ND HD. inversion HP as [|? ? P1 HP1]; subst. inversion HP1 as [|? ? P2 P3]; subst.
  inversion ND as [|? ? N1 ND1]; subst. inversion ND1 as [|? ? N2 N3]; subst.
  pose proof (prime_ge_2 p P1) as Pp. pose proof (prime_ge_2 q P2) as Pq.
  assert (PQ : p <> q) by (intros ->; apply N1; left; reflexivity).
  pose proof (primes_coprime q p P2 P1 (not_eq_sym PQ)) as G.
  unfold crt_decrypt, precompute. cbn [pc_qinv pc_dp pc_dq pc_crt].
  destruct (inv_mod_coprime q p ltac:(lia) G) as (qi & E & B & HC). unfold mod_inverse at 1. rewrite E.
  rewrite (exp_red p P1) by (apply HD; left; reflexivity).
  rewrite (exp_red q P2) by (apply HD; right; left; reflexivity).
  set (X := c ^ d).
  assert (K : ((if X mod p - X mod q <? 0 then X mod p - X mod q + p else X mod p - X mod q) * qi) mod p = ((X mod p - X mod q) * qi) mod p).
  { destruct (_ <? 0); [|reflexivity]. rewrite Z.mul_add_distr_r. rewrite (Z.mul_comm p qi). apply Z_mod_plus_full. }
  rewrite K. rewrite Z.add_comm.
  rewrite (garner_step X q p _ qi _ ltac:(lia) ltac:(lia) G eq_refl eq_refl HC). unfold X.
  rewrite crt_loop_ok.
  - cbn [zprod fold_right]. fold (zprod ps). f_equal. f_equal. ring.
  - apply Z.mul_pos_pos; lia.
  - exact P3.
  - exact N3.
  - intros x Ix. rewrite Forall_forall in P3. rewrite Z.gcd_comm. apply Zgcd_1_rel_prime, rel_prime_mult; apply Zgcd_1_rel_prime.
    + apply primes_coprime; [apply P3, Ix|exact P1|]. intros ->. apply N1. right. exact Ix.
    + apply primes_coprime; [apply P3, Ix|exact P2|]. intros ->. contradiction.
  - intros x Ix. apply HD. right. right. exact Ix.
  - rewrite (Z.mul_comm q p). reflexivity.
Qed.
End Crt.

(** ** Keys *)
(** A private key whose modulus is a product of distinct primes; the CRT values, when present, are the ones
    PrecomputedValues::new computes. *)
Definition pre_ok (k : privkey) : Prop :=
  sk_pre k = None \/ exists p q ps, sk_primes k = p :: q :: ps /\ sk_pre k = Some (precompute p q (sk_d k) ps).
Definition key_shape (k : privkey) : Prop :=
  Forall prime (sk_primes k) /\ NoDup (sk_primes k) /\ pk_n (sk_pk k) = zprod (sk_primes k) /\ 1 < pk_n (sk_pk k) /\ 0 <= sk_d k /\ pre_ok k.

Lemma raw_decrypt_ok k c : key_shape k -> (forall p, In p (sk_primes k) -> sk_d k mod (p - 1) <> 0) ->
  raw_decrypt k c = Ok (c ^ sk_d k mod pk_n (sk_pk k)).
Proof.
  intros (HP & ND & HN & N0 & D0 & PO) HD. unfold raw_decrypt. destruct PO as [E|(p & q & ps & E1 & E2)].
  - rewrite E, powmod_ok by lia. reflexivity.
  - rewrite E2, E1. rewrite E1 in HP, ND, HD. rewrite crt_decrypt_ok by assumption. rewrite HN, E1. reflexivity.
Qed.

Definition key_ok (k : privkey) : Prop :=
  key_shape k /\ 0 <= pk_e (sk_pk k) /\ forall p, In p (sk_primes k) -> (pk_e (sk_pk k) * sk_d k) mod (p - 1) = 1.
Lemma key_ok_exp k : key_ok k -> forall p, In p (sk_primes k) -> sk_d k mod (p - 1) <> 0.
Proof.
  intros (S & E & H) p Ip Z0. specialize (H p Ip). rewrite <- Zmult_mod_idemp_r, Z0, Z.mul_0_r, Zmod_0_l in H. discriminate.
Qed.
Lemma key_ok_ed k : key_ok k -> 1 <= pk_e (sk_pk k) * sk_d k.
Proof.
  intros ((HP & ND & HN & N0 & D0 & _) & E & H). destruct (sk_primes k) as [|p ps] eqn:EP.
  - cbn [zprod fold_right] in HN. lia.
  - specialize (H p (or_introl eq_refl)). destruct (Z.eq_dec (pk_e (sk_pk k) * sk_d k) 0) as [Z0|Z0]; [|nia].
    rewrite Z0, Zmod_0_l in H. discriminate.
Qed.
Lemma key_ok_ident k m : key_ok k -> (m ^ pk_e (sk_pk k)) ^ sk_d k mod pk_n (sk_pk k) = m mod pk_n (sk_pk k).
Proof.
  intros K. pose proof (key_ok_ed k K) as ED. destruct K as ((HP & ND & HN & N0 & D0 & _) & E & H).
  rewrite <- Z.pow_mul_r by assumption. rewrite HN. apply rsa_identity; [exact HP|exact ND|exact ED|].
  intros p Ip. rewrite (H p Ip). rewrite Forall_forall in HP. pose proof (prime_ge_2 p (HP p Ip)).
  assert (p <> 2). { intros ->. specialize (H 2 Ip). change (2 - 1) with 1 in H. rewrite Z.mod_1_r in H. discriminate. }
  symmetry. apply Z.mod_small. lia.
Qed.

(** The random source yields a number coprime to n (0 counts as 1). *)
Definition usable (n : Z) (rd : option (list Z)) : Prop :=
  match rd with None => True | Some draws => Exists (fun r => Z.gcd (if r =? 0 then 1 else r) n = 1) draws end.
Lemma blind_loop_ok n draws : 0 < n -> usable n (Some draws) ->
  exists r ir, blind_loop n draws = Some (r, ir) /\ (ir * r) mod n = 1 mod n.
Proof.
  intros N. induction draws as [|x draws IH]; cbn [usable]; intros U; [inversion U|]. cbn [blind_loop]. unfold mod_inverse.
  destruct (inv_mod (if x =? 0 then 1 else x) n) as [ir|] eqn:E.
  - exists (if x =? 0 then 1 else x), ir. split; [reflexivity|]. apply inv_mod_some; assumption.
  - apply inv_mod_gcd in E; [|exact N]. inversion U; subst; [contradiction|]. apply IH. assumption.
Qed.
Lemma blind_loop_none n draws : 0 < n -> ~ usable n (Some draws) -> blind_loop n draws = None.
Proof.
  intros N. induction draws as [|x draws IH]; intros U; cbn [blind_loop]; [reflexivity|]. unfold mod_inverse.
  destruct (inv_mod (if x =? 0 then 1 else x) n) as [ir|] eqn:E.
  - exfalso. apply U. constructor. apply inv_mod_some in E; [|exact N]. apply (inverse_gcd _ n ir); [exact N|apply E].
  - apply IH. intros K. apply U. right. exact K.
Qed.

(** Decryption is the plain power, whatever the representation and the blinding. *)
Lemma priv_decrypt_ok k c rd : key_ok k -> c <= pk_n (sk_pk k) -> usable (pk_n (sk_pk k)) rd ->
  priv_decrypt k c rd = Ok (c ^ sk_d k mod pk_n (sk_pk k)).
Proof.
  intros K C U. pose proof K as KO. destruct K as ((HP & ND & HN & N0 & D0 & PO) & E & H).
  unfold priv_decrypt. rewrite (proj2 (Z.ltb_ge _ _)) by lia. rewrite (proj2 (Z.eqb_neq _ 0)) by lia.
  destruct rd as [draws|].
  - destruct (blind_loop_ok (pk_n (sk_pk k)) draws ltac:(lia) U) as (r & ir & -> & HI).
    rewrite raw_decrypt_ok by (apply KO || apply key_ok_exp, KO). cbn [rbind]. f_equal.
    rewrite (powmod_ok r) by lia. set (n := pk_n (sk_pk k)) in *. rewrite Zmult_mod_idemp_l, Zmult_mod_idemp_l.
    rewrite <- (Zmult_mod_idemp_l (_ ^ _)), pow_mod_idemp by exact D0. rewrite Zmult_mod_idemp_l.
    rewrite Z.pow_mul_l. 
    replace ((r ^ pk_e (sk_pk k)) ^ sk_d k * c ^ sk_d k * ir) with ((r ^ pk_e (sk_pk k)) ^ sk_d k * (c ^ sk_d k * ir)) by ring.
    pose proof (key_ok_ident k r KO) as KI. fold n in KI. rewrite <- Zmult_mod_idemp_l, KI, Zmult_mod_idemp_l.
    replace (r * (c ^ sk_d k * ir)) with (c ^ sk_d k * (ir * r)) by ring.
    rewrite <- Zmult_mod_idemp_r, HI, Zmult_mod_idemp_r, Z.mul_1_r. reflexivity.
  - apply raw_decrypt_ok; [apply KO|apply key_ok_exp, KO].
Qed.

Lemma roundtrip k m rd : key_ok k -> 0 <= m < pk_n (sk_pk k) -> usable (pk_n (sk_pk k)) rd ->
  priv_decrypt k (pub_encrypt (sk_pk k) m) rd = Ok m.
Proof.
  intros K M U. pose proof K as ((_ & _ & _ & N0 & D0 & _) & E & _). unfold pub_encrypt. rewrite powmod_ok by lia.
  pose proof (Z.mod_pos_bound (m ^ pk_e (sk_pk k)) (pk_n (sk_pk k)) ltac:(lia)).
  rewrite priv_decrypt_ok by (assumption || lia). f_equal. rewrite pow_mod_idemp by exact D0. rewrite key_ok_ident by exact K.
  apply Z.mod_small. exact M.
Qed.
Lemma sign_primitive k m : key_ok k -> 0 <= m < pk_n (sk_pk k) ->
  pub_encrypt (sk_pk k) (m ^ sk_d k mod pk_n (sk_pk k)) = m.
Proof.
  intros K M. pose proof K as ((_ & _ & _ & N0 & D0 & _) & E & _). unfold pub_encrypt. rewrite powmod_ok by lia.
  rewrite pow_mod_idemp by exact E. rewrite <- Z.pow_mul_r, Z.mul_comm, Z.pow_mul_r by assumption.
  rewrite key_ok_ident by exact K. apply Z.mod_small. exact M.
Qed.
Lemma decrypt_check_ok k c rd : key_ok k -> 0 <= c < pk_n (sk_pk k) -> usable (pk_n (sk_pk k)) rd ->
  priv_decrypt_check k c rd = Ok (c ^ sk_d k mod pk_n (sk_pk k)).
Proof.
  intros K C U. unfold priv_decrypt_check. rewrite priv_decrypt_ok by (assumption || lia). cbn [rbind].
  rewrite sign_primitive by assumption. rewrite Z.eqb_refl. reflexivity.
Qed.

(** ** Validation *)
Lemma valid_primes_spec ps : forall acc, valid_primes acc ps = if forallb (fun p => 1 <? p) ps then Some (acc * zprod ps) else None.
Proof.
  induction ps as [|p ps IH]; intros acc; cbn [valid_primes forallb zprod fold_right]; [rewrite Z.mul_1_r; reflexivity|].
  fold (zprod ps). rewrite Z.leb_antisym. destruct (1 <? p); cbn [negb andb]; [|reflexivity]. rewrite IH.
  destruct (forallb _ ps); [|reflexivity]. f_equal. ring.
Qed.
Lemma pub_is_valid_iff k : pub_is_valid k = Ok tt <-> 2 <= pk_e k <= 2 ^ 31 - 1.
Proof.
  unfold pub_is_valid. destruct (Z.ltb_spec (pk_e k) 2); [split; [discriminate|lia]|].
  destruct (Z.ltb_spec (2 ^ 31 - 1) (pk_e k)); [split; [discriminate|lia]|]. split; [lia|reflexivity].
Qed.
Lemma priv_is_valid_iff k : priv_is_valid k = Ok tt <->
  2 <= pk_e (sk_pk k) <= 2 ^ 31 - 1 /\ (forall p, In p (sk_primes k) -> 1 < p) /\ zprod (sk_primes k) = pk_n (sk_pk k) /\
  (forall p, In p (sk_primes k) -> (sk_d k * pk_e (sk_pk k)) mod (p - 1) = 1).
Proof.
  unfold priv_is_valid. pose proof (pub_is_valid_iff (sk_pk k)) as PV. destruct (pub_is_valid (sk_pk k)) as [[]| |]; cbn [rbind].
  2,3: split; [discriminate|intros (A & _); apply PV in A; discriminate].
  rewrite valid_primes_spec, Z.mul_1_l. destruct (forallb (fun p => 1 <? p) (sk_primes k)) eqn:F.
  - rewrite forallb_forall in F. destruct (Z.eqb_spec (zprod (sk_primes k)) (pk_n (sk_pk k))) as [E|E]; cbn [negb].
    + destruct (forallb _ (sk_primes k)) eqn:G.
      * rewrite forallb_forall in G. split; [intros _|reflexivity]. repeat split; try (apply PV; reflexivity).
        -- intros p Ip. specialize (F p Ip). lia.
        -- exact E.
        -- intros p Ip. specialize (G p Ip). apply Z.eqb_eq in G. exact G.
      * split; [discriminate|]. intros (_ & _ & _ & Q). exfalso.
        assert (T : forallb (fun p => (sk_d k * pk_e (sk_pk k)) mod (p - 1) =? 1) (sk_primes k) = true); [|congruence].
        apply forallb_forall. intros p Ip. apply Z.eqb_eq, Q, Ip.
    + split; [discriminate|]. intros (_ & _ & Q & _). contradiction.
  - split; [discriminate|]. intros (_ & Q & _). exfalso.
    assert (T : forallb (fun p => 1 <? p) (sk_primes k) = true); [|congruence].
    apply forallb_forall. intros p Ip. apply Z.ltb_lt, Q, Ip.
Qed.

(** ** Generation *)
Lemma dedup_in l x : In x (dedup l) -> In x l.
Proof.
  induction l as [|a l IH]; [auto|]. destruct l as [|b l]; [auto|]. cbn [dedup] in *. destruct (a =? b).
  - intros H. right. apply IH, H.
  - intros [->|H]; [left; reflexivity|right; apply IH, H].
Qed.
Lemma dedup_length l : (length (dedup l) <= length l)%nat.
Proof.
  induction l as [|a l IH]; [auto|]. destruct l as [|b l]; [auto|]. cbn [dedup] in *. destruct (a =? b); cbn [length] in *; lia.
Qed.
Lemma dedup_full l : length (dedup l) = length l -> dedup l = l.
Proof.
  induction l as [|a l IH]; [auto|]. destruct l as [|b l]; [auto|]. cbn [dedup]. pose proof (dedup_length (b :: l)) as L.
  cbn [dedup] in L. destruct (a =? b).
  - intros H. cbn [length] in *. lia.
  - intros H. change (a :: dedup (b :: l) = a :: b :: l). f_equal. apply IH. cbn [length] in *. cbn [dedup]. lia.
Qed.
(** What is asked of the prime generator. *)
Definition gen_ok (gen : nat -> nat -> option Z) : Prop := forall i bits p, gen i bits = Some p -> prime p /\ bits_len p = bits.
Lemma div_share cb m : (1 < m)%nat -> (cb / m <= (cb - cb / m) / (m - 1))%nat.
Proof. intros M. apply Nat.div_le_lower_bound; [lia|]. pose proof (Nat.mul_div_le cb m ltac:(lia)). nia. Qed.
Lemma gen_primes_ok gen np : forall todo i cb l, gen_ok gen -> (i + todo = np)%nat -> gen_primes gen np i todo cb = Ok l ->
  Forall prime l /\ length l = todo /\ Forall (fun p => (cb / todo <= bits_len p)%nat) l.
Proof.
  induction todo as [|todo IH]; intros i cb l G HI E; cbn [gen_primes] in E.
  - assert (l = []) by congruence. subst. split; [constructor|split; [reflexivity|constructor]].
  - destruct (gen i _) as [p|] eqn:Ep; [|discriminate]. destruct (cb <? bits_len p)%nat; [discriminate|].
    destruct (gen_primes gen np (S i) todo (cb - bits_len p)) as [ps| |] eqn:Es; cbn [rbind] in E; try discriminate.
    assert (l = p :: ps) by congruence. subst. destruct (IH (S i) _ _ G ltac:(lia) Es) as (I1 & I2 & I3).
    destruct (G _ _ _ Ep) as [Pp Bp]. replace (i + S todo - i)%nat with (S todo) in Bp by lia.
    split; [constructor; [exact Pp|exact I1]|]. split; [cbn [length]; lia|]. constructor; [lia|].
    destruct todo as [|todo]; [destruct ps; [constructor|cbn in I2; lia]|].
    eapply Forall_impl; [|exact I3]. cbv beta. intros x Hx. rewrite Bp in Hx. pose proof (div_share cb (S (S todo)) ltac:(lia)) as DS.
    replace (S (S todo) - 1)%nat with (S todo) in DS by lia. lia.
Qed.
Lemma fold_mul_zprod l : forall a, fold_left Z.mul l a = a * zprod l.
Proof. induction l as [|x l IH]; intros a; cbn [fold_left zprod fold_right]; [lia|]. rewrite IH. fold (zprod l). ring. Qed.
Lemma fold_tot l : forall a, fold_left (fun t p => t * (p - 1)) l a = a * zprod (map (fun p => p - 1) l).
Proof. induction l as [|x l IH]; intros a; cbn [fold_left zprod fold_right map]; [lia|]. rewrite IH. fold (zprod (map (fun p => p - 1) l)). ring. Qed.

Definition adjacent_distinct (l : list Z) : Prop := forall i, (S i < length l)%nat -> nth i l 0 <> nth (S i) l 0.
Lemma dedup_adjacent l : dedup l = l -> adjacent_distinct l.
Proof.
  induction l as [|a l IH]; intros E i Hi; [cbn in Hi; lia|]. destruct l as [|b l]; [cbn in Hi; lia|].
  cbn [dedup] in E. destruct (Z.eqb_spec a b) as [->|NE].
  - exfalso. pose proof (dedup_length (b :: l)) as L. cbn [dedup] in L. apply (f_equal (@length Z)) in E. cbn [length] in *. lia.
  - destruct i as [|i]; [exact NE|]. cbn [nth]. apply (IH (f_equal (@tl Z) E)). cbn [length] in *. lia.
Qed.

Lemma gen_loop_ok np bits : (2 <= np)%nat -> forall gens k, Forall gen_ok gens -> gen_loop np bits gens = Ok k ->
  Forall prime (sk_primes k) /\ length (sk_primes k) = np /\ Forall (fun p => (bits / np <= bits_len p)%nat) (sk_primes k) /\ adjacent_distinct (sk_primes k) /\
  pk_n (sk_pk k) = zprod (sk_primes k) /\ bits_len (pk_n (sk_pk k)) = bits /\ pk_e (sk_pk k) = 65537 /\
  0 <= sk_d k /\ (sk_d k * 65537) mod zprod (map (fun p => p - 1) (sk_primes k)) = 1 mod zprod (map (fun p => p - 1) (sk_primes k)) /\
  exists p q ps, sk_primes k = p :: q :: ps /\ sk_pre k = Some (precompute p q (sk_d k) ps).
Proof.
  intros NP. induction gens as [|gen gens IH]; intros k G E; cbn [gen_loop] in E; [discriminate|].
  inversion G as [|? ? G1 G2]; subst.
  destruct (gen_primes gen np 0 np _) as [l| |] eqn:El; cbn [rbind] in E; try discriminate.
  apply gen_primes_ok in El; [|exact G1|lia]. destruct El as (Pl & Ll & Bl).
  assert (Bl' : Forall (fun p => (bits / np <= bits_len p)%nat) l).
  { eapply Forall_impl; [|exact Bl]. cbv beta. intros x Hx. etransitivity; [|exact Hx]. apply Nat.div_le_mono; [lia|]. destruct (_ <=? _)%nat; lia. }
  clear Bl.
  destruct (length (dedup l) =? np)%nat eqn:E1; cbn [negb] in E; [|apply IH; assumption]. apply Nat.eqb_eq in E1.
  assert (DD : dedup l = l) by (apply dedup_full; lia). rewrite DD in E.
  rewrite fold_mul_zprod, Z.mul_1_l, fold_tot, Z.mul_1_l in E.
  destruct (bits_len (zprod l) =? bits)%nat eqn:E2; cbn [negb] in E; [|apply IH; assumption]. apply Nat.eqb_eq in E2.
  destruct (mod_inverse 65537 _) as [d|] eqn:E3; [|apply IH; assumption].
  destruct l as [|p [|q ps]]; try (cbn in Ll; lia).
  assert (k = mkPriv (mkPub (zprod (p :: q :: ps)) 65537) d (p :: q :: ps) (Some (precompute p q d ps))) by congruence. subst k.
  cbn [sk_primes sk_pk sk_d sk_pre pk_n pk_e].
  assert (T : 0 < zprod (map (fun p => p - 1) (p :: q :: ps))).
  { apply zprod_pos. apply Forall_map. eapply Forall_impl; [|exact Pl]. intros x Px. pose proof (prime_ge_2 x Px). lia. }
  apply inv_mod_some in E3; [|exact T].
  refine (conj Pl (conj Ll (conj Bl' (conj (dedup_adjacent _ DD) (conj eq_refl (conj E2 (conj eq_refl (conj _ (conj _ _))))))))).
  - apply E3. - apply E3. - exists p, q, ps. split; reflexivity.
Qed.

Lemma even_not_inverse a x : (a * 65537) mod x = 1 mod x -> forall p, (p - 1 | x) -> 0 < x -> 2 < p -> (a * 65537) mod (p - 1) = 1.
Proof.
  intros H p D X P. rewrite <- (mod_divide_mod _ x (p - 1)), H, mod_divide_mod by (assumption || lia). apply Z.mod_small. lia.
Qed.
Lemma gen_key_ok np bits few gens k : Forall gen_ok gens -> generate_multi_prime_key np bits few gens = Ok k ->
  NoDup (sk_primes k) -> ~ In 2 (sk_primes k) -> key_ok k /\ priv_is_valid k = Ok tt /\ length (sk_primes k) = np /\ bits_len (pk_n (sk_pk k)) = bits /\ pk_e (sk_pk k) = 65537.
Proof.
  intros G E ND N2. unfold generate_multi_prime_key in E. destruct (Nat.ltb_spec np 2) as [|NP]; [discriminate|].
  destruct (_ && _); [discriminate|]. apply gen_loop_ok in E; [|exact NP|exact G].
  destruct E as (Pl & Ll & Bl & AD & HN & HB & HE & D0 & HD & PO).
  assert (P3 : forall p, In p (sk_primes k) -> 2 < p).
  { intros p Ip. rewrite Forall_forall in Pl. pose proof (prime_ge_2 p (Pl p Ip)). assert (p <> 2) by (intros ->; contradiction). lia. }
  assert (T : 0 < zprod (map (fun p => p - 1) (sk_primes k))).
  { apply zprod_pos. apply Forall_map, Forall_forall. intros x Ix. specialize (P3 x Ix). lia. }
  assert (ED : forall p, In p (sk_primes k) -> (sk_d k * 65537) mod (p - 1) = 1).
  { intros p Ip. apply (even_not_inverse _ _ HD p); [|exact T|apply P3, Ip]. apply in_zprod_divide. apply in_map_iff. exists p. auto. }
  assert (N1 : 1 < zprod (sk_primes k)).
  { destruct (sk_primes k) as [|p ps]; [cbn in Ll; lia|]. cbn [zprod fold_right]. fold (zprod ps). inversion Pl as [|? ? Pp Pps]; subst.
    pose proof (prime_ge_2 p Pp). pose proof (zprod_pos ps (primes_pos ps Pps)). nia. }
  refine (conj _ (conj _ (conj Ll (conj HB HE)))).
  - split; [|split].
    + refine (conj Pl (conj ND (conj HN (conj _ (conj D0 _))))); [rewrite HN; exact N1|]. right. exact PO.
    + rewrite HE. lia.
    + intros p Ip. rewrite HE, Z.mul_comm. apply ED, Ip.
  - apply priv_is_valid_iff. rewrite HE. refine (conj _ (conj _ (conj (eq_sym HN) ED))); [lia|].
    intros p Ip. specialize (P3 p Ip). lia.
Qed.

Lemma gen_no_two np bits few gens k : Forall gen_ok gens -> generate_multi_prime_key np bits few gens = Ok k -> (3 * np <= bits)%nat -> ~ In 2 (sk_primes k).
Proof.
  intros G E B I2. unfold generate_multi_prime_key in E. destruct (Nat.ltb_spec np 2) as [|NP]; [discriminate|].
  destruct (_ && _); [discriminate|]. apply gen_loop_ok in E; [|exact NP|exact G]. destruct E as (_ & _ & Bl & _).
  rewrite Forall_forall in Bl. specialize (Bl 2 I2). cbv beta in Bl. change (bits_len 2) with 2%nat in Bl.
  assert (3 <= bits / np)%nat by (apply Nat.div_le_lower_bound; lia). lia.
Qed.
Lemma gen_two_distinct bits few gens k : Forall gen_ok gens -> generate_key bits few gens = Ok k -> NoDup (sk_primes k).
Proof.
  intros G E. unfold generate_key, generate_multi_prime_key in E. change (2 <? 2)%nat with false in E. cbv iota in E.
  destruct (_ && _); [discriminate|]. apply gen_loop_ok in E; [|lia|exact G]. destruct E as (_ & Ll & _ & AD & _).
  destruct (sk_primes k) as [|p [|q [|? ?]]]; try discriminate Ll. specialize (AD 0%nat ltac:(cbn; lia)). cbn [nth] in AD.
  constructor; [intros [->|[]]; contradiction|]. constructor; [intros []|constructor].
Qed.
