(** Property C92: RSA keys and messages with parts in common.  One number sent under several keys, two numbers in a known relation under
    one key, two moduli with a prime in common, and what the number of units, one CRT exponent or a private exponent says about the
    primes.  [key_ok], [usable] are described in PropRsa.v; everything outside [priv_decrypt] and [pub_encrypt] is plain arithmetic. *)
From Coq Require Import Znumtheory.
From Verif Require Import Base Words NumTheory RsaModel RsaProofs RsaCases PropRsa PropRsaRel.
Local Open Scope Z_scope.

(** ** One number under several keys *)
Definition product (l : list Z) : Z := fold_right Z.mul 1 l.
Definition pairwise_coprime (l : list Z) : Prop := forall i j, (i < j < length l)%nat -> Z.gcd (nth i l 0) (nth j l 0) = 1.
Lemma coprime_tail a l : pairwise_coprime (a :: l) -> pairwise_coprime l /\ forall x, In x l -> Z.gcd a x = 1.
Proof.
  intros H. split.
  - intros i j L. exact (H (S i) (S j) ltac:(cbn [length]; lia)).
  - intros x I. destruct (In_nth l x 0 I) as (j & L & <-). exact (H O (S j) ltac:(cbn [length]; lia)).
Qed.
Lemma product_divides l x : pairwise_coprime l -> (forall n, In n l -> (n | x)) -> (product l | x).
Proof.
  induction l as [|a l IH]; intros P H; cbn [product fold_right]; [exists x; ring|].
  destruct (coprime_tail a l P) as [P1 P2]. apply coprime_divide_mul; [apply (gcd_zprod a l P2)|apply H; left; reflexivity|apply IH; [exact P1|intros n I; apply H; right; exact I]].
Qed.
Lemma power_below m l : 0 <= m -> (forall n, In n l -> m < n) -> 0 <= m ^ Z.of_nat (length l) <= product l /\ (l <> [] -> m ^ Z.of_nat (length l) < product l).
Proof.
  intros M. induction l as [|a l IH]; intros H; [cbn; split; [lia|congruence]|].
  destruct (IH (fun n I => H n (or_intror I))) as [[A B] _]. pose proof (H a (or_introl eq_refl)) as MA.
  cbn [length product fold_right]. fold (product l). rewrite Nat2Z.inj_succ, Z.pow_succ_r by lia.
  assert (PP : 0 < product l). { clear - H M. induction l as [|b l IH]; cbn [product fold_right]; [lia|]. fold (product l).
    pose proof (H b (or_intror (or_introl eq_refl))). apply Z.mul_pos_pos; [lia|]. apply IH. intros n [I|I]; apply H; [left; exact I|right; right; exact I]. }
  split; [split; [apply Z.mul_nonneg_nonneg; lia|nia]|]. intros _. nia.
Qed.
(** Whoever has the ciphertexts for at least e keys whose moduli have no common factor combines them (Chinese remainder) to the
    one number [x] below the product: it is the e-th power itself, whose only e-th root is the message. *)
Theorem C92_broadcast : forall e ns m x, 0 < e -> pairwise_coprime ns -> (Z.to_nat e <= length ns)%nat -> 0 <= m -> (forall n, In n ns -> m < n) ->
  0 <= x < product ns -> (forall n, In n ns -> x mod n = pub_encrypt (mkPub n e) m) ->
  x = m ^ e /\ forall r, 0 <= r -> r ^ e = x -> r = m.
Proof.
  intros e ns m x E P L M B X C. assert (LE : m ^ e < product ns).
  { assert (NE : ns <> []) by (intros Q; rewrite Q in L; cbn in L; lia). destruct (power_below m ns M B) as [_ H]. specialize (H NE).
    destruct (Z.eq_dec m 0) as [->|M0]; [rewrite Z.pow_0_l by exact E; lia|]. eapply Z.le_lt_trans; [|exact H]. apply Z.pow_le_mono_r; lia. }
  assert (EQ : x = m ^ e).
  { pose proof (Z.pow_nonneg m e M). assert (D : (product ns | x - m ^ e)).
    { apply product_divides; [exact P|]. intros n I. pose proof (B n I). apply mod_eq_divide; [lia|]. rewrite (C n I). apply C38_encrypt. lia. }
    destruct D as [q Q]. assert (q = 0) by nia. subst q. lia. }
  split; [exact EQ|]. intros r R H. rewrite EQ in H. destruct (Z.lt_trichotomy r m) as [K|[K|K]]; [|exact K|]; exfalso.
  - pose proof (Z.pow_lt_mono_l r m e E ltac:(lia)). lia.
  - pose proof (Z.pow_lt_mono_l m r e E ltac:(lia)). lia.
Qed.
Print Assumptions C92_broadcast.
Example C92_broadcast_case : pairwise_coprime [1073; 1271; 2021] /\ let m := 1000 in let x := 1000000000 in
  (forall n, In n [1073; 1271; 2021] -> m < n) /\ 0 <= x < product [1073; 1271; 2021] /\
  map (fun n => x mod n) [1073; 1271; 2021] = map (fun n => pub_encrypt (mkPub n 3) m) [1073; 1271; 2021] /\
  map (fun n => pub_encrypt (mkPub n 3) m) [1073; 1271; 2021] = [482; 78; 1116].
Proof.
  split. { intros i j L. cbn [length] in L. destruct i as [|[|i]], j as [|[|[|j]]]; try lia; reflexivity. }
  split; [intros n [<-|[<-|[<-|[]]]]; reflexivity|]. split; [cbn; lia|]. split; reflexivity.
Qed.

(** ** Two numbers in a known relation *)
(** Exponent 3, a number and the same number plus a known [d] under one modulus: the first follows from the two ciphertexts. *)
Theorem C92_related : forall n m d i, 1 < n -> 0 <= m < n ->
  let c1 := pub_encrypt (mkPub n 3) m in let c2 := pub_encrypt (mkPub n 3) ((m + d) mod n) in
  (i * (c2 - c1 + 2 * d ^ 3)) mod n = 1 -> (d * (c2 + 2 * c1 - d ^ 3) * i) mod n = m.
Proof.
  intros n m d i N M c1 c2 I. unfold c1, c2 in *. rewrite !C38_encrypt in * by lia. rewrite !pow_mod_idemp in * by lia.
  assert (EA : eqm n ((m + d) ^ 3 mod n) ((m + d) ^ 3)) by (unfold eqm; apply Z.mod_mod; lia).
  assert (EB : eqm n (m ^ 3 mod n) (m ^ 3)) by (unfold eqm; apply Z.mod_mod; lia).
  set (a := (m + d) ^ 3 mod n) in *. set (b := m ^ 3 mod n) in *.
  destruct (mod_eq_divide a ((m + d) ^ 3) n ltac:(lia) EA) as [u U]. destruct (mod_eq_divide b (m ^ 3) n ltac:(lia) EB) as [v V].
  transitivity (m mod n); [|apply Z.mod_small; exact M].
  assert (J : (n | i * (a - b + 2 * d ^ 3) - 1)) by (apply mod_eq_divide; [lia|]; rewrite I; symmetry; apply Z.mod_small; lia).
  destruct J as [w W]. apply divide_mod_eq; [lia|]. clear EA EB I. clearbody a b.
  assert (EA : a = (m + d) ^ 3 + u * n) by lia. assert (EB : b = m ^ 3 + v * n) by lia. clear U V. subst a b.
  exists (m * w + i * (d * u + 2 * d * v - m * u + m * v)).
  replace (d * ((m + d) ^ 3 + u * n + 2 * (m ^ 3 + v * n) - d ^ 3) * i - m)
    with (m * (i * ((m + d) ^ 3 + u * n - (m ^ 3 + v * n) + 2 * d ^ 3) - 1) + i * (d * u + 2 * d * v - m * u + m * v) * n) by ring.
  rewrite W. ring.
Qed.
Print Assumptions C92_related.
Example C92_related_case : let n := 1081 in let c1 := pub_encrypt (mkPub n 3) 700 in let c2 := pub_encrypt (mkPub n 3) ((700 + 7) mod n) in
  c1 = 862 /\ c2 = 290 /\ (275 * (c2 - c1 + 2 * 7 ^ 3)) mod n = 1 /\ (7 * (c2 + 2 * c1 - 7 ^ 3) * 275) mod n = 700.
Proof. vm_compute. repeat split. Qed.

(** ** What gives the primes away *)
Lemma other_exponent k p q d' c rd : key_ok k -> sk_primes k = [p; q] -> 0 <= d' -> (pk_e (sk_pk k) * d') mod ((p - 1) * (q - 1)) = 1 ->
  0 <= c < pk_n (sk_pk k) -> usable (pk_n (sk_pk k)) rd -> priv_decrypt k c rd = Ok (c ^ d' mod pk_n (sk_pk k)).
Proof.
  intros K EP D ED C U. destruct (C82_permutation k c K C) as (m & M & <- & _). rewrite (roundtrip k m rd K M U). f_equal.
  destruct K as ((HP & ND & HN & N0 & D0 & _) & E & H). unfold pub_encrypt. rewrite powmod_ok by lia. rewrite pow_mod_idemp, <- Z.pow_mul_r by lia.
  rewrite HN in *. rewrite EP in *. pose proof (Forall_inv HP) as P1. pose proof (Forall_inv (Forall_inv_tail HP)) as P2. pose proof (prime_ge_2 p P1). pose proof (prime_ge_2 q P2).
  assert (3 <= p) by (pose proof (H p (or_introl eq_refl)) as X; destruct (Z.eq_dec p 2) as [->|]; [rewrite Z.mod_1_r in X; discriminate|lia]).
  assert (3 <= q) by (pose proof (H q (or_intror (or_introl eq_refl))) as X; destruct (Z.eq_dec q 2) as [->|]; [rewrite Z.mod_1_r in X; discriminate|lia]).
  rewrite rsa_identity; [symmetry; apply Z.mod_small; exact M|exact HP|exact ND| |].
  - destruct (Z.eq_dec (pk_e (sk_pk k) * d') 0) as [Z0|Z0]; [rewrite Z0, Zmod_0_l in ED; discriminate|nia].
  - intros r [<-|[<-|[]]]; rewrite <- (mod_divide_mod _ ((p - 1) * (q - 1))); try (rewrite ED; reflexivity); try nia; [exists (q - 1); ring|exists (p - 1); ring].
Qed.
(** The greatest common divisor of two moduli with a prime in common is that prime, and with it anyone decrypts for both. *)
Theorem C92_shared_prime : forall k1 p q1 q2 d' c rd, let n1 := pk_n (sk_pk k1) in let n2 := p * q2 in
  key_ok k1 -> sk_primes k1 = [p; q1] -> prime q2 -> q1 <> q2 ->
  let g := Z.gcd n1 n2 in
  g = p /\
  (0 <= d' -> (pk_e (sk_pk k1) * d') mod ((g - 1) * (n1 / g - 1)) = 1 -> 0 <= c < n1 -> usable n1 rd ->
   priv_decrypt k1 c rd = Ok (c ^ d' mod n1)).
Proof.
  intros k1 p q1 q2 d' c rd n1 n2 K EP P2 NE g. pose proof K as ((HP & ND & HN & N0 & D0 & _) & E & H). rewrite EP in HP, HN.
  pose proof (Forall_inv HP) as P. pose proof (Forall_inv (Forall_inv_tail HP)) as Q1. pose proof (prime_ge_2 p P). pose proof (prime_ge_2 q1 Q1).
  assert (EN : n1 = p * q1) by (unfold n1; rewrite HN; cbn [zprod fold_right]; ring).
  assert (G : g = p) by (unfold g, n2; rewrite EN, Z.gcd_mul_mono_l_nonneg, (primes_coprime q1 q2 Q1 P2 NE) by lia; ring).
  split; [exact G|]. rewrite G, EN, (Z.mul_comm p q1), Z.div_mul by lia. rewrite (Z.mul_comm q1 p), <- EN. intros D ED C U.
  exact (other_exponent k1 p q1 d' c rd K EP D ED C U).
Qed.
Print Assumptions C92_shared_prime.
(** The number of units below n is as good as the primes. *)
Theorem C92_units : forall p q, 0 <= q <= p -> let n := p * q in let s := n + 1 - (p - 1) * (q - 1) in
  p = (s + Z.sqrt (s * s - 4 * n)) / 2 /\ q = (s - Z.sqrt (s * s - 4 * n)) / 2.
Proof.
  intros p q H n s. replace (s * s - 4 * n) with ((p - q) * (p - q)) by (unfold s, n; ring). rewrite Z.sqrt_square by lia.
  replace (s + (p - q)) with (p * 2) by (unfold s, n; ring). replace (s - (p - q)) with (q * 2) by (unfold s, n; ring). rewrite !Z.div_mul by lia. split; reflexivity.
Qed.
Print Assumptions C92_units.
Lemma gcd_one_of_two p q x : prime p -> prime q -> (p | x) -> ~ (q | x) -> Z.gcd x (p * q) = p.
Proof.
  intros P Q [y Y] N. pose proof (prime_ge_2 p P). rewrite Y, (Z.mul_comm y p), Z.gcd_mul_mono_l_nonneg by lia. rewrite (prime_gcd_1 q y Q); [ring|].
  intros [z Z]. apply N. exists (z * p). rewrite Y, Z. ring.
Qed.
(** The exponent d mod (p - 1) that a key object keeps for the first prime: encrypt any number and raise it to that exponent.  The result
    is the number again modulo p, and unless it is so modulo q as well, a greatest common divisor gives p. *)
Theorem C92_crt_exponent : forall k p q pc m, let n := pk_n (sk_pk k) in key_ok k -> sk_primes k = [p; q] -> sk_pre k = Some pc ->
  let y := pub_encrypt (sk_pk k) m ^ pc_dp pc - m in
  (p | y) /\ (~ (q | y) -> Z.gcd y n = p).
Proof.
  intros k p q pc m n K EP PC y. pose proof K as ((HP & ND & HN & N0 & D0 & PO) & E & H). rewrite EP in HP, HN.
  pose proof (Forall_inv HP) as P. pose proof (Forall_inv (Forall_inv_tail HP)) as Q. pose proof (prime_ge_2 p P). pose proof (prime_ge_2 q Q).
  assert (EN : n = p * q) by (unfold n; rewrite HN; cbn [zprod fold_right]; ring).
  assert (DP : pc_dp pc = sk_d k mod (p - 1)).
  { destruct PO as [X|(p' & q' & ps & E1 & E2)]; [congruence|]. rewrite EP in E1. injection E1 as <- <- <-. rewrite PC in E2. injection E2 as ->. reflexivity. }
  pose proof (key_ok_exp k K p ltac:(rewrite EP; left; reflexivity)) as NZ. assert (PM : 0 < p - 1) by lia. pose proof (Z.mod_pos_bound (sk_d k) (p - 1) PM).
  assert (PY : (p | y)).
  { unfold y. rewrite DP. apply mod_eq_divide; [lia|]. rewrite pow_exp_mod_pos by (assumption || lia). unfold pub_encrypt. fold n. rewrite powmod_ok by lia.
    rewrite <- (pow_mod_idemp _ (sk_d k)), mod_divide_mod, pow_mod_idemp by (try lia; exists q; lia).
    pose proof (key_ok_ident k m K) as ID. fold n in ID. rewrite <- (mod_divide_mod _ n p), ID, mod_divide_mod by (try lia; exists q; lia). reflexivity. }
  split; [exact PY|]. intros NQ. rewrite EN. exact (gcd_one_of_two p q y P Q PY NQ).
Qed.
Print Assumptions C92_crt_exponent.
(** A private exponent: every number coprime to n raised to e d - 1 is 1, and a square root of 1 met on the way that is neither 1 nor
    n - 1 gives a prime. *)
Theorem C92_private_exponent : forall k p q, let n := pk_n (sk_pk k) in key_ok k -> sk_primes k = [p; q] ->
  (forall g, Z.gcd g n = 1 -> g ^ (pk_e (sk_pk k) * sk_d k - 1) mod n = 1) /\
  (forall x, (x * x) mod n = 1 -> x mod n <> 1 -> x mod n <> n - 1 -> Z.gcd (x - 1) n = p \/ Z.gcd (x - 1) n = q).
Proof.
  intros k p q n K EP. pose proof (key_ok_ed k K) as EE. pose proof K as ((HP & ND & HN & N0 & D0 & PO) & E & H). rewrite EP in HP, HN, ND.
  pose proof (Forall_inv HP) as P. pose proof (Forall_inv (Forall_inv_tail HP)) as Q. pose proof (prime_ge_2 p P). pose proof (prime_ge_2 q Q).
  assert (EN : n = p * q) by (unfold n; rewrite HN; cbn [zprod fold_right]; ring). assert (N1 : 1 < n) by exact N0.
  assert (PQ : Z.gcd p q = 1) by (apply primes_coprime; [exact P|exact Q|]; intros X; inversion ND as [|? ? NI _]; apply NI; left; symmetry; exact X).
  split.
  - intros g G. pose proof (key_ok_ident k g K) as ID. fold n in ID. rewrite <- Z.pow_mul_r in ID by lia. set (u := pk_e (sk_pk k) * sk_d k) in *.
    apply mod_eq_divide in ID; [|lia]. replace (g ^ u - g) with (g * (g ^ (u - 1) - 1)) in ID
      by (replace u with (Z.succ (u - 1)) at 2 by lia; rewrite Z.pow_succ_r by lia; ring).
    apply Z.gauss in ID; [|rewrite Z.gcd_comm; exact G]. rewrite (divide_mod_eq _ 1 n ltac:(lia) ID). apply Z.mod_small. lia.
  - intros x X X1 X2. assert (D : (n | (x - 1) * (x + 1))).
    { replace ((x - 1) * (x + 1)) with (x * x - 1) by ring. apply mod_eq_divide; [lia|]. rewrite X. symmetry. apply Z.mod_small. lia. }
    assert (A : (p | x - 1) \/ (p | x + 1)) by (apply prime_div_mult_or; [exact P|]; destruct D as [z Z]; exists (z * q); rewrite Z, EN; ring).
    assert (B : (q | x - 1) \/ (q | x + 1)) by (apply prime_div_mult_or; [exact Q|]; destruct D as [z Z]; exists (z * p); rewrite Z, EN; ring).
    assert (C1 : ~ ((p | x - 1) /\ (q | x - 1))).
    { intros [Y Z]. apply X1. rewrite (divide_mod_eq x 1 n); [apply Z.mod_small; lia|lia|]. rewrite EN. apply coprime_divide_mul; assumption. }
    assert (C2 : ~ ((p | x + 1) /\ (q | x + 1))).
    { intros [Y Z]. apply X2. rewrite (divide_mod_eq x (n - 1) n); [apply Z.mod_small; lia|lia|]. replace (x - (n - 1)) with (x + 1 - n) by ring.
      apply Z.divide_sub_r; [rewrite EN; apply coprime_divide_mul; assumption|apply Z.divide_refl]. }
    rewrite EN. destruct A as [A|A].
    + left. apply gcd_one_of_two; [exact P|exact Q|exact A|]. intros Z. exact (C1 (conj A Z)).
    + right. rewrite (Z.mul_comm p q). destruct B as [B|B]; [|destruct (C2 (conj A B))]. apply gcd_one_of_two; [exact Q|exact P|exact B|]. intros Z. exact (C1 (conj Z B)).
Qed.
Print Assumptions C92_private_exponent.
Definition key_small : privkey := mk_key [1009; 1013] 17 180017.
Lemma key_small_ok : key_ok key_small. Proof. apply (key_check_ok 255). vm_compute. reflexivity. Qed.
Example C92_primes_case : key_ok key_small /\ sk_primes key_small = [1009; 1013] /\ prime 1019 /\ Z.gcd (pk_n (sk_pk key_small)) (1009 * 1019) = 1009 /\
  (17 * 180017) mod ((1009 - 1) * (1013 - 1)) = 1 /\ usable (pk_n (sk_pk key_small)) (Some [77]) /\
  (let y := pub_encrypt (sk_pk key_small) 2 ^ (180017 mod 1008) - 2 in y mod 1013 <> 0 /\ Z.gcd y (pk_n (sk_pk key_small)) = 1009) /\
  (511564 * 511564) mod pk_n (sk_pk key_small) = 1 /\ Z.gcd (511564 - 1) (pk_n (sk_pk key_small)) = 1009.
Proof.
  split; [exact key_small_ok|]. split; [reflexivity|]. split; [apply (primeb_ok 64); vm_compute; reflexivity|]. split; [vm_compute; reflexivity|].
  split; [vm_compute; reflexivity|]. split; [left; vm_compute; reflexivity|]. split; [vm_compute; split; [discriminate|reflexivity]|]. split; vm_compute; reflexivity.
Qed.
