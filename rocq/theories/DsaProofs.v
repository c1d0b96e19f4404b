(** DSA: the model of dsa.rs against FIPS 186-4. *)
From Coq Require Import Znumtheory.
From Verif Require Import Base HashModel HashApi NumTheory RsaModel RsaProofs RsaEncModel RsaEncProofs RsaSigProofs DsaModel DsaSpec.

(** ** A polynomial of degree n has at most n roots modulo a prime *)
Fixpoint peval (x : Z) (l : list Z) : Z := match l with [] => 0 | c :: l => c + x * peval x l end.
Fixpoint pquot (a : Z) (l : list Z) : list Z := match l with [] => [] | _ :: t => match t with [] => [] | _ => peval a t :: pquot a t end end.
Lemma pquot_ok a x l : peval x l - peval a l = (x - a) * peval x (pquot a l).
Proof.
  induction l as [|c l IH]; [cbn; ring|]. cbn [peval pquot]. destruct l as [|c' l]; [cbn; ring|].
  cbn [peval] in *. change (pquot a (c' :: l)) with (pquot a (c' :: l)) in *.
  set (q := pquot a (c' :: l)) in *. replace (c + x * (c' + x * peval x l) - (c + a * (c' + a * peval a l)))
    with (x * (c' + x * peval x l - (c' + a * peval a l)) + (x - a) * (c' + a * peval a l)) by ring.
  rewrite IH. ring.
Qed.
Lemma pquot_length a l : length (pquot a l) = (length l - 1)%nat.
Proof. induction l as [|c l IH]; [reflexivity|]. cbn [pquot]. destruct l as [|c' l]; [reflexivity|]. cbn [length] in *. rewrite IH. cbn. lia. Qed.
Lemma pquot_last a l : (2 <= length l)%nat -> last (pquot a l) 0 = last l 0.
Proof.
  induction l as [|c l IH]; [cbn; lia|]. intros L. destruct l as [|c' l]; [cbn in L; lia|]. destruct l as [|c'' l].
  - cbn. ring.
  - change (pquot a (c :: c' :: c'' :: l)) with (peval a (c' :: c'' :: l) :: pquot a (c' :: c'' :: l)).
    change (last (c :: c' :: c'' :: l) 0) with (last (c' :: c'' :: l) 0). rewrite <- IH by (cbn; lia).
    change (pquot a (c' :: c'' :: l)) with (peval a (c'' :: l) :: pquot a (c'' :: l)). reflexivity.
Qed.
Lemma poly_roots p : prime p -> forall n l roots, length l = n -> ~ (p | last l 0) -> NoDup roots -> (forall x, In x roots -> 0 <= x < p /\ (p | peval x l)) ->
  (length roots <= n - 1)%nat.
Proof.
  intros P. induction n as [|n IH]; intros l roots L LC ND R.
  - destruct l; [|discriminate]. exfalso. apply LC. cbn. apply Z.divide_0_r.
  - destruct roots as [|a roots]; [cbn; lia|]. destruct l as [|c l]; [discriminate|]. destruct l as [|c' l].
    + exfalso. apply LC. destruct (R a (or_introl eq_refl)) as [_ D]. cbn in *. rewrite Z.mul_0_r, Z.add_0_r in D. exact D.
    + inversion ND as [|? ? NI ND']; subst. specialize (IH (pquot a (c :: c' :: l)) roots).
      cbn [length] in L |- *. assert (LN : length (pquot a (c :: c' :: l)) = n) by (rewrite pquot_length; cbn [length]; lia).
      assert (length roots <= n - 1)%nat; [|cbn [length] in *; lia]. apply IH; [exact LN| |exact ND'|].
      * rewrite pquot_last by (cbn; lia). exact LC.
      * intros x Ix. destruct (R x (or_intror Ix)) as [Rx Dx]. split; [exact Rx|]. destruct (R a (or_introl eq_refl)) as [Ra Da].
        pose proof (pquot_ok a x (c :: c' :: l)) as E. assert (D : (p | (x - a) * peval x (pquot a (c :: c' :: l)))) by (rewrite <- E; apply Z.divide_sub_r; assumption).
        destruct (prime_div_mult_or p _ _ P D) as [[k K]|H]; [|exact H]. exfalso. assert (x - a = 0).
        { assert (k = 0) by nia. subst k. lia. }
        apply NI. replace a with x by lia. exact Ix.
Qed.
Lemma peval_power x n : peval x (repeat 0 n ++ [1]) = x ^ Z.of_nat n.
Proof. induction n as [|n IH]; [cbn [repeat app peval]; change (Z.of_nat 0) with 0; rewrite Z.pow_0_r; ring|]. cbn [repeat app peval]. rewrite IH, Nat2Z.inj_succ, Z.pow_succ_r by lia. ring. Qed.
(** Not every residue is a root of x^e - 1 when e < p - 1. *)
Lemma power_one_bound p e : prime p -> 1 <= e -> (forall x, 1 <= x < p -> x ^ e mod p = 1) -> p - 1 <= e.
Proof.
  intros P E H. pose proof (prime_ge_2 p P) as P2.
  pose proof (poly_roots p P (Z.to_nat e + 1) (-1 :: repeat 0 (Z.to_nat e - 1) ++ [1]) (residues p)) as B.
  assert (LR : length (residues p) = Z.to_nat (p - 1)) by (unfold residues; rewrite map_length, seq_length; reflexivity). rewrite LR in B.
  assert (Z.to_nat (p - 1) <= Z.to_nat e + 1 - 1)%nat; [|lia]. apply B.
  - cbn [length]. rewrite app_length, repeat_length. cbn. lia.
  - replace (-1 :: repeat 0 (Z.to_nat e - 1) ++ [1]) with ((-1 :: repeat 0 (Z.to_nat e - 1)) ++ [1]) by reflexivity. rewrite last_last. intros D. apply Z.divide_1_r_nonneg in D; lia.
  - apply residues_nodup.
  - intros x Ix. apply residues_in in Ix. split; [lia|]. cbn [peval]. rewrite peval_power.
    replace (-1 + x * x ^ Z.of_nat (Z.to_nat e - 1)) with (x ^ e - 1).
    + apply mod_eq_divide; [lia|]. rewrite H by lia. rewrite Z.mod_1_l by lia. reflexivity.
    + replace e with (Z.succ (Z.of_nat (Z.to_nat e - 1))) at 1 by lia. rewrite Z.pow_succ_r by lia. ring.
Qed.

(** ** Powers of an element of order q *)
Lemma pow_order g p q a : 1 < p -> 0 < q -> g ^ q mod p = 1 -> 0 <= a -> g ^ (a mod q) mod p = g ^ a mod p.
Proof.
  intros P Q G A. rewrite (Z.div_mod a q) at 2 by lia. rewrite Z.pow_add_r by (try apply Z.mul_nonneg_nonneg; try (apply Z.div_pos; lia); try (apply Z.mod_pos_bound; lia); lia).
  rewrite Z.pow_mul_r by (try apply Z.div_pos; lia).
  rewrite Z.mul_mod by lia. rewrite <- (pow_mod_idemp (g ^ q)) by (apply Z.div_pos; lia). rewrite G, Z.pow_1_l by (apply Z.div_pos; lia).
  rewrite Z.mod_1_l by lia. rewrite Z.mul_1_l, Z.mod_mod by lia. reflexivity.
Qed.
Lemma pow_order_eq g p q a b : 1 < p -> 0 < q -> g ^ q mod p = 1 -> 0 <= a -> 0 <= b -> a mod q = b mod q -> g ^ a mod p = g ^ b mod p.
Proof. intros P Q G A B E. rewrite <- (pow_order g p q a), <- (pow_order g p q b), E by assumption. reflexivity. Qed.

(** ** Parameter generation *)
Lemma find_g_ok p q : prime p -> prime q -> (q | p - 1) -> forall fuel h g, 2 <= h -> (forall x, 1 <= x < h -> x ^ ((p - 1) / q) mod p = 1) ->
  find_g fuel h ((p - 1) / q) p = Some g -> 1 < g < p /\ g ^ q mod p = 1.
Proof.
  intros P Q D. pose proof (prime_ge_2 p P) as P2. pose proof (prime_ge_2 q Q) as Q2. destruct D as [e E].
  assert (E0 : (p - 1) / q = e) by (rewrite E; apply Z.div_mul; lia). rewrite E0.
  assert (E1 : 1 <= e) by nia. assert (E2 : e < p - 1) by nia.
  induction fuel as [|fuel IH]; intros h g H A F; [discriminate|]. cbn [find_g] in F. rewrite powmod_ok in F by lia.
  assert (HP : h < p). { destruct (Z.lt_ge_cases h p) as [|G]; [assumption|]. exfalso. enough (p - 1 <= e) by lia. apply power_one_bound; [exact P|exact E1|]. intros x Hx. apply A. lia. }
  destruct (Z.eqb_spec (h ^ e mod p) 1) as [X|X].
  - apply (IH (h + 1)); [lia| |exact F]. intros x Hx. destruct (Z.eq_dec x h) as [->|]; [exact X|]. apply A. lia.
  - injection F as <-. assert (ND : ~ (p | h)) by (intros D'; apply Z.divide_pos_le in D'; lia).
    pose proof (Z.mod_pos_bound (h ^ e) p ltac:(lia)) as R. assert (h ^ e mod p <> 0).
    { intros Z0. apply Z.mod_divide in Z0; [|lia]. apply ND. clear -P Z0 E1. revert Z0. 
      assert (G : forall n, (p | h ^ Z.of_nat n) -> (p | h)).
      { induction n as [|n IH]; [cbn; intros D; apply Z.divide_1_r_nonneg in D; pose proof (prime_ge_2 p P); lia|].
        rewrite Nat2Z.inj_succ, Z.pow_succ_r by lia. intros D. destruct (prime_div_mult_or p _ _ P D); auto. }
      intros D. apply (G (Z.to_nat e)). rewrite Z2Nat.id by lia. exact D. }
    split; [lia|]. rewrite pow_mod_idemp by lia. rewrite <- Z.pow_mul_r by lia. rewrite <- E. apply fermat; assumption.
Qed.
Lemma find_g_some p q : prime p -> prime q -> (q | p - 1) -> forall fuel h, 2 <= h <= p -> (forall x, 1 <= x < h -> x ^ ((p - 1) / q) mod p = 1) ->
  p - h < Z.of_nat fuel -> exists g, find_g fuel h ((p - 1) / q) p = Some g.
Proof.
  intros P Q D. pose proof (prime_ge_2 p P) as P2. pose proof (prime_ge_2 q Q) as Q2. destruct D as [e E].
  assert (E0 : (p - 1) / q = e) by (rewrite E; apply Z.div_mul; lia). rewrite E0.
  assert (E1 : 1 <= e) by nia. assert (E2 : e < p - 1) by nia.
  induction fuel as [|fuel IH]; intros h H A F; [lia|]. cbn [find_g]. rewrite powmod_ok by lia.
  assert (HP : h < p). { destruct (Z.lt_ge_cases h p) as [|G]; [assumption|]. exfalso. enough (p - 1 <= e) by lia. apply power_one_bound; [exact P|exact E1|]. intros x Hx. apply A. lia. }
  destruct (Z.eqb_spec (h ^ e mod p) 1) as [X|X]; [|eexists; reflexivity].
  apply IH; [lia| |lia]. intros x Hx. destruct (Z.eq_dec x h) as [->|]; [exact X|]. apply A. lia.
Qed.
Lemma find_g_mono fuel : forall fuel' h e p g, (fuel <= fuel')%nat -> find_g fuel h e p = Some g -> find_g fuel' h e p = Some g.
Proof.
  induction fuel as [|fuel IH]; intros fuel' h e p g L F; [discriminate|]. destruct fuel' as [|fuel']; [lia|]. cbn [find_g] in *.
  destruct (_ =? 1); [apply IH; [lia|exact F]|exact F].
Qed.

Lemma byte_lor' x y : byte x -> byte y -> byte (Z.lor x y).
Proof.
  unfold byte. intros X Y. split; [apply Z.lor_nonneg; lia|]. destruct (Z.eq_dec (Z.lor x y) 0) as [->|N]; [lia|].
  assert (0 <= Z.lor x y) by (apply Z.lor_nonneg; lia). apply (Z.log2_lt_pow2 _ 8); [lia|]. rewrite Z.log2_lor by lia.
  apply Z.max_lub_lt; [destruct (Z.eq_dec x 0) as [->|]; [cbn; lia|]|destruct (Z.eq_dec y 0) as [->|]; [cbn; lia|]]; apply Z.log2_lt_pow2; lia.
Qed.
Lemma or_last_ok l : bytes l -> bytes (or_last l) /\ length (or_last l) = length l.
Proof.
  intros B. unfold or_last. pose proof (rev_length l) as L. assert (BR : bytes (rev l)) by (apply Forall_rev, B).
  destruct (rev l) as [|x r]; [cbn in L; rewrite <- L; split; [constructor|reflexivity]|]. inversion BR; subst. split.
  - apply Forall_rev. constructor; [apply byte_lor'; [assumption|unfold byte; lia]|assumption].
  - rewrite rev_length. exact L.
Qed.
Lemma or_first_ok l : bytes l -> bytes (or_first l) /\ length (or_first l) = length l.
Proof. intros B. destruct l as [|x l]; [split; [constructor|reflexivity]|]. inversion B; subst. split; [|reflexivity]. constructor; [apply byte_lor'; [assumption|unfold byte; lia]|assumption]. Qed.
Lemma p_bytes_bound n ws : 0 <= be_val (p_bytes n ws) < 256 ^ Z.of_nat n.
Proof.
  assert (B0 : bytes (firstn n (flat_map (be_bytes 4) ws))).
  { apply Forall_firstn'. apply Forall_forall. intros x I. apply in_flat_map in I. destruct I as (y & _ & Iy). pose proof (be_bytes_bytes 4 y) as B. exact (proj1 (Forall_forall byte _) B x Iy). }
  destruct (or_last_ok _ B0) as [B1 L1]. destruct (or_first_ok _ B1) as [B2 L2]. unfold p_bytes. pose proof (be_val_bound _ B2) as V. rewrite L2, L1, firstn_length in V.
  split; [lia|]. assert (256 ^ Z.of_nat (Nat.min n (length (flat_map (be_bytes 4) ws))) <= 256 ^ Z.of_nat n) by (apply Z.pow_le_mono_r; lia). lia.
Qed.
Lemma p_adjust_ok p q : 0 < q -> p_adjust p q mod q = 1 mod q /\ p_adjust p q <= p + 1.
Proof.
  intros Q. unfold p_adjust. pose proof (Z.mod_pos_bound p q Q). destruct (Z.eqb_spec (p mod q) 0) as [E|E]; (split; [|lia]).
  - rewrite Z.add_mod, E, Z.add_0_l, Z.mod_mod by lia. reflexivity.
  - apply divide_mod_eq; [exact Q|]. replace (p + 1 - p mod q - 1) with (p - p mod q) by ring. exists (p / q). rewrite (Z.div_mod p q) at 1 by lia. ring.
Qed.
Definition test_sound (a : dsa_attempt) : Prop := forall i x, at_test a i x = true -> prime x.
Lemma try_p_ok (l q8 : nat) q cand test : (l = 8 * q8)%nat -> (0 < q8)%nat -> prime q -> (forall i x, test i x = true -> prime x) ->
  forall rounds i p, try_p l q cand test i rounds = Some p -> prime p /\ bits_len p = l /\ (q | p - 1).
Proof.
  intros EL L8 Q T. pose proof (prime_ge_2 q Q) as Q2. induction rounds as [|rounds IH]; intros i p F; [discriminate|]. cbn [try_p] in F.
  set (p0 := be_val (p_bytes (l / 8) (cand i))) in *. destruct (Nat.ltb_spec (bits_len (p_adjust p0 q)) l) as [B|B]; [apply (IH _ _ F)|].
  destruct (test i (p_adjust p0 q)) eqn:TT; cbn [negb] in F; [|apply (IH _ _ F)]. injection F as <-. pose proof (T _ _ TT) as PP.
  destruct (p_adjust_ok p0 q ltac:(lia)) as [M UB]. split; [exact PP|]. split; [|apply mod_eq_divide; [lia|exact M]].
  pose proof (p_bytes_bound (l / 8) (cand i)) as PB. fold p0 in PB. rewrite pow256 in PB.
  assert (E8 : (8 * (l / 8) = l)%nat) by (rewrite EL, (Nat.mul_comm 8 q8), Nat.div_mul by lia; lia). rewrite E8 in PB.
  apply Nat.le_antisymm; [|exact B]. apply bits_len_bound. pose proof (prime_ge_2 _ PP). split; [lia|].
  destruct (Z.eq_dec (p_adjust p0 q) (2 ^ Z.of_nat l)) as [E|]; [|lia]. exfalso. rewrite E in PP.
  assert (D : (2 | 2 ^ Z.of_nat l)). { replace (Z.of_nat l) with (Z.succ (Z.of_nat (l - 1))) by lia. rewrite Z.pow_succ_r by lia. apply Z.divide_factor_l. }
  assert (2 ^ 8 <= 2 ^ Z.of_nat l) by (apply Z.pow_le_mono_r; lia). change (2 ^ 8) with 256 in *.
  destruct (prime_divisors _ PP 2 D) as [C|[C|[C|C]]]; lia.
Qed.
Lemma generate_parameters_ok fuel l q8 nl atts dp : (l = 8 * q8)%nat -> (0 < q8)%nat ->
  Forall (fun a => test_sound a /\ (forall q, at_q a = Some q -> prime q /\ bits_len q = nl)) atts ->
  generate_parameters fuel l atts = Ok dp -> DSA_params (Z.of_nat l) (Z.of_nat nl) (dp_p dp) (dp_q dp) (dp_g dp).
Proof.
  intros EL L8. induction atts as [|a atts IH]; intros F G; [discriminate|]. inversion F as [|? ? [T Hq] F']; subst. cbn [generate_parameters] in G.
  destruct (at_q a) as [q|]; [|discriminate]. destruct (Hq q eq_refl) as [Q QB]. destruct (try_p _ _ _ _ _ _) as [p|] eqn:TP; [|apply (IH F' G)].
  destruct (find_g _ _ _ _) as [g|] eqn:FG; [|discriminate]. injection G as <-. cbn [dp_p dp_q dp_g].
  destruct (try_p_ok (8 * q8) q8 q _ _ eq_refl L8 Q T _ _ _ TP) as (P & PB & D). pose proof (prime_ge_2 p P). pose proof (prime_ge_2 q Q).
  destruct (find_g_ok p q P Q D _ _ _ (Z.le_refl 2) ltac:(intros x Hx; replace x with 1 by lia; rewrite Z.pow_1_l by (apply Z.div_pos; lia); apply Z.mod_1_l; lia) FG) as [G1 G2].
  assert (BB : forall x k, 0 < x -> bits_len x = k -> 2 ^ (Z.of_nat k - 1) <= x < 2 ^ Z.of_nat k).
  { intros x k X <-. destruct (bits_len_lower x X) as [B1 B2]. split; [|apply bits_len_upper; lia]. replace (Z.of_nat (bits_len x) - 1) with (Z.of_nat (bits_len x - 1)) by lia. exact B2. }
  exact (conj P (conj Q (conj (BB p _ ltac:(lia) PB) (conj (BB q _ ltac:(lia) QB) (conj D (conj G1 G2)))))).
Qed.
Lemma generate_key_ok dp draws sk : 0 < dp_p dp -> Forall (fun x => 0 <= x) draws -> dsa_generate_key dp draws = Ok sk ->
  dk_dp (ds_pk sk) = dp /\ DSA_key (dp_p dp) (dp_q dp) (dp_g dp) (ds_x sk) (dk_y (ds_pk sk)).
Proof.
  intros P. induction draws as [|x draws IH]; intros F G; [discriminate|]. inversion F; subst. cbn [dsa_generate_key] in G.
  destruct (Z.eqb_spec x 0); cbn [negb andb] in G; [auto|]. destruct (Z.ltb_spec x (dp_q dp)); [|auto]. injection G as <-. cbn. split; [reflexivity|].
  split; [lia|]. apply powmod_ok. lia.
Qed.

(** ** Signing *)
Lemma next_k_ok draws k rest : next_k draws = Some (k, rest) -> 0 < k /\ In k draws /\ exists a, draws = a ++ k :: rest /\ Forall (fun x => x <= 0) a.
Proof.
  induction draws as [|d draws IH]; [discriminate|]. cbn [next_k]. destruct (Z.eqb_spec (Z.sgn d) 1) as [S|S].
  - intros [= <- <-]. apply Z.sgn_pos_iff in S. split; [exact S|]. split; [left; reflexivity|]. exists []. split; [reflexivity|constructor].
  - intros E. destruct (IH E) as (H1 & H2 & a & H3 & H4). split; [exact H1|]. split; [right; exact H2|]. exists (d :: a). rewrite H3. split; [reflexivity|].
    constructor; [|exact H4]. destruct (Z.lt_trichotomy d 0) as [|[|C]]; [lia|lia|]. apply Z.sgn_pos_iff in C. contradiction.
Qed.
Lemma one_sign dp x z k (Q : prime (dp_q dp)) : 2 < dp_q dp -> 0 < dp_p dp -> 0 < k ->
  let r := powmod (dp_g dp) k (dp_p dp) mod dp_q dp in
  let s := (((x * r + z) mod dp_q dp) * fermat_inverse k (dp_q dp)) mod dp_q dp in
  Z.sgn r = 1 -> Z.sgn s = 1 -> DSA_signature (dp_p dp) (dp_q dp) (dp_g dp) x z k r s.
Proof.
  intros Q3 P K r s Hr Hs. apply Z.sgn_pos_iff in Hr, Hs.
  assert (Rr : r < dp_q dp) by (apply Z.mod_pos_bound; lia). assert (Rs : s < dp_q dp) by (apply Z.mod_pos_bound; lia).
  split; [unfold r; rewrite powmod_ok by lia; reflexivity|]. split; [lia|]. split; [lia|].
  assert (ND : ~ (dp_q dp | k)).
  { intros D. apply (Z.lt_irrefl 0). replace 0 with s at 2; [exact Hs|]. unfold s, fermat_inverse. rewrite powmod_ok by lia.
    rewrite <- pow_mod_idemp by lia. rewrite (proj2 (Z.mod_divide k (dp_q dp) ltac:(lia)) D). rewrite Z.pow_0_l by lia. rewrite Z.mod_0_l, Z.mul_0_r, Z.mod_0_l by lia. reflexivity. }
  pose proof (fermat_inverse_ok _ _ Q ND) as FI. unfold s, fermat_inverse. rewrite powmod_ok by lia.
  rewrite Z.mul_mod_idemp_l by lia. rewrite <- Z.mul_assoc. rewrite <- Z.mul_mod_idemp_r by lia. rewrite FI, Z.mul_1_r, Z.mod_mod by lia. f_equal. ring.
Qed.
Lemma sign_loop_ok tries dp x z (Q : prime (dp_q dp)) : 2 < dp_q dp -> 0 < dp_p dp -> forall draws r s, sign_loop tries dp x z draws = Ok (r, s) ->
  exists k, In k draws /\ 0 < k /\ DSA_signature (dp_p dp) (dp_q dp) (dp_g dp) x z k r s.
Proof.
  intros Q3 P. induction tries as [|tries IH]; intros draws r s E; [discriminate|]. cbn [sign_loop] in E. destruct (next_k draws) as [[k rest]|] eqn:NK; [|discriminate].
  destruct (next_k_ok _ _ _ NK) as (K & IK & a & EA & _).
  assert (G : sign_loop tries dp x z rest = Ok (r, s) -> exists k, In k draws /\ 0 < k /\ DSA_signature (dp_p dp) (dp_q dp) (dp_g dp) x z k r s).
  { intros E'. destruct (IH _ _ _ E') as (k' & I1 & I2 & I3). exists k'. split; [|auto]. rewrite EA. apply in_or_app. right. right. exact I1. }
  pose proof (one_sign dp x z k Q Q3 P K) as O1. cbv zeta in O1. set (r0 := powmod (dp_g dp) k (dp_p dp) mod dp_q dp) in *.
  destruct (Z.eqb_spec (Z.sgn r0) 1) as [R|R]; cbn [negb] in E; [|exact (G E)].
  destruct (Z.eqb_spec (Z.sgn (((x * r0 + z) mod dp_q dp * fermat_inverse k (dp_q dp)) mod dp_q dp)) 1) as [S|S]; [|exact (G E)].
  injection E as <- <-. exists k. split; [exact IK|]. split; [exact K|]. exact (O1 R S).
Qed.
(** The first positive draw is used when it gives a signature. *)
Lemma sign_loop_first tries dp x z (Q : prime (dp_q dp)) k draws r s a : 2 < dp_q dp -> 0 < dp_p dp -> 0 < k < dp_q dp -> Forall (fun x => x <= 0) a ->
  DSA_signature (dp_p dp) (dp_q dp) (dp_g dp) x z k r s -> sign_loop (S tries) dp x z (a ++ k :: draws) = Ok (r, s).
Proof.
  intros Q3 P K A (Hr & Rr & Rs & HS). cbn [sign_loop].
  assert (NK : next_k (a ++ k :: draws) = Some (k, draws)).
  { clear -A K. induction a as [|y a IH]; cbn [app next_k].
    - rewrite (proj2 (Z.eqb_eq _ _)); [reflexivity|]. apply Z.sgn_pos_iff, K.
    - inversion A; subst. rewrite (proj2 (Z.eqb_neq _ _)); [apply IH; assumption|]. intros S. apply Z.sgn_pos_iff in S. lia. }
  rewrite NK. rewrite powmod_ok by lia. rewrite <- Hr. rewrite (proj2 (Z.eqb_eq (Z.sgn r) 1)) by (apply Z.sgn_pos_iff; lia). cbn [negb].
  assert (ND : ~ (dp_q dp | k)) by (intros D'; apply Z.divide_pos_le in D'; lia).
  pose proof (fermat_inverse_ok _ _ Q ND) as FI. unfold fermat_inverse. rewrite powmod_ok by lia.
  assert (E : ((x * r + z) mod dp_q dp * (k ^ (dp_q dp - 2) mod dp_q dp)) mod dp_q dp = s).
  { rewrite Z.add_comm, <- HS. rewrite Z.mul_mod_idemp_l by lia. rewrite <- Z.mul_assoc, (Z.mul_comm k). rewrite <- Z.mul_mod_idemp_r by lia. rewrite FI, Z.mul_1_r. apply Z.mod_small. lia. }
  rewrite E. rewrite (proj2 (Z.eqb_eq (Z.sgn s) 1)) by (apply Z.sgn_pos_iff; lia). reflexivity.
Qed.
(** With ten positive draws the loop ends, with a signature or with an error. *)
Definition positives (draws : list Z) : nat := length (filter (fun k => 0 <? k) draws).
Lemma next_k_pos draws : (0 < positives draws)%nat -> exists k rest, next_k draws = Some (k, rest) /\ positives draws = S (positives rest).
Proof.
  unfold positives. induction draws as [|d draws IH]; [cbn; lia|]. cbn [filter next_k]. destruct (Z.ltb_spec 0 d) as [L|L].
  - intros _. rewrite (proj2 (Z.eqb_eq _ _)) by (apply Z.sgn_pos_iff; exact L). exists d, draws. split; reflexivity.
  - intros H. rewrite (proj2 (Z.eqb_neq _ _)) by (intros S; apply Z.sgn_pos_iff in S; lia). exact (IH H).
Qed.
Lemma sign_loop_total dp x z : forall tries draws, (tries <= positives draws)%nat ->
  (exists r s, sign_loop tries dp x z draws = Ok (r, s)) \/ sign_loop tries dp x z draws = Err InvalidPrivateKey.
Proof.
  induction tries as [|tries IH]; intros draws L; [right; reflexivity|]. cbn [sign_loop]. destruct (next_k_pos draws ltac:(lia)) as (k & rest & E & C). rewrite E.
  assert (G := IH rest ltac:(lia)). destruct (negb _); [exact G|]. destruct (_ =? 1); [left; eexists; eexists; reflexivity|exact G].
Qed.

(** ** The digest as a number *)
Lemma dsa_z_ok N hm t : bytes hm -> (N = 8 * t)%nat -> be_val (firstn (Nat.min (length hm) t) hm) = DSA_z (Z.of_nat N) hm.
Proof.
  intros B ->. unfold DSA_z. destruct (Nat.le_gt_cases (length hm) t) as [L|L].
  - rewrite Nat.min_l, firstn_all by lia. rewrite Z.min_r by lia. rewrite Z.sub_diag. cbn. rewrite Z.div_1_r. reflexivity.
  - rewrite Nat.min_r by lia. rewrite Z.min_l by lia. rewrite <- (firstn_skipn t hm) at 2. rewrite be_val_app.
    pose proof (be_val_bound (skipn t hm) ltac:(rewrite <- (firstn_skipn t hm) in B; apply bytes_app in B; apply B)) as V. rewrite skipn_length in *.
    replace (8 * Z.of_nat (length hm) - Z.of_nat (8 * t)) with (8 * Z.of_nat (length hm - t)) by lia.
    rewrite Z.pow_mul_r by lia. change (2 ^ 8) with 256. rewrite Z.div_add_l by lia. rewrite Z.div_small by lia. lia.
Qed.
Lemma dsa_z_short N hm : (8 * Z.of_nat (length hm) <= N) -> DSA_z N hm = be_val hm.
Proof. intros L. unfold DSA_z. rewrite Z.min_r by lia. rewrite Z.sub_diag. apply Z.div_1_r. Qed.

(** ** Verification of an own signature *)
Lemma own_value p q g x y z z' k r s w : 1 < p -> prime q -> g ^ q mod p = 1 -> 0 <= x -> y = g ^ x mod p -> 0 <= z -> 0 <= z' -> 0 < k ->
  DSA_signature p q g x z k r s -> 0 <= w < q -> (s * w) mod q = 1 ->
  (g ^ ((z' * w) mod q) * y ^ ((r * w) mod q)) mod p = g ^ ((k + (z' - z) * w) mod q) mod p.
Proof.
  intros P Q G X -> Z0 Z0' K (Hr & Rr & Rs & HS) W HW. pose proof (prime_ge_2 q Q) as Q2.
  pose proof (Z.mod_pos_bound (z' * w) q ltac:(lia)) as B1. pose proof (Z.mod_pos_bound (r * w) q ltac:(lia)) as B2.
  set (u1 := (z' * w) mod q) in *. set (u2 := (r * w) mod q) in *.
  assert (E1 : (g ^ u1 * (g ^ x mod p) ^ u2) mod p = g ^ (u1 + x * u2) mod p).
  { rewrite Z.mul_mod, pow_mod_idemp, <- Z.mul_mod by lia. rewrite <- Z.pow_mul_r by lia. rewrite Z.pow_add_r; [reflexivity|lia|apply Z.mul_nonneg_nonneg; lia]. }
  rewrite E1. apply (pow_order_eq g p q); [exact P|lia|exact G|apply Z.add_nonneg_nonneg; [lia|apply Z.mul_nonneg_nonneg; lia]|apply Z.mod_pos_bound; lia|].
  rewrite Z.mod_mod by lia. unfold u1, u2. rewrite Z.add_mod_idemp_l by lia. rewrite <- Z.add_mod_idemp_r by lia. rewrite (Z.mul_mod_idemp_r x) by lia. rewrite Z.add_mod_idemp_r by lia.
  apply divide_mod_eq; [lia|]. apply mod_eq_divide in HS; [|lia]. assert (HW' : (s * w) mod q = 1 mod q) by (rewrite HW, Z.mod_1_l by lia; reflexivity).
  apply mod_eq_divide in HW'; [|lia]. destruct HS as [a A]. destruct HW' as [b B]. exists (b * k - a * w).
  replace (z' * w + x * (r * w) - (k + (z' - z) * w)) with (w * (z + x * r) - k) by ring.
  replace (z + x * r) with (s * k - a * q) by (rewrite <- A; ring). replace ((b * k - a * w) * q) with ((b * q) * k - a * w * q) by ring. rewrite <- B. ring.
Qed.

Lemma sgn1 x : negb (Z.sgn x =? 1) = false <-> 0 < x.
Proof. rewrite negb_false_iff, Z.eqb_eq. apply Z.sgn_pos_iff. Qed.
Lemma bits8_big q : 0 < q -> (bits_len q mod 8 = 0)%nat -> 2 < q.
Proof.
  intros Q M. destruct (bits_len_lower q Q) as [B1 B2]. assert (8 <= bits_len q)%nat.
  { pose proof (Nat.div_mod (bits_len q) 8 ltac:(lia)) as E. rewrite M in E. destruct (bits_len q / 8)%nat eqn:X; lia. }
  assert (2 ^ 7 <= 2 ^ Z.of_nat (bits_len q - 1)) by (apply Z.pow_le_mono_r; lia). change (2 ^ 7) with 128 in *. lia.
Qed.

Section Api.
Context {S : Type}.
Variables (D : digest S) (I : S -> Prop) (H : list Z -> list Z) (limit : Z) (h : nat).
Hypothesis HG : DigestOk D I H limit.
Hypothesis HB : d_bits_len D = (8 * h)%nat.
Lemma H_facts m : bytes m -> Z.of_nat (length m) < limit -> length (H m) = h /\ bytes (H m).
Proof. intros B L. destruct HG as [_ _ _ _ _ G]. destruct (G m B L) as [G1 G2]. split; [|exact G2]. rewrite G1, HB, Nat.mul_comm. apply Nat.div_mul. lia. Qed.
Lemma hlen_h' : hlen D = h.
Proof. unfold hlen. rewrite HB. symmetry. apply (Nat.div_unique _ 8 _ 7); lia. Qed.
Lemma run1 s msg : I s -> bytes msg -> Z.of_nat (length msg) < limit -> exists s', hash_run D s [msg] = (s', H msg) /\ I s'.
Proof.
  intros Hs B L. destruct (hash_run_ok D I H limit HG s [msg] Hs) as (s' & E & Hs'); [constructor; [exact B|constructor]|cbn [concat]; rewrite app_nil_r; exact L|].
  cbn [concat] in E. rewrite app_nil_r in E. exists s'. split; assumption.
Qed.

Lemma sign_inner_ok sk s draws msg : let dp := dk_dp (ds_pk sk) in
  0 < dp_p dp -> 0 < dp_q dp -> 0 < dp_g dp -> 0 < ds_x sk -> (bits_len (dp_q dp) mod 8 = 0)%nat -> I s -> bytes msg -> Z.of_nat (length msg) < limit ->
  exists s', I s' /\ sign_inner D (inr sk) s draws msg = (s', sign_loop 10 dp (ds_x sk) (DSA_z (Z.of_nat (bits_len (dp_q dp))) (H msg)) draws).
Proof.
  intros dp P Q G X M Hs B L. unfold sign_inner. cbn [dkp_private]. fold dp. rewrite (proj2 (sgn1 _) P), (proj2 (sgn1 _) Q), (proj2 (sgn1 _) G), (proj2 (sgn1 _) X). cbn [orb].
  rewrite (proj2 (Nat.eqb_eq _ _) M). cbn [negb]. destruct (run1 s msg Hs B L) as (s' & E & Hs'). rewrite E. destruct (H_facts msg B L) as [LH BH].
  rewrite hlen_h'. exists s'. split; [exact Hs'|]. rewrite (proj2 (Nat.ltb_ge _ _)) by (rewrite LH; lia). 
  rewrite <- (dsa_z_ok (bits_len (dp_q dp)) (H msg) (bits_len (dp_q dp) / 8)) by (exact BH || (pose proof (Nat.div_mod (bits_len (dp_q dp)) 8 ltac:(lia)); lia)).
  rewrite LH. reflexivity.
Qed.
Lemma verify_inner_ok kp s msg r v : let pk := dkp_public kp in let dp := dk_dp pk in
  0 < dp_p dp -> (bits_len (dp_q dp) mod 8 = 0)%nat -> I s -> bytes msg -> Z.of_nat (length msg) < limit ->
  exists s' o, I s' /\ verify_inner D kp s msg r v = (s', o) /\ (o = Ok tt \/ o = Err VerificationFailed) /\
    (o = Ok tt <-> DSA_accepts (dp_p dp) (dp_q dp) (dp_g dp) (dk_y pk) (be_val (H msg)) r v).
Proof.
  intros pk dp P M Hs B L. unfold verify_inner. fold pk. fold dp. rewrite (proj2 (sgn1 _) P). rewrite (proj2 (Nat.eqb_eq _ _) M). cbn [negb orb].
  assert (NO : forall s', I s' -> ~ DSA_accepts (dp_p dp) (dp_q dp) (dp_g dp) (dk_y pk) (be_val (H msg)) r v ->
    exists s'' (o : res unit), I s'' /\ (s', Err VerificationFailed) = (s'', o) /\ (o = Ok tt \/ o = Err VerificationFailed) /\
    (o = Ok tt <-> DSA_accepts (dp_p dp) (dp_q dp) (dp_g dp) (dk_y pk) (be_val (H msg)) r v)).
  { intros s' Hs' N. exists s', (Err VerificationFailed). split; [exact Hs'|]. split; [reflexivity|]. split; [right; reflexivity|]. split; [discriminate|contradiction]. }
  destruct (negb (Z.sgn r =? 1)) eqn:R; cbn [orb]; [apply NO; [exact Hs|]; intros (A & _); rewrite (proj2 (sgn1 r)) in R by lia; discriminate|]. apply sgn1 in R.
  destruct (negb (Z.sgn v =? 1)) eqn:V; cbn [orb]; [apply NO; [exact Hs|]; intros (_ & A & _); rewrite (proj2 (sgn1 v)) in V by lia; discriminate|]. apply sgn1 in V.
  destruct (Z.leb_spec (dp_q dp) r); cbn [orb]; [apply NO; [exact Hs|]; intros (A & _); lia|].
  destruct (Z.leb_spec (dp_q dp) v); cbn [orb]; [apply NO; [exact Hs|]; intros (_ & A & _); lia|].
  unfold mod_inverse. destruct (inv_mod v (dp_q dp)) as [w|] eqn:W.
  - apply inv_mod_some in W; [|lia]. destruct W as [W1 W2]. rewrite Z.mod_1_l in W2 by lia.
    destruct (Z.eqb_spec w 0) as [->|W0]; [rewrite Z.mul_0_l, Z.mod_0_l in W2 by lia; discriminate|].
    destruct (run1 s msg Hs B L) as (s' & E & Hs'). rewrite E. eexists s', _. split; [exact Hs'|]. split; [reflexivity|].
    rewrite !powmod_ok by lia. rewrite <- Z.mul_mod by lia. destruct (Z.eqb_spec ((dp_g dp ^ ((be_val (H msg) * w) mod dp_q dp) * dk_y pk ^ ((r * w) mod dp_q dp)) mod dp_p dp mod dp_q dp) r) as [EV|EV].
    + split; [left; reflexivity|]. split; [|reflexivity]. intros _. split; [lia|]. split; [lia|]. exists w. split; [exact W1|]. split; [rewrite Z.mul_comm; exact W2|exact EV].
    + split; [right; reflexivity|]. split; [discriminate|]. intros (_ & _ & w' & W1' & W2' & EV'). exfalso. apply EV. rewrite <- EV' at 2.
      replace w' with w; [reflexivity|]. clear EV EV' E. assert (Q1 : 1 < dp_q dp) by lia.
      apply (inverse_unique v (dp_q dp)); [lia|exact W1|exact W1'|rewrite Z.mod_1_l by exact Q1; exact W2|rewrite Z.mod_1_l, Z.mul_comm by exact Q1; exact W2'].
  - apply NO; [exact Hs|]. intros (_ & _ & w' & W1' & W2' & _). apply inv_mod_gcd in W; [|lia]. apply W. apply (inverse_gcd _ _ w'); [lia|]. rewrite Z.mul_comm, W2'. symmetry. apply Z.mod_1_l. clear W W2'. lia.
Qed.
(** The signer's own signature, for any digest length. *)
Lemma own_signature sk kp s s' draws msg r v s1 : let dp := dk_dp (ds_pk sk) in let p := dp_p dp in let q := dp_q dp in let g := dp_g dp in
  1 < p -> prime q -> 0 < g -> g ^ q mod p = 1 -> 0 < ds_x sk -> dk_y (ds_pk sk) = g ^ ds_x sk mod p -> dkp_public kp = ds_pk sk ->
  (bits_len q mod 8 = 0)%nat -> I s -> I s' -> bytes msg -> Z.of_nat (length msg) < limit ->
  sign_inner D (inr sk) s draws msg = (s1, Ok (r, v)) ->
  let z := DSA_z (Z.of_nat (bits_len q)) (H msg) in
  I s1 /\ exists k w, In k draws /\ 0 < k /\ DSA_signature p q g (ds_x sk) z k r v /\ 0 <= w < q /\ (v * w) mod q = 1 /\
    (snd (verify_inner D kp s' msg r v) = Ok tt <-> (g ^ ((k + (be_val (H msg) - z) * w) mod q) mod p) mod q = r).
Proof.
  intros dp p q g P Q G OG X Y KP M Hs Hs' B L E z. pose proof (prime_ge_2 q Q) as Q2.
  destruct (sign_inner_ok sk s draws msg ltac:(fold dp p; lia) ltac:(fold dp q; lia) ltac:(fold dp g; lia) X ltac:(fold dp q; exact M) Hs B L) as (s2 & Hs2 & E2).
  rewrite E2 in E. injection E as -> E. split; [exact Hs2|]. fold dp q z in E. pose proof (bits8_big q ltac:(lia) M) as Q3.
  destruct (sign_loop_ok 10 dp (ds_x sk) z Q Q3 ltac:(fold p; lia) draws r v E) as (k & IK & K & SG). fold p q g in SG.
  destruct (H_facts msg B L) as [LH BH]. pose proof (be_val_bound _ BH) as VB.
  assert (Z0 : 0 <= z) by (unfold z, DSA_z; apply Z.div_pos; [lia|apply Z.pow_pos_nonneg; lia]).
  assert (ND : ~ (q | v)) by (intros D'; destruct SG as (_ & _ & A & _); apply Z.divide_pos_le in D'; lia).
  destruct (inv_mod_coprime v q ltac:(lia) (prime_gcd_1 q v Q ND)) as (w & _ & W1 & W2). rewrite Z.mod_1_l in W2 by lia. rewrite Z.mul_comm in W2.
  exists k, w. split; [exact IK|]. split; [exact K|]. split; [exact SG|]. split; [exact W1|]. split; [exact W2|].
  destruct (verify_inner_ok kp s' msg r v) as (s3 & o & _ & EV & _ & A); rewrite ?KP; try assumption; try (fold dp p; lia).
  rewrite EV. cbn [snd]. rewrite KP in A. fold dp p q g in A. rewrite A. rewrite Y.
  pose proof (own_value p q g (ds_x sk) _ z (be_val (H msg)) k r v w P Q OG (Z.lt_le_incl _ _ X) eq_refl Z0 (proj1 VB) K SG W1 W2) as OV. rewrite <- OV.
  destruct SG as (_ & R1 & R2 & _). split.
  - intros (_ & _ & w' & W1' & W2' & EV'). replace w with w'; [exact EV'|]. assert (Q1 : 1 < q) by exact (Z.lt_le_trans 1 2 q Z.lt_1_2 Q2).
    apply (inverse_unique v q); [exact (Z.lt_trans 0 1 q Z.lt_0_1 Q1)|exact W1'|exact W1|rewrite Z.mod_1_l, Z.mul_comm by exact Q1; exact W2'|rewrite Z.mod_1_l, Z.mul_comm by exact Q1; exact W2].
  - intros EV'. split; [exact R1|]. split; [exact R2|]. exists w. split; [exact W1|]. split; [exact W2|exact EV'].
Qed.
Lemma sign_verify sk kp s s' draws msg r v s1 : let dp := dk_dp (ds_pk sk) in let p := dp_p dp in let q := dp_q dp in let g := dp_g dp in
  1 < p -> prime q -> 0 < g -> g ^ q mod p = 1 -> 0 < ds_x sk -> dk_y (ds_pk sk) = g ^ ds_x sk mod p -> dkp_public kp = ds_pk sk ->
  (bits_len q mod 8 = 0)%nat -> I s -> I s' -> bytes msg -> Z.of_nat (length msg) < limit -> (8 * h <= bits_len q)%nat ->
  sign_inner D (inr sk) s draws msg = (s1, Ok (r, v)) -> 0 < r < q /\ 0 < v < q /\ snd (verify_inner D kp s' msg r v) = Ok tt.
Proof.
  intros dp p q g P Q G OG X Y KP M Hs Hs' B L LE E. pose proof (prime_ge_2 q Q) as Q2.
  destruct (own_signature sk kp s s' draws msg r v s1 P Q G OG X Y KP M Hs Hs' B L E) as (_ & k & w & _ & K & SG & W1 & W2 & A). fold dp in SG, W1, W2, A. fold p q g in SG, W1, W2, A.
  destruct (H_facts msg B L) as [LH BH]. destruct SG as (R0 & R1 & R2 & _). split; [exact R1|]. split; [exact R2|]. apply A.
  rewrite dsa_z_short by (rewrite LH; lia). rewrite Z.sub_diag, Z.mul_0_l, Z.add_0_r. rewrite (pow_order g p q) by (assumption || lia). symmetry. exact R0.
Qed.
End Api.

(** ** SignatureContent *)
Lemma be_val_to_be_bytes x : 0 <= x -> be_val (to_be_bytes x) = x.
Proof.
  intros X. unfold to_be_bytes. rewrite be_val_bytes. apply Z.mod_small. split; [exact X|]. rewrite pow256.
  apply Z.lt_le_trans with (2 ^ Z.of_nat (bits_len x)); [apply bits_len_upper, X|]. apply Z.pow_le_mono_r; [lia|].
  pose proof (Nat.div_mod (bits_len x + 7) 8 ltac:(lia)). pose proof (Nat.mod_upper_bound (bits_len x + 7) 8 ltac:(lia)). lia.
Qed.
Lemma sigc_set_get c r s : 0 <= r -> 0 <= s -> sigc_to_bigint (sigc_set c r s) = Ok (r, s).
Proof.
  intros R S. unfold sigc_to_bigint, sigc_set. cbn [sc_content sc_rlen]. rewrite (proj2 (Nat.ltb_ge _ _)) by (rewrite app_length; lia).
  rewrite firstn_exact, skipn_exact by reflexivity. rewrite !be_val_to_be_bytes by assumption. reflexivity.
Qed.
Lemma sigc_from_set r s : sigc_from r s = sigc_set sigc_new r s. Proof. reflexivity. Qed.
