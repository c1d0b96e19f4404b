(** Property C70: which sizes and numbers of primes RSA key generation refuses, and for which it never ends.
    [too_few np bits few]: [few] is an outcome the code's floating point test can have, each operation rounded in any way
    within a relative error of 2^-50 (RsaSizeModel.v).  [gens] are the attempts of the retry loop, what the prime generator
    returns in each; [gen_ok]: primes of the requested size. *)
From Coq Require Import Znumtheory Reals Lra.
From Verif Require Import Base NumTheory RsaModel RsaProofs RsaEncProofs PropRsa RsaSizeModel RsaSizeReal.
Local Open Scope Z_scope.

(** ** Specification: the sizes below 64 bits that are accepted. *)
Definition smallest_size (np : nat) : option nat :=
  match np with 2 => Some 12 | 3 => Some 21 | 4 => Some 28 | 5 => Some 40 | 6 => Some 48 | 7 => Some 56 | _ => None end%nat.
Definition size_accepted (np bits : nat) : Prop := exists m, smallest_size np = Some m /\ (m <= bits)%nat.

Lemma few_decided np bits few : (2 <= np)%nat -> (bits < 64)%nat -> too_few np bits few -> (few = true <-> ~ size_accepted np bits).
Proof.
  intros NP B (pi & E & F). set (k := (bits / np)%nat). assert (E' : est k pi) by exact E.
  pose proof (Nat.div_mod bits np ltac:(lia)) as DM. fold k in DM. pose proof (Nat.mod_upper_bound bits np ltac:(lia)) as MU.
  set (r := (bits mod np)%nat) in *.
  assert (K : (k < 32)%nat) by nia.
  assert (I2 : (2 <= INR np)%R) by (apply (le_INR 2) in NP; cbn [INR] in NP; lra).
  assert (ACC : forall n m : nat, smallest_size n = Some m -> (m = 12 /\ n = 2 \/ m = 21 /\ n = 3 \/ m = 28 /\ n = 4 \/ m = 40 /\ n = 5 \/ m = 48 /\ n = 6 \/ m = 56 /\ n = 7)%nat).
  { intros n m H. do 8 (destruct n as [|n]; [try discriminate H; injection H as <-; lia|]). discriminate H. }
  destruct (Nat.le_gt_cases k 5) as [K5|K5].
  { pose proof (est_5 k pi K5 E') as P. split; [|intros _; apply F; lra]. intros _ (m & S & L). apply ACC in S.
    assert ((k + 1) * np <= 6 * np)%nat by (apply Nat.mul_le_mono_r; lia). nia. }
  destruct (Nat.eq_dec k 6) as [K6|K6].
  { rewrite K6 in *. pose proof (est_6 pi E') as P. destruct (Nat.eq_dec np 2) as [N2|N2].
    - subst np. split; [intros T; apply F in T; cbn [INR] in T; lra|]. intros N. exfalso. apply N. exists 12%nat. split; [reflexivity|lia].
    - split; [|intros _; apply F; assert (H : (3 <= np)%nat) by lia; apply (le_INR 3) in H; cbn [INR] in H; lra].
      intros _ (m & S & L). apply ACC in S. lia. }
  destruct (Nat.eq_dec k 7) as [K7|K7].
  { rewrite K7 in *. pose proof (est_7 pi E') as P. destruct (Nat.le_gt_cases np 4) as [N4|N4].
    - split; [intros T; apply F in T; apply (le_INR _ 4) in N4; cbn [INR] in N4; lra|]. intros N. exfalso. apply N.
      assert (H : (np = 2 \/ np = 3 \/ np = 4)%nat) by lia. destruct H as [-> | [-> | ->]]; eexists; (split; [reflexivity|lia]).
    - split; [|intros _; apply F; assert (H : (5 <= np)%nat) by lia; apply (le_INR 5) in H; cbn [INR] in H; lra].
      intros _ (m & S & L). apply ACC in S. lia. }
  assert (K8 : (8 <= k < 32)%nat) by lia. pose proof (est_8 k pi K8 E') as P.
  assert (N7 : (np <= 7)%nat) by nia.
  split; [intros T; apply F in T; apply (le_INR _ 7) in N7; cbn [INR] in N7; lra|]. intros N. exfalso. apply N.
  assert (M : (8 * np <= bits)%nat) by nia.
  assert (H : (np = 2 \/ np = 3 \/ np = 4 \/ np = 5 \/ np = 6 \/ np = 7)%nat) by lia.
  destruct H as [-> | [-> | [-> | [-> | [-> | ->]]]]]; eexists; (split; [reflexivity|lia]).
Qed.

Lemma gen_primes_not_invalid gen np : forall todo i cb, gen_primes gen np i todo cb <> Err InvalidParameter.
Proof.
  induction todo as [|todo IH]; intros i cb; cbn [gen_primes]; [discriminate|]. destruct (gen i _) as [p|]; [|discriminate].
  destruct (cb <? bits_len p)%nat; [discriminate|]. specialize (IH (S i) (cb - bits_len p)%nat).
  destruct (gen_primes gen np (S i) todo (cb - bits_len p)) as [l|e|]; cbn [rbind]; [discriminate|congruence|discriminate].
Qed.
Lemma gen_loop_not_invalid np bits : forall gens, gen_loop np bits gens <> Err InvalidParameter.
Proof.
  induction gens as [|gen gens IH]; cbn [gen_loop]; [discriminate|].
  match goal with |- rbind ?g _ <> _ => assert (G : g <> Err InvalidParameter) by apply gen_primes_not_invalid; destruct g as [l|e|] end;
    cbn [rbind]; [|congruence|discriminate].
  destruct (negb _); [exact IH|]. destruct (negb _); [exact IH|]. destruct (mod_inverse _ _); [|exact IH].
  destruct (dedup l) as [|? [|? ?]]; discriminate.
Qed.

(** Refused as a bad parameter: fewer than two primes, or less than 64 bits and less than the size in the table. *)
Theorem C70_refused : forall np bits few gens, too_few np bits few ->
  (generate_multi_prime_key np bits few gens = Err InvalidParameter <-> (np < 2)%nat \/ ((bits < 64)%nat /\ ~ size_accepted np bits)).
Proof.
  intros np bits few gens T. unfold generate_multi_prime_key. destruct (Nat.ltb_spec np 2) as [N|N]; [split; [left; exact N|reflexivity]|].
  destruct (Nat.ltb_spec bits 64) as [B|B]; cbn [andb].
  - pose proof (few_decided np bits few N B T) as F. destruct few.
    + split; [intros _; right; split; [exact B|apply F; reflexivity]|reflexivity].
    + split; [intros H; exfalso; exact (gen_loop_not_invalid _ _ _ H)|]. intros [H|[_ H]]; [lia|]. apply F in H. discriminate.
  - split; [intros H; exfalso; exact (gen_loop_not_invalid _ _ _ H)|]. intros [H|[H _]]; lia.
Qed.
Print Assumptions C70_refused.
(** In particular generate_key refuses exactly the sizes below 12 bits. *)
Theorem C70_generate_key : forall bits few gens, too_few 2 bits few ->
  (generate_key bits few gens = Err InvalidParameter <-> (bits < 12)%nat).
Proof.
  intros bits few gens T. unfold generate_key. rewrite (C70_refused 2 bits few gens T). split.
  - intros [H|[H N]]; [lia|]. apply Nat.nle_gt. intros L. apply N. exists 12%nat. split; [reflexivity|exact L].
  - intros L. right. split; [lia|]. intros (m & E & H). injection E as <-. lia.
Qed.
Print Assumptions C70_generate_key.
(** The test has an outcome for every size, so the two theorems speak of every call. *)
Lemma rounds_refl x : rounds x x.
Proof.
  unfold rounds. rewrite Rminus_diag_eq, Rabs_R0 by reflexivity. apply Rmult_le_pos; [apply Rabs_pos|]. apply Rlt_le, Rinv_0_lt_compat, pow_lt. lra.
Qed.
Theorem C70_outcome_unique : forall np bits, (exists few, too_few np bits few) /\
  ((2 <= np)%nat -> (bits < 64)%nat -> forall f1 f2, too_few np bits f1 -> too_few np bits f2 -> f1 = f2).
Proof.
  intros np bits. split.
  - set (L := (2 ^ (bits / np))%R). set (pi := (L / (ln L - 1) / 4 / 2)%R).
    assert (E : estimate np bits pi) by (exists (ln L), (ln L - 1)%R, (L / (ln L - 1))%R, (L / (ln L - 1) / 4)%R; repeat split; apply rounds_refl).
    destruct (Rle_dec pi (INR np)) as [Y|N]; [exists true|exists false]; exists pi; (split; [exact E|]); [split; [intros _; exact Y|reflexivity]|split; [discriminate|intros H; contradiction]].
  - intros N B f1 f2 T1 T2. pose proof (few_decided _ _ _ N B T1) as F1. pose proof (few_decided _ _ _ N B T2) as F2.
    destruct f1, f2; try reflexivity; [symmetry; apply F2, F1; reflexivity|apply F1, F2; reflexivity].
Qed.
Print Assumptions C70_outcome_unique.

(** The table is not too generous: at each of its sizes some run of the loop ends with a valid key. *)
Definition small_gen (l : list Z) (i bits : nat) : option Z :=
  match nth_error l i with Some p => if (bits =? bits_len p)%nat then Some p else None | None => None end.
Lemma small_gen_ok l : Forall prime l -> gen_ok (small_gen l).
Proof.
  intros F i bits p. unfold small_gen. destruct (nth_error l i) as [q|] eqn:E; [|discriminate].
  destruct (Nat.eqb_spec bits (bits_len q)) as [-> | N]; [|discriminate]. intros H. injection H as <-. split; [|reflexivity].
  rewrite Forall_forall in F. apply F. exact (nth_error_In _ _ E).
Qed.
Definition table_primes (np : nat) : list Z :=
  match np with
  | 2%nat => [61; 59] | 3%nat => [127; 113; 109] | 4%nat => [127; 113; 109; 107] | 5%nat => [251; 241; 239; 233; 229]
  | 6%nat => [251; 241; 239; 233; 229; 227] | _ => [251; 241; 239; 233; 229; 227; 401]
  end.
Theorem C70_table_reached : forall np m, smallest_size np = Some m ->
  exists gens k, Forall gen_ok gens /\ generate_multi_prime_key np m false gens = Ok k /\ key_ok k /\ priv_is_valid k = Ok tt /\ bits_len (pk_n (sk_pk k)) = m.
Proof.
  intros np m S. assert (P : Forall prime (table_primes np)).
  { assert (C : forallb (primeb 20) [61; 59; 127; 113; 109; 107; 251; 241; 239; 233; 229; 227; 401] = true) by (vm_compute; reflexivity).
    rewrite forallb_forall in C. apply Forall_forall. intros x Hx. apply (primeb_ok 20), C.
    do 8 (destruct np as [|np]; [try discriminate S; cbn [table_primes In] in Hx |- *; tauto|]). discriminate S. }
  exists [small_gen (table_primes np)].
  assert (G : Forall gen_ok [small_gen (table_primes np)]) by (constructor; [exact (small_gen_ok _ P)|constructor]).
  assert (E : exists k, generate_multi_prime_key np m false [small_gen (table_primes np)] = Ok k /\ sk_primes k = table_primes np /\ (3 * np <= m)%nat /\ NoDup (table_primes np)).
  { clear P G. do 2 (destruct np as [|np]; [discriminate S|]).
    do 6 (destruct np as [|np]; [injection S as <-; eexists; (split; [vm_compute; reflexivity|]); (split; [reflexivity|]); (split; [lia|]); cbn [table_primes];
      repeat constructor; cbn [In]; intuition discriminate|]). discriminate S. }
  destruct E as (k & E & EP & B & ND). exists k. rewrite <- EP in ND.
  destruct (C57_generated_keys np m false _ k G B E ND) as (K & V & _ & HB & _). exact (conj G (conj E (conj K (conj V HB)))).
Qed.
Print Assumptions C70_table_reached.

(** ** Too many primes for 64 bits and more: the loop never ends *)
Lemma prime_le4 p s : prime p -> bits_len p = s -> (2 <= s <= 4)%nat ->
  s = 2%nat /\ (p = 2 \/ p = 3) \/ s = 3%nat /\ (p = 5 \/ p = 7) \/ s = 4%nat /\ (p = 11 \/ p = 13).
Proof.
  intros P B S. pose proof (prime_ge_2 p P) as P2. pose proof (bits_len_upper p ltac:(lia)) as U. destruct (bits_len_lower p ltac:(lia)) as [_ L].
  rewrite B in U, L.
  assert (N2 : forall q, p = 2 * q -> p = 2).
  { intros q Q. destruct (prime_divisors p P 2) as [H|[H|[H|H]]]; [exists q; lia|lia..]. }
  assert (N3 : forall q, p = 3 * q -> p = 3).
  { intros q Q. destruct (prime_divisors p P 3) as [H|[H|[H|H]]]; [exists q; lia|lia..]. }
  assert (H : (s = 2 \/ s = 3 \/ s = 4)%nat) by lia. destruct H as [-> | [-> | ->]].
  - change (2 ^ Z.of_nat 2) with 4 in U. left. split; [reflexivity|lia].
  - change (2 ^ Z.of_nat 3) with 8 in U. change (2 ^ Z.of_nat (3 - 1)) with 4 in L. right. left. split; [reflexivity|].
    pose proof (N2 2). pose proof (N2 3). lia.
  - change (2 ^ Z.of_nat 4) with 16 in U. change (2 ^ Z.of_nat (4 - 1)) with 8 in L. right. right. split; [reflexivity|].
    pose proof (N2 4). pose proof (N2 5). pose proof (N2 6). pose proof (N2 7). pose proof (N3 3). pose proof (N3 5). lia.
Qed.
Lemma block_bound s : (2 <= s <= 4)%nat -> forall n l, (length l <= n)%nat -> Forall prime l -> Forall (fun p => bits_len p = s) l -> adjacent_distinct l ->
  1 <= zprod l /\ zprod l ^ 20 <= 2 ^ ((20 * Z.of_nat s - 8) * Z.of_nat (length l) + 5).
Proof.
  intros S. induction n as [|n IH]; intros l L P B A.
  { destruct l; [|cbn in L; lia]. split; [cbn; lia|]. cbn [zprod fold_right length]. rewrite Z.mul_0_r. vm_compute. discriminate. }
  destruct l as [|p [|q l]].
  - split; [cbn; lia|]. cbn [zprod fold_right length]. rewrite Z.mul_0_r. vm_compute. discriminate.
  - inversion P as [|? ? P1 P2]; subst. inversion B as [|? ? B1 B2]; subst. cbn [zprod fold_right length].
    destruct (prime_le4 p _ P1 eq_refl S) as [[-> [-> | ->]]|[[-> [-> | ->]]|[-> [-> | ->]]]]; (split; [lia|]); vm_compute; discriminate.
  - inversion P as [|? ? P1 P2]; subst. inversion P2 as [|? ? P3 P4]; subst. inversion B as [|? ? B1 B2]; subst. inversion B2 as [|? ? B3 B4]; subst.
    assert (NE : p <> q) by exact (A 0%nat ltac:(cbn; lia)).
    destruct (IH l ltac:(cbn [length] in L; lia) P4 B4) as [I1 I2].
    { intros i Hi. exact (A (Datatypes.S (Datatypes.S i)) ltac:(cbn [length]; lia)). }
    cbn [zprod fold_right]. fold (zprod l). split; [pose proof (prime_ge_2 p P1); pose proof (prime_ge_2 q P3); nia|].
    assert (PQ : 0 <= p * q /\ (p * q) ^ 20 <= 2 ^ (2 * (20 * Z.of_nat (bits_len p) - 8))).
    { destruct (prime_le4 p _ P1 eq_refl S) as [[-> C]|[[-> C]|[-> C]]]; destruct (prime_le4 q _ P3 B3 S) as [[D1 D]|[[D1 D]|[D1 D]]];
        try (exfalso; lia); destruct C as [-> | ->], D as [-> | ->]; try (exfalso; apply NE; reflexivity); (split; [lia|vm_compute; discriminate]). }
    rewrite Z.mul_assoc, Z.pow_mul_l.
    replace ((20 * Z.of_nat (bits_len p) - 8) * Z.of_nat (length (p :: q :: l)) + 5)
      with (2 * (20 * Z.of_nat (bits_len p) - 8) + ((20 * Z.of_nat (bits_len p) - 8) * Z.of_nat (length l) + 5)) by (cbn [length]; lia).
    rewrite Z.pow_add_r by nia. apply Z.mul_le_mono_nonneg; [apply Z.pow_nonneg; apply PQ|apply PQ|apply Z.pow_nonneg; lia|exact I2].
Qed.
Lemma gen_primes_bits gen np : forall todo i cb l, gen_ok gen -> (i + S todo = np)%nat -> gen_primes gen np i (S todo) cb = Ok l ->
  Forall prime l /\ map bits_len l = repeat (cb / S todo)%nat (S todo - cb mod S todo) ++ repeat (S (cb / S todo)) (cb mod S todo).
Proof.
  induction todo as [|t IH]; intros i cb l G HI E; cbn [gen_primes] in E; destruct (gen i _) as [p|] eqn:Ep; try discriminate;
    destruct (cb <? bits_len p)%nat eqn:Lt; try discriminate; apply Nat.ltb_ge in Lt; destruct (G _ _ _ Ep) as [Pp Bp].
  - replace (np - i)%nat with 1%nat in Bp by lia. cbn [rbind] in E. assert (l = [p]) by congruence. subst l.
    split; [constructor; [exact Pp|constructor]|]. cbn [map]. rewrite Bp, Nat.mod_1_r, Nat.sub_0_r. reflexivity.
  - replace (np - i)%nat with (S (S t)) in Bp by lia. fold (gen_primes gen np) in E.
    match type of E with rbind ?g _ = _ => destruct g as [ps| |] eqn:Es end; cbn [rbind] in E; try discriminate.
    assert (l = p :: ps) by congruence. subst l. destruct (IH (S i) (cb - bits_len p)%nat ps G ltac:(lia) Es) as [IP IB].
    split; [constructor; assumption|]. cbn [map]. rewrite IB, Bp. clear IB Es Ep IH.
    pose proof (Nat.div_mod cb (S (S t)) ltac:(lia)) as DM. pose proof (Nat.mod_upper_bound cb (S (S t)) ltac:(lia)) as MU.
    rewrite Bp in *. set (s := (cb / S (S t))%nat) in *. set (r := (cb mod S (S t))%nat) in *.
    destruct (Nat.eq_dec r (S t)) as [R|R].
    + assert (Q : (cb - s = S s * S t + 0)%nat) by nia.
      assert (Q1 : ((cb - s) / S t = S s)%nat) by (symmetry; apply (Nat.div_unique _ _ _ 0); lia).
      assert (Q2 : ((cb - s) mod S t = 0)%nat) by (symmetry; apply (Nat.mod_unique _ _ (S s) 0); lia).
      rewrite Q1, Q2, R. replace (S (S t) - S t)%nat with 1%nat by lia. cbn [repeat app]. rewrite Nat.sub_0_r, app_nil_r. reflexivity.
    + assert (Q : (cb - s = s * S t + r)%nat) by nia.
      assert (Q1 : ((cb - s) / S t = s)%nat) by (symmetry; apply (Nat.div_unique _ _ _ r); lia).
      assert (Q2 : ((cb - s) mod S t = r)%nat) by (symmetry; apply (Nat.mod_unique _ _ s r); lia).
      rewrite Q1, Q2. replace (S (S t) - r)%nat with (S (S t - r)) by lia. reflexivity.
Qed.
Lemma zprod_app a b : zprod (a ++ b) = zprod a * zprod b.
Proof. induction a as [|x a IH]; cbn [app zprod fold_right]; [fold (zprod b); lia|]. fold (zprod (a ++ b)) (zprod a). rewrite IH. ring. Qed.
Lemma map_split {A B} (f : A -> B) : forall u v l, map f l = u ++ v -> exists l1 l2, l = l1 ++ l2 /\ map f l1 = u /\ map f l2 = v.
Proof.
  induction u as [|b u IH]; intros v l E; [exists [], l; auto|]. destruct l as [|a l]; [discriminate|]. cbn [map app] in E.
  injection E as E1 E2. destruct (IH v l E2) as (l1 & l2 & -> & H1 & H2). exists (a :: l1), l2. cbn [map app]. rewrite E1, H1. auto.
Qed.
Lemma map_repeat {A B} (f : A -> B) x : forall n l, map f l = repeat x n -> length l = n /\ Forall (fun a => f a = x) l.
Proof.
  induction n as [|n IH]; intros l E; destruct l as [|a l]; try discriminate; [auto|]. cbn [map repeat] in E. injection E as E1 E2.
  destruct (IH l E2) as [L F]. split; [cbn; lia|constructor; assumption].
Qed.
Lemma adjacent_app a b : adjacent_distinct (a ++ b) -> adjacent_distinct a /\ adjacent_distinct b.
Proof.
  intros A. split; intros i Hi.
  - specialize (A i ltac:(rewrite app_length; lia)). rewrite !app_nth1 in A by lia. exact A.
  - specialize (A (length a + i)%nat ltac:(rewrite app_length; lia)). rewrite <- Nat.add_succ_r in A. rewrite !app_nth2_plus in A. exact A.
Qed.
(** No set of primes of two, three or four bits each, neighbours distinct, has a product of the wanted size. *)
Lemma hopeless_product np bits gen l : gen_ok gen -> (17 <= np)%nat -> (bits + (np - 2) / 5 < 4 * np)%nat ->
  gen_primes gen np 0 np (bits + (np - 2) / 5) = Ok l -> adjacent_distinct l -> bits_len (zprod l) <> bits.
Proof.
  intros G NP H E A EB. set (cb := (bits + (np - 2) / 5)%nat) in *. destruct np as [|t]; [lia|].
  destruct (gen_primes_bits gen (S t) t 0 cb l G eq_refl E) as [P M].
  pose proof (Nat.div_mod cb (S t) ltac:(lia)) as DM. pose proof (Nat.mod_upper_bound cb (S t) ltac:(lia)) as MU.
  set (s := (cb / S t)%nat) in *. set (r := (cb mod S t)%nat) in *.
  apply map_split in M. destruct M as (l1 & l2 & -> & M1 & M2). apply map_repeat in M1, M2. destruct M1 as [L1 F1], M2 as [L2 F2].
  apply Forall_app in P. destruct P as [P1 P2]. destruct (adjacent_app _ _ A) as [A1 A2].
  assert (S3 : (s <= 3)%nat) by nia.
  assert (S2 : (2 <= s)%nat).
  { destruct l1 as [|p l1]; [cbn [length] in L1; lia|]. inversion F1 as [|? ? B1 _]; subst. inversion P1 as [|? ? Q1 _]; subst. pose proof (prime_ge_2 p Q1).
    destruct (Nat.le_gt_cases 2 (bits_len p)) as [|LT]; [lia|]. pose proof (bits_len_upper p ltac:(lia)) as U.
    assert (2 ^ Z.of_nat (bits_len p) <= 2 ^ 1) by (apply Z.pow_le_mono_r; lia). change (2 ^ 1) with 2 in *. lia. }
  assert (N1 : 0 <= (20 * Z.of_nat s - 8) * Z.of_nat (length l1)) by (apply Z.mul_nonneg_nonneg; lia).
  assert (N2 : 0 <= (20 * Z.of_nat (S s) - 8) * Z.of_nat (length l2)) by (apply Z.mul_nonneg_nonneg; lia).
  assert (R1 : (2 <= s <= 4)%nat) by lia. assert (R2 : (2 <= S s <= 4)%nat) by lia.
  assert (X : Z.of_nat cb = Z.of_nat s * Z.of_nat (length l1) + Z.of_nat (S s) * Z.of_nat (length l2)).
  { rewrite L1, L2, <- !Nat2Z.inj_mul, <- Nat2Z.inj_add. f_equal. rewrite DM at 1. rewrite Nat.mul_sub_distr_l. assert (s * r <= s * S t)%nat by (apply Nat.mul_le_mono_l; lia). lia. }
  assert (Y : Z.of_nat cb = Z.of_nat bits + Z.of_nat ((S t - 2) / 5)) by (unfold cb; lia).
  pose proof (Nat.mul_div_le (S t - 2) 5 ltac:(lia)) as D5.
  assert (LT : (20 * Z.of_nat s - 8) * Z.of_nat (length l1) + 5 + ((20 * Z.of_nat (S s) - 8) * Z.of_nat (length l2) + 5) < 20 * (Z.of_nat bits - 1)).
  { clear - X Y D5 L1 L2 NP MU. clearbody cb s r. assert (HL : Z.of_nat (length l1) + Z.of_nat (length l2) = Z.of_nat (S t)) by lia. clear L1 L2 MU.
    generalize dependent (Z.of_nat (length l1)). generalize dependent (Z.of_nat (length l2)). intros b a. rewrite !Nat2Z.inj_succ.
    assert (D6 : 5 * Z.of_nat ((S t - 2) / 5) <= Z.of_nat t - 1) by lia. clear D5. intros. lia. }
  destruct (block_bound s R1 _ l1 (le_n _) P1 F1 A1) as [B1 C1]. destruct (block_bound (S s) R2 _ l2 (le_n _) P2 F2 A2) as [B2 C2].
  rewrite zprod_app in EB. clear - EB B1 C1 B2 C2 N1 N2 LT.
  set (e1 := (20 * Z.of_nat s - 8) * Z.of_nat (length l1)) in *. set (e2 := (20 * Z.of_nat (S s) - 8) * Z.of_nat (length l2)) in *. clearbody e1 e2.
  assert (POS : 0 < zprod l1 * zprod l2) by (apply Z.mul_pos_pos; lia). destruct (bits_len_lower _ POS) as [BL LO]. rewrite EB in BL, LO.
  assert (UP : (zprod l1 * zprod l2) ^ 20 <= 2 ^ (e1 + 5 + (e2 + 5))).
  { rewrite Z.pow_mul_l, Z.pow_add_r; [|clear - N1; lia|clear - N2; lia].
    apply Z.mul_le_mono_nonneg; [apply Z.pow_nonneg; clear - B1; lia|exact C1|apply Z.pow_nonneg; clear - B2; lia|exact C2]. }
  assert (LO2 : 2 ^ (20 * (Z.of_nat bits - 1)) <= (zprod l1 * zprod l2) ^ 20).
  { replace (20 * (Z.of_nat bits - 1)) with (Z.of_nat (bits - 1) * 20) by (clear - BL; lia). rewrite Z.pow_mul_r; [|clear; lia|clear; lia]. apply Z.pow_le_mono_l.
    split; [apply Z.pow_nonneg; clear; lia|exact LO]. }
  assert (LE : 20 * (Z.of_nat bits - 1) <= e1 + 5 + (e2 + 5)).
  { apply (Z.pow_le_mono_r_iff 2); [reflexivity|clear - N1 N2; lia|]. exact (Z.le_trans _ _ _ LO2 UP). }
  clear - LE LT. lia.
Qed.

Lemma attempt_thrown np bits few gen gens l : (64 <= bits)%nat -> (bits + (np - 2) / 5 < 4 * np)%nat -> gen_ok gen ->
  gen_primes gen np 0 np (bits + (np - 2) / 5) = Ok l ->
  generate_multi_prime_key np bits few (gen :: gens) = generate_multi_prime_key np bits few gens.
Proof.
  intros B H G E. assert (NP : (17 <= np)%nat) by lia. unfold generate_multi_prime_key.
  rewrite (proj2 (Nat.ltb_ge np 2)), (proj2 (Nat.ltb_ge bits 64)) by lia. cbn [andb gen_loop]. rewrite (proj2 (Nat.leb_le 7 np)) by lia.
  rewrite E. cbn [rbind]. destruct (gen_primes_ok gen np np 0 _ l G eq_refl E) as (_ & Ll & _).
  destruct (length (dedup l) =? np)%nat eqn:E1; cbn [negb]; [|reflexivity]. apply Nat.eqb_eq in E1.
  assert (DD : dedup l = l) by (apply dedup_full; lia). rewrite DD, fold_mul_zprod, Z.mul_1_l.
  pose proof (hopeless_product np bits gen l G NP H E (dedup_adjacent l DD)) as X. rewrite (proj2 (Nat.eqb_neq _ _) X). reflexivity.
Qed.
Lemma gen_primes_cases gen np : gen_ok gen -> forall n i cb, (i + n = np)%nat ->
  gen_primes gen np i n cb = Err OuterErr \/ exists l, gen_primes gen np i n cb = Ok l.
Proof.
  intros G. induction n as [|n IH]; intros i cb Q; cbn [gen_primes]; [eauto|]. destruct (gen i _) as [p|] eqn:Ep; [|left; reflexivity].
  destruct (G _ _ _ Ep) as [_ Bp]. replace (np - i)%nat with (S n) in Bp by lia. pose proof (Nat.mul_div_le cb (S n) ltac:(lia)) as ML.
  rewrite (proj2 (Nat.ltb_ge _ _)) by nia.
  destruct (IH (S i) (cb - bits_len p)%nat ltac:(lia)) as [-> | [l ->]]; cbn [rbind]; eauto.
Qed.
(** One attempt of the loop with so many primes: the generator fails, or the attempt is thrown away. *)
Theorem C70_attempt_wasted : forall np bits few gen gens, (64 <= bits)%nat -> (bits + (np - 2) / 5 < 4 * np)%nat -> gen_ok gen ->
  generate_multi_prime_key np bits few (gen :: gens) = Err OuterErr \/
  generate_multi_prime_key np bits few (gen :: gens) = generate_multi_prime_key np bits few gens.
Proof.
  intros np bits few gen gens B H G. destruct (gen_primes_cases gen np G np 0 (bits + (np - 2) / 5) eq_refl) as [E|[l E]].
  - left. unfold generate_multi_prime_key. rewrite (proj2 (Nat.ltb_ge np 2)), (proj2 (Nat.ltb_ge bits 64)) by lia. cbn [andb gen_loop].
    rewrite (proj2 (Nat.leb_le 7 np)) by lia. rewrite E. reflexivity.
  - right. exact (attempt_thrown np bits few gen gens l B H G E).
Qed.
Print Assumptions C70_attempt_wasted.
(** So key generation never returns a key then, whatever primes are drawn and however many attempts are made ... *)
Theorem C70_never_a_key : forall np bits few gens, (64 <= bits)%nat -> (bits + (np - 2) / 5 < 4 * np)%nat -> Forall gen_ok gens ->
  forall k, generate_multi_prime_key np bits few gens <> Ok k.
Proof.
  intros np bits few gens B H G k. induction G as [|gen gens G1 G2 IH].
  - unfold generate_multi_prime_key. rewrite (proj2 (Nat.ltb_ge np 2)), (proj2 (Nat.ltb_ge bits 64)) by lia. discriminate.
  - destruct (C70_attempt_wasted np bits few gen gens B H G1) as [-> | ->]; [discriminate|exact IH].
Qed.
Print Assumptions C70_never_a_key.
(** ... and with a generator that finds a prime for every size of at least two bits it does not fail either: no attempt is
    the last.  The size test, whose comment says that it ensures termination, is not made for 64 bits and more. *)
Theorem C70_never_ends_refuted : forall np bits few gen gens, (64 <= bits)%nat -> (2 * np <= bits + (np - 2) / 5 < 4 * np)%nat -> gen_ok gen ->
  (forall i b, (2 <= b)%nat -> gen i b <> None) ->
  generate_multi_prime_key np bits few (gen :: gens) = generate_multi_prime_key np bits few gens.
Proof.
  intros np bits few gen gens B [H2 H4] G T.
  assert (X : forall n i cb, (i + n = np)%nat -> (2 * n <= cb)%nat -> exists l, gen_primes gen np i n cb = Ok l).
  { clear - G T. induction n as [|n IH]; intros i cb Q C; cbn [gen_primes]; [eauto|]. replace (np - i)%nat with (S n) by lia.
    assert (S2 : (2 <= cb / S n)%nat) by (apply Nat.div_le_lower_bound; lia). destruct (gen i (cb / S n)%nat) as [p|] eqn:Ep; [|destruct (T _ _ S2 Ep)].
    destruct (G _ _ _ Ep) as [_ Bp]. rewrite Bp. pose proof (Nat.mul_div_le cb (S n) ltac:(lia)) as ML.
    rewrite (proj2 (Nat.ltb_ge _ _)) by nia.
    destruct n as [|n]; [cbn [gen_primes rbind]; eauto|].
    destruct (IH (S i) (cb - cb / S (S n))%nat ltac:(lia)) as [l El]; [|rewrite El; cbn [rbind]; eauto].
    pose proof (div_share cb (S (S n)) ltac:(lia)) as DS. replace (S (S n) - 1)%nat with (S n) in DS by lia.
    pose proof (Nat.mul_div_le (cb - cb / S (S n)) (S n) ltac:(lia)). nia. }
  destruct (X np 0%nat _ eq_refl H2) as [l El]. exact (attempt_thrown np bits few gen gens l B H4 G El).
Qed.
Print Assumptions C70_never_ends_refuted.
(** 17 primes for 64 bits is such a case, with the request for 67 bits in shares of three and four.  Below it, 16 primes
    for 64 bits is not. *)
Definition tiny_gen (i bits : nat) : option Z :=
  if (bits =? 3)%nat then Some (if Nat.even i then 5 else 7) else if (bits =? 4)%nat then Some (if Nat.even i then 11 else 13) else None.
Example C70_case : (2 * 17 <= 64 + (17 - 2) / 5 < 4 * 17)%nat /\ ~ (64 + (16 - 2) / 5 < 4 * 16)%nat /\ gen_ok tiny_gen /\
  exists l, gen_primes tiny_gen 17 0 17 67 = Ok l /\ length (dedup l) = 17%nat /\ bits_len (fold_left Z.mul l 1) = 60%nat.
Proof.
  split; [vm_compute; lia|]. split; [vm_compute; lia|]. split.
  - intros i bits p. unfold tiny_gen. assert (C : forallb (primeb 3) [5; 7; 11; 13] = true) by (vm_compute; reflexivity).
    rewrite forallb_forall in C. destruct (Nat.eqb_spec bits 3) as [-> | _]; [|destruct (Nat.eqb_spec bits 4) as [-> | _]; [|discriminate]]; intros H;
      injection H as <-; (split; [apply (primeb_ok 3), C|]); destruct (Nat.even i); cbn [In]; auto.
  - eexists. split; [vm_compute; reflexivity|]. split; vm_compute; reflexivity.
Qed.
