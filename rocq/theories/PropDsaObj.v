(** Property C68: DSA objects, from construction through any number of calls.
    Specification: DsaSpec.v (FIPS 186-4) and DsaObjSpec.v.  [src] is the random source: each call takes its state and returns the
    next one.  [D] computes the hash function [H] on messages shorter than [limit], from states satisfying [I]. *)
From Coq Require Import Znumtheory.
From Verif Require Import Base HashModel HashSpec HashApi MacApi NumTheory RsaModel RsaProofs RsaEncModel RsaEncProofs RsaSigProofs RsaCases DsaModel DsaSpec DsaProofs PropDsa
  DsaObjModel DsaObjSpec DsaObjProofs.

(** ** Construction *)
(** Whatever the constructor of a named size returns has parameters of exactly this size, a key of these parameters, and the
    caller's hash object; the only error is that of [generate_prime]. *)
Theorem C68_constructors : forall (R S : Type) (src : rsrc R) fuel hfuel L N dps ctor (hf : S) rd, source_ok src ->
  In (L, N, dps, ctor) (named src fuel hfuel) ->
  (forall rd' dp, dps rd = (rd', Ok dp) -> DSA_params L N (dp_p dp) (dp_q dp) (dp_g dp)) /\
  (forall o, ctor hf rd = Ok o -> exists p q g x, do_hf o = hf /\ do_kp o = inr (mkDpriv (mkDpub (mkDp p q g) (g ^ x mod p)) x) /\ DSA_params L N p q g /\ 0 < x < q) /\
  (forall e, ctor hf rd = Err e -> e = OuterErr).
Proof.
  intros R S src fuel hfuel L N dps ctor hf rd OK IN.
  assert (G : exists l8 n, (0 < l8)%nat /\ L = Z.of_nat (8 * l8) /\ N = Z.of_nat n /\ dps = gen_params src fuel hfuel (8 * l8) n 64 /\ ctor = new_with (with_key src fuel dps)).
  { unfold named in IN. cbn [In] in IN.
    destruct IN as [IN|[IN|[IN|[IN|[]]]]]; apply pair_equal_spec in IN; destruct IN as [IN <-]; apply pair_equal_spec in IN; destruct IN as [IN <-]; apply pair_equal_spec in IN; destruct IN as [<- <-];
      [exists 128%nat, 160%nat|exists 256%nat, 224%nat|exists 256%nat, 256%nat|exists 384%nat, 256%nat]; (split; [lia|]); (split; [reflexivity|]); (split; [reflexivity|]); split; reflexivity. }
  destruct G as (l8 & n & L8 & -> & -> & -> & ->).
  assert (GP : forall rd' dp, gen_params src fuel hfuel (8 * l8) n 64 rd = (rd', Ok dp) -> DSA_params (Z.of_nat (8 * l8)) (Z.of_nat n) (dp_p dp) (dp_q dp) (dp_g dp))
    by (intros rd' dp; exact (gen_params_ok src OK hfuel (8 * l8) l8 n 64 eq_refl L8 fuel rd rd' dp)).
  split; [exact GP|]. unfold new_with, with_key, dsa_new_uncheck. split.
  - intros o E. destruct (gen_params _ _ _ _ _ _ _) as [r1 [dp|e|]] eqn:E1; try discriminate. pose proof (GP _ _ eq_refl) as PP.
    destruct (gen_key _ _ _ _) as [r2 [sk|e|]] eqn:E2; try discriminate. injection E as <-. destruct PP as (P & PP). pose proof (prime_ge_2 _ P) as P2.
    destruct (gen_key_ok src OK dp ltac:(lia) _ _ _ _ E2) as (ED & X & Y). destruct sk as [[dp' y] x]. destruct dp as [p q g]. cbn [ds_pk dk_dp dk_y ds_x dp_p dp_q dp_g] in *. subst dp' y.
    exists p, q, g, x. cbn [do_hf do_kp]. split; [reflexivity|]. split; [reflexivity|]. split; [exact (conj P PP)|exact X].
  - intros e E. destruct (gen_params _ _ _ _ _ _ _) as [r1 [dp|e1|]] eqn:E1; try discriminate.
    + destruct (gen_key _ _ _ _) as [r2 [sk|e2|]] eqn:E2; try discriminate. destruct (gen_key_err _ _ _ _ _ _ E2).
    + injection E as <-. exact (gen_params_err _ _ _ _ _ _ _ _ _ E1).
Qed.
Print Assumptions C68_constructors.

(** Every pair of primes p and q of the size with q dividing p - 1, and every key, is what some source gives. *)
Definition fixed_source (n : nat) (p q x : Z) : rsrc (list Z) := mkSrc
  (fun r _ => (r, x)) (fun r => match r with [] => ([], None) | w :: r => (r, Some w) end)
  (fun r m _ => (r, if (m =? n)%nat then Some q else None)) (fun r y _ => (r, y =? p)).
Lemma draw_all n p q x N : forall fuel ws acc, (length acc + 4 * length ws = N)%nat -> (0 < length ws <= fuel)%nat ->
  draw_bytes (fixed_source n p q x) fuel N ws acc = ([], acc ++ flat_map (be_bytes 4) ws).
Proof.
  induction fuel as [|fuel IH]; intros ws acc L F; [lia|]. destruct ws as [|w ws]; [cbn in F; lia|]. cbn [draw_bytes fixed_source rs_next length flat_map] in *.
  destruct (Nat.leb_spec N (length (acc ++ be_bytes 4 w))) as [C|C]; rewrite app_length, be_bytes_length in C.
  - destruct ws as [|w' ws]; [|cbn [length] in L; lia]. cbn [flat_map]. rewrite app_nil_r. reflexivity.
  - rewrite IH; [rewrite <- app_assoc; reflexivity|rewrite app_length, be_bytes_length; lia|]. destruct ws; cbn [length] in *; lia.
Qed.
Lemma words_of : forall n bs, length bs = (4 * n)%nat -> bytes bs -> exists ws, length ws = n /\ flat_map (be_bytes 4) ws = bs.
Proof.
  induction n as [|n IH]; intros bs L B; [exists []; destruct bs; [split; reflexivity|cbn in L; lia]|].
  rewrite <- (firstn_skipn 4 bs) in B. apply bytes_app in B. destruct B as [B1 B2].
  destruct (IH (skipn 4 bs)) as (ws & L' & E); [rewrite skipn_length; lia|exact B2|]. exists (be_val (firstn 4 bs) :: ws). cbn [length flat_map]. rewrite L', E. split; [reflexivity|].
  assert (L4 : length (firstn 4 bs) = 4%nat) by (rewrite firstn_length; lia). pose proof (be_bytes_val _ B1) as V. rewrite L4 in V. rewrite V. apply firstn_skipn.
Qed.
Lemma lor_byte : forall b, byte b -> (Z.odd b = true -> Z.lor b 1 = b) /\ (128 <= b -> Z.lor b 128 = b).
Proof.
  intros b B. assert (F : forallb (fun i => let b := Z.of_nat i in (negb (Z.odd b) || (Z.lor b 1 =? b)) && ((b <? 128) || (Z.lor b 128 =? b))) (seq 0 256) = true) by (vm_compute; reflexivity).
  pose proof (proj1 (forallb_forall _ _) F (Z.to_nat b)) as G. cbv beta zeta in G. unfold byte in B. rewrite Z2Nat.id in G by lia.
  specialize (G ltac:(apply in_seq; lia)). apply andb_true_iff in G. destruct G as [G1 G2]. apply orb_true_iff in G1, G2. split; intros X.
  - destruct G1 as [G1|G1]; [rewrite X in G1; discriminate|apply Z.eqb_eq, G1].
  - destruct G2 as [G2|G2]; [apply Z.ltb_lt in G2; lia|apply Z.eqb_eq, G2].
Qed.
Lemma or_same n p : 2 ^ (Z.of_nat (8 * n) - 1) <= p < 2 ^ Z.of_nat (8 * n) -> Z.odd p = true -> (0 < n)%nat -> or_first (or_last (be_bytes n p)) = be_bytes n p.
Proof.
  intros B O N. destruct n as [|n]; [lia|].
  assert (E1 : or_last (be_bytes (Datatypes.S n) p) = be_bytes (Datatypes.S n) p).
  { unfold or_last, be_bytes. rewrite rev_involutive. cbn [le_bytes]. rewrite (proj1 (lor_byte (p mod 256) ltac:(unfold byte; apply Z.mod_pos_bound; lia))); [reflexivity|].
    rewrite <- O. change 256 with (2 * 128). rewrite Z.rem_mul_r by lia. rewrite Z.odd_add_mul_2. rewrite Zmod_odd. destruct (Z.odd p); reflexivity. }
  rewrite E1. pose proof (be_val_bytes (Datatypes.S n) p) as V. pose proof (be_bytes_bytes (Datatypes.S n) p) as BB. pose proof (be_bytes_length (Datatypes.S n) p) as LB.
  rewrite Z.mod_small in V by (rewrite pow256; lia). destruct (be_bytes (Datatypes.S n) p) as [|b l]; [discriminate|]. cbn [or_first]. f_equal.
  apply lor_byte; [exact (Forall_inv BB)|]. change (b :: l) with ([b] ++ l) in V. rewrite be_val_app in V. change (be_val [b]) with b in V.
  pose proof (be_val_bound l (Forall_inv_tail BB)) as Bl. injection LB as LB. rewrite LB, pow256 in *. 
  replace (Z.of_nat (8 * Datatypes.S n) - 1) with (7 + Z.of_nat (8 * n)) in B by lia. rewrite Z.pow_add_r in B by lia. change (2 ^ 7) with 128 in B. nia.
Qed.
Theorem C68_reachable : forall L N p q x, In (L, N) [(1024, 160); (2048, 224); (2048, 256); (3072, 256)] ->
  prime p -> prime q -> 2 ^ (L - 1) <= p < 2 ^ L -> 2 ^ (N - 1) <= q < 2 ^ N -> (q | p - 1) -> 0 < x < q ->
  exists (src : rsrc (list Z)) fuel hfuel rd dps ctor, source_ok src /\ In (L, N, dps, ctor) (named (S := unit) src fuel hfuel) /\
    exists o g, ctor tt rd = Ok o /\ do_kp o = inr (mkDpriv (mkDpub (mkDp p q g) (g ^ x mod p)) x).
Proof.
  intros L N p q x IN P Q PB QB D X. pose proof (prime_ge_2 p P) as P2. pose proof (prime_ge_2 q Q) as Q2.
  assert (G : exists w n, (0 < w)%nat /\ L = Z.of_nat (32 * w) /\ N = Z.of_nat n /\ 0 < N /\ forall src fuel hfuel, exists ctor, In (L, N, gen_params src fuel hfuel (32 * w) n 64, ctor) (named (R := list Z) (S := unit) src fuel hfuel) /\
             ctor = new_with (with_key src fuel (gen_params src fuel hfuel (32 * w) n 64))).
  { cbn [In] in IN. destruct IN as [IN|[IN|[IN|[IN|[]]]]]; injection IN as <- <-;
      [exists 32%nat, 160%nat|exists 64%nat, 224%nat|exists 64%nat, 256%nat|exists 96%nat, 256%nat]; (split; [lia|]); (split; [reflexivity|]); (split; [reflexivity|]); (split; [lia|]);
      intros src fuel hfuel; eexists; (split; [|reflexivity]); unfold named; [left|right; left|right; right; left|right; right; right; left]; reflexivity. }
  destruct G as (w & n & W & EL & EN & N0 & NM).
  destruct (words_of w (be_bytes (4 * w) p) (be_bytes_length _ _) (be_bytes_bytes _ _)) as (ws & LW & EW).
  set (src := fixed_source n p q x). destruct (NM src 1%nat (Z.to_nat p)) as (ctor & IC & EC).
  exists src, 1%nat, (Z.to_nat p), ws, (gen_params src 1 (Z.to_nat p) (32 * w) n 64), ctor. split; [|split; [exact IC|]].
  { split; [intros r m r' y E; injection E as _ <-; lia|]. split.
    - intros r m t r' y E. cbn [src fixed_source rs_prime] in E. destruct (Nat.eqb_spec m n) as [->|]; [|discriminate]. injection E as _ <-. split; [exact Q|]. rewrite <- EN. exact QB.
    - intros r y t r' E. cbn [src fixed_source rs_test] in E. injection E as _ E. apply Z.eqb_eq in E. subst y. exact P. }
  destruct (find_g_some p q P Q D (Z.to_nat p) 2 ltac:(lia)) as [g FG]; [|lia|].
  { intros y Hy. replace y with 1 by lia. rewrite Z.pow_1_l by (apply Z.div_pos; lia). apply Z.mod_1_l. lia. }
  assert (E8 : (32 * w / 8)%nat = (4 * w)%nat) by (replace (32 * w)%nat with (4 * w * 8)%nat by lia; apply Nat.div_mul; lia).
  assert (OD : Z.odd p = true).
  { destruct (Z.odd p) eqn:O; [reflexivity|]. exfalso. assert (V : (2 | p)) by (rewrite (Zdiv2_odd_eqn p), O, Z.add_0_r; apply Z.divide_factor_l).
    assert (2 ^ 31 <= 2 ^ (L - 1)) by (apply Z.pow_le_mono_r; lia). change (2 ^ 31) with 2147483648 in *. destruct (prime_divisors _ P 2 V) as [Y|[Y|[Y|Y]]]; lia. }
  assert (PM : p mod q = 1). { destruct D as [e D]. replace p with (1 + e * q) by lia. rewrite Z.mod_add by lia. apply Z.mod_1_l. lia. }
  assert (TP : forall k, try_p_r src (32 * w) 64 q (Datatypes.S k) ws = ([], Ok (Some p))).
  { intros k. cbn [try_p_r]. rewrite E8. unfold src at 1. rewrite (draw_all n p q x (4 * w) (4 * w) ws []) by (cbn [length]; lia). cbn [app]. rewrite EW.
    rewrite firstn_all2 by (rewrite be_bytes_length; lia). rewrite be_bytes_length, Nat.ltb_irrefl, (proj2 (Nat.eqb_neq _ _)) by lia. cbn [orb].
    rewrite or_same by (try exact OD; try lia; replace (8 * (4 * w))%nat with (32 * w)%nat by lia; rewrite <- EL; exact PB).
    rewrite be_val_bytes, Z.mod_small by (rewrite pow256; replace (8 * (4 * w))%nat with (32 * w)%nat by lia; rewrite <- EL; lia).
    assert (PA : p_adjust p q = p) by (unfold p_adjust; rewrite PM; cbn [Z.eqb]; lia). rewrite PA.
    rewrite (bits_len_range (32 * w) p) by (rewrite <- ?EL; lia). rewrite Nat.ltb_irrefl. cbn [src fixed_source rs_test]. rewrite Z.eqb_refl. reflexivity. }
  subst ctor. unfold new_with, with_key. cbn [gen_params src fixed_source rs_prime]. fold src. rewrite Nat.eqb_refl.
  replace (4 * (32 * w))%nat with (Datatypes.S (4 * (32 * w) - 1)) by lia. rewrite TP, FG. cbn [gen_key src fixed_source rs_random dp_q dp_p dp_g].
  rewrite (proj2 (Z.eqb_neq x 0)), (proj2 (Z.ltb_lt x q)) by lia. cbn [negb andb dsa_new_uncheck]. rewrite powmod_ok by lia. eexists. exists g. split; reflexivity.
Qed.
Print Assumptions C68_reachable.
(** A source that ends makes the constructors panic instead of returning an error. *)
Theorem C68_ended_source_refuted : forall (R S : Type) (src : rsrc R) fuel hfuel L N dps ctor (hf : S) rd rd1 q,
  (forall r, snd (rs_next src r) = None) -> In (L, N, dps, ctor) (named src (Datatypes.S fuel) hfuel) ->
  rs_prime src rd (Z.to_nat N) 64 = (rd1, Some q) -> ctor hf rd = Panic.
Proof.
  intros R S src fuel hfuel L N dps ctor hf rd rd1 q NX IN RP.
  assert (DB : forall f n r, exists r', draw_bytes src f n r [] = (r', [])).
  { intros f n r. destruct f as [|f]; [exists r; reflexivity|]. cbn [draw_bytes]. pose proof (NX r) as X. destruct (rs_next src r) as [r' o]. cbn [snd] in X. subst o. exists r'. reflexivity. }
  assert (TP : forall l trt rounds r, (0 < rounds)%nat -> exists r', try_p_r src l trt q rounds r = (r', Panic)).
  { intros l trt rounds r L0. destruct rounds as [|rounds]; [lia|]. cbn [try_p_r]. destruct (DB (l / 8)%nat (l / 8)%nat r) as (r' & ->). exists r'. rewrite firstn_nil. destruct (l / 8)%nat; reflexivity. }
  unfold named in IN. cbn [In] in IN.
  destruct IN as [IN|[IN|[IN|[IN|[]]]]]; apply pair_equal_spec in IN; destruct IN as [IN <-]; apply pair_equal_spec in IN; destruct IN as [IN <-]; apply pair_equal_spec in IN; destruct IN as [<- <-];
    [unfold new_with_l1024_n160, l1024_n160|unfold new_with_l2048_n224, l2048_n224|unfold new_with_l2048_n256, l2048_n256|unfold new_with_l3072_n256, l3072_n256];
    unfold new_with, with_key; cbn [gen_params]; unfold test_round_times;
    [change (Z.to_nat 160) with 160%nat in RP; destruct (TP 1024%nat 64%nat (4 * 1024)%nat rd1 ltac:(lia)) as (r' & E)
    |change (Z.to_nat 224) with 224%nat in RP; destruct (TP 2048%nat 64%nat (4 * 2048)%nat rd1 ltac:(lia)) as (r' & E)
    |change (Z.to_nat 256) with 256%nat in RP; destruct (TP 2048%nat 64%nat (4 * 2048)%nat rd1 ltac:(lia)) as (r' & E)
    |change (Z.to_nat 256) with 256%nat in RP; destruct (TP 3072%nat 64%nat (4 * 3072)%nat rd1 ltac:(lia)) as (r' & E)]; rewrite RP, E; reflexivity.
Qed.
Print Assumptions C68_ended_source_refuted.

(** ** Histories *)
(** What the calls of a history return is what they return on a new object, with draws that follow one another in the source:
    nothing else of the history shows, verification draws nothing, and no draw serves two calls. *)
Theorem C68_histories : forall (R S : Type) (src : rsrc R) (D : digest S) fuel (I : S -> Prop) H limit s0 s rd kp ops, DigestOk D I H limit ->
  I s0 -> I s -> Forall (dop_ok limit) ops ->
  let rs := obj_results src fuel D (mkDsa s rd kp) ops in
  exists segs rd', drawn src (dp_q (dk_dp (dkp_public kp))) rd (concat segs) rd' /\
    rs = map (fun '(op, draws) => fresh_outcome D kp s0 draws op) (combine ops segs) /\
    (length segs <= length ops)%nat /\ (Forall (fun x => snd x <> Panic) rs -> length segs = length ops) /\
    (forall c msg draws, In (DVerify c msg, draws) (combine ops segs) -> draws = []).
Proof. intros R S src D fuel I H limit s0 s rd kp ops HG H0 Hs F rs. exact (obj_results_ok src D fuel I H limit HG s0 kp H0 ops s rd Hs F). Qed.
Print Assumptions C68_histories.

Lemma nth_combine {A B C} (f : A * B -> C) : forall (l : list A) (l' : list B) i x, nth_error (map f (combine l l')) i = Some x ->
  exists a b, nth_error l i = Some a /\ nth_error l' i = Some b /\ x = f (a, b).
Proof.
  induction l as [|a l IH]; intros l' i x E; [destruct i; discriminate|]. destruct l' as [|b l']; [destruct i; discriminate|].
  destruct i as [|i]; cbn [combine map nth_error] in *; [injection E as <-; exists a, b; repeat split|exact (IH l' i x E)].
Qed.
Lemma concat_two {A} (k k' : A) : forall segs i j l l', (i < j)%nat -> nth_error segs i = Some l -> nth_error segs j = Some l' -> In k l -> In k' l' ->
  exists a b d, concat segs = a ++ k :: b ++ k' :: d.
Proof.
  induction segs as [|x segs IH]; intros i j l l' L E E' K K'; [destruct i; discriminate|]. destruct j as [|j]; [lia|]. destruct i as [|i]; cbn [nth_error concat] in *.
  - injection E as ->. apply in_split in K. destruct K as (a & b & ->). apply nth_error_In in E'.
    assert (IC : In k' (concat segs)) by (apply in_concat; exists l'; split; assumption). apply in_split in IC. destruct IC as (b' & d & ->).
    exists a, (b ++ b'), d. rewrite <- ?app_assoc. cbn [app]. rewrite <- ?app_assoc. reflexivity.
  - destruct (IH i j l l' ltac:(lia) E E' K K') as (a & b & d & ->). exists (x ++ a), b, d. rewrite <- app_assoc. reflexivity.
Qed.
(** Two signatures of one object are made with nonces drawn at different places of the source. *)
Theorem C68_nonces : forall (R S : Type) (src : rsrc R) (D : digest S) fuel (I : S -> Prop) H limit h s rd p q g y x ops i j c m c' m' c1 c2,
  DigestOk D I H limit -> d_bits_len D = (8 * h)%nat -> 0 < p -> prime q -> 0 < g -> 0 < x -> (bits_len q mod 8 = 0)%nat ->
  I s -> Forall (dop_ok limit) ops -> (i < j)%nat ->
  nth_error ops i = Some (DSign c m) -> nth_error ops j = Some (DSign c' m') ->
  let rs := obj_results src fuel D (mkDsa s rd (inr (mkDpriv (mkDpub (mkDp p q g) y) x))) ops in
  nth_error rs i = Some (c1, Ok tt) -> nth_error rs j = Some (c2, Ok tt) ->
  let N := Z.of_nat (bits_len q) in
  exists a k b k' d rd' r v r' v', drawn src q rd (a ++ k :: b ++ k' :: d) rd' /\
    sigc_to_bigint c1 = Ok (r, v) /\ DSA_signature p q g x (DSA_z N (H m)) k r v /\
    sigc_to_bigint c2 = Ok (r', v') /\ DSA_signature p q g x (DSA_z N (H m')) k' r' v'.
Proof.
  intros R S src D fuel I H limit h s rd p q g y x ops i j c m c' m' c1 c2 HG HB P Q G X M Hs F L Oi Oj rs Ri Rj N.
  destruct (C68_histories R S src D fuel I H limit s s rd (inr (mkDpriv (mkDpub (mkDp p q g) y) x)) ops HG Hs Hs F) as (segs & rd' & A & E & _). fold rs in E. rewrite E in Ri, Rj.
  destruct (nth_combine _ _ _ _ _ Ri) as (oi & li & Oi' & Li & Xi). destruct (nth_combine _ _ _ _ _ Rj) as (oj & lj & Oj' & Lj & Xj).
  rewrite Oi in Oi'. injection Oi' as <-. rewrite Oj in Oj'. injection Oj' as <-. cbn [fresh_outcome] in Xi, Xj.
  assert (ONE : forall c m l c1 op, In op ops -> op = DSign c m -> (c1, Ok tt) = (let '(_, c', r) := dsa_sign D (inr (mkDpriv (mkDpub (mkDp p q g) y) x)) s l c m in (c', r)) ->
    exists k r v, In k l /\ sigc_to_bigint c1 = Ok (r, v) /\ DSA_signature p q g x (DSA_z N (H m)) k r v).
  { intros c0 m0 l c3 op IO EO E0. pose proof (proj1 (Forall_forall _ _) F op IO) as O. rewrite EO in O. destruct O as [B LM]. unfold dsa_sign in E0.
    destruct (sign_inner _ _ _ _ _) as [s1 [[r v]|e|]] eqn:SI; try discriminate. injection E0 as ->.
    destruct (C45_sign_standard S D I H limit h p q g y x s s1 l m0 r v HG HB P Q G X M Hs B LM SI) as (k & K1 & _ & K2). exists k, r, v. split; [exact K1|].
    split; [|exact K2]. destruct K2 as (_ & K2 & K3 & _). apply sigc_set_get; lia. }
  destruct (ONE c m li c1 _ (nth_error_In _ _ Oi) eq_refl Xi) as (k & r & v & K1 & K2 & K3).
  destruct (ONE c' m' lj c2 _ (nth_error_In _ _ Oj) eq_refl Xj) as (k' & r' & v' & K1' & K2' & K3').
  destruct (concat_two k k' segs i j li lj L Li Lj K1 K1') as (a & b & d & EC). rewrite EC in A. cbn [dkp_public ds_pk dk_dp dp_q] in A.
  exists a, k, b, k', d, rd', r, v, r', v'. split; [exact A|]. split; [exact K2|]. split; [exact K3|]. split; assumption.
Qed.
Print Assumptions C68_nonces.

(** A signature made in any history of an object made by a named constructor verifies in any history of any object with the same
    public key, when the digest is no longer than q. *)
Theorem C68_sign_verify : forall (R S : Type) (src : rsrc R) (D : digest S) fuel hfuel (I : S -> Prop) H limit h L N dps ctor hf rd o ops i c m c1 s' rd' kp' ops' j,
  DigestOk D I H limit -> d_bits_len D = (8 * h)%nat -> source_ok src -> In (L, N, dps, ctor) (named src fuel hfuel) -> I hf -> ctor hf rd = Ok o -> 8 * Z.of_nat h <= N ->
  Forall (dop_ok limit) ops -> nth_error ops i = Some (DSign c m) -> nth_error (obj_results src fuel D o ops) i = Some (c1, Ok tt) ->
  I s' -> dkp_public kp' = dkp_public (do_kp o) -> Forall (dop_ok limit) ops' -> nth_error ops' j = Some (DVerify c1 m) ->
  let rs' := obj_results src fuel D (mkDsa s' rd' kp') ops' in (j < length rs')%nat -> nth_error rs' j = Some (c1, Ok tt).
Proof.
  intros R S src D fuel hfuel I H limit h L N dps ctor hf rd o ops i c m c1 s' rd' kp' ops' j HG HB OK IN Hh EO LE F Oi Ri Hs' PK F' Oj rs' Lj.
  destruct (proj1 (proj2 (C68_constructors R S src fuel hfuel L N dps ctor hf rd OK IN)) o EO) as (p & q & g & x & Eh & Ek & PP & X).
  destruct o as [hf0 rd0 kp]. cbn [do_hf do_kp] in *. subst hf0 kp. destruct PP as (P & Q & PB & QB & DV & G & OG). pose proof (prime_ge_2 _ P) as P2. pose proof (prime_ge_2 _ Q) as Q2.
  assert (BQ : Z.of_nat (bits_len q) = N /\ (bits_len q mod 8 = 0)%nat).
  { clear -IN QB Q2. assert (T : forall n, N = Z.of_nat n -> (n mod 8 = 0)%nat -> Z.of_nat (bits_len q) = N /\ (bits_len q mod 8 = 0)%nat)
      by (intros n -> M; rewrite (bits_len_range n q QB) by lia; split; [reflexivity|exact M]).
    unfold named in IN. cbn [In] in IN.
    destruct IN as [IN|[IN|[IN|[IN|[]]]]]; apply pair_equal_spec in IN; destruct IN as [IN _]; apply pair_equal_spec in IN; destruct IN as [IN _]; apply pair_equal_spec in IN; destruct IN as [_ <-];
      [apply (T 160%nat)|apply (T 224%nat)|apply (T 256%nat)|apply (T 256%nat)]; reflexivity. }
  destruct BQ as [BQ M].
  destruct (C68_histories R S src D fuel I H limit hf hf rd0 (inr (mkDpriv (mkDpub (mkDp p q g) (g ^ x mod p)) x)) ops HG Hh Hh F) as (segs & rd1 & A & E & _). rewrite E in Ri. destruct (nth_combine _ _ _ _ _ Ri) as (oi & l & Oi' & Li & Xi).
  rewrite Oi in Oi'. injection Oi' as <-. cbn [fresh_outcome] in Xi.
  destruct (C68_histories R S src D fuel I H limit s' s' rd' kp' ops' HG Hs' Hs' F') as (segs' & rd2 & A' & E' & _). fold rs' in E'.
  destruct (nth_error rs' j) as [y|] eqn:Rj; [|apply nth_error_None in Rj; lia]. rewrite E' in Rj. destruct (nth_combine _ _ _ _ _ Rj) as (oj & l' & Oj' & Lj' & Xj).
  rewrite Oj in Oj'. injection Oj' as <-. cbn [fresh_outcome] in Xj. subst y. f_equal. f_equal.
  destruct (dsa_sign _ _ _ _ _ _) as [[s1 c2] r2] eqn:SG. injection Xi as <- <-.
  pose proof (proj1 (Forall_forall _ _) F _ (nth_error_In _ _ Oi)) as [B LM].
  exact (C45_sign_verify S D I H limit h p q g x kp' hf s' l c c1 m s1 HG HB ltac:(lia) Q ltac:(lia) OG (proj1 X) PK M ltac:(lia) Hh Hs' B LM SG).
Qed.
Print Assumptions C68_sign_verify.
(** Verification in any history decides exactly the standard's condition, here for digests no longer than q. *)
Theorem C68_verify_iff : forall (R S : Type) (src : rsrc R) (D : digest S) fuel (I : S -> Prop) H limit h s rd p q g y kp ops j c m r v x,
  DigestOk D I H limit -> d_bits_len D = (8 * h)%nat -> dkp_public kp = mkDpub (mkDp p q g) y -> 0 < p -> (bits_len q mod 8 = 0)%nat -> (8 * h <= bits_len q)%nat ->
  I s -> Forall (dop_ok limit) ops -> nth_error ops j = Some (DVerify c m) -> sigc_to_bigint c = Ok (r, v) ->
  nth_error (obj_results src fuel D (mkDsa s rd kp) ops) j = Some (c, x) ->
  (x = Ok tt \/ x = Err VerificationFailed) /\ (x = Ok tt <-> DSA_accepts p q g y (DSA_z (Z.of_nat (bits_len q)) (H m)) r v).
Proof.
  intros R S src D fuel I H limit h s rd p q g y kp ops j c m r v x HG HB K P M LE Hs F Oj C Rj.
  destruct (C68_histories R S src D fuel I H limit s s rd kp ops HG Hs Hs F) as (segs & rd' & A & E & _). rewrite E in Rj. destruct (nth_combine _ _ _ _ _ Rj) as (oj & l & Oj' & Lj & Xj).
  rewrite Oj in Oj'. injection Oj' as <-. cbn [fresh_outcome] in Xj. injection Xj as ->. unfold dsa_verify. rewrite C.
  pose proof (proj1 (Forall_forall _ _) F _ (nth_error_In _ _ Oj)) as [B LM].
  destruct (C45_verify_iff S D I H limit h p q g y kp s m r v HG HB K P M Hs B LM) as (V1 & _ & V3). split; [exact V1|exact (V3 LE)].
Qed.
Print Assumptions C68_verify_iff.
(** After any history [digest_func] returns a hash object of the same hash function with nothing written, the key pair is the
    one given, and [rand_source] returns the source from which the next nonce is drawn. *)
Theorem C68_accessors : forall (R S : Type) (src : rsrc R) (D : digest S) fuel (I : S -> Prop) H limit s rd kp ops, DigestOk D I H limit -> I s -> Forall (dop_ok limit) ops ->
  let o := obj_after src fuel D (mkDsa s rd kp) ops in
  do_kp o = kp /\
  (forall ws, Forall bytes ws -> Z.of_nat (length (concat ws)) < limit -> snd (d_checksum D (fold_left (d_write D) ws (digest_func D o))) = H (concat ws)) /\
  (forall c m, bytes m -> Z.of_nat (length m) < limit -> exists draws rd', drawn src (dp_q (dk_dp (dkp_public kp))) (rand_source o) draws rd' /\
     snd (obj_call src fuel D o (DSign c m)) = fresh_outcome D kp s draws (DSign c m)).
Proof.
  intros R S src D fuel I H limit s rd kp ops HG Hs F o. destruct (obj_after_ok src D fuel I H limit HG s kp Hs ops s rd Hs F) as [Ho K]. fold o in Ho, K.
  split; [exact K|]. split.
  - intros ws B L. destruct HG as [_ _ _ G _ _]. exact (G (do_hf o) ws Ho B L).
  - intros c m B L. destruct o as [s1 rd1 kp1]. cbn [do_hf do_kp rand_source do_rd] in *. subst kp1. destruct (obj_call _ _ _ _ _) as [o' x] eqn:C.
    destruct (obj_call_ok src D fuel I H limit HG s s1 rd1 kp (DSign c m) o' x Hs Ho (conj B L) C) as (l & A & _ & _ & E & _). exists l, (do_rd o'). split; [exact A|exact E].
Qed.
Print Assumptions C68_accessors.

(** A source that meets the conditions, construction from it with sixteen-bit p and eight-bit q, and a history of five calls. *)
Definition toy_source : rsrc (list Z) := mkSrc
  (fun r _ => match r with [] => ([], 0) | x :: r => (r, Z.abs x) end) (fun r => match r with [] => ([], None) | x :: r => (r, Some x) end)
  (fun r n _ => (r, if (n =? 8)%nat then Some 251 else None)) (fun r x _ => (r, primeb 255 x)).
Example C68_source : source_ok toy_source.
Proof.
  split; [|split].
  - intros r q r' x E. cbn [toy_source rs_random] in E. destruct r as [|y r]; injection E as _ <-; [lia|apply Z.abs_nonneg].
  - intros r n t r' q E. cbn [toy_source rs_prime] in E. destruct (Nat.eqb_spec n 8) as [->|]; [|discriminate]. injection E as _ <-. split; [exact prime_251|]. cbn. lia.
  - intros r x t r' E. cbn [toy_source rs_test] in E. injection E as _ E. exact (primeb_ok 255 x E).
Qed.
Example C68_case :
  (exists o, new_with (with_key toy_source 9 (gen_params toy_source 9 9 16 8 64)) ([] : list Z) (map (fun i => 3196059648 + 16449536 * Z.of_nat i) (seq 0 17) ++ [0; 300; 19; 5; 6]) = Ok o /\ do_rd o = [5; 6] /\
    do_kp o = inr (mkDpriv (mkDpub (mkDp 52711 251 51166) (51166 ^ 19 mod 52711)) 19)) /\
  (let rs := obj_results toy_source 9 SumDigest (mkDsa [] [0; 3; 0; 5; 7] (inr toy_key))
     [DSign sigc_new [1; 2; 3]; DVerify (sigc_from 64 30) [1; 2; 3]; DSign sigc_new [1; 2; 3]; DVerify (sigc_from 64 30) [1; 2; 4]; DSign sigc_new [9]] in
   map snd rs = [Ok tt; Ok tt; Ok tt; Err VerificationFailed; Ok tt] /\ map (fun x => sc_content (fst x)) rs = [[64; 30]; [64; 30]; [18; 213]; [64; 30]; [37; 127]]).
Proof. split; [eexists; split; [vm_compute; reflexivity|split; vm_compute; reflexivity]|]. vm_compute. split; reflexivity. Qed.
