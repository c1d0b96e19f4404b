(** The u64 code of DesModel.v computes the bit-string functions of DesSpec.v. *)
From Verif Require Import Base Words ModesModel ModesSpec DesModel DesSpec.

(** u64 bit holding bit k (from 0, left to right over the bytes) of a bit string. *)
Definition pos (k : nat) : Z := Z.of_nat (8 * (k / 8) + (7 - k mod 8)).
(** The first n bits of a u64 read as a byte string. *)
Definition fb (n : nat) (x : Z) : list bool := map (fun k => Z.testbit x (pos k)) (seq 0 n).

Lemma fb_length n x : length (fb n x) = n.
Proof. unfold fb. rewrite map_length, seq_length. reflexivity. Qed.
Lemma fb_nth n x k : (k < n)%nat -> nth k (fb n x) false = Z.testbit x (pos k).
Proof.
  intros H. unfold fb. rewrite nth_indep with (d' := (fun k => Z.testbit x (pos k)) 0%nat) by (rewrite map_length, seq_length; auto).
  rewrite (map_nth (fun k => Z.testbit x (pos k))), seq_nth by auto. reflexivity.
Qed.
Lemma pos_nonneg k : 0 <= pos k.
Proof. unfold pos. lia. Qed.

(** *** permute *)
Lemma permute_fold key tb : forall i kp, 0 <= i ->
  (forall j, i <= j -> Z.testbit kp j = false) ->
  forall j, 0 <= j ->
  Z.testbit (snd (fold_left (fun '(i, kp) ele =>
        let b := Z.land (Z.shiftr key ele) 1 in (i + 1, Z.lor kp (Z.shiftl b i))) tb (i, kp))) j =
  if j <? i then Z.testbit kp j
  else match nth_error tb (Z.to_nat (j - i)) with
       | Some e => Z.testbit (Z.shiftr key e) 0
       | None => false end.
Proof.
  induction tb as [|e tb IH]; intros i kp Hi Hk j Hj.
  - cbn [fold_left snd]. destruct (Z.ltb_spec j i); [reflexivity|]. rewrite Hk by lia.
    destruct (Z.to_nat (j - i)); reflexivity.
  - cbn [fold_left].
    assert (Hb : forall t, Z.testbit (Z.shiftl (Z.land (Z.shiftr key e) 1) i) t =
                           if t =? i then Z.testbit (Z.shiftr key e) 0 else false).
    { intros t. destruct (Z.eqb_spec t i) as [->|Hne].
      - rewrite Z.shiftl_spec, Z.sub_diag, Z.land_spec by lia. cbn [Z.testbit]. rewrite Bool.andb_true_r. reflexivity.
      - destruct (Z.lt_ge_cases t 0); [rewrite Z.testbit_neg_r by lia; reflexivity|].
        rewrite Z.shiftl_spec by lia. destruct (Z.lt_ge_cases t i); [rewrite Z.testbit_neg_r by lia; reflexivity|].
        rewrite Z.land_spec. replace (Z.testbit 1 (t - i)) with false; [apply Bool.andb_false_r|].
        symmetry. apply Z.bits_above_log2; cbn; lia. }
    rewrite IH; [|lia| |lia].
    + destruct (Z.ltb_spec j (i + 1)), (Z.ltb_spec j i); try lia.
      * rewrite Z.lor_spec, Hb. replace (j =? i) with false by lia. apply Bool.orb_false_r.
      * assert (j = i) as -> by lia. rewrite Z.lor_spec, Hb, Z.eqb_refl, Hk, Z.sub_diag by lia. reflexivity.
      * replace (Z.to_nat (j - i)) with (S (Z.to_nat (j - (i + 1)))) by lia. reflexivity.
    + intros t Ht. rewrite Z.lor_spec, Hb, Hk by lia. replace (t =? i) with false by lia. reflexivity.
Qed.
Lemma permute_bit key tb j : 0 <= j -> Z.testbit (permute key tb) j =
  match nth_error tb (Z.to_nat j) with Some e => Z.testbit (Z.shiftr key e) 0 | None => false end.
Proof.
  intros Hj. unfold permute. rewrite permute_fold; [|lia|intros; apply Z.bits_0|lia].
  replace (j <? 0) with false by lia. rewrite Z.sub_0_r. reflexivity.
Qed.

(** The table check: entry [pos k] of the code's table is the u64 position of entry k of the standard's. *)
Definition tab_ok (n : nat) (tb : list Z) (ft : list nat) : bool :=
  (length ft =? length tb)%nat &&
  forallb (fun k => match nth_error tb (Z.to_nat (pos k)) with
                    | Some e => (e =? pos (nth k ft 0%nat - 1)) && (1 <=? nth k ft 0)%nat && (nth k ft 0 <=? n)%nat
                    | None => false end) (seq 0 (length ft)).
Lemma map_ext_seq {A} (f g : nat -> A) n : (forall k, (k < n)%nat -> f k = g k) -> map f (seq 0 n) = map g (seq 0 n).
Proof. intros H. apply map_ext_in. intros k Hk. apply in_seq in Hk. apply H. lia. Qed.
Lemma nth_map_seq {A B} (f : A -> B) l d : map f l = map (fun k => f (nth k l d)) (seq 0 (length l)).
Proof.
  induction l; [reflexivity|]. cbn [length seq map]. f_equal. rewrite <- seq_shift, map_map. exact IHl.
Qed.
Lemma permute_fb n tb ft x : tab_ok n tb ft = true -> fb (length ft) (permute x tb) = perm ft (fb n x).
Proof.
  intros H. unfold tab_ok in H. apply andb_prop in H. destruct H as [_ H]. rewrite forallb_forall in H.
  unfold perm. rewrite (nth_map_seq _ ft 0%nat). unfold fb at 1. apply map_ext_seq. intros k Hk.
  specialize (H k ltac:(apply in_seq; lia)). rewrite permute_bit by apply pos_nonneg.
  destruct (nth_error tb (Z.to_nat (pos k))) as [e|]; [|discriminate].
  apply andb_prop in H. destruct H as [H H3]. apply andb_prop in H. destruct H as [H1 H2].
  apply Z.eqb_eq in H1. apply Nat.leb_le in H2, H3. subst e.
  rewrite fb_nth by lia. rewrite Z.shiftr_spec, Z.add_0_l by lia. reflexivity.
Qed.
Lemma permute_bound x tb : 0 <= permute x tb < 2 ^ Z.of_nat (length tb).
Proof.
  assert (0 <= permute x tb).
  { unfold permute. assert (G : forall t i kp, 0 <= i -> 0 <= kp -> 0 <= snd (fold_left (fun '(i, kp) ele =>
        let b := Z.land (Z.shiftr x ele) 1 in (i + 1, Z.lor kp (Z.shiftl b i))) t (i, kp))).
    { induction t as [|e t IH]; intros i kp Hi Hk; [exact Hk|]. cbn [fold_left]. apply IH; [lia|].
      apply Z.lor_nonneg. split; [auto|]. apply Z.shiftl_nonneg. apply Z.land_nonneg. right. lia. }
    apply G; lia. }
  split; [auto|]. destruct (Z.eq_dec (permute x tb) 0) as [->|Hne]; [apply Z.pow_pos_nonneg; lia|].
  apply Z.log2_lt_pow2; [lia|]. apply Z.nle_gt. intros Hl.
  assert (X : Z.testbit (permute x tb) (Z.log2 (permute x tb)) = true) by (apply Z.bit_log2; lia).
  rewrite permute_bit in X by apply Z.log2_nonneg.
  destruct (nth_error tb _) eqn:E; [|discriminate].
  assert (nth_error tb (Z.to_nat (Z.log2 (permute x tb))) <> None) as N by congruence.
  apply nth_error_Some in N. lia.
Qed.

(** *** bytes and bits *)
Lemma bits8_length b : length (bits8 b) = 8%nat. Proof. reflexivity. Qed.
Lemma to_bits_length m : length (to_bits m) = (8 * length m)%nat.
Proof. induction m; [reflexivity|]. cbn [to_bits flat_map length]. rewrite app_length, bits8_length. unfold to_bits in IHm. lia. Qed.
Lemma testbit_low a y i : byte a -> 0 <= i < 8 -> Z.testbit (a + 256 * y) i = Z.testbit a i.
Proof.
  intros [Ha1 Ha2] Hi. replace (a + 256 * y) with (a + y * 2 ^ 8) by (change (2 ^ 8) with 256; lia).
  rewrite <- (Z.mod_pow2_bits_low _ 8) by lia.
  rewrite Z.mod_add, Z.mod_small by (change (2 ^ 8) with 256; lia). reflexivity.
Qed.
Lemma testbit_high a y i : byte a -> 8 <= i -> Z.testbit (a + 256 * y) i = Z.testbit y (i - 8).
Proof.
  intros [Ha1 Ha2] Hi. replace i with ((i - 8) + 8) at 1 by lia.
  rewrite <- Z.shiftr_spec, Z.shiftr_div_pow2 by lia. f_equal.
  change (2 ^ 8) with 256. rewrite Z.mul_comm, Z.div_add, Z.div_small by lia. lia.
Qed.
Lemma seq_add s n : seq s n = map (fun k => (s + k)%nat) (seq 0 n).
Proof.
  revert s. induction n; intros s; [reflexivity|]. cbn [seq map]. f_equal; [lia|].
  rewrite IHn, (IHn 1%nat), map_map. apply map_ext. intros. lia.
Qed.
Lemma pos_8 k : pos (8 + k) = 8 + pos k.
Proof.
  unfold pos. replace (8 + k)%nat with (k + 1 * 8)%nat by lia. rewrite Nat.div_add, Nat.mod_add by lia. lia.
Qed.
Lemma fb_le_val l : bytes l -> forall n, length l = n -> fb (8 * n) (le_val l) = to_bits l.
Proof.
  induction 1 as [|a l Ha Hl IH]; intros n Hn; subst n; [reflexivity|].
  cbn [length]. replace (8 * S (length l))%nat with (8 + 8 * length l)%nat by lia.
  unfold fb. rewrite seq_app, map_app. cbn [to_bits flat_map le_val]. f_equal.
  - cbn [seq map]. unfold bits8. cbn [seq rev app map]. cbn [Nat.div Nat.divmod fst snd Nat.modulo Nat.sub Nat.mul Nat.add pos].
    repeat (apply (f_equal2 (@cons bool)); [rewrite testbit_low by (auto; vm_compute; split; congruence); reflexivity|]). reflexivity.
  - rewrite seq_add, map_map. change (flat_map bits8 l) with (to_bits l); rewrite <- (IH _ eq_refl). unfold fb. apply map_ext_seq. intros k Hk.
    cbn [Nat.add]. change (S (S (S (S (S (S (S (S k)))))))) with (8 + k)%nat. rewrite pos_8, testbit_high by (auto; pose proof (pos_nonneg k); lia). f_equal. lia.
Qed.
Lemma le_val8 x n : 0 <= x < 256 ^ Z.of_nat n -> le_val (le_bytes n x) = x.
Proof. intros. rewrite le_val_bytes. apply Z.mod_small. auto. Qed.
Lemma fb_prefix n m x : (n <= m)%nat -> fb n x = firstn n (fb m x).
Proof.
  intros H. unfold fb. rewrite firstn_map. f_equal.
  replace m with (n + (m - n))%nat by lia. rewrite seq_app, firstn_app, seq_length, Nat.sub_diag.
  cbn [firstn]. rewrite app_nil_r, firstn_all2; [reflexivity|]. rewrite seq_length. lia.
Qed.
Lemma fb_bytes n x : 0 <= x < 256 ^ Z.of_nat n -> to_bits (le_bytes n x) = fb (8 * n) x.
Proof.
  intros H. rewrite <- (le_val8 x n H) at 2. symmetry. apply fb_le_val; [apply le_bytes_bytes|apply le_bytes_length].
Qed.
Lemma val8_bits8 b : byte b -> val8 (bits8 b) = b.
Proof.
  intros H. apply Z.eqb_eq. revert b H. apply (forall_byte (fun b => val8 (bits8 b) =? b)). vm_compute. reflexivity.
Qed.
Lemma of_bits_app g l : length g = 8%nat -> of_bits (g ++ l) = val8 g :: of_bits l.
Proof.
  intros Hg. unfold of_bits. rewrite app_length, Hg. replace ((8 + length l) / 8)%nat with (S (length l / 8)).
  2:{ replace (8 + length l)%nat with (length l + 1 * 8)%nat by lia. rewrite Nat.div_add by lia. lia. }
  cbn [seq map]. f_equal.
  - change (8 * 0)%nat with 0%nat. cbn [skipn]. rewrite firstn_app, Hg, Nat.sub_diag, firstn_O, app_nil_r, firstn_all2 by lia. reflexivity.
  - rewrite <- seq_shift, map_map. apply map_ext. intros k. do 2 f_equal.
    rewrite skipn_app, Hg. rewrite skipn_all2 by lia. cbn [app]. f_equal. lia.
Qed.
Lemma of_to_bits m : bytes m -> of_bits (to_bits m) = m.
Proof.
  induction 1 as [|b m Hb Hm IH]; [reflexivity|]. cbn [to_bits flat_map].
  rewrite of_bits_app by reflexivity. rewrite val8_bits8 by auto. f_equal. exact IH.
Qed.
Lemma bits8_val8 g : length g = 8%nat -> bits8 (val8 g) = g /\ byte (val8 g).
Proof.
  intros H. do 9 (destruct g as [|[] g]; [try discriminate|..]); try discriminate.
  all: split; [reflexivity|vm_compute; split; congruence].
Qed.
Lemma to_of_bits k : forall l, length l = (8 * k)%nat ->
  to_bits (of_bits l) = l /\ bytes (of_bits l) /\ length (of_bits l) = k.
Proof.
  induction k; intros l Hl.
  - destruct l; [|discriminate]. repeat split; constructor.
  - rewrite <- (firstn_skipn 8 l). assert (H8 : length (firstn 8 l) = 8%nat) by (rewrite firstn_length; lia).
    rewrite of_bits_app by auto. destruct (bits8_val8 _ H8) as [B1 B2].
    destruct (IHk (skipn 8 l)) as (I1 & I2 & I3); [rewrite skipn_length; lia|].
    change (to_bits (val8 (firstn 8 l) :: of_bits (skipn 8 l))) with (bits8 (val8 (firstn 8 l)) ++ to_bits (of_bits (skipn 8 l))). rewrite B1, I1.
    split; [reflexivity|]. split; [constructor; auto|]. cbn [length]. lia.
Qed.

(** *** lor of disjoint bytes is le_val *)
Lemma testbit_hi x m k : 0 <= x < 2 ^ m -> m <= k -> Z.testbit x k = false.
Proof.
  intros Hx Hk. destruct (Z.eq_dec x 0) as [->|]; [apply Z.bits_0|].
  apply Z.bits_above_log2; [lia|]. apply Z.lt_le_trans with m; [apply Z.log2_lt_pow2; lia|auto].
Qed.
Lemma lor_shift_add' a m y : 0 <= m -> 0 <= a < 2 ^ m -> Z.lor a (Z.shiftl y m) = a + 2 ^ m * y.
Proof.
  intros Hm Ha. rewrite Z.shiftl_mul_pow2 by lia. rewrite <- Z.add_nocarry_lxor at 1 || idtac.
  rewrite (Z.mul_comm (2 ^ m)). symmetry.
  assert (D : Z.land a (y * 2 ^ m) = 0).
  { apply Z.bits_inj'. intros k Hk. rewrite Z.land_spec, Z.bits_0.
    destruct (Z.lt_ge_cases k m).
    - rewrite Z.mul_pow2_bits_low by lia. apply Bool.andb_false_r.
    - rewrite (testbit_hi a m k) by auto. reflexivity. }
  rewrite <- Z.lxor_lor by exact D. apply Z.add_nocarry_lxor. exact D.
Qed.
Lemma lor_le_val a m y k : bytes a -> m = 8 * Z.of_nat (length a) -> byte y -> k = length a ->
  Z.lor (le_val a) (Z.shiftl y m) = le_val (a ++ [y]).
Proof.
  intros Ha -> Hy ->. rewrite lor_shift_add'; [|lia|].
  - rewrite le_val_app. cbn [le_val]. replace (2 ^ (8 * Z.of_nat (length a))) with (256 ^ Z.of_nat (length a)).
    + rewrite Z.mul_0_r, Z.add_0_r. reflexivity.
    + rewrite Z.pow_mul_r by lia. reflexivity.
  - rewrite Z.pow_mul_r by lia. apply le_val_bound. auto.
Qed.

(** *** S-boxes *)
Definition nib (i : nat) (b : Z) : Z := tbl (nth i DES_S []) (sbox_idx b).
Definition nib_ok (i : nat) (b : Z) (g : list bool) : bool :=
  (0 <=? nib i b) && (nib i b <? 16) &&
  forallb (fun p => Bool.eqb (fst p) (snd p)) (combine (bits4 (Z.to_nat (nib i b))) (Sbox i g)) && (length (Sbox i g) =? 4)%nat.
Lemma nib_ok_eq i b g : nib_ok i b g = true -> 0 <= nib i b < 16 /\ Sbox i g = bits4 (Z.to_nat (nib i b)).
Proof.
  unfold nib_ok. rewrite !Bool.andb_true_iff. intros [[[H1 H2] H3] H4]. split; [lia|].
  apply Nat.eqb_eq in H4. destruct (Sbox i g) as [|x0 [|x1 [|x2 [|x3 [|]]]]]; try discriminate.
  unfold bits4 in *. cbn [map combine forallb fst snd] in H3.
  rewrite !Bool.andb_true_iff in H3. destruct H3 as (A & B & C & D & _).
  apply Bool.eqb_prop in A, B, C, D. subst. reflexivity.
Qed.
Lemma nib_byte a b : 0 <= a < 16 -> 0 <= b < 16 ->
  byte (Z.shiftl a 4 + b) /\ bits8 (Z.shiftl a 4 + b) = bits4 (Z.to_nat a) ++ bits4 (Z.to_nat b).
Proof.
  intros Ha Hb.
  assert (H : forallb (fun a => forallb (fun b => byteb (Z.shiftl a 4 + b) && forallb (fun p => Bool.eqb (fst p) (snd p))
     (combine (bits8 (Z.shiftl a 4 + b)) (bits4 (Z.to_nat a) ++ bits4 (Z.to_nat b)))) (map Z.of_nat (seq 0 16))) (map Z.of_nat (seq 0 16)) = true)
    by (vm_compute; reflexivity).
  rewrite forallb_forall in H.
  assert (I : forall x, 0 <= x < 16 -> In x (map Z.of_nat (seq 0 16))).
  { intros x Hx. apply in_map_iff. exists (Z.to_nat x). split; [lia|apply in_seq; lia]. }
  specialize (H a (I a Ha)). rewrite forallb_forall in H. specialize (H b (I b Hb)).
  apply andb_prop in H. destruct H as [H1 H2]. split; [apply byteb_spec; auto|].
  revert H2. generalize (Z.shiftl a 4 + b). intros x. unfold bits8, bits4. cbn [seq rev app map combine forallb fst snd].
  rewrite !Bool.andb_true_iff. intros (A1 & A2 & A3 & A4 & A5 & A6 & A7 & A8 & _).
  apply Bool.eqb_prop in A1, A2, A3, A4, A5, A6, A7, A8. congruence.
Qed.
Section SboxChecks.
Let B1 e0 := Z.shiftr e0 2.
Let B2 e0 e1 := shl8 (Z.land e0 3) 4 + Z.shiftr e1 4.
Let B3 e1 e2 := shl8 (Z.land e1 15) 2 + Z.shiftr e2 6.
Let B4 e2 := Z.land e2 63.
Lemma sb1 i : In i [0; 4]%nat -> forall e0, byte e0 -> nib_ok i (B1 e0) (firstn 6 (bits8 e0)) = true.
Proof.
  intros [<-|[<-|[]]]; [apply (forall_byte (fun e0 => nib_ok 0 (B1 e0) (firstn 6 (bits8 e0))))
                       |apply (forall_byte (fun e0 => nib_ok 4 (B1 e0) (firstn 6 (bits8 e0))))]; vm_cast_no_check (eq_refl true).
Qed.
Lemma sb2 i : In i [1; 5]%nat -> forall e0 e1, byte e0 -> byte e1 -> nib_ok i (B2 e0 e1) (skipn 6 (bits8 e0) ++ firstn 4 (bits8 e1)) = true.
Proof.
  intros [<-|[<-|[]]]; [apply (forall_byte2 (fun e0 e1 => nib_ok 1 (B2 e0 e1) (skipn 6 (bits8 e0) ++ firstn 4 (bits8 e1))))
                       |apply (forall_byte2 (fun e0 e1 => nib_ok 5 (B2 e0 e1) (skipn 6 (bits8 e0) ++ firstn 4 (bits8 e1))))]; vm_cast_no_check (eq_refl true).
Qed.
Lemma sb3 i : In i [2; 6]%nat -> forall e1 e2, byte e1 -> byte e2 -> nib_ok i (B3 e1 e2) (skipn 4 (bits8 e1) ++ firstn 2 (bits8 e2)) = true.
Proof.
  intros [<-|[<-|[]]]; [apply (forall_byte2 (fun e0 e1 => nib_ok 2 (B3 e0 e1) (skipn 4 (bits8 e0) ++ firstn 2 (bits8 e1))))
                       |apply (forall_byte2 (fun e0 e1 => nib_ok 6 (B3 e0 e1) (skipn 4 (bits8 e0) ++ firstn 2 (bits8 e1))))]; vm_cast_no_check (eq_refl true).
Qed.
Lemma sb4 i : In i [3; 7]%nat -> forall e2, byte e2 -> nib_ok i (B4 e2) (skipn 2 (bits8 e2)) = true.
Proof.
  intros [<-|[<-|[]]]; [apply (forall_byte (fun e0 => nib_ok 3 (B4 e0) (skipn 2 (bits8 e0))))
                       |apply (forall_byte (fun e0 => nib_ok 7 (B4 e0) (skipn 2 (bits8 e0))))]; vm_cast_no_check (eq_refl true).
Qed.
End SboxChecks.

Ltac list_of l H n :=
  match n with
  | O => destruct l; [clear H|discriminate]
  | S ?m => let x := fresh "v" in destruct l as [|x l]; [discriminate|]; list_of l H m
  end.

Lemma f_sbox_spec t : 0 <= t < 2 ^ 64 ->
  fb 32 (f_sbox t) = Sall (fb 48 t) /\ 0 <= f_sbox t < 2 ^ 32.
Proof.
  intros Ht. rewrite (fb_prefix 48 64 t) by lia.
  change 64%nat with (8 * 8)%nat. rewrite <- (fb_bytes 8 t) by exact Ht.
  unfold f_sbox. pose proof (le_bytes_bytes 8 t) as HB. pose proof (le_bytes_length 8 t) as HL.
  revert HB HL. generalize (le_bytes 8 t). clear t Ht. intros l HB HL.
  list_of l HL 8%nat. cbn [nth].
  repeat match goal with H : bytes (_ :: _) |- _ => inversion H; clear H; subst end.
  repeat match goal with H : Forall _ (_ :: _) |- _ => inversion H; clear H; subst end.
  fold (nib 0 (Z.shiftr v 2)). 
  pose proof (nib_ok_eq _ _ _ (sb1 0 ltac:(cbn; auto) v ltac:(auto))) as [R1 S1].
  pose proof (nib_ok_eq _ _ _ (sb2 1 ltac:(cbn; auto) v v0 ltac:(auto) ltac:(auto))) as [R2 S2].
  pose proof (nib_ok_eq _ _ _ (sb3 2 ltac:(cbn; auto) v0 v1 ltac:(auto) ltac:(auto))) as [R3 S3].
  pose proof (nib_ok_eq _ _ _ (sb4 3 ltac:(cbn; auto) v1 ltac:(auto))) as [R4 S4].
  pose proof (nib_ok_eq _ _ _ (sb1 4 ltac:(cbn; auto) v2 ltac:(auto))) as [R5 S5].
  pose proof (nib_ok_eq _ _ _ (sb2 5 ltac:(cbn; auto) v2 v3 ltac:(auto) ltac:(auto))) as [R6 S6].
  pose proof (nib_ok_eq _ _ _ (sb3 6 ltac:(cbn; auto) v3 v4 ltac:(auto) ltac:(auto))) as [R7 S7].
  pose proof (nib_ok_eq _ _ _ (sb4 7 ltac:(cbn; auto) v4 ltac:(auto))) as [R8 S8].
  unfold nib in *.
  assert (HS : Sall (firstn 48 (to_bits [v; v0; v1; v2; v3; v4; v5; v6])) =
    Sbox 0 (firstn 6 (bits8 v)) ++ Sbox 1 (skipn 6 (bits8 v) ++ firstn 4 (bits8 v0)) ++
    Sbox 2 (skipn 4 (bits8 v0) ++ firstn 2 (bits8 v1)) ++ Sbox 3 (skipn 2 (bits8 v1)) ++
    Sbox 4 (firstn 6 (bits8 v2)) ++ Sbox 5 (skipn 6 (bits8 v2) ++ firstn 4 (bits8 v3)) ++
    Sbox 6 (skipn 4 (bits8 v3) ++ firstn 2 (bits8 v4)) ++ Sbox 7 (skipn 2 (bits8 v4))).
  { unfold Sall, to_bits, bits8. cbn [seq map rev app flat_map firstn skipn Nat.mul Nat.add]. rewrite app_nil_r. reflexivity. }
  rewrite HS, S1, S2, S3, S4, S5, S6, S7, S8.
  match type of R1 with 0 <= ?x < 16 => set (n1 := x) in * end.
  match type of R2 with 0 <= ?x < 16 => set (n2 := x) in * end.
  match type of R3 with 0 <= ?x < 16 => set (n3 := x) in * end.
  match type of R4 with 0 <= ?x < 16 => set (n4 := x) in * end.
  match type of R5 with 0 <= ?x < 16 => set (n5 := x) in * end.
  match type of R6 with 0 <= ?x < 16 => set (n6 := x) in * end.
  match type of R7 with 0 <= ?x < 16 => set (n7 := x) in * end.
  match type of R8 with 0 <= ?x < 16 => set (n8 := x) in * end.
  clearbody n1 n2 n3 n4 n5 n6 n7 n8. clear - R1 R2 R3 R4 R5 R6 R7 R8.
  destruct (nib_byte n1 n2 R1 R2) as [Y1 Z1]. destruct (nib_byte n3 n4 R3 R4) as [Y2 Z2].
  destruct (nib_byte n5 n6 R5 R6) as [Y3 Z3]. destruct (nib_byte n7 n8 R7 R8) as [Y4 Z4].
  revert Y1 Z1 Y2 Z2 Y3 Z3 Y4 Z4.
  generalize (Z.shiftl n1 4 + n2) (Z.shiftl n3 4 + n4) (Z.shiftl n5 4 + n6) (Z.shiftl n7 4 + n8).
  intros o1 o2 o3 o4 Y1 Z1 Y2 Z2 Y3 Z3 Y4 Z4.
  assert (HV : Z.lor (Z.lor (Z.lor o1 (Z.shiftl o2 8)) (Z.shiftl o3 16)) (Z.shiftl o4 24) = le_val [o1; o2; o3; o4]).
  { replace o1 with (le_val [o1]) at 1 by (cbn [le_val]; lia).
    rewrite (lor_le_val [o1] _ o2 1), (lor_le_val [o1; o2] _ o3 2), (lor_le_val [o1; o2; o3] _ o4 3); auto.
    all: repeat constructor; auto; try apply Y1; try apply Y2; try apply Y3. }
  rewrite HV.
  assert (HBB : bytes [o1; o2; o3; o4]) by (unfold bytes; auto).
  split.
  - change 32%nat with (8 * 4)%nat. rewrite (fb_le_val [o1; o2; o3; o4] HBB 4 eq_refl).
    cbn [to_bits flat_map]. rewrite Z1, Z2, Z3, Z4, app_nil_r, <- !app_assoc. reflexivity.
  - exact (le_val_bound _ HBB).
Qed.

(** *** Rotation of C and D *)
Definition orl (a b : list bool) : list bool := map (fun p => orb (fst p) (snd p)) (combine a b).
Lemma bits8_lor a b : bits8 (Z.lor a b) = orl (bits8 a) (bits8 b).
Proof. unfold bits8, orl. cbn [seq rev app map combine fst snd]. rewrite !Z.lor_spec. reflexivity. Qed.
Fixpoint beql (a b : list bool) : bool :=
  match a, b with [], [] => true | x :: a, y :: b => Bool.eqb x y && beql a b | _, _ => false end.
Lemma beql_eq a b : beql a b = true -> a = b.
Proof.
  revert b. induction a as [|x a IH]; intros [|y b]; try discriminate; [reflexivity|].
  cbn. intros H. apply andb_prop in H. destruct H as [H1 H2]. apply Bool.eqb_prop in H1. f_equal; auto.
Qed.
Lemma byte_bits (f : Z -> Z) (g : list bool -> list bool) :
  forallb (fun b => beql (bits8 (f b)) (g (bits8 b)) && byteb (f b)) all_bytes = true ->
  forall b, byte b -> bits8 (f b) = g (bits8 b) /\ byte (f b).
Proof.
  intros H b Hb. pose proof (forall_byte _ H b Hb) as X. apply andb_prop in X.
  split; [apply beql_eq; apply X|apply byteb_spec; apply X].
Qed.
Lemma lor_byte a b : byte a -> byte b -> byte (Z.lor a b).
Proof.
  intros [A1 A2] [B1 B2]. split; [apply Z.lor_nonneg; lia|].
  destruct (Z.eq_dec (Z.lor a b) 0) as [->|]; [lia|]. change 256 with (2 ^ 8).
  apply Z.log2_lt_pow2; [pose proof (proj2 (Z.lor_nonneg a b) ltac:(lia)); lia|].
  rewrite Z.log2_lor by lia. apply Z.max_lub_lt.
  - destruct (Z.eq_dec a 0) as [->|]; [cbn; lia|apply Z.log2_lt_pow2; lia].
  - destruct (Z.eq_dec b 0) as [->|]; [cbn; lia|apply Z.log2_lt_pow2; lia].
Qed.

Lemma ks_rotate_spec x cl : 0 <= x < 2 ^ 64 -> cl = 1 \/ cl = 2 ->
  let y := ks_rotate x cl in let k := Z.to_nat cl in
  fb 56 y = rotl k (firstn 28 (fb 56 x)) ++ rotl k (skipn 28 (fb 56 x)) /\ 0 <= y < 2 ^ 56.
Proof.
  intros Hx Hcl y k. rewrite (fb_prefix 56 64 x) by lia.
  change 64%nat with (8 * 8)%nat. rewrite <- (fb_bytes 8 x) by exact Hx.
  unfold y, ks_rotate. pose proof (le_bytes_bytes 8 x) as HB. pose proof (le_bytes_length 8 x) as HL.
  revert HB HL. generalize (le_bytes 8 x). clear x y Hx. intros l HB HL.
  list_of l HL 8%nat. cbn [nth].
  repeat match goal with H : bytes (_ :: _) |- _ => inversion H; clear H; subst end.
  repeat match goal with H : Forall _ (_ :: _) |- _ => inversion H; clear H; subst end.
  assert (G : forall s, s = 1 \/ s = 2 -> forall b, byte b ->
     (bits8 (shl8 b s) = skipn (Z.to_nat s) (bits8 b) ++ repeat false (Z.to_nat s) /\ byte (shl8 b s)) /\
     (bits8 (Z.shiftr b (8 - s)) = repeat false (8 - Z.to_nat s) ++ firstn (Z.to_nat s) (bits8 b) /\ byte (Z.shiftr b (8 - s))) /\
     (bits8 (shl8 (Z.land b 240) s) = skipn (Z.to_nat s) (firstn 4 (bits8 b)) ++ repeat false (4 + Z.to_nat s) /\ byte (shl8 (Z.land b 240) s)) /\
     (bits8 (shl8 (Z.shiftr b (8 - s)) 4) = repeat false (4 - Z.to_nat s) ++ firstn (Z.to_nat s) (bits8 b) ++ repeat false 4 /\ byte (shl8 (Z.shiftr b (8 - s)) 4)) /\
     (bits8 (Z.shiftr (shl8 b (4 + s)) 4) = repeat false 4 ++ skipn (4 + Z.to_nat s) (bits8 b) ++ repeat false (Z.to_nat s) /\ byte (Z.shiftr (shl8 b (4 + s)) 4)) /\
     (bits8 (Z.shiftr (shl8 b 4) (8 - s)) = repeat false (8 - Z.to_nat s) ++ firstn (Z.to_nat s) (skipn 4 (bits8 b)) /\ byte (Z.shiftr (shl8 b 4) (8 - s)))).
  { intros s Hs b Hb. destruct Hs as [-> | ->].
    - split; [revert b Hb; apply (byte_bits (fun b => shl8 b 1) (fun l => skipn 1 l ++ repeat false 1)); vm_compute; reflexivity|].
      split; [revert b Hb; apply (byte_bits (fun b => Z.shiftr b (8 - 1)) (fun l => repeat false (8 - 1) ++ firstn 1 l)); vm_compute; reflexivity|].
      split; [revert b Hb; apply (byte_bits (fun b => shl8 (Z.land b 240) 1) (fun l => skipn 1 (firstn 4 l) ++ repeat false (4 + 1))); vm_compute; reflexivity|].
      split; [revert b Hb; apply (byte_bits (fun b => shl8 (Z.shiftr b (8 - 1)) 4) (fun l => repeat false (4 - 1) ++ firstn 1 l ++ repeat false 4)); vm_compute; reflexivity|].
      split; [revert b Hb; apply (byte_bits (fun b => Z.shiftr (shl8 b (4 + 1)) 4) (fun l => repeat false 4 ++ skipn (4 + 1) l ++ repeat false 1)); vm_compute; reflexivity|].
      revert b Hb; apply (byte_bits (fun b => Z.shiftr (shl8 b 4) (8 - 1)) (fun l => repeat false (8 - 1) ++ firstn 1 (skipn 4 l))); vm_compute; reflexivity.
    - split; [revert b Hb; apply (byte_bits (fun b => shl8 b 2) (fun l => skipn 2 l ++ repeat false 2)); vm_compute; reflexivity|].
      split; [revert b Hb; apply (byte_bits (fun b => Z.shiftr b (8 - 2)) (fun l => repeat false (8 - 2) ++ firstn 2 l)); vm_compute; reflexivity|].
      split; [revert b Hb; apply (byte_bits (fun b => shl8 (Z.land b 240) 2) (fun l => skipn 2 (firstn 4 l) ++ repeat false (4 + 2))); vm_compute; reflexivity|].
      split; [revert b Hb; apply (byte_bits (fun b => shl8 (Z.shiftr b (8 - 2)) 4) (fun l => repeat false (4 - 2) ++ firstn 2 l ++ repeat false 4)); vm_compute; reflexivity|].
      split; [revert b Hb; apply (byte_bits (fun b => Z.shiftr (shl8 b (4 + 2)) 4) (fun l => repeat false 4 ++ skipn (4 + 2) l ++ repeat false 2)); vm_compute; reflexivity|].
      revert b Hb; apply (byte_bits (fun b => Z.shiftr (shl8 b 4) (8 - 2)) (fun l => repeat false (8 - 2) ++ firstn 2 (skipn 4 l))); vm_compute; reflexivity. }
  specialize (G cl Hcl).
  pose proof (G v ltac:(auto)) as G0. pose proof (G v0 ltac:(auto)) as G1. pose proof (G v1 ltac:(auto)) as G2.
  pose proof (G v2 ltac:(auto)) as G3. pose proof (G v3 ltac:(auto)) as G4. pose proof (G v4 ltac:(auto)) as G5.
  pose proof (G v5 ltac:(auto)) as G6.
  set (o0 := Z.lor (shl8 v cl) (Z.shiftr v0 (8 - cl))).
  set (o1 := Z.lor (shl8 v0 cl) (Z.shiftr v1 (8 - cl))).
  set (o2 := Z.lor (shl8 v1 cl) (Z.shiftr v2 (8 - cl))).
  set (o3 := Z.lor (Z.lor (Z.lor (shl8 (Z.land v2 240) cl) (shl8 (Z.shiftr v (8 - cl)) 4)) (Z.shiftr (shl8 v2 (4 + cl)) 4)) (Z.shiftr v3 (8 - cl))).
  set (o4 := Z.lor (shl8 v3 cl) (Z.shiftr v4 (8 - cl))).
  set (o5 := Z.lor (shl8 v4 cl) (Z.shiftr v5 (8 - cl))).
  set (o6 := Z.lor (shl8 v5 cl) (Z.shiftr (shl8 v2 4) (8 - cl))).
  assert (Y0 : byte o0) by (apply lor_byte; [apply G0|apply G1]).
  assert (Y1 : byte o1) by (apply lor_byte; [apply G1|apply G2]).
  assert (Y2 : byte o2) by (apply lor_byte; [apply G2|apply G3]).
  assert (Y3 : byte o3) by (repeat apply lor_byte; [apply G3|apply G0|apply G3|apply G4]).
  assert (Y4 : byte o4) by (apply lor_byte; [apply G4|apply G5]).
  assert (Y5 : byte o5) by (apply lor_byte; [apply G5|apply G6]).
  assert (Y6 : byte o6) by (apply lor_byte; [apply G6|apply G3]).
  assert (HBB : bytes [o0; o1; o2; o3; o4; o5; o6]) by (unfold bytes; repeat apply Forall_cons; auto).
  assert (HV : Z.lor (Z.lor (Z.lor (Z.lor (Z.lor (Z.lor o0 (Z.shiftl o1 8)) (Z.shiftl o2 16)) (Z.shiftl o3 24)) (Z.shiftl o4 32)) (Z.shiftl o5 40)) (Z.shiftl o6 48)
     = le_val [o0; o1; o2; o3; o4; o5; o6]).
  { replace o0 with (le_val [o0]) at 1 by (cbn [le_val]; lia).
    rewrite (lor_le_val [o0] _ o1 1), (lor_le_val [o0; o1] _ o2 2), (lor_le_val [o0; o1; o2] _ o3 3),
      (lor_le_val [o0; o1; o2; o3] _ o4 4), (lor_le_val [o0; o1; o2; o3; o4] _ o5 5),
      (lor_le_val [o0; o1; o2; o3; o4; o5] _ o6 6); auto.
    all: unfold bytes; repeat apply Forall_cons; auto. }
  rewrite HV. clear HV. split.
  - change 56%nat with (8 * 7)%nat at 1. rewrite (fb_le_val _ HBB 7 eq_refl).
    cbn [to_bits flat_map]. unfold o0, o1, o2, o3, o4, o5, o6. rewrite !bits8_lor.
    repeat match goal with H : (_ /\ _) /\ _ |- _ =>
      let A := fresh in let B := fresh in destruct H as [[A _] B]; rewrite ?A; clear A end.
    repeat match goal with H : _ /\ _ |- _ =>
      let A := fresh in let B := fresh in destruct H as [A B]; rewrite ?A; clear A end.
    unfold k. cbn [to_bits flat_map].
    Ltac gen8 v := let l := fresh "l" in let H := fresh in
      pose proof (bits8_length v) as H; revert H; generalize (bits8 v); intros l H; list_of l H 8%nat.
    gen8 v. gen8 v0. gen8 v1. gen8 v2. gen8 v3. gen8 v4. gen8 v5.
    destruct Hcl as [-> | ->]; cbv -[orb bits8]; rewrite ?Bool.orb_false_r, ?Bool.orb_false_l; reflexivity.
  - exact (le_val_bound _ HBB).
Qed.
