(** Property C91: one key for ZUC encryption and ZUC authentication.  For direction 0 the two constructions start the generator in the
    same state, so that each gives away what the other protects.  [EEA3_iv], [EIA3_iv], [Zstream], [Mbit] are those of ZucSpec.v. *)
From Verif Require Import Base Words HashSpec HashModel WordW ZucModel ZucSpec ZucProofs ZucApi PropZuc.
From Verif Require PropReuse.
Local Open Scope Z_scope.

Theorem C91_same_iv : forall count bearer, EIA3_iv count bearer 0 = EEA3_iv count bearer 0.
Proof.
  intros count bearer. unfold EIA3_iv, EEA3_iv. pose proof (be_bytes_length 4 count) as L. destruct (be_bytes 4 count) as [|a [|b [|c [|d [|e l]]]]]; try discriminate L.
  cbn [app nth tl]. replace (8 * bearer + 4 * 0) with (8 * bearer) by lia. replace (128 * 0) with 0 by lia. rewrite Z.lxor_0_r. reflexivity.
Qed.
Print Assumptions C91_same_iv.

(** ** Bits of the key stream *)
Lemma be4_bit w j t : (j < 4)%nat -> 0 <= t < 8 -> Z.testbit (nth j (be_bytes 4 w) 0) t = Z.testbit w (8 * (3 - Z.of_nat j) + t).
Proof.
  intros J T. change (be_bytes 4 w) with [w / 256 / 256 / 256 mod 256; w / 256 / 256 mod 256; w / 256 mod 256; w mod 256]. change 256 with (2 ^ 8).
  do 4 (destruct j as [|j]; [cbn [nth]; rewrite Z.mod_pow2_bits_low by lia; rewrite ?Z.div_pow2_bits by lia; f_equal; lia|]). lia.
Qed.
Lemma Zbyte_bit key iv x t : (t < 8)%nat -> Z.testbit (Zbyte key iv x) (7 - Z.of_nat t) = Zbit key iv (8 * x + t).
Proof.
  intros T. unfold Zbyte, Zbit. pose proof (Nat.mod_upper_bound x 4 ltac:(lia)) as X4. pose proof (Nat.div_mod x 4 ltac:(lia)) as DX. rewrite be4_bit by lia.
  replace ((8 * x + t) / 32)%nat with (x / 4)%nat by (apply (Nat.div_unique _ 32 _ (8 * (x mod 4) + t)); lia).
  replace ((8 * x + t) mod 32)%nat with (8 * (x mod 4) + t)%nat by (apply (Nat.mod_unique _ 32 (x / 4)); lia). f_equal. lia.
Qed.
Lemma stream_bit key iv n i : (i < 8 * n)%nat -> Mbit (Zstream key iv 0 n) i = Zbit key iv i.
Proof.
  intros L. unfold Mbit, Zstream. pose proof (Nat.div_mod i 8 ltac:(lia)) as DI. pose proof (Nat.mod_upper_bound i 8 ltac:(lia)) as U.
  assert (Q : (i / 8 < n)%nat) by lia. rewrite (nth_indep _ 0 (Zbyte key iv 0)) by (rewrite map_length, seq_length; exact Q). rewrite map_nth, seq_nth by exact Q. cbn [Nat.add].
  rewrite Zbyte_bit by exact U. f_equal. lia.
Qed.

(** ** The tag from an encryption *)
(** The 32 bits from bit [i] on of a string of key stream bytes, and the tag formula with them: no key. *)
Definition window (ks : list Z) (i : nat) : Z := fold_left (fun acc j => 2 * acc + (if Mbit ks (i + j) then 1 else 0)) (seq 0 32) 0.
Definition tag_from (ks m : list Z) : list Z :=
  let len := (8 * length m)%nat in let L := ((len + 31) / 32 + 2)%nat in
  be_bytes 4 (Z.lxor (Z.lxor (XORs (map (fun i => if Mbit m i then window ks i else 0) (seq 0 len))) (window ks len)) (window ks (32 * (L - 1)))).
Lemma window_ok key iv n i : (i + 32 <= 8 * n)%nat -> window (Zstream key iv 0 n) i = Zwin key iv i.
Proof.
  intros L. unfold window, Zwin. assert (G : forall l a, Forall (fun j => (j < 32)%nat) l ->
    fold_left (fun acc j => 2 * acc + (if Mbit (Zstream key iv 0 n) (i + j) then 1 else 0)) l a = fold_left (fun acc j => 2 * acc + (if Zbit key iv (i + j) then 1 else 0)) l a).
  { induction l as [|j l IH]; intros a F; [reflexivity|]. cbn [fold_left]. pose proof (Forall_inv F) as J. cbv beta in J. rewrite stream_bit by lia. apply IH. exact (Forall_inv_tail F). }
  apply G. apply Forall_forall. intros j IJ. apply in_seq in IJ. lia.
Qed.
Lemma new_stream count bearer ck zc p zc' c n : byte bearer -> key16 ck -> zc_from_slice count bearer false ck = Ok zc -> zc_encrypt zc p = Ok (zc', c, n) ->
  c = xorl p (Zstream ck (EEA3_iv count (bearer mod 32) 0) 0 (length p)).
Proof.
  intros B [Lk Bk] EC EE. destruct (zc_new_ok count bearer false ck B Lk Bk) as (z & E & A). rewrite EC in E. injection E as <-.
  destruct (zc_encrypt_ok ck _ zc 0 p A) as (c1 & E1 & _). rewrite EE in E1. injection E1 as _ -> _. reflexivity.
Qed.
Lemma xorl_undo a : forall b, length b = length a -> xorl a (xorl a b) = b.
Proof.
  induction a as [|x a IH]; intros [|y b] L; try discriminate; [reflexivity|]. injection L as L. cbn [xorl]. rewrite IH by exact L. f_equal.
  rewrite <- Z.lxor_assoc, Z.lxor_nilpotent, Z.lxor_0_l. reflexivity.
Qed.
Theorem C91_tag_from_encryption : forall count bearer ck zc zm p zc' c n m, byte bearer -> key16 ck ->
  zc_from_slice count bearer false ck = Ok zc -> zm_from_slice count bearer false ck = Ok zm -> zc_encrypt zc p = Ok (zc', c, n) ->
  (4 * ((8 * length m + 31) / 32 + 2) <= length p)%nat ->
  snd (zm_checksum (zm_write zm m)) = tag_from (xorl p c) m.
Proof.
  intros count bearer ck zc zm p zc' c n m B K EC EM EE L. rewrite (proj1 (C37_one_write count bearer false ck m zm [] B K EM)).
  assert (KS : xorl p c = Zstream ck (EEA3_iv count (bearer mod 32) 0) 0 (length p)).
  { rewrite (new_stream count bearer ck zc p zc' c n B K EC EE). apply xorl_undo, Zstream_length. }
  rewrite KS. unfold EIA3, tag_from. cbv zeta. change (bool8 false) with 0. rewrite C91_same_iv. set (iv := EEA3_iv count (bearer mod 32) 0). set (len := (8 * length m)%nat) in *.
  pose proof (Nat.div_mod (len + 31) 32 ltac:(lia)) as DM. pose proof (Nat.mod_upper_bound (len + 31) 32 ltac:(lia)) as UM. set (q := ((len + 31) / 32)%nat) in *.
  rewrite !window_ok by lia. f_equal. f_equal. f_equal. unfold EIA3_sum. fold len. f_equal. apply map_ext_in. intros i Ii. apply in_seq in Ii. rewrite window_ok by lia. reflexivity.
Qed.
Print Assumptions C91_tag_from_encryption.

(** ** The key stream, and so the plaintext, from tags *)
Lemma window_bytes key iv q : be_bytes 4 (Zwin key iv (8 * q)) = Zstream key iv q 4.
Proof.
  unfold Zstream. apply (nth_ext _ _ 0 0); [rewrite be_bytes_length, map_length, seq_length; reflexivity|]. intros j J. rewrite be_bytes_length in J.
  rewrite (nth_indep (map (Zbyte key iv) (seq q 4)) 0 (Zbyte key iv 0)) by (rewrite map_length, seq_length; exact J). rewrite map_nth, seq_nth by exact J.
  assert (BY : forall l i, bytes l -> byte (nth i l 0)) by (intros l i F; destruct (Nat.lt_ge_cases i (length l)) as [I|I]; [exact (proj1 (Forall_forall _ _) F _ (nth_In _ _ I))|rewrite nth_overflow by exact I; unfold byte; lia]).
  apply (ww_eq 8); [lia| | |].
  - pose proof (BY _ j (be_bytes_bytes 4 (Zwin key iv (8 * q)))) as X. unfold byte in X. exact X.
  - unfold Zbyte. pose proof (BY _ ((q + j) mod 4)%nat (be_bytes_bytes 4 (Zword key iv ((q + j) / 4)))) as X. exact X.
  - intros t T. rewrite be4_bit by lia. rewrite Zwin_bits by lia. rewrite (proj2 (Z.ltb_lt _ _)) by lia.
    replace t with (7 - Z.of_nat (Z.to_nat (7 - t))) at 2 by lia. rewrite Zbyte_bit by lia. f_equal. lia.
Qed.
Lemma XORs_one (f : nat -> Z) i : forall N, (i < N)%nat -> XORs (map (fun j => if (j =? i)%nat then f j else 0) (seq 0 N)) = f i.
Proof.
  assert (Z0 : forall N, (N <= i)%nat -> XORs (map (fun j => if (j =? i)%nat then f j else 0) (seq 0 N)) = 0).
  { induction N as [|N IH]; intros L; [reflexivity|]. rewrite seq_S, map_app. cbn [map Nat.add]. rewrite XORs_snoc, IH by lia. rewrite (proj2 (Nat.eqb_neq _ _)) by lia. reflexivity. }
  induction N as [|N IH]; intros L; [lia|]. rewrite seq_S, map_app. cbn [map Nat.add]. rewrite XORs_snoc. destruct (Nat.eq_dec N i) as [->|NE].
  - rewrite Z0 by lia. rewrite Nat.eqb_refl. apply Z.lxor_0_l.
  - rewrite IH by lia. rewrite (proj2 (Nat.eqb_neq _ _)) by exact NE. apply Z.lxor_0_r.
Qed.
(** Two messages that differ in the first bit of one byte: the xor of their tags is four bytes of the key stream, from that position on. *)
Theorem C91_stream_from_tags : forall count bearer dir ck zm a x b, byte bearer -> key16 ck -> zm_from_slice count bearer dir ck = Ok zm ->
  xorl (snd (zm_checksum (zm_write zm (a ++ x :: b)))) (snd (zm_checksum (zm_write zm (a ++ Z.lxor x 128 :: b)))) =
  Zstream ck (EIA3_iv count (bearer mod 32) (bool8 dir)) (length a) 4.
Proof.
  intros count bearer dir ck zm a x b B K E. rewrite (proj1 (C37_one_write count bearer dir ck _ zm [] B K E)), (proj1 (C37_one_write count bearer dir ck (a ++ Z.lxor x 128 :: b) zm [] B K E)).
  set (iv := EIA3_iv count (bearer mod 32) (bool8 dir)). rewrite <- window_bytes. unfold EIA3. cbv zeta. fold iv. set (e := repeat 0 (length a) ++ 128 :: repeat 0 (length b)).
  assert (LE : length (a ++ x :: b) = length e) by (unfold e; rewrite !app_length; cbn [length]; rewrite !repeat_length; reflexivity).
  assert (X0 : forall l, xorl l (repeat 0 (length l)) = l) by (induction l as [|y l IH]; [reflexivity|]; cbn [length repeat xorl]; rewrite IH, Z.lxor_0_r; reflexivity).
  assert (EX : a ++ Z.lxor x 128 :: b = xorl (a ++ x :: b) e) by (unfold e; rewrite xorl_app by (rewrite repeat_length; reflexivity); cbn [xorl]; rewrite !X0; reflexivity).
  rewrite EX. rewrite PropReuse.EIA3_sum_lin by exact LE. rewrite xorl_length, <- LE, Nat.min_id. rewrite <- PropReuse.be_bytes_lxor. f_equal.
  assert (ES : EIA3_sum ck iv 0 e = Zwin ck iv (8 * length a)).
  { unfold EIA3_sum. transitivity (XORs (map (fun j => if (j =? 8 * length a)%nat then Zwin ck iv (0 + j) else 0) (seq 0 (8 * length e)))); [|apply (XORs_one (fun j => Zwin ck iv (0 + j)))].
    - f_equal. apply map_ext. intros i. assert (MB : Mbit e i = (i =? 8 * length a)%nat); [|rewrite MB; reflexivity]. unfold Mbit, e.
      pose proof (Nat.div_mod i 8 ltac:(lia)) as DI. pose proof (Nat.mod_upper_bound i 8 ltac:(lia)) as U. set (q := (i / 8)%nat) in *. set (r := (i mod 8)%nat) in *.
      assert (R0 : forall j n, nth j (repeat 0 n) 0 = 0) by (intros j n; revert j; induction n as [|n IH]; intros [|j]; cbn [repeat nth]; auto).
      destruct (Nat.lt_trichotomy q (length a)) as [C|[C|C]].
      + rewrite app_nth1 by (rewrite repeat_length; exact C). rewrite R0, Z.testbit_0_l. symmetry. apply Nat.eqb_neq. lia.
      + rewrite app_nth2 by (rewrite repeat_length; lia). rewrite repeat_length. replace (q - length a)%nat with 0%nat by lia. cbn [nth]. change 128 with (2 ^ 7). rewrite Z.pow2_bits_eqb by lia.
        destruct (Nat.eqb_spec i (8 * length a)) as [Q|Q]; [apply Z.eqb_eq; lia|apply Z.eqb_neq; lia].
      + rewrite app_nth2 by (rewrite repeat_length; lia). rewrite repeat_length. destruct (q - length a)%nat as [|j] eqn:J; [lia|]. cbn [nth]. rewrite R0, Z.testbit_0_l. symmetry. apply Nat.eqb_neq. lia.
    - rewrite <- LE, app_length. cbn [length]. lia. }
  rewrite ES. generalize (EIA3_sum ck iv 0 (a ++ x :: b)). intros s. set (u := Zwin ck iv (8 * length (a ++ x :: b))). set (v := Zwin ck iv (32 * _)). apply Z.bits_inj'. intros k Hk. rewrite !Z.lxor_spec.
  destruct (Z.testbit s k), (Z.testbit (Zwin ck iv (8 * length a)) k), (Z.testbit u k), (Z.testbit v k); reflexivity.
Qed.
Print Assumptions C91_stream_from_tags.
(** So tags of chosen messages decrypt: four bytes of plaintext for two tags. *)
Theorem C91_plaintext_from_tags : forall count bearer ck zc zm p zc' c n a x b, byte bearer -> key16 ck ->
  zc_from_slice count bearer false ck = Ok zc -> zm_from_slice count bearer false ck = Ok zm -> zc_encrypt zc p = Ok (zc', c, n) ->
  let T := xorl (snd (zm_checksum (zm_write zm (a ++ x :: b)))) (snd (zm_checksum (zm_write zm (a ++ Z.lxor x 128 :: b)))) in
  xorl (firstn 4 (skipn (length a) c)) T = firstn 4 (skipn (length a) p).
Proof.
  intros count bearer ck zc zm p zc' c n a x b B K EC EM EE T. unfold T. rewrite (C91_stream_from_tags count bearer false ck zm a x b B K EM). change (bool8 false) with 0. rewrite C91_same_iv.
  rewrite (new_stream count bearer ck zc p zc' c n B K EC EE). set (iv := EEA3_iv count (bearer mod 32) 0). generalize (length a). clear. intros i.
  unfold Zstream. assert (G : forall i s p, xorl (firstn 4 (skipn i (xorl p (map (Zbyte ck iv) (seq s (length p)))))) (map (Zbyte ck iv) (seq (s + i) 4)) = firstn 4 (skipn i p)); [|exact (G i 0%nat p)].
  clear. induction i as [|i IH]; intros s p.
  - cbn [skipn]. rewrite Nat.add_0_r. destruct p as [|p0 [|p1 [|p2 [|p3 p]]]]; cbn [length seq map xorl firstn]; rewrite ?Z.lxor_assoc, ?Z.lxor_nilpotent, ?Z.lxor_0_r; reflexivity.
  - destruct p as [|y p]; [reflexivity|]. cbn [length seq map xorl skipn]. replace (s + S i)%nat with (S s + i)%nat by lia. apply IH.
Qed.
Print Assumptions C91_plaintext_from_tags.
(** With direction 1 the authentication starts the generator as no encryption does. *)
Theorem C91_direction_1 : forall count bearer count' bearer' dir', EIA3_iv count bearer 1 <> EEA3_iv count' bearer' dir'.
Proof.
  intros count bearer count' bearer' dir' Q. unfold EIA3_iv, EEA3_iv in Q. pose proof (be_bytes_length 4 count) as L. pose proof (be_bytes_length 4 count') as L'.
  destruct (be_bytes 4 count) as [|a [|b [|c [|d [|e l]]]]]; try discriminate L. destruct (be_bytes 4 count') as [|a' [|b' [|c' [|d' [|e' l']]]]]; try discriminate L'.
  cbn [app nth tl] in Q. injection Q as Q1 _ _ _ _ Q2 _. rewrite <- Q1 in Q2. apply (f_equal (fun z => Z.testbit z 7)) in Q2. rewrite Z.lxor_spec in Q2. change (Z.testbit (128 * 1) 7) with true in Q2.
  destruct (Z.testbit a 7); discriminate.
Qed.
Print Assumptions C91_direction_1.

(** Key, count and bearer 0: sixteen encrypted zero bytes give the tag of [1; 2; 3], and two tags give back bytes 1 to 4 of a plaintext. *)
Example C91_case :
  (match zc_from_slice 0 0 false (repeat 0 16), zm_from_slice 0 0 false (repeat 0 16) with
   | Ok zc, Ok zm =>
     match zc_encrypt zc (repeat 0 16), zc_encrypt zc [11; 22; 33; 44; 55; 66] with
     | Ok (_, ks, _), Ok (_, c, _) =>
       (snd (zm_checksum (zm_write zm [1; 2; 3])), xorl (firstn 4 (skipn 1 c)) (xorl (snd (zm_checksum (zm_write zm [1; 2; 3]))) (snd (zm_checksum (zm_write zm [1; 130; 3])))))
       = (tag_from ks [1; 2; 3], [22; 33; 44; 55])
     | _, _ => False
     end
   | _, _ => False
   end).
Proof. vm_compute. reflexivity. Qed.
