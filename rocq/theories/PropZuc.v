(** C35-C37: the ZUC generator, 128-EEA3 and 128-EIA3. *)
From Verif Require Import Base Words HashSpec HashModel WordW ZucModel ZucSpec ZucProofs ZucApi.

(** Sixteen bytes. *)
Definition key16 (k : list Z) : Prop := length k = 16%nat /\ bytes k.

(** C35: for every key and IV the words taken from a new generator are those of the specification, however many. *)
Lemma keystream_lemma key iv : key16 key -> key16 iv ->
  exists z, zuc_from_slice key iv = Ok z /\ forall n, snd (zuc_take n z) = map (Zword key iv) (seq 0 n).
Proof.
  intros [Lk Bk] [Lv Bv]. destruct (from_slice_ok key iv Lk Lv Bk Bv) as (z & E & R). exists z. split; [exact E|].
  intros n. destruct (take_at key iv n z 0 R) as (z' & -> & _). reflexivity.
Qed.
Theorem C35_keystream : forall key iv, key16 key -> key16 iv ->
  exists z, zuc_from_slice key iv = Ok z /\ forall n, snd (zuc_take n z) = map (Zword key iv) (seq 0 n).
Proof. exact keystream_lemma. Qed.
Print Assumptions C35_keystream.
(** The test vectors of the specification (key and IV all zero; all one). *)
Example C35_case : map (Zword (repeat 0 16) (repeat 0 16)) (seq 0 2) = [0x27bede74; 0x018082da] /\
                   map (Zword (repeat 255 16) (repeat 255 16)) (seq 0 2) = [0x0657cfa0; 0x7096398b].
Proof.
  assert (A : forall b, byte b -> key16 (repeat b 16)) by (intros b Hb; split; [reflexivity|apply bytes_repeat, Hb]).
  split.
  - destruct (C35_keystream (repeat 0 16) (repeat 0 16)) as (z & E & K); [apply A; unfold byte; lia..|].
    rewrite <- K. assert (Q : match zuc_from_slice (repeat 0 16) (repeat 0 16) with Ok z => snd (zuc_take 2 z) | _ => [] end = [0x27bede74; 0x018082da]) by (vm_compute; reflexivity).
    rewrite E in Q. exact Q.
  - destruct (C35_keystream (repeat 255 16) (repeat 255 16)) as (z & E & K); [apply A; unfold byte; lia..|].
    rewrite <- K. assert (Q : match zuc_from_slice (repeat 255 16) (repeat 255 16) with Ok z => snd (zuc_take 2 z) | _ => [] end = [0x0657cfa0; 0x7096398b]) by (vm_compute; reflexivity).
    rewrite E in Q. exact Q.
Qed.

(** C35: at every point of the keystream the sixteen cells are those of the specification, in [1, 2^31-1]. *)
Lemma cells_lemma key iv z n : key16 key -> key16 iv -> zuc_from_slice key iv = Ok z ->
  let cells := firstn 16 (z_lfsr (fst (zuc_take n z))) in
  cells = S_cells (zstate_at key iv n) /\ length cells = 16%nat /\ Forall (fun c => 1 <= c <= 2 ^ 31 - 1) cells.
Proof.
  intros [Lk Bk] [Lv Bv] E. destruct (from_slice_ok key iv Lk Lv Bk Bv) as (z1 & E1 & R).
  rewrite E in E1. injection E1 as ->. destruct (take_at key iv n z1 0 R) as (z' & -> & R'). cbn [fst Nat.add] in *.
  cbn zeta. pose proof (zrel_len _ _ R') as L. destruct R' as (_ & -> & _ & _ & F & _). auto.
Qed.
Theorem C35_cells : forall key iv z n, key16 key -> key16 iv -> zuc_from_slice key iv = Ok z ->
  let cells := firstn 16 (z_lfsr (fst (zuc_take n z))) in
  cells = S_cells (zstate_at key iv n) /\ length cells = 16%nat /\ Forall (fun c => 1 <= c <= 2 ^ 31 - 1) cells.
Proof. exact cells_lemma. Qed.
Print Assumptions C35_cells.

(** C35: from any cells in [1, 2^31-1], the two modes shift in the value of the linear recurrence modulo 2^31-1
    (plus [u]), written with 2^31-1 in place of 0; the registers of F are not touched. *)
Lemma z_lfsr_mk a b c : z_lfsr (mkZuc a b c) = a.
Proof. reflexivity. Qed.
Lemma work_eq l a b : z_lfsr (lfsr_with_work_mode (mkZuc l a b)) =
  shift_cells (upd l 16 (if feedback l =? 0 then LFSR_MASK else feedback l)).
Proof. unfold lfsr_with_work_mode. rewrite !z_lfsr_mk. reflexivity. Qed.
Lemma init_eq u l a b : z_lfsr (lfsr_with_initial_mode u (mkZuc l a b)) =
  shift_cells (upd l 16 (if add_mod31 u (feedback l) =? 0 then LFSR_MASK else add_mod31 u (feedback l))).
Proof. unfold lfsr_with_initial_mode. rewrite !z_lfsr_mk. reflexivity. Qed.
Lemma recurrence_lemma z u : length (z_lfsr z) = 17%nat -> Forall (fun c => 1 <= c <= 2 ^ 31 - 1) (firstn 16 (z_lfsr z)) ->
  0 <= u <= 2 ^ 31 - 1 ->
  let s := firstn 16 (z_lfsr z) in
  firstn 16 (z_lfsr (lfsr_with_work_mode z)) = tl s ++ [canon31 (FEEDBACK s)] /\
  firstn 16 (z_lfsr (lfsr_with_initial_mode u z)) = tl s ++ [canon31 (FEEDBACK s + u)].
Proof.
  destruct z as [l a b]. rewrite !z_lfsr_mk. intros L F U. cbn zeta.
  assert (R : zrel (mkZuc l 0 0) (mkZ (firstn 16 l) 0 0)).
  { unfold zrel, ww. cbn [z_lfsr z_r1 z_r2 S_cells S_R1 S_R2]. repeat split; try assumption; try lia. }
  destruct (lfsr_work_ok _ _ R) as [_ E1]. destruct (lfsr_init_ok _ _ u R U) as [_ E2].
  rewrite work_eq in *. rewrite init_eq in *.
  cbn [S_cells] in E1, E2. unfold LFSR in *. rewrite Z.add_0_r in E1. rewrite E1, E2. split; reflexivity.
Qed.
Theorem C35_recurrence : forall z u, length (z_lfsr z) = 17%nat ->
  Forall (fun c => 1 <= c <= 2 ^ 31 - 1) (firstn 16 (z_lfsr z)) -> 0 <= u <= 2 ^ 31 - 1 ->
  let s := firstn 16 (z_lfsr z) in
  firstn 16 (z_lfsr (lfsr_with_work_mode z)) = tl s ++ [canon31 (FEEDBACK s)] /\
  firstn 16 (z_lfsr (lfsr_with_initial_mode u z)) = tl s ++ [canon31 (FEEDBACK s + u)].
Proof. exact recurrence_lemma. Qed.
Print Assumptions C35_recurrence.
(** All cells equal to 2^31-1, that is to 0 modulo 2^31-1: the boundary case of the representation. *)
Example C35_recurrence_case :
  firstn 16 (z_lfsr (lfsr_with_work_mode (mkZuc (repeat (2 ^ 31 - 1) 16 ++ [5]) 0 0))) = repeat (2 ^ 31 - 1) 16.
Proof. vm_compute. reflexivity. Qed.

(** C35: re-keying an object after any amount of output equals creating a new one, whatever the arguments; keys and
    IVs of other lengths are refused. *)
Lemma rekey_lemma key iv z n key' iv' : key16 key -> key16 iv -> zuc_from_slice key iv = Ok z ->
  zuc_set_slice (fst (zuc_take n z)) key' iv' = zuc_from_slice key' iv'.
Proof.
  intros [Lk Bk] [Lv Bv] E. destruct (from_slice_ok key iv Lk Lv Bk Bv) as (z1 & E1 & R).
  rewrite E in E1. injection E1 as ->. destruct (take_at key iv n z1 0 R) as (z' & -> & R').
  apply set_slice_fresh. apply (zrel_l17 _ _ R').
Qed.
Theorem C35_rekey : forall key iv z n key' iv', key16 key -> key16 iv -> zuc_from_slice key iv = Ok z ->
  zuc_set_slice (fst (zuc_take n z)) key' iv' = zuc_from_slice key' iv'.
Proof. exact rekey_lemma. Qed.
Print Assumptions C35_rekey.
Lemma length_lemma key iv : (length key <> 16%nat \/ length iv <> 16%nat) ->
  zuc_from_slice key iv = Err InvalidParameter /\ (forall z, zuc_set_slice z key iv = Err InvalidParameter).
Proof. intros H. split; [apply from_slice_bad, H|]. intros z. apply set_slice_bad, H. Qed.
Theorem C35_lengths : forall key iv, (length key <> 16%nat \/ length iv <> 16%nat) ->
  zuc_from_slice key iv = Err InvalidParameter /\ (forall z, zuc_set_slice z key iv = Err InvalidParameter).
Proof. exact length_lemma. Qed.
Print Assumptions C35_lengths.
Example C35_lengths_case : zuc_from_slice (repeat 0 15) (repeat 0 16) = Err InvalidParameter.
Proof. reflexivity. Qed.

(** C36: any history of encrypt, decrypt and reset calls on a new ZUCCipher returns, call by call, the data xored with
    the 128-EEA3 keystream at the current position ([zc_expect]: the position grows by the length of the data and
    goes back to 0 at a reset), and never fails. *)
Lemma zc_histories_lemma count bearer dir ck ops : byte bearer -> key16 ck ->
  exists c c', zc_from_slice count bearer dir ck = Ok c /\
    zc_run c ops = Ok (c', zc_expect ck (EEA3_iv count (bearer mod 32) (bool8 dir)) 0 ops).
Proof.
  intros B [Lk Bk]. destruct (zc_new_ok count bearer dir ck B Lk Bk) as (c & E & A).
  destruct (EEA3_iv_ok count bearer dir B) as [Lv Bv].
  destruct (zc_run_ok ck _ Lk Lv Bk Bv ops c 0%nat A) as (c' & E' & _). eauto.
Qed.
Theorem C36_histories : forall count bearer dir ck ops, byte bearer -> key16 ck ->
  exists c c', zc_from_slice count bearer dir ck = Ok c /\
    zc_run c ops = Ok (c', zc_expect ck (EEA3_iv count (bearer mod 32) (bool8 dir)) 0 ops).
Proof. exact zc_histories_lemma. Qed.
Print Assumptions C36_histories.

(** C36: a message encrypted in any chunking is the 128-EEA3 ciphertext of the whole message, of the same length. *)
Lemma zc_chunking_lemma count bearer dir ck ms c : byte bearer -> key16 ck ->
  zc_from_slice count bearer dir ck = Ok c ->
  exists c' outs, zc_run c (map ZEnc ms) = Ok (c', outs) /\
    concat (map fst outs) = EEA3 count (bearer mod 32) (bool8 dir) ck (concat ms) /\
    length (concat (map fst outs)) = length (concat ms).
Proof.
  intros B K E. destruct (zc_histories_lemma count bearer dir ck (map ZEnc ms) B K) as (c1 & c' & E1 & R).
  rewrite E in E1. injection E1 as <-. eexists _, _. split; [exact R|].
  rewrite expect_chunks. unfold EEA3. cbn zeta. split; [reflexivity|].
  rewrite xorl_length, Zstream_length. lia.
Qed.
Theorem C36_chunking : forall count bearer dir ck ms c, byte bearer -> key16 ck ->
  zc_from_slice count bearer dir ck = Ok c ->
  exists c' outs, zc_run c (map ZEnc ms) = Ok (c', outs) /\
    concat (map fst outs) = EEA3 count (bearer mod 32) (bool8 dir) ck (concat ms) /\
    length (concat (map fst outs)) = length (concat ms).
Proof. exact zc_chunking_lemma. Qed.
Print Assumptions C36_chunking.

(** C36: decrypting the ciphertext, in any chunking, with an object made from the same parameters, or with the same
    object after a reset, gives back the message. *)
Lemma zc_roundtrip_lemma count bearer dir ck m cs c : byte bearer -> key16 ck ->
  zc_from_slice count bearer dir ck = Ok c ->
  concat cs = EEA3 count (bearer mod 32) (bool8 dir) ck m ->
  (exists c' outs, zc_run c (map ZDec cs) = Ok (c', outs) /\ concat (map fst outs) = m) /\
  (forall junk, exists c' outs outs', zc_run c (junk ++ ZReset :: map ZDec cs) = Ok (c', outs ++ ([], 0) :: outs') /\
     length outs = length junk /\ concat (map fst outs') = m).
Proof.
  intros B K E C.
  assert (D : concat (map fst (zc_expect ck (EEA3_iv count (bearer mod 32) (bool8 dir)) 0 (map ZDec cs))) = m).
  { rewrite expect_chunks_dec, C. unfold EEA3. rewrite xorl_length, Zstream_length, Nat.min_id. apply EEA3_involutive. }
  split.
  - destruct (zc_histories_lemma count bearer dir ck (map ZDec cs) B K) as (c1 & c' & E1 & R).
    rewrite E in E1. injection E1 as <-. eexists _, _. split; [exact R|exact D].
  - intros junk. destruct (zc_histories_lemma count bearer dir ck (junk ++ ZReset :: map ZDec cs) B K) as (c1 & c' & E1 & R).
    rewrite E in E1. injection E1 as <-.
    set (iv := EEA3_iv count (bearer mod 32) (bool8 dir)) in *. clearbody iv.
    assert (S : forall pos, exists outs, zc_expect ck iv pos (junk ++ ZReset :: map ZDec cs) =
              outs ++ ([], 0) :: zc_expect ck iv 0 (map ZDec cs) /\ length outs = length junk).
    { clear. induction junk as [|o junk IH]; intros pos; [exists []; auto|].
      destruct o as [x|x|]; cbn [app zc_expect].
      - destruct (IH (pos + length x)%nat) as (o & -> & L). eexists (_ :: o). split; [reflexivity|]. cbn. lia.
      - destruct (IH (pos + length x)%nat) as (o & -> & L). eexists (_ :: o). split; [reflexivity|]. cbn. lia.
      - destruct (IH 0%nat) as (o & -> & L). eexists (_ :: o). split; [reflexivity|]. cbn. lia. }
    destruct (S 0%nat) as (outs & Q & L). rewrite Q in R. exists c', outs, (zc_expect ck iv 0 (map ZDec cs)). auto.
Qed.
Theorem C36_roundtrip : forall count bearer dir ck m cs c, byte bearer -> key16 ck ->
  zc_from_slice count bearer dir ck = Ok c ->
  concat cs = EEA3 count (bearer mod 32) (bool8 dir) ck m ->
  (exists c' outs, zc_run c (map ZDec cs) = Ok (c', outs) /\ concat (map fst outs) = m) /\
  (forall junk, exists c' outs outs', zc_run c (junk ++ ZReset :: map ZDec cs) = Ok (c', outs ++ ([], 0) :: outs') /\
     length outs = length junk /\ concat (map fst outs') = m).
Proof. exact zc_roundtrip_lemma. Qed.
Print Assumptions C36_roundtrip.
(** A run: five bytes in chunks of 1, 0 and 4; the first keystream bytes for this IV are xored in. *)
Example C36_case :
  match zc_from_slice 0 0 false (repeat 0 16) with
  | Ok c => match zc_run c (map ZEnc [[0]; []; [1; 2; 3; 4]]) with
            | Ok (_, outs) => outs = [([0x27], 1); ([], 0); ([Z.lxor 0xbe 1; Z.lxor 0xde 2; Z.lxor 0x74 3; Z.lxor 0x01 4], 4)]
            | _ => False end
  | _ => False
  end.
Proof. vm_compute. reflexivity. Qed.
(** The first two words of the first test vector of the 128-EEA3 document. *)
Example C36_vector :
  match zc_from_slice 0x66035492 0xf false [0x17; 0x3d; 0x14; 0xba; 0x50; 0x03; 0x73; 0x1d; 0x7a; 0x60; 0x04; 0x94; 0x70; 0xf0; 0x0a; 0x29] with
  | Ok c => match zc_encrypt c (be_bytes 8 0x6cf65340735552ab) with
            | Ok (_, out, n) => be_val out = 0xa6c85fc66afb8533 /\ n = 8
            | _ => False end
  | _ => False
  end.
Proof. vm_compute. split; reflexivity. Qed.

(** C36: the returned number is the number of bytes written, except that it is 0 when the data needs no new keystream
    word ([left_over pos] is the number of unused bytes of the last word). *)
Lemma zc_return_lemma count bearer dir ck ops m c : byte bearer -> key16 ck ->
  zc_from_slice count bearer dir ck = Ok c ->
  exists c1 outs c2 out n, zc_run c ops = Ok (c1, outs) /\ zc_encrypt c1 m = Ok (c2, out, n) /\
    length out = length m /\
    n = (if (length m <=? left_over (zc_pos 0 ops))%nat then 0 else Z.of_nat (length m)).
Proof.
  intros B [Lk Bk] E. destruct (zc_new_ok count bearer dir ck B Lk Bk) as (c0 & E0 & A).
  rewrite E in E0. injection E0 as <-.
  destruct (EEA3_iv_ok count bearer dir B) as [Lv Bv].
  destruct (zc_run_ok ck _ Lk Lv Bk Bv ops c 0%nat A) as (c1 & E1 & A1).
  destruct (zc_encrypt_ok ck _ c1 _ m A1) as (c2 & E2 & _).
  eexists _, _, _, _, _. split; [exact E1|]. split; [exact E2|]. split; [|reflexivity].
  rewrite xorl_length, Zstream_length. lia.
Qed.
Theorem C36_return : forall count bearer dir ck ops m c, byte bearer -> key16 ck ->
  zc_from_slice count bearer dir ck = Ok c ->
  exists c1 outs c2 out n, zc_run c ops = Ok (c1, outs) /\ zc_encrypt c1 m = Ok (c2, out, n) /\
    length out = length m /\
    n = (if (length m <=? left_over (zc_pos 0 ops))%nat then 0 else Z.of_nat (length m)).
Proof. exact zc_return_lemma. Qed.
Print Assumptions C36_return.
(** C36 is false for the returned length: the second one-byte call writes one byte and returns 0. *)
Theorem C36_return_refuted : forall count bearer dir ck c, byte bearer -> key16 ck ->
  zc_from_slice count bearer dir ck = Ok c ->
  exists c1 outs c2 out, zc_run c [ZEnc [1]] = Ok (c1, outs) /\ zc_encrypt c1 [2] = Ok (c2, out, 0) /\ length out = 1%nat.
Proof.
  intros count bearer dir ck c B K E.
  destruct (zc_return_lemma count bearer dir ck [ZEnc [1]] [2] c B K E) as (c1 & outs & c2 & out & n & R & Q & L & N).
  rewrite N in Q. exists c1, outs, c2, out. auto.
Qed.
Print Assumptions C36_return_refuted.
Lemma zc_reject count bearer dir ck : length ck <> 16%nat ->
  zc_from_slice count bearer dir ck = Err InvalidParameter /\ zm_from_slice count bearer dir ck = Err InvalidParameter.
Proof.
  intros H. unfold zc_from_slice, zm_from_slice. destruct (Nat.eqb_spec (length ck) 16); [congruence|]. split; reflexivity.
Qed.
Theorem C36_lengths : forall count bearer dir ck, length ck <> 16%nat ->
  zc_from_slice count bearer dir ck = Err InvalidParameter /\ zm_from_slice count bearer dir ck = Err InvalidParameter.
Proof. exact zc_reject. Qed.
Print Assumptions C36_lengths.

(** C37: a message written in one call to a new or just reset object gets the 128-EIA3 MAC. *)
Lemma zm_inv_new count bearer dir ck : byte bearer -> key16 ck ->
  exists m0, zm_from_slice count bearer dir ck = Ok m0 /\ zm_inv ck (EIA3_iv count (bearer mod 32) (bool8 dir)) m0.
Proof.
  intros B [Lk Bk]. destruct (zm_new_ok count bearer dir ck B Lk Bk) as (m0 & E & A). exists m0. split; [exact E|].
  destruct A as (A1 & A2 & A3 & _ & _ & _ & _ & A4). unfold zm_inv. eauto.
Qed.
Lemma zm_reset_lemma count bearer dir ck ops m0 : byte bearer -> key16 ck ->
  zm_from_slice count bearer dir ck = Ok m0 -> zm_reset (fold_left zm_exec ops m0) = m0.
Proof.
  intros B K E. destruct (zm_inv_new count bearer dir ck B K) as (m1 & E1 & I). rewrite E in E1. injection E1 as <-.
  destruct K as [Lk Bk]. destruct (EIA3_iv_ok count bearer dir B) as [Lv Bv].
  apply (zm_reset_fresh count bearer dir ck); try assumption. apply zm_run_inv; assumption.
Qed.
(** C37: after any history of writes, checksums and resets, [reset] gives back exactly the new object. *)
Theorem C37_reset : forall count bearer dir ck ops m0, byte bearer -> key16 ck ->
  zm_from_slice count bearer dir ck = Ok m0 -> zm_reset (fold_left zm_exec ops m0) = m0.
Proof. exact zm_reset_lemma. Qed.
Print Assumptions C37_reset.

(** C37: the value after any non-empty sequence of writes ([chunked_mac]): every write takes two fresh words, so chunk
    [j] is hashed with the keystream from word [w_j] on, where [w_(j+1) = w_j + length_j / 4 + 2]. *)
Lemma zm_writes_lemma count bearer dir ck ms m0 : byte bearer -> key16 ck ->
  zm_from_slice count bearer dir ck = Ok m0 -> ms <> [] ->
  snd (zm_checksum (fold_left zm_write ms m0)) = chunked_mac ck (EIA3_iv count (bearer mod 32) (bool8 dir)) ms.
Proof.
  intros B [Lk Bk] E NE. destruct (zm_new_ok count bearer dir ck B Lk Bk) as (m1 & E1 & A).
  rewrite E in E1. injection E1 as <-. destruct (EIA3_iv_ok count bearer dir B) as [Lv Bv].
  set (iv := EIA3_iv count (bearer mod 32) (bool8 dir)) in *. clearbody iv.
  pose proof (writes_at ck iv Lk Lv Bk Bv ms m0 0 0 0 0 0 NE A) as W. cbn zeta in W. cbn [Nat.add] in W.
  rewrite Z.lxor_0_l in W.
  rewrite (zm_checksum_at ck iv Lk Lv Bk Bv _ (chunk_words ms) _ _ W).
  - reflexivity.
  - destruct ms; [congruence|]. cbn [chunk_words]. lia.
Qed.
Theorem C37_writes : forall count bearer dir ck ms m0, byte bearer -> key16 ck ->
  zm_from_slice count bearer dir ck = Ok m0 -> ms <> [] ->
  snd (zm_checksum (fold_left zm_write ms m0)) = chunked_mac ck (EIA3_iv count (bearer mod 32) (bool8 dir)) ms.
Proof. exact zm_writes_lemma. Qed.
Print Assumptions C37_writes.
Lemma zm_one_lemma count bearer dir ck m m0 ops : byte bearer -> key16 ck ->
  zm_from_slice count bearer dir ck = Ok m0 ->
  snd (zm_checksum (zm_write m0 m)) = EIA3 count (bearer mod 32) (bool8 dir) ck m /\
  snd (zm_checksum (zm_write (zm_reset (fold_left zm_exec ops m0)) m)) = EIA3 count (bearer mod 32) (bool8 dir) ck m.
Proof.
  intros B K E. rewrite (zm_reset_lemma count bearer dir ck ops m0 B K E).
  assert (Q : snd (zm_checksum (zm_write m0 m)) = EIA3 count (bearer mod 32) (bool8 dir) ck m).
  { pose proof (zm_writes_lemma count bearer dir ck [m] m0 B K E ltac:(discriminate)) as W.
    cbn [fold_left] in W. rewrite W. apply chunked_single. }
  auto.
Qed.
Theorem C37_one_write : forall count bearer dir ck m m0 ops, byte bearer -> key16 ck ->
  zm_from_slice count bearer dir ck = Ok m0 ->
  snd (zm_checksum (zm_write m0 m)) = EIA3 count (bearer mod 32) (bool8 dir) ck m /\
  snd (zm_checksum (zm_write (zm_reset (fold_left zm_exec ops m0)) m)) = EIA3 count (bearer mod 32) (bool8 dir) ck m.
Proof. exact zm_one_lemma. Qed.
Print Assumptions C37_one_write.

Definition zm0 : zmac :=
  match zm_from_slice 0 0 false (repeat 0 16) with
  | Ok m => m | _ => mkZm (mkZuc [] 0 0) [] [] 0 0 0 0 false end.
Lemma zm0_ok : zm_from_slice 0 0 false (repeat 0 16) = Ok zm0.
Proof.
  unfold zm0. destruct (zm_inv_new 0 0 false (repeat 0 16)) as (m & -> & _); [unfold byte; lia| |reflexivity].
  split; [reflexivity|apply bytes_repeat; unfold byte; lia].
Qed.
(** Four zero bytes with key, count and bearer 0. *)
Example C37_case : snd (zm_checksum (zm_write zm0 [0; 0; 0; 0])) = EIA3 0 (0 mod 32) (bool8 false) (repeat 0 16) [0; 0; 0; 0].
Proof.
  refine (proj1 (C37_one_write 0 0 false (repeat 0 16) [0; 0; 0; 0] zm0 [] _ _ zm0_ok)).
  - unfold byte; lia.
  - split; [reflexivity|apply bytes_repeat; unfold byte; lia].
Qed.
(** C37 is false of splitting a message into two writes. *)
Theorem C37_chunking_refuted : exists count bearer dir ck m0 a b,
  zm_from_slice count bearer dir ck = Ok m0 /\
  snd (zm_checksum (zm_write (zm_write m0 a) b)) <> snd (zm_checksum (zm_write m0 (a ++ b))).
Proof.
  exists 0, 0, false, (repeat 0 16), zm0, [1], [1]. split; [exact zm0_ok|]. intros H. vm_compute in H. discriminate H.
Qed.
Print Assumptions C37_chunking_refuted.
(** C37 is false of asking for the checksum twice. *)
Theorem C37_repeat_refuted : exists count bearer dir ck m0 m,
  zm_from_slice count bearer dir ck = Ok m0 /\
  let m1 := zm_write m0 m in
  snd (zm_checksum (fst (zm_checksum m1))) <> snd (zm_checksum m1).
Proof.
  exists 0, 0, false, (repeat 0 16), zm0, [1]. split; [exact zm0_ok|]. cbn zeta. intros H. vm_compute in H. discriminate H.
Qed.
Print Assumptions C37_repeat_refuted.
(** C37: an object that was never written returns 0, for every key; this is not the MAC of the empty message. *)
Lemma zm_none_lemma count bearer dir ck m0 : byte bearer -> key16 ck ->
  zm_from_slice count bearer dir ck = Ok m0 -> snd (zm_checksum m0) = [0; 0; 0; 0].
Proof.
  intros B [Lk Bk] E. destruct (zm_new_ok count bearer dir ck B Lk Bk) as (m1 & E1 & A).
  rewrite E in E1. injection E1 as <-. destruct A as (_ & _ & Ec & Et & El & E0 & E1 & _).
  unfold zm_checksum. rewrite Ec, Et, El, E0, E1. reflexivity.
Qed.
Theorem C37_never_written : forall count bearer dir ck m0, byte bearer -> key16 ck ->
  zm_from_slice count bearer dir ck = Ok m0 -> snd (zm_checksum m0) = [0; 0; 0; 0].
Proof. exact zm_none_lemma. Qed.
Print Assumptions C37_never_written.
Theorem C37_never_written_refuted : exists count bearer dir ck m0, byte bearer /\ key16 ck /\
  zm_from_slice count bearer dir ck = Ok m0 /\ snd (zm_checksum m0) <> EIA3 count (bearer mod 32) (bool8 dir) ck [].
Proof.
  assert (B : byte 0) by (unfold byte; lia).
  assert (K : key16 (repeat 0 16)) by (split; [reflexivity|apply bytes_repeat; exact B]).
  exists 0, 0, false, (repeat 0 16), zm0. refine (conj B (conj K (conj zm0_ok _))).
  rewrite <- (proj1 (C37_one_write 0 0 false (repeat 0 16) [] zm0 [] B K zm0_ok)).
  intros H. vm_compute in H. discriminate H.
Qed.
Print Assumptions C37_never_written_refuted.
