(** Chunking independence, padding and histories for the common hash object. *)
From Coq Require Znumtheory.
From Verif Require Import Base Words HashModel HashSpec.

Lemma put_length buf i src : (i + length src <= length buf)%nat -> length (put buf i src) = length buf.
Proof. intros H. unfold put. rewrite !app_length, firstn_length, skipn_length. lia. Qed.
Lemma firstn_put buf i src : (i + length src <= length buf)%nat ->
  firstn (i + length src) (put buf i src) = firstn i buf ++ src.
Proof.
  intros H. unfold put. rewrite app_assoc, firstn_app, app_length, firstn_length.
  replace (i + length src - (Nat.min i (length buf) + length src))%nat with 0%nat by lia.
  rewrite firstn_O, app_nil_r. apply firstn_all2. rewrite app_length, firstn_length. lia.
Qed.

Section MdP.
Variables (B : nat) (ge : bool) (compress : list Z -> list Z -> list Z).
Hypothesis HB : (0 < B)%nat.
Notation update := (md_update B compress).
Notation write := (md_write B ge compress).

Lemma update_app h a b : (length a mod B = 0)%nat -> update h (a ++ b) = update (update h a) b.
Proof. intros H. unfold md_update. rewrite chunks_app_mult by (auto; lia). apply fold_left_app. Qed.
Lemma update_nil h : update h [] = h.
Proof. unfold md_update. rewrite chunks_nil by lia. reflexivity. Qed.

(** The object holds the data [m] written since the chaining value was [h0]. *)
Inductive holds (h0 : list Z) (s : mdst) (m : list Z) : Prop := mkHolds (w r : list Z) :
  m = w ++ r -> (length w mod B = 0)%nat -> md_h s = update h0 w ->
  firstn (md_idx s) (md_buf s) = r -> length r = md_idx s -> (md_idx s <= B)%nat -> length (md_buf s) = B ->
  holds h0 s m.

Lemma holds_init iv : holds iv (md_init B iv) [].
Proof.
  apply (mkHolds _ _ _ [] []); cbn [md_h md_init md_idx md_buf length]; auto.
  - apply Nat.mod_0_l; lia.
  - rewrite update_nil. reflexivity.
  - lia.
  - apply repeat_length.
Qed.

(** Third part of [write]: store the remaining at most [B] bytes in an empty buffer. *)
Lemma mod_add_eq a b : (a mod B = 0)%nat -> (b mod B = 0)%nat -> ((a + b) mod B = 0)%nat.
Proof. intros Ha Hb. rewrite Nat.add_mod, Ha, Hb by lia. apply Nat.mod_0_l; lia. Qed.

(** What [write] does to an empty buffer ([idx = 0]) is determined by the whole blocks it takes. *)
Definition tail_write (h buf : list Z) (data : list Z) (len : Z) : mdst :=
  let '(h, data) :=
    if (if ge then (B <=? length data)%nat else (B <? length data)%nat) then
      let n := (length data / B * B)%nat in (update h (firstn n data), skipn n data)
    else (h, data) in
  let '(buf, idx) :=
    if (0 <? length data)%nat then (put buf 0 data, length data) else (buf, 0%nat) in
  mkMd h buf idx len false.

Lemma tail_holds h0 m buf data len : (length m mod B = 0)%nat -> length buf = B ->
  holds h0 (tail_write (update h0 m) buf data len) (m ++ data) /\
  (ge = true -> (md_idx (tail_write (update h0 m) buf data len) < B)%nat).
Proof.
  intros Hm Hb. unfold tail_write.
  set (n := (length data / B * B)%nat).
  assert (Hn : (n <= length data)%nat) by (unfold n; rewrite Nat.mul_comm; apply Nat.mul_div_le; lia).
  assert (Hr : (length data - n < B)%nat).
  { unfold n. pose proof (Nat.div_mod (length data) B). pose proof (Nat.mod_upper_bound (length data) B). nia. }
  assert (Hnm : (n mod B = 0)%nat) by (unfold n; apply Nat.mod_mul; lia).
  assert (Store : forall w d, (length w mod B = 0)%nat -> (length d <= B)%nat -> m ++ data = w ++ d ->
    let s := (let '(buf, idx) := if (0 <? length d)%nat then (put buf 0 d, length d) else (buf, 0%nat) in mkMd (update h0 w) buf idx len false) in
    holds h0 s (m ++ data) /\ md_idx s = length d).
  { intros w d Hw Hd E. destruct (Nat.ltb_spec 0 (length d)) as [L|L].
    - cbn [md_idx md_buf md_h]. split; [|reflexivity].
      apply (mkHolds _ _ _ w d); cbn [md_idx md_buf md_h]; auto.
      + pose proof (firstn_put buf 0 d) as F. cbn [plus] in F. rewrite F by lia. rewrite firstn_O. reflexivity.
      + rewrite put_length by lia. exact Hb.
    - assert (d = []) by (destruct d; [reflexivity|cbn in L; lia]). subst d. cbn [md_idx md_buf md_h]. split; [|reflexivity].
      apply (mkHolds _ _ _ w []); cbn [md_idx md_buf md_h]; auto; lia. }
  destruct (if ge then _ else _) eqn:C.
  - rewrite <- update_app by auto.
    destruct (Store (m ++ firstn n data) (skipn n data)) as [S1 S2].
    + rewrite app_length, firstn_length, Nat.min_l by auto. apply mod_add_eq; auto.
    + rewrite skipn_length. lia.
    + rewrite <- app_assoc, firstn_skipn. reflexivity.
    + split; [exact S1|]. intros _. cbv zeta in S2. rewrite S2, skipn_length. lia.
  - destruct (Store m data) as [S1 S2]; auto.
    + destruct ge; [apply Nat.leb_gt in C|apply Nat.ltb_ge in C]; lia.
    + split; [exact S1|]. intros ->. apply Nat.leb_gt in C. cbv zeta in S2. rewrite S2. exact C.
Qed.

Lemma write_eq s data : write s data =
  let len := (md_len s + Z.of_nat (length data)) mod M64 in
  if (0 <? md_idx s)%nat then
    let min := Nat.min (B - md_idx s) (length data) in
    let buf := put (md_buf s) (md_idx s) (firstn min data) in
    if (md_idx s + min =? B)%nat then tail_write (update (md_h s) buf) buf (skipn min data) len
    else
      let '(h, data) :=
        if (if ge then (B <=? length (skipn min data))%nat else (B <? length (skipn min data))%nat) then
          let n := (length (skipn min data) / B * B)%nat in (update (md_h s) (firstn n (skipn min data)), skipn n (skipn min data))
        else (md_h s, skipn min data) in
      let '(buf, idx) :=
        if (0 <? length data)%nat then (put buf 0 data, (md_idx s + min + length data)%nat) else (buf, (md_idx s + min)%nat) in
      mkMd h buf idx len false
  else let '(h, data) :=
        if (if ge then (B <=? length data)%nat else (B <? length data)%nat) then
          let n := (length data / B * B)%nat in (update (md_h s) (firstn n data), skipn n data)
        else (md_h s, data) in
      let '(buf, idx) :=
        if (0 <? length data)%nat then (put (md_buf s) 0 data, (md_idx s + length data)%nat) else (md_buf s, md_idx s) in
      mkMd h buf idx len false.
Proof.
  unfold md_write, tail_write. destruct (0 <? md_idx s)%nat; [|reflexivity]. cbv zeta.
  destruct (_ =? B)%nat; [|reflexivity]. cbv beta iota. destruct (if ge then _ else _); cbv beta iota; destruct (0 <? _)%nat; reflexivity.
Qed.

Lemma write_holds h0 s m data : holds h0 s m ->
  holds h0 (write s data) (m ++ data) /\
  md_len (write s data) = (md_len s + Z.of_nat (length data)) mod M64 /\
  md_checked (write s data) = false /\
  (ge = true -> (md_idx s < B)%nat -> (md_idx (write s data) < B)%nat) /\
  ((0 < md_idx s)%nat -> (md_idx s + length data = B)%nat -> md_idx (write s data) = 0%nat).
Proof.
  intros [w r Em Hw Hh Hbuf Hidx Hle Hbl].
  split; [|split; [|split]].
  2:{ unfold md_write. repeat (match goal with |- context [let '(_, _) := ?x in _] => destruct x as [? ?] end). reflexivity. }
  2:{ unfold md_write. repeat (match goal with |- context [let '(_, _) := ?x in _] => destruct x as [? ?] end). reflexivity. }
  - rewrite write_eq. cbv zeta. destruct (Nat.ltb_spec 0 (md_idx s)) as [P|P].
    + set (mn := Nat.min (B - md_idx s) (length data)).
      assert (Lf : length (firstn mn data) = mn) by (rewrite firstn_length; lia).
      destruct (Nat.eqb_spec (md_idx s + mn) B) as [E|E].
      * set (buf := put (md_buf s) (md_idx s) (firstn mn data)).
        assert (Hbuf' : buf = r ++ firstn mn data).
        { unfold buf. rewrite <- (firstn_all (put _ _ _)). rewrite put_length by lia.
          rewrite Hbl, <- E. rewrite <- Lf at 1. rewrite firstn_put by lia. rewrite Hbuf. reflexivity. }
        assert (Lb : length buf = B) by (rewrite Hbuf', app_length, Lf; lia).
        rewrite Hh, <- update_app by auto.
        assert (Em' : m ++ data = (w ++ buf) ++ skipn mn data).
        { rewrite Em, Hbuf', <- !app_assoc, firstn_skipn. reflexivity. }
        rewrite Em'. apply tail_holds; auto. rewrite app_length, Lb. apply mod_add_eq; auto. apply Nat.mod_same; lia.
      * assert (Hmn : mn = length data) by lia. rewrite Hmn, skipn_all. cbn [length].
        replace (if ge then (B <=? 0)%nat else (B <? 0)%nat) with false by (destruct ge; symmetry; [apply Nat.leb_gt|apply Nat.ltb_ge]; lia).
        cbn [length Nat.ltb Nat.leb]. rewrite firstn_all.
        apply (mkHolds _ _ _ w (r ++ data)); cbn [md_h md_buf md_idx]; auto.
        -- rewrite Em, app_assoc. reflexivity.
        -- rewrite firstn_put by lia. rewrite Hbuf. reflexivity.
        -- rewrite app_length. lia.
        -- lia.
        -- rewrite put_length by lia. exact Hbl.
    + assert (P0 : md_idx s = 0%nat) by lia. rewrite P0 in *. destruct r; [|cbn in Hidx; lia].
      rewrite app_nil_r in Em. subst w. rewrite Hh. apply (tail_holds h0 m (md_buf s) data); auto.
  - split.
    + intros G HL. rewrite write_eq. cbv zeta. destruct (Nat.ltb_spec 0 (md_idx s)) as [P|P].
      * set (mn := Nat.min (B - md_idx s) (length data)).
        destruct (Nat.eqb_spec (md_idx s + mn) B) as [E|E].
        -- pose proof (tail_holds (update (md_h s) (put (md_buf s) (md_idx s) (firstn mn data))) [] (put (md_buf s) (md_idx s) (firstn mn data)) (skipn mn data) ((md_len s + Z.of_nat (length data)) mod M64)) as T.
           rewrite update_nil in T. apply T; auto.
           ++ apply Nat.mod_0_l; lia.
           ++ rewrite put_length; [exact Hbl|]. rewrite firstn_length. lia.
        -- assert (Hmn : mn = length data) by lia. rewrite Hmn, skipn_all. cbn [length].
           replace (if ge then (B <=? 0)%nat else (B <? 0)%nat) with false by (destruct ge; symmetry; [apply Nat.leb_gt|apply Nat.ltb_ge]; lia).
           cbn [length Nat.ltb Nat.leb md_idx]. lia.
      * assert (P0 : md_idx s = 0%nat) by lia. rewrite P0.
        pose proof (tail_holds (md_h s) [] (md_buf s) data ((md_len s + Z.of_nat (length data)) mod M64)) as T.
        rewrite update_nil in T. apply T; auto. apply Nat.mod_0_l; lia.
    + intros P E. rewrite write_eq. cbv zeta. destruct (Nat.ltb_spec 0 (md_idx s)) as [_|X]; [|lia].
      replace (Nat.min (B - md_idx s) (length data)) with (length data) by lia. rewrite (proj2 (Nat.eqb_eq _ _) E).
      rewrite skipn_all. unfold tail_write. cbn [length].
      replace (if ge then (B <=? 0)%nat else (B <? 0)%nat) with false by (destruct ge; symmetry; [apply Nat.leb_gt|apply Nat.ltb_ge]; lia).
      reflexivity.
Qed.
End MdP.

Section MdF.
Variables (B : nat) (ge : bool) (compress : list Z -> list Z -> list Z).
Hypothesis HB : (0 < B)%nat.
Notation update := (md_update B compress).
Notation write := (md_write B ge compress).
Notation holds := (holds B compress).

Definition inv (s : mdst) : Prop := ge = true -> (md_idx s < B)%nat.

Lemma writes_holds h0 ws : forall s m, holds h0 s m -> inv s ->
  let s' := fold_left write ws s in
  holds h0 s' (m ++ concat ws) /\ inv s' /\
  (md_len s = md_len s mod M64 -> md_len s' = (md_len s + Z.of_nat (length (concat ws))) mod M64) /\
  (md_checked s = false -> md_checked s' = false).
Proof.
  induction ws as [|d ws IH]; intros s m Hs Hi; cbn [fold_left concat]; cbv zeta.
  - rewrite app_nil_r. split; [auto|]. split; [auto|]. cbn [length]. rewrite Z.add_0_r. auto.
  - destruct (write_holds B ge compress HB h0 s m d Hs) as (W1 & W2 & W3 & W4 & _).
    destruct (IH (write s d) (m ++ d) W1) as (A & A2 & A3 & A4).
    { intros G. apply W4; auto. }
    rewrite app_assoc. split; [exact A|]. split; [exact A2|]. split; [|auto].
    intros _. rewrite A3.
    + rewrite W2, Zplus_mod_idemp_l, app_length. f_equal. lia.
    + rewrite W2, Z.mod_mod by discriminate. reflexivity.
Qed.

Lemma idx_of h0 s m k : holds h0 s m -> (length m mod B = k)%nat -> (0 < k)%nat -> md_idx s = k.
Proof.
  intros [w r Em Hw _ _ Hr Hle _] Hk Hp. rewrite Em, app_length, Nat.add_mod, Hw, Nat.add_0_l, Nat.mod_mod, Hr in Hk by lia.
  destruct (Nat.eq_dec (md_idx s) B) as [E|E].
  - rewrite E, Nat.mod_same in Hk by lia. lia.
  - rewrite Nat.mod_small in Hk by lia. exact Hk.
Qed.
Lemma idx_of0 h0 s m : holds h0 s m -> (length m mod B = 0)%nat -> (md_idx s < B)%nat -> md_idx s = 0%nat.
Proof.
  intros [w r Em Hw _ _ Hr Hle _] Hk Hlt. rewrite Em, app_length, Nat.add_mod, Hw, Nat.add_0_l, Nat.mod_mod, Hr in Hk by lia.
  rewrite Nat.mod_small in Hk by lia. exact Hk.
Qed.
Lemma holds_flush h0 s m : holds h0 s m -> md_idx s = 0%nat -> md_h s = update h0 m /\ length (md_buf s) = B.
Proof.
  intros [w r Em Hw Hh _ Hr _ Hb] E. rewrite E in Hr. destruct r; [|discriminate Hr]. rewrite app_nil_r in Em. subst. auto.
Qed.

Lemma zeros_spec lf n : (lf < B)%nat ->
  let z := zeros B lf n in (z < B)%nat /\ ((n + 1 + z + lf) mod B = 0)%nat /\
  (forall z', ((n + 1 + z' + lf) mod B = 0)%nat -> (z <= z')%nat).
Proof using HB. clear compress ge.
  intros Hlf. cbv zeta. unfold zeros. set (x := Z.of_nat B - Z.of_nat lf - 1 - Z.of_nat n).
  pose proof (Z.mod_pos_bound x (Z.of_nat B)) as Hb. specialize (Hb ltac:(lia)).
  assert (D : Z.of_nat B * (x / Z.of_nat B) + x mod Z.of_nat B = x) by (symmetry; apply Z.div_mod; lia).
  split; [lia|]. split.
  - apply Nat2Z.inj. rewrite Nat2Z.inj_mod. rewrite !Nat2Z.inj_add, Z2Nat.id by lia.
    replace (Z.of_nat n + Z.of_nat 1 + x mod Z.of_nat B + Z.of_nat lf) with ((1 - x / Z.of_nat B) * Z.of_nat B).
    + apply Z.mod_mul. lia.
    + unfold x in *. lia.
  - intros z' Hz. apply (f_equal Z.of_nat) in Hz. rewrite Nat2Z.inj_mod, !Nat2Z.inj_add in Hz.
    apply Z.mod_divide in Hz; [|lia]. destruct Hz as [q Hq].
    assert (E : x = Z.of_nat z' + (1 - q) * Z.of_nat B) by (unfold x; lia).
    rewrite E, Z.mod_add by lia. apply Nat2Z.inj_le. rewrite Z2Nat.id by (apply Z.mod_pos_bound; lia).
    apply Z.mod_le; lia.
Qed.
Lemma pad_mult lenf m : (length lenf < B)%nat -> (length (pad_with B lenf m) mod B = 0)%nat.
Proof using HB. clear compress ge.
  intros H. unfold pad_with. rewrite !app_length, repeat_length. cbn [length].
  destruct (zeros_spec (length lenf) (length m) H) as (_ & Z & _). rewrite <- Z. f_equal. lia.
Qed.
End MdF.

Lemma le_bytes_mod n : forall x, le_bytes n (x mod 256 ^ Z.of_nat n) = le_bytes n x.
Proof.
  induction n as [|n IH]; intros x; [reflexivity|]. cbn [le_bytes].
  rewrite Nat2Z.inj_succ, Z.pow_succ_r by lia.
  assert (Hp : 0 < 256 ^ Z.of_nat n) by (apply Z.pow_pos_nonneg; lia).
  rewrite Z.rem_mul_r by lia. f_equal.
  - rewrite (Z.mul_comm 256 ((x / 256) mod _)), Z_mod_plus_full. apply Z.mod_mod; lia.
  - rewrite <- (IH (x / 256)). f_equal.
    rewrite (Z.mul_comm 256 ((x / 256) mod _)), Z_div_plus_full by lia. rewrite Z.div_small by (apply Z.mod_pos_bound; lia). lia.
Qed.
Lemma be_bytes_mod n x : be_bytes n (x mod 256 ^ Z.of_nat n) = be_bytes n x.
Proof. unfold be_bytes. rewrite le_bytes_mod. reflexivity. Qed.

(** What a padding scheme has to do: [lenf L] is the length field for a counter value [L]. *)
Definition pads_ok (B : nat) (ge : bool) (pads : Z -> list (list Z)) (lenf : Z -> list Z) : Prop :=
  forall compress h0 s m, holds B compress h0 s m -> inv B ge s ->
    md_len s mod Z.of_nat B = Z.of_nat (length m) mod Z.of_nat B -> 0 <= md_len s < M64 ->
    let s' := fold_left (md_write B ge compress) (pads (md_len s)) s in
    md_idx s' = 0%nat /\ holds B compress h0 s' (pad_with B (lenf (md_len s)) m) /\
    length (lenf (md_len s)) = length (lenf 0) /\
    md_len s' = (md_len s + Z.of_nat (length (pad_with B (lenf (md_len s)) m)) - Z.of_nat (length m)) mod M64.

Lemma sha_pads_ok B lf : (0 < lf < B)%nat ->
  pads_ok B false (sha_pads B lf) (fun L => be_bytes lf (8 * L)).
Proof.
  intros Hlf compress h0 s m Hs Hi HL HR.
  assert (HB : (0 < B)%nat) by lia. cbv zeta. unfold sha_pads.
  set (L := md_len s) in *. set (r := Z.to_nat (L mod Z.of_nat B)).
  assert (Hr : (r = length m mod B)%nat).
  { unfold r. rewrite HL, <- Nat2Z.inj_mod, Nat2Z.id. reflexivity. }
  assert (Hrb : (r < B)%nat) by (rewrite Hr; apply Nat.mod_upper_bound; lia).
  set (p := if (r <? B - lf)%nat then (B - lf - r)%nat else (B + (B - lf) - r)%nat).
  assert (Hp : (1 <= p <= B)%nat) by (unfold p; destruct (Nat.ltb_spec r (B - lf)); lia).
  assert (Ez : zeros B lf (length m) = (p - 1)%nat).
  { unfold zeros. assert (E : exists q, Z.of_nat (length m) = Z.of_nat B * q + Z.of_nat r).
    { exists (Z.of_nat (length m / B)). rewrite Hr. rewrite <- Nat2Z.inj_mul, <- Nat2Z.inj_add. f_equal. apply Nat.div_mod; lia. }
    destruct E as [q E]. rewrite E.
    unfold p. destruct (Nat.ltb_spec r (B - lf)).
    - replace (Z.of_nat B - Z.of_nat lf - 1 - (Z.of_nat B * q + Z.of_nat r)) with (Z.of_nat (B - lf - r - 1) + (- q) * Z.of_nat B) by lia.
      rewrite Z.mod_add, Z.mod_small by lia. lia.
    - replace (Z.of_nat B - Z.of_nat lf - 1 - (Z.of_nat B * q + Z.of_nat r)) with (Z.of_nat (B + (B - lf) - r - 1) + (- q - 1) * Z.of_nat B) by lia.
      rewrite Z.mod_add, Z.mod_small by lia. lia. }
  assert (Et : firstn p (0x80 :: repeat 0 (B - 1)) = 0x80 :: repeat 0 (p - 1)).
  { destruct p as [|p']; [lia|]. cbn [firstn]. f_equal. replace (S p' - 1)%nat with p' by lia.
    replace (B - 1)%nat with (p' + (B - 1 - p'))%nat by lia. rewrite repeat_app, firstn_app, repeat_length, Nat.sub_diag, firstn_O, app_nil_r.
    apply firstn_all2. rewrite repeat_length. lia. }
  rewrite Et. replace (L * 8) with (8 * L) by lia. rewrite be_bytes_mod. cbn [fold_left].
  set (d1 := 0x80 :: repeat 0 (p - 1)). set (d2 := be_bytes lf (8 * L)).
  assert (Ld1 : length d1 = p) by (unfold d1; cbn [length]; rewrite repeat_length; lia).
  assert (Ld2 : length d2 = lf) by apply be_bytes_length.
  destruct (write_holds B false compress HB h0 s m d1 Hs) as (W1 & W2 & _ & _ & _).
  set (s1 := md_write B false compress s d1) in *.
  destruct (write_holds B false compress HB h0 s1 _ d2 W1) as (V1 & V2 & _ & _ & V5).
  assert (I1 : md_idx s1 = (B - lf)%nat).
  { eapply (idx_of B compress HB); [exact W1| |lia]. rewrite app_length, Ld1, <- Nat.add_mod_idemp_l, <- Hr by lia.
    unfold p. destruct (Nat.ltb_spec r (B - lf)).
    - replace (r + (B - lf - r))%nat with (B - lf)%nat by lia. apply Nat.mod_small; lia.
    - replace (r + (B + (B - lf) - r))%nat with (B - lf + 1 * B)%nat by lia. rewrite Nat.mod_add by lia. apply Nat.mod_small; lia. }
  assert (Ep : pad_with B d2 m = (m ++ d1) ++ d2).
  { unfold pad_with. rewrite Ld2, Ez. unfold d1. rewrite <- !app_assoc. reflexivity. }
  rewrite Ep. split; [apply V5; lia|]. split; [exact V1|]. split; [rewrite be_bytes_length; exact Ld2|].
  rewrite V2, W2, Zplus_mod_idemp_l. f_equal. rewrite !app_length. lia.
Qed.

Lemma md5_pads_ok : pads_ok 64 true md5_pads (fun L => le_bytes 8 (8 * L)).
Proof.
  intros compress h0 s m Hs Hi HL HR. cbv zeta. unfold md5_pads. set (L := md_len s) in *. cbn [fold_left].
  assert (Ez : Z.to_nat (((55 - L) mod M64) mod 64) = zeros 64 8 (length m)).
  { unfold zeros. f_equal. change (Z.of_nat 64) with 64 in *. change (Z.of_nat 8) with 8.
    change M64 with (64 * 288230376151711744). rewrite (Z.rem_mul_r (55 - L)) by lia.
    rewrite (Z.mul_comm 64), Z.mod_add, Z.mod_mod by lia. rewrite Zminus_mod, HL, <- Zminus_mod. f_equal. }
  rewrite Ez. replace (L * 8) with (8 * L) by lia. assert (El : le_bytes 8 ((8 * L) mod M64) = le_bytes 8 (8 * L)) by (change M64 with (256 ^ Z.of_nat 8); apply le_bytes_mod). rewrite !El.
  set (d := [0x80] ++ repeat 0 (zeros 64 8 (length m)) ++ le_bytes 8 (8 * L)).
  assert (HB : (0 < 64)%nat) by lia.
  destruct (write_holds 64 true compress HB h0 s m d Hs) as (W1 & W2 & _ & W4 & _).
  assert (Ep : pad_with 64 (le_bytes 8 (8 * L)) m = m ++ d) by (unfold pad_with, d; rewrite le_bytes_length; reflexivity).
  assert (I0 : md_idx (md_write 64 true compress s d) = 0%nat).
  { eapply (idx_of0 64 compress HB); [exact W1| |apply W4; [reflexivity|apply Hi; reflexivity]].
    rewrite <- Ep. apply (pad_mult 64 HB). rewrite le_bytes_length. apply Nat.ltb_lt; reflexivity. }
  rewrite Ep. split; [exact I0|]. split; [exact W1|]. split; [reflexivity|].
  rewrite W2. f_equal. rewrite app_length. lia.
Qed.

(** ** Histories *)
Inductive hop := HWrite (d : list Z) | HChecksum | HReset.
Definition hexec {S} (D : digest S) (st : S * list (list Z)) (o : hop) : S * list (list Z) :=
  let '(s, outs) := st in
  match o with
  | HWrite d => (d_write D s d, outs)
  | HChecksum => let '(s', dg) := d_checksum D s in (s', outs ++ [dg])
  | HReset => (d_reset D s, outs)
  end.
Definition hrun {S} (D : digest S) (s : S) (os : list hop) : S * list (list Z) := fold_left (hexec D) os (s, []).

(** The abstract object: a chaining value, the bytes written since, an offset added to the byte count in
    the length field, and whether [checksum] was the last effective call. *)
Record hobj := mkObj { ob_h : list Z; ob_m : list Z; ob_off : Z; ob_fin : bool }.
Section Abs.
Variables (B : nat) (compress : list Z -> list Z -> list Z) (lenf : Z -> list Z) (zl : bool) (iv : list Z) (out : list Z -> list Z).
Definition ob_count (o : hobj) : Z := (ob_off o + Z.of_nat (length (ob_m o))) mod M64.
Definition ob_padded (o : hobj) : list Z := pad_with B (lenf (ob_count o)) (ob_m o).
Definition ob_value (o : hobj) : list Z := iterate B compress (ob_h o) (ob_padded o).
Definition ob_write (o : hobj) (d : list Z) : hobj :=
  if ob_fin o then mkObj (ob_value o) d (if zl then 0 else ob_off o + Z.of_nat (length (ob_padded o))) false
  else mkObj (ob_h o) (ob_m o ++ d) (ob_off o) false.
Definition ob_step (st : hobj * list (list Z)) (op : hop) : hobj * list (list Z) :=
  let '(o, outs) := st in
  match op with
  | HWrite d => (ob_write o d, outs)
  | HChecksum => (mkObj (ob_h o) (ob_m o) (ob_off o) true, outs ++ [out (ob_value o)])
  | HReset => (mkObj iv [] 0 false, outs)
  end.
Definition ob_run (os : list hop) : list (list Z) := snd (fold_left ob_step os (mkObj iv [] 0 false, [])).
End Abs.

Section Hist.
Variables (B bits : nat) (ge : bool) (compress : list Z -> list Z -> list Z).
Variables (pads : Z -> list (list Z)) (lenf : Z -> list Z) (zl : bool) (iv : list Z) (out : list Z -> list Z).
Hypothesis HB : (0 < B)%nat.
Hypothesis HBM : (Z.of_nat B | M64).
Hypothesis Hlen : (length (lenf 0) < B)%nat.
Hypothesis HP : pads_ok B ge pads lenf.
Notation D := (md_digest B bits ge compress pads zl iv out).
Notation cut := (fun h => firstn (bits / 8) (out h)).
Notation obv := (ob_value B compress lenf).
Notation obw := (ob_write B compress lenf zl).
Notation obp := (ob_padded B lenf).

(** [s] represents [o]. *)
Definition rep (s : mdst) (o : hobj) : Prop :=
  0 <= md_len s < M64 /\ inv B ge s /\ ob_off o mod Z.of_nat B = 0 /\ md_checked s = ob_fin o /\
  if ob_fin o then
    md_idx s = 0%nat /\ md_h s = obv o /\ length (md_buf s) = B /\
    md_len s = (if zl then 0 else (ob_off o + Z.of_nat (length (obp o))) mod M64) /\
    (length (obp o) mod B = 0)%nat
  else holds B compress (ob_h o) s (ob_m o) /\ md_len s = ob_count o.

Lemma rep_init : rep (md_init B iv) (mkObj iv [] 0 false).
Proof.
  split; [cbn; unfold M64; lia|]. split; [intros _; exact HB|]. split; [reflexivity|]. split; [reflexivity|].
  cbn [ob_fin]. split; [apply (holds_init B compress HB)|]. reflexivity.
Qed.
Lemma modB x : (x mod M64) mod Z.of_nat B = x mod Z.of_nat B.
Proof. symmetry. apply Znumtheory.Zmod_div_mod; [lia|reflexivity|exact HBM]. Qed.
Lemma holds_empty h s : md_idx s = 0%nat -> length (md_buf s) = B -> md_h s = h -> holds B compress h s [].
Proof.
  intros H1 H2 H3. apply (mkHolds _ _ _ _ _ [] []); auto.
  - apply Nat.mod_0_l; lia.
  - rewrite (update_nil B compress HB). exact H3.
  - rewrite H1. reflexivity.
  - lia.
Qed.
Lemma rep_write s o d : rep s o -> rep (d_write D s d) (obw o d).
Proof.
  intros (R1 & R2 & R3 & R4 & R5). unfold ob_write. cbn [d_write md_digest].
  destruct (ob_fin o) eqn:F.
  - destruct R5 as (I & Hh & Hb & HL & HM).
    pose proof (holds_empty (obv o) s I Hb Hh) as He.
    destruct (write_holds B ge compress HB _ s [] d He) as (W1 & W2 & W3 & W4 & _).
    split; [rewrite W2; apply Z.mod_pos_bound; reflexivity|].
    split; [intros G; apply W4; auto|]. cbn [ob_off ob_fin ob_h ob_m].
    split.
    { destruct zl; [apply Z.mod_0_l; lia|]. rewrite Zplus_mod, R3, Z.add_0_l, Z.mod_mod by lia.
      rewrite <- Nat2Z.inj_mod, HM. reflexivity. }
    split; [exact W3|]. split; [exact W1|]. rewrite W2, HL. unfold ob_count. cbn [ob_off ob_m].
    destruct zl; [reflexivity|]. rewrite Zplus_mod_idemp_l. reflexivity.
  - destruct R5 as (Hh & HL).
    destruct (write_holds B ge compress HB _ s (ob_m o) d Hh) as (W1 & W2 & W3 & W4 & _).
    split; [rewrite W2; apply Z.mod_pos_bound; reflexivity|].
    split; [intros G; apply W4; auto|]. cbn [ob_off ob_fin ob_h ob_m]. split; [exact R3|].
    split; [exact W3|]. split; [exact W1|]. rewrite W2, HL. unfold ob_count. cbn [ob_off ob_m].
    rewrite Zplus_mod_idemp_l, app_length, Nat2Z.inj_add, Z.add_assoc. reflexivity.
Qed.
Lemma rep_finish s o : rep s o ->
  let s' := md_finish B ge compress pads zl s in
  rep s' (mkObj (ob_h o) (ob_m o) (ob_off o) true) /\ md_h s' = obv o.
Proof.
  intros (R1 & R2 & R3 & R4 & R5). cbv zeta. unfold md_finish. rewrite R4. destruct (ob_fin o) eqn:F.
  - split.
    + split; [auto|]. split; [auto|]. split; [auto|]. split; [rewrite R4; reflexivity|]. exact R5.
    + apply R5.
  - destruct R5 as (Hh & HL).
    assert (E : md_len s mod Z.of_nat B = Z.of_nat (length (ob_m o)) mod Z.of_nat B).
    { rewrite HL. unfold ob_count. rewrite modB, Zplus_mod, R3, Z.add_0_l, Z.mod_mod by lia. reflexivity. }
    destruct (HP compress _ s (ob_m o) Hh R2 E R1) as (P1 & P2 & P3 & P4).
    set (s' := fold_left (md_write B ge compress) (pads (md_len s)) s) in *.
    assert (Epad : pad_with B (lenf (md_len s)) (ob_m o) = obp o) by (unfold ob_padded; rewrite <- HL; reflexivity).
    rewrite Epad in P2, P4.
    destruct (holds_flush B compress HB _ s' _ P2 P1) as [F1 F2].
    assert (FV : md_h s' = obv o) by (rewrite F1; reflexivity).
    cbn [md_h]. split; [|exact FV]. unfold rep. cbn [md_len md_h md_idx md_buf md_checked ob_fin ob_off].
    split; [destruct zl; [unfold M64; lia|rewrite P4; apply Z.mod_pos_bound; reflexivity]|].
    split; [intros G; cbn [md_idx]; rewrite P1; exact HB|]. split; [exact R3|]. split; [reflexivity|].
    split; [exact P1|]. split; [exact FV|]. split; [exact F2|]. split.
    + destruct zl; [reflexivity|]. rewrite P4, HL. change (obp (mkObj _ _ _ _)) with (obp o). unfold ob_count.
      rewrite <- Z.add_sub_assoc, Zplus_mod_idemp_l. f_equal. lia.
    + change (obp (mkObj _ _ _ _)) with (obp o). rewrite <- Epad. apply pad_mult; [exact HB|]. rewrite P3. exact Hlen.
Qed.
Lemma rep_run os : forall s o outs, rep s o ->
  snd (fold_left (hexec D) os (s, outs)) = snd (fold_left (ob_step B compress lenf zl iv cut) os (o, outs)) /\
  exists o', rep (fst (fold_left (hexec D) os (s, outs))) o'.
Proof.
  induction os as [|op os IH]; intros s o outs R; [cbn [fold_left fst snd]; eauto|].
  cbn [fold_left]. destruct op as [d| |]; cbn [hexec ob_step].
  - apply IH. apply rep_write; exact R.
  - destruct (rep_finish s o R) as [F1 F2]. cbn [d_checksum md_digest]. rewrite F2. apply IH. exact F1.
  - apply IH. apply rep_init.
Qed.
(** Every history of calls on a fresh object gives the outputs of the abstract object. *)
Lemma md_history os : snd (hrun D (md_init B iv) os) = ob_run B compress lenf zl iv cut os.
Proof. unfold hrun, ob_run. apply (rep_run os (md_init B iv) (mkObj iv [] 0 false) []). apply rep_init. Qed.

(** One message, any chunking, after any history ended by [reset]. *)
Lemma md_message s ws : (Z.of_nat (length (concat ws)) < M64)%Z ->
  snd (d_checksum D (fold_left (d_write D) ws (d_reset D s))) =
  firstn (bits / 8) (out (iterate B compress iv (pad_with B (lenf (Z.of_nat (length (concat ws)))) (concat ws)))).
Proof.
  intros HL.
  assert (G : forall ws s m, rep s (mkObj iv m 0 false) -> rep (fold_left (d_write D) ws s) (mkObj iv (m ++ concat ws) 0 false)).
  { clear ws s HL. intros ws. induction ws as [|d ws IH]; intros s m R; cbn [fold_left concat]; [rewrite app_nil_r; exact R|].
    rewrite app_assoc. apply IH. exact (rep_write _ _ d R). }
  specialize (G ws (md_init B iv) [] rep_init). cbn [app] in G. destruct (rep_finish _ _ G) as [_ F].
  cbn [d_checksum d_reset d_write md_digest snd] in *.

  rewrite F. unfold ob_value, ob_padded, ob_count. cbn [ob_h ob_m ob_off].
  rewrite Z.add_0_l, Z.mod_small by lia. reflexivity.
Qed.
Lemma md_checksum_again s : d_checksum D (fst (d_checksum D s)) = d_checksum D s.
Proof.
  cbn [d_checksum md_digest fst]. assert (E : md_finish B ge compress pads zl (md_finish B ge compress pads zl s) = md_finish B ge compress pads zl s).
  { unfold md_finish at 1. destruct (md_checked (md_finish B ge compress pads zl s)) eqn:C; [reflexivity|].
    exfalso. unfold md_finish in C. destruct (md_checked s) eqn:C'; [congruence|discriminate C]. }
  rewrite E. reflexivity.
Qed.
End Hist.
