(** The table-driven model of AES computes the FIPS 197 transformations. *)
From Verif Require Import Base Words ModesModel ModesSpec AesTables AesModel AesSpec AesProofs.

Lemma load_app a b c d : word4 a -> word4 b -> word4 c -> word4 d ->
  load (a ++ b ++ c ++ d) = (be_val a, be_val b, be_val c, be_val d).
Proof. intros Ha Hb Hc Hd. w4 Ha. w4 Hb. w4 Hc. w4 Hd. reflexivity. Qed.
Lemma store_load s : st16 s -> store (load s) = s.
Proof.
  intros H. s16w H. rewrite load_app by auto. cbn [store].
  rewrite !be4_bytes; auto; match goal with H : word4 ?x |- _ ?x => apply H | H : word4 ?x |- length ?x = _ => apply H end.
Qed.
Lemma bt_val a b c d : byte a -> byte b -> byte c -> byte d ->
  bt (be_val [a; b; c; d]) 0 = a /\ bt (be_val [a; b; c; d]) 1 = b /\
  bt (be_val [a; b; c; d]) 2 = c /\ bt (be_val [a; b; c; d]) 3 = d.
Proof.
  intros. unfold bt. rewrite be4_bytes; [cbn; auto| |reflexivity]. apply word4_cons; auto.
Qed.

Lemma xor_be a b : word4 a -> word4 b -> Z.lxor (be_val a) (be_val b) = be_val (xorl a b).
Proof. intros [? ?] [? ?]. apply be_val_lxor; auto; lia. Qed.

Lemma col_e_word s : byte s -> word4 (col_e s).
Proof. intros. apply word4_cons; byt. Qed.
Lemma col_d_word s : byte s -> word4 (col_d s).
Proof. intros. apply word4_cons; byt. Qed.
Lemma rotr_word n w : (n = 1 \/ n = 2 \/ n = 3)%nat -> word4 w -> word4 (rotr n w).
Proof. intros Hn H. w4 H. destruct Hn as [->|[->| ->]]; cbn; apply word4_cons; auto. Qed.

Ltac wrd := repeat (first [assumption
  | match goal with
    | |- word4 (xorl _ _) => apply xor_word
    | |- word4 (rotr _ _) => apply rotr_word; [auto|]
    | |- word4 (col_e _) => apply col_e_word
    | |- word4 (col_d _) => apply col_d_word
    | |- word4 (mix_column _ _ _ _ _) => apply mix_word
    | |- word4 [_; _; _; _] => apply word4_cons
    end | progress byt]).
Ltac cons4 := repeat apply (f_equal2 (@cons Z)); [xor_ac|xor_ac|xor_ac|xor_ac|reflexivity].

Lemma te_col s0 s1 s2 s3 k : byte s0 -> byte s1 -> byte s2 -> byte s3 -> word4 k ->
  Z.lxor (Z.lxor (Z.lxor (Z.lxor (be_val k) (be_val (col_e s0))) (be_val (rotr 1 (col_e s1))))
    (be_val (rotr 2 (col_e s2)))) (be_val (rotr 3 (col_e s3))) =
  be_val (xorl (mix_column 2 3 1 1 [s0; s1; s2; s3]) k).
Proof.
  intros. rewrite !xor_be by wrd.
  match goal with H : word4 k |- _ => w4 H end.
  f_equal. unfold col_e, rotr. cbn [Nat.sub firstn skipn app xorl mix_column]. cons4.
Qed.
Lemma td_col s0 s1 s2 s3 k : byte s0 -> byte s1 -> byte s2 -> byte s3 -> word4 k ->
  Z.lxor (Z.lxor (Z.lxor (Z.lxor (be_val k) (be_val (col_d s0))) (be_val (rotr 1 (col_d s1))))
    (be_val (rotr 2 (col_d s2)))) (be_val (rotr 3 (col_d s3))) =
  be_val (xorl (mix_column 14 11 13 9 [s0; s1; s2; s3]) k).
Proof.
  intros. rewrite !xor_be by wrd.
  match goal with H : word4 k |- _ => w4 H end.
  f_equal. unfold col_d, rotr. cbn [Nat.sub firstn skipn app xorl mix_column]. cons4.
Qed.

Lemma te_word_ok k a b c d : word4 k -> word4 a -> word4 b -> word4 c -> word4 d ->
  te_word (be_val k) (be_val a) (be_val b) (be_val c) (be_val d) =
  be_val (xorl (mix_column 2 3 1 1 [sbox (nth 0 a 0); sbox (nth 1 b 0); sbox (nth 2 c 0); sbox (nth 3 d 0)]) k).
Proof.
  intros Hk Ha Hb Hc Hd. w4 Ha. w4 Hb. w4 Hc. w4 Hd. unfold te_word.
  repeat match goal with |- context [bt (be_val [?a; ?b; ?c; ?d]) ?i] =>
    let H1 := fresh in let H2 := fresh in let H3 := fresh in let H4 := fresh in
    destruct (bt_val a b c d) as [H1 [H2 [H3 H4]]]; [assumption..|];
    rewrite ?H1, ?H2, ?H3, ?H4; clear H1 H2 H3 H4 end.
  cbn [nth]. rewrite <- te_col by byt.
  rewrite (proj1 (te_ok x ltac:(auto))), (proj1 (proj2 (te_ok x4 ltac:(auto)))),
    (proj1 (proj2 (proj2 (te_ok x9 ltac:(auto))))), (proj2 (proj2 (proj2 (te_ok x14 ltac:(auto))))).
  reflexivity.
Qed.
Lemma td_word_ok k a b c d : word4 k -> word4 a -> word4 b -> word4 c -> word4 d ->
  td_word (be_val k) (be_val a) (be_val b) (be_val c) (be_val d) =
  be_val (xorl (mix_column 14 11 13 9 [inv_sbox (nth 0 a 0); inv_sbox (nth 1 b 0); inv_sbox (nth 2 c 0); inv_sbox (nth 3 d 0)]) k).
Proof.
  intros Hk Ha Hb Hc Hd. w4 Ha. w4 Hb. w4 Hc. w4 Hd. unfold td_word.
  repeat match goal with |- context [bt (be_val [?a; ?b; ?c; ?d]) ?i] =>
    let H1 := fresh in let H2 := fresh in let H3 := fresh in let H4 := fresh in
    destruct (bt_val a b c d) as [H1 [H2 [H3 H4]]]; [assumption..|];
    rewrite ?H1, ?H2, ?H3, ?H4; clear H1 H2 H3 H4 end.
  cbn [nth]. rewrite <- td_col by byt.
  rewrite (proj1 (td_ok x ltac:(auto))), (proj1 (proj2 (td_ok x4 ltac:(auto)))),
    (proj1 (proj2 (proj2 (td_ok x9 ltac:(auto))))), (proj2 (proj2 (proj2 (td_ok x14 ltac:(auto))))).
  reflexivity.
Qed.
Lemma se_word_ok box f k a b c d : (forall x, byte x -> tbl box x = f x) -> (forall x, byte x -> byte (f x)) ->
  word4 k -> word4 a -> word4 b -> word4 c -> word4 d ->
  se_word box (be_val k) (be_val a) (be_val b) (be_val c) (be_val d) =
  be_val (xorl [f (nth 0 a 0); f (nth 1 b 0); f (nth 2 c 0); f (nth 3 d 0)] k).
Proof.
  intros Hf Hb' Hk Ha Hb Hc Hd. w4 Ha. w4 Hb. w4 Hc. w4 Hd. unfold se_word.
  repeat match goal with |- context [bt (be_val [?a; ?b; ?c; ?d]) ?i] =>
    let H1 := fresh in let H2 := fresh in let H3 := fresh in let H4 := fresh in
    destruct (bt_val a b c d) as [H1 [H2 [H3 H4]]]; [assumption..|];
    rewrite ?H1, ?H2, ?H3, ?H4; clear H1 H2 H3 H4 end.
  cbn [nth]. rewrite !Hf by auto. apply xor_be; auto. apply word4_cons; auto.
Qed.

(** A 4-word round key inside the word list. *)
Definition wkey (key : list Z) (k : nat) (rk : list Z) : Prop :=
  exists a b c d, word4 a /\ word4 b /\ word4 c /\ word4 d /\ rk = a ++ b ++ c ++ d /\
    nth k key 0 = be_val a /\ nth (k + 1) key 0 = be_val b /\
    nth (k + 2) key 0 = be_val c /\ nth (k + 3) key 0 = be_val d.

Ltac usekey H := destruct H as [? [? [? [? [? [? [? [? [-> [? [? [? ?]]]]]]]]]]]];
  repeat match goal with H : nth _ _ 0 = be_val _ |- _ => rewrite H; clear H end.

Lemma add_key_ok key k rk s : wkey key k rk -> st16 s ->
  add_key key k (load s) = load (AddRoundKey s rk).
Proof.
  intros Hk Hs. s16w Hs. rewrite load_app by auto. unfold add_key. usekey Hk.
  unfold AddRoundKey.
  repeat match goal with H : word4 ?x |- _ =>
    lazymatch goal with H' : length x = 4%nat |- _ => fail | _ => pose proof (proj1 H) end end.
  rewrite !xorl_app by congruence. rewrite load_app by auto using xor_word. rewrite !xor_be by auto. reflexivity.
Qed.

Lemma enc_round_ok key k rk s : wkey key k rk -> st16 s ->
  enc_round key k (load s) = load (AddRoundKey (MixColumns (ShiftRows (SubBytes s))) rk).
Proof.
  intros Hk Hs. s16w Hs. rewrite load_app by auto. unfold enc_round. usekey Hk.
  rewrite !te_word_ok by auto.
  match goal with |- _ = load (AddRoundKey (MixColumns ?x) _) =>
    assert (E : x = [sbox (nth 0 wa 0); sbox (nth 1 wb 0); sbox (nth 2 wc 0); sbox (nth 3 wd 0)] ++
                    [sbox (nth 0 wb 0); sbox (nth 1 wc 0); sbox (nth 2 wd 0); sbox (nth 3 wa 0)] ++
                    [sbox (nth 0 wc 0); sbox (nth 1 wd 0); sbox (nth 2 wa 0); sbox (nth 3 wb 0)] ++
                    [sbox (nth 0 wd 0); sbox (nth 1 wa 0); sbox (nth 2 wb 0); sbox (nth 3 wc 0)]) end.
  { clear -H H0 H1 H2. w4 H. w4 H0. w4 H1. w4 H2. reflexivity. }
  rewrite E. clear E.
  assert (B : forall w i, word4 w -> (i < 4)%nat -> byte (nth i w 0)).
  { intros w i [Hl Hw] Hi. apply (proj1 (Forall_forall _ _) Hw). apply nth_In. lia. }
  unfold MixColumns. rewrite mixcols_app by (apply word4_cons; apply sbox_byte; apply B; auto).
  repeat match goal with |- context [mix_column 2 3 1 1 ?w] =>
    let H := fresh in assert (H : word4 (mix_column 2 3 1 1 w))
      by (apply mix_word; apply word4_cons; apply sbox_byte; apply B; auto);
    set (mix_column 2 3 1 1 w) in * end.
  repeat match goal with H : word4 ?x |- _ =>
    lazymatch goal with H' : length x = 4%nat |- _ => fail | _ => pose proof (proj1 H) end end.
  unfold AddRoundKey. rewrite !xorl_app by congruence. rewrite load_app by auto using xor_word. reflexivity.
Qed.

Lemma enc_last_ok key k rk s : wkey key k rk -> st16 s ->
  enc_last key k (load s) = load (AddRoundKey (ShiftRows (SubBytes s)) rk).
Proof.
  intros Hk Hs. s16w Hs. rewrite load_app by auto. unfold enc_last. usekey Hk.
  rewrite !(se_word_ok AES_SBOX0 sbox) by (auto using sbox0_ok, sbox_byte).
  match goal with |- _ = load (AddRoundKey ?x _) =>
    assert (E : x = [sbox (nth 0 wa 0); sbox (nth 1 wb 0); sbox (nth 2 wc 0); sbox (nth 3 wd 0)] ++
      [sbox (nth 0 wb 0); sbox (nth 1 wc 0); sbox (nth 2 wd 0); sbox (nth 3 wa 0)] ++
      [sbox (nth 0 wc 0); sbox (nth 1 wd 0); sbox (nth 2 wa 0); sbox (nth 3 wb 0)] ++
      [sbox (nth 0 wd 0); sbox (nth 1 wa 0); sbox (nth 2 wb 0); sbox (nth 3 wc 0)]) end.
  { clear -H H0 H1 H2. w4 H. w4 H0. w4 H1. w4 H2. reflexivity. }
  rewrite E. clear E.
  assert (B : forall w i, word4 w -> (i < 4)%nat -> byte (nth i w 0)).
  { intros w i [Hl Hw] Hi. apply (proj1 (Forall_forall _ _) Hw). apply nth_In. lia. }
  repeat match goal with |- context [[sbox (nth ?i ?a 0); ?b; ?c; ?d]] =>
    let H := fresh in assert (H : word4 [sbox (nth i a 0); b; c; d])
      by (apply word4_cons; apply sbox_byte; apply B; auto);
    set ([sbox (nth i a 0); b; c; d]) in * end.
  repeat match goal with H : word4 ?x |- _ =>
    lazymatch goal with H' : length x = 4%nat |- _ => fail | _ => pose proof (proj1 H) end end.
  unfold AddRoundKey. rewrite !xorl_app by congruence. rewrite load_app by auto using xor_word. reflexivity.
Qed.

Lemma dec_round_ok key k rk s : wkey key k rk -> st16 s ->
  dec_round key k (load s) = load (AddRoundKey (InvMixColumns (InvSubBytes (InvShiftRows s))) rk).
Proof.
  intros Hk Hs. s16w Hs. rewrite load_app by auto. unfold dec_round. usekey Hk.
  rewrite !td_word_ok by auto.
  match goal with |- _ = load (AddRoundKey (InvMixColumns ?x) _) =>
    assert (E : x = [inv_sbox (nth 0 wa 0); inv_sbox (nth 1 wd 0); inv_sbox (nth 2 wc 0); inv_sbox (nth 3 wb 0)] ++
                    [inv_sbox (nth 0 wb 0); inv_sbox (nth 1 wa 0); inv_sbox (nth 2 wd 0); inv_sbox (nth 3 wc 0)] ++
                    [inv_sbox (nth 0 wc 0); inv_sbox (nth 1 wb 0); inv_sbox (nth 2 wa 0); inv_sbox (nth 3 wd 0)] ++
                    [inv_sbox (nth 0 wd 0); inv_sbox (nth 1 wc 0); inv_sbox (nth 2 wb 0); inv_sbox (nth 3 wa 0)]) end.
  { clear -H H0 H1 H2. w4 H. w4 H0. w4 H1. w4 H2. reflexivity. }
  rewrite E. clear E.
  assert (B : forall w i, word4 w -> (i < 4)%nat -> byte (nth i w 0)).
  { intros w i [Hl Hw] Hi. apply (proj1 (Forall_forall _ _) Hw). apply nth_In. lia. }
  unfold InvMixColumns. rewrite mixcols_app by (apply word4_cons; apply inv_sbox_byte; apply B; auto).
  repeat match goal with |- context [mix_column 14 11 13 9 ?w] =>
    let H := fresh in assert (H : word4 (mix_column 14 11 13 9 w))
      by (apply mix_word; apply word4_cons; apply inv_sbox_byte; apply B; auto);
    set (mix_column 14 11 13 9 w) in * end.
  repeat match goal with H : word4 ?x |- _ =>
    lazymatch goal with H' : length x = 4%nat |- _ => fail | _ => pose proof (proj1 H) end end.
  unfold AddRoundKey. rewrite !xorl_app by congruence. rewrite load_app by auto using xor_word. reflexivity.
Qed.

Lemma dec_last_ok key k rk s : wkey key k rk -> st16 s ->
  dec_last key k (load s) = load (AddRoundKey (InvSubBytes (InvShiftRows s)) rk).
Proof.
  intros Hk Hs. s16w Hs. rewrite load_app by auto. unfold dec_last. usekey Hk.
  rewrite !(se_word_ok AES_SBOX1 inv_sbox) by (auto using sbox1_ok, inv_sbox_byte).
  match goal with |- _ = load (AddRoundKey ?x _) =>
    assert (E : x = [inv_sbox (nth 0 wa 0); inv_sbox (nth 1 wd 0); inv_sbox (nth 2 wc 0); inv_sbox (nth 3 wb 0)] ++
      [inv_sbox (nth 0 wb 0); inv_sbox (nth 1 wa 0); inv_sbox (nth 2 wd 0); inv_sbox (nth 3 wc 0)] ++
      [inv_sbox (nth 0 wc 0); inv_sbox (nth 1 wb 0); inv_sbox (nth 2 wa 0); inv_sbox (nth 3 wd 0)] ++
      [inv_sbox (nth 0 wd 0); inv_sbox (nth 1 wc 0); inv_sbox (nth 2 wb 0); inv_sbox (nth 3 wa 0)]) end.
  { clear -H H0 H1 H2. w4 H. w4 H0. w4 H1. w4 H2. reflexivity. }
  rewrite E. clear E.
  assert (B : forall w i, word4 w -> (i < 4)%nat -> byte (nth i w 0)).
  { intros w i [Hl Hw] Hi. apply (proj1 (Forall_forall _ _) Hw). apply nth_In. lia. }
  repeat match goal with |- context [[inv_sbox (nth ?i ?a 0); ?b; ?c; ?d]] =>
    let H := fresh in assert (H : word4 [inv_sbox (nth i a 0); b; c; d])
      by (apply word4_cons; apply inv_sbox_byte; apply B; auto);
    set ([inv_sbox (nth i a 0); b; c; d]) in * end.
  repeat match goal with H : word4 ?x |- _ =>
    lazymatch goal with H' : length x = 4%nat |- _ => fail | _ => pose proof (proj1 H) end end.
  unfold AddRoundKey. rewrite !xorl_app by congruence. rewrite load_app by auto using xor_word. reflexivity.
Qed.

Lemma wkey_st key k rk : wkey key k rk -> st16 rk.
Proof. intros H. destruct H as [? [? [? [? [? [? [? [? [-> _]]]]]]]]]. apply st16_app; auto. Qed.

(** ** The loops *)
Lemma enc_loop_ok key (rk : nat -> list Z) cnt : forall r s,
  (forall i, (r <= i <= r + cnt)%nat -> wkey key (4 * i) (rk i)) -> st16 s ->
  enc_loop key cnt (4 * r) (load s) = load (enc_rounds s (map rk (seq r (S cnt)))).
Proof.
  induction cnt as [|cnt IH]; intros r s Hk Hs.
  - cbn [enc_loop seq map enc_rounds]. apply enc_last_ok; auto. apply Hk; lia.
  - cbn [enc_loop]. rewrite (enc_round_ok key _ (rk r)) by (auto; apply Hk; lia).
    replace (4 * r + 4)%nat with (4 * S r)%nat by lia.
    rewrite IH.
    + cbn [seq map]. rewrite enc_rounds_cons. reflexivity.
    + intros i Hi. apply Hk; lia.
    + apply xor_st; [auto using MC_st, SR_st, SB_st|]. apply (wkey_st key (4 * r)). apply Hk; lia.
Qed.

(** Equivalent inverse cipher (FIPS 197, 5.3.5). *)
Fixpoint eq_dec_rounds (st : list Z) (ks : list (list Z)) : list Z :=
  match ks with
  | [] => st
  | [k] => AddRoundKey (InvSubBytes (InvShiftRows st)) k
  | k :: ks' => eq_dec_rounds (AddRoundKey (InvMixColumns (InvSubBytes (InvShiftRows st))) k) ks'
  end.
Lemma eq_dec_rounds_cons st k k' ks :
  eq_dec_rounds st (k :: k' :: ks) = eq_dec_rounds (AddRoundKey (InvMixColumns (InvSubBytes (InvShiftRows st))) k) (k' :: ks).
Proof. reflexivity. Qed.

Lemma dec_loop_ok key (rk : nat -> list Z) cnt : forall r s,
  (forall i, (r <= i <= r + cnt)%nat -> wkey key (4 * i) (rk i)) -> st16 s ->
  dec_loop key cnt (4 * r) (load s) = load (eq_dec_rounds s (map rk (seq r (S cnt)))).
Proof.
  induction cnt as [|cnt IH]; intros r s Hk Hs.
  - cbn [dec_loop seq map eq_dec_rounds]. apply dec_last_ok; auto. apply Hk; lia.
  - cbn [dec_loop]. rewrite (dec_round_ok key _ (rk r)) by (auto; apply Hk; lia).
    replace (4 * r + 4)%nat with (4 * S r)%nat by lia.
    rewrite IH.
    + cbn [seq map]. rewrite eq_dec_rounds_cons. reflexivity.
    + intros i Hi. apply Hk; lia.
    + apply xor_st; [auto using IMC_st, ISR_st, ISB_st|]. apply (wkey_st key (4 * r)). apply Hk; lia.
Qed.

Lemma eq_dec_ok ks k : forall st, Forall st16 ks -> st16 st ->
  eq_dec_rounds st (map InvMixColumns ks ++ [k]) = dec_rounds st (ks ++ [k]).
Proof.
  induction ks as [|x ks IH]; intros st Hk Hs; [reflexivity|]. inversion Hk; subst.
  cbn [map]. rewrite <- !app_comm_cons, dec_rounds_cons_app.
  assert (E : forall l, eq_dec_rounds st (InvMixColumns x :: l ++ [k]) =
     eq_dec_rounds (AddRoundKey (InvMixColumns (InvSubBytes (InvShiftRows st))) (InvMixColumns x)) (l ++ [k])).
  { intros [|y l]; reflexivity. }
  rewrite E. unfold AddRoundKey. rewrite <- IMC_lin by auto using ISR_st, ISB_st.
  apply IH; auto using IMC_st, xor_st, ISR_st, ISB_st.
Qed.
