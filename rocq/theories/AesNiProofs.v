(** The AES-instruction back end computes the same function as FIPS 197. *)
From Verif Require Import Base Words ModesModel ModesSpec AesSpec AesProofs AesLink AesKeys AesModel AesNiModel.

(** ** Key expansion by groups of [nk] words *)
Definition kg (nk i : nat) (t : list Z) : list Z :=
  if (i mod nk =? 0)%nat then xorl (SubWord (RotWord t)) (Rcon (i / nk))
  else if (6 <? nk)%nat && (i mod nk =? 4)%nat then SubWord t else t.

Definition kstep (nk : nat) (w : list (list Z)) : list (list Z) := w ++ [next_word nk w].

Lemma next_word_app nk P L : length L = nk -> (0 < nk)%nat ->
  next_word nk (P ++ L) = xorl (nth 0 L []) (kg nk (length P + nk) (nth (nk - 1) L [])).
Proof.
  intros HL Hn. unfold next_word. rewrite app_length, HL. unfold kg.
  rewrite !app_nth2 by lia.
  replace (length P + nk - 1 - length P)%nat with (nk - 1)%nat by lia.
  replace (length P + nk - nk - length P)%nat with 0%nat by lia. reflexivity.
Qed.

(** A window of [nk] words, the first of which has just become superfluous. *)
Lemma kstep_cons nk P w L : length L = (nk - 1)%nat -> (1 < nk)%nat ->
  kstep nk (P ++ w :: L) = (P ++ [w]) ++ L ++ [xorl w (kg nk (length P + nk) (last L []))].
Proof.
  intros HL Hn. unfold kstep. rewrite (next_word_app nk P (w :: L)) by (cbn [length]; lia).
  rewrite <- !app_assoc. cbn [app nth]. do 4 f_equal.
  destruct (exists_last (l := L)) as [L' [x E]].
  { intros ->. cbn in HL. lia. }
  subst L. rewrite app_length in HL. cbn [length] in HL.
  rewrite last_last. replace (nk - 1)%nat with (S (length L')) by lia.
  cbn [nth]. rewrite app_nth2 by lia. rewrite Nat.sub_diag. reflexivity.
Qed.

Definition s4 (r : nat) (L : list (list Z)) : list (list Z) :=
  match L with
  | [a; b; c; d] =>
      let t := xorl (SubWord (RotWord d)) (Rcon r) in
      let a' := xorl a t in let b' := xorl b a' in let c' := xorl c b' in let d' := xorl d c' in
      [a'; b'; c'; d']
  | _ => []
  end.
Definition s6 (r : nat) (L : list (list Z)) : list (list Z) :=
  match L with
  | [a; b; c; d; e; f] =>
      let t := xorl (SubWord (RotWord f)) (Rcon r) in
      let a' := xorl a t in let b' := xorl b a' in let c' := xorl c b' in let d' := xorl d c' in
      let e' := xorl e d' in let f' := xorl f e' in
      [a'; b'; c'; d'; e'; f']
  | _ => []
  end.
Definition s8 (r : nat) (L : list (list Z)) : list (list Z) :=
  match L with
  | [a; b; c; d; e; f; g; h] =>
      let t := xorl (SubWord (RotWord h)) (Rcon r) in
      let a' := xorl a t in let b' := xorl b a' in let c' := xorl c b' in let d' := xorl d c' in
      let e' := xorl e (SubWord d') in let f' := xorl f e' in let g' := xorl g f' in let h' := xorl h g' in
      [a'; b'; c'; d'; e'; f'; g'; h']
  | _ => []
  end.

Lemma kg_0 nk r t : nk <> 0%nat -> kg nk (r * nk) t = xorl (SubWord (RotWord t)) (Rcon r).
Proof. intros H. unfold kg. rewrite Nat.mod_mul by auto. rewrite Nat.div_mul by auto. reflexivity. Qed.
Lemma kg_j nk r j t : (0 < j < nk)%nat -> ((6 <? nk)%nat && (j =? 4)%nat) = false -> kg nk (r * nk + j) t = t.
Proof.
  intros H E. unfold kg. replace (r * nk + j)%nat with (j + r * nk)%nat by lia.
  rewrite Nat.mod_add by lia. rewrite Nat.mod_small by lia.
  replace (j =? 0)%nat with false by (symmetry; apply Nat.eqb_neq; lia). rewrite E. reflexivity.
Qed.
Lemma kg_4 r t : kg 8 (r * 8 + 4) t = SubWord t.
Proof.
  unfold kg. replace (r * 8 + 4)%nat with (4 + r * 8)%nat by lia.
  rewrite Nat.mod_add by lia. reflexivity.
Qed.

Ltac kstep1 nk :=
  rewrite (kstep_cons nk) by (cbn [length app]; lia); cbn [app last];
  match goal with |- context [kg nk ?i _] => let i' := eval cbv beta in i in idtac end.

Lemma iter_kstep_S nk n W : Nat.iter (S n) (kstep nk) W = Nat.iter n (kstep nk) (kstep nk W).
Proof. rewrite iter_comm. reflexivity. Qed.

Ltac len_norm nk r H :=
  repeat (rewrite ?app_length; cbn [length]);
  match goal with |- context [kg nk ?i ?t] =>
    match i with
    | (r * nk)%nat => fail 1
    | (r * nk + _)%nat => fail 1
    | _ => idtac
    end
  end.

Lemma grp4 P L r : length L = 4%nat -> (length P + 4 = r * 4)%nat ->
  Nat.iter 4 (kstep 4) (P ++ L) = (P ++ L) ++ s4 r L.
Proof.
  intros HL HP. do 4 (destruct L as [|? L]; [discriminate|]). destruct L; [|discriminate].
  rewrite iter_kstep_S, kstep_cons by (cbn [length]; lia).
  rewrite iter_kstep_S. cbn [app]. rewrite kstep_cons by (cbn [length]; lia).
  rewrite iter_kstep_S. cbn [app]. rewrite kstep_cons by (cbn [length]; lia).
  rewrite iter_kstep_S. cbn [app]. rewrite kstep_cons by (cbn [length]; lia).
  rewrite !app_length. cbn [app last length s4 Nat.iter nat_rect].
  replace (length P + 4)%nat with (r * 4)%nat by lia.
  replace (length P + 1 + 4)%nat with (r * 4 + 1)%nat by lia.
  replace (length P + 1 + 1 + 4)%nat with (r * 4 + 2)%nat by lia.
  replace (length P + 1 + 1 + 1 + 4)%nat with (r * 4 + 3)%nat by lia.
  rewrite kg_0 by lia. rewrite !kg_j by (auto; lia).
  rewrite <- !app_assoc. reflexivity.
Qed.

Lemma grp6 P L r : length L = 6%nat -> (length P + 6 = r * 6)%nat ->
  Nat.iter 6 (kstep 6) (P ++ L) = (P ++ L) ++ s6 r L.
Proof.
  intros HL HP. do 6 (destruct L as [|? L]; [discriminate|]). destruct L; [|discriminate].
  do 6 (rewrite iter_kstep_S; cbn [app]; rewrite kstep_cons by (cbn [length]; lia)).
  rewrite !app_length. cbn [app last length s6 Nat.iter nat_rect].
  replace (length P + 6)%nat with (r * 6)%nat by lia.
  replace (length P + 1 + 6)%nat with (r * 6 + 1)%nat by lia.
  replace (length P + 1 + 1 + 6)%nat with (r * 6 + 2)%nat by lia.
  replace (length P + 1 + 1 + 1 + 6)%nat with (r * 6 + 3)%nat by lia.
  replace (length P + 1 + 1 + 1 + 1 + 6)%nat with (r * 6 + 4)%nat by lia.
  replace (length P + 1 + 1 + 1 + 1 + 1 + 6)%nat with (r * 6 + 5)%nat by lia.
  rewrite kg_0 by lia. rewrite !kg_j by (auto; lia).
  rewrite <- !app_assoc. reflexivity.
Qed.

Lemma grp8 P L r : length L = 8%nat -> (length P + 8 = r * 8)%nat ->
  Nat.iter 8 (kstep 8) (P ++ L) = (P ++ L) ++ s8 r L.
Proof.
  intros HL HP. do 8 (destruct L as [|? L]; [discriminate|]). destruct L; [|discriminate].
  do 8 (rewrite iter_kstep_S; cbn [app]; rewrite kstep_cons by (cbn [length]; lia)).
  rewrite !app_length. cbn [app last length s8 Nat.iter nat_rect].
  replace (length P + 8)%nat with (r * 8)%nat by lia.
  replace (length P + 1 + 8)%nat with (r * 8 + 1)%nat by lia.
  replace (length P + 1 + 1 + 8)%nat with (r * 8 + 2)%nat by lia.
  replace (length P + 1 + 1 + 1 + 8)%nat with (r * 8 + 3)%nat by lia.
  replace (length P + 1 + 1 + 1 + 1 + 8)%nat with (r * 8 + 4)%nat by lia.
  replace (length P + 1 + 1 + 1 + 1 + 1 + 8)%nat with (r * 8 + 5)%nat by lia.
  replace (length P + 1 + 1 + 1 + 1 + 1 + 1 + 8)%nat with (r * 8 + 6)%nat by lia.
  replace (length P + 1 + 1 + 1 + 1 + 1 + 1 + 1 + 8)%nat with (r * 8 + 7)%nat by lia.
  rewrite kg_0 by lia. rewrite kg_4. rewrite !kg_j by (auto; lia).
  rewrite <- !app_assoc. reflexivity.
Qed.

(** Iterating the groups. *)
Fixpoint groups (s : nat -> list (list Z) -> list (list Z)) (n r : nat) (L : list (list Z)) : list (list (list Z)) :=
  match n with O => [] | S n' => let L' := s r L in L' :: groups s n' (S r) L' end.

Lemma iter_plus {A} (f : A -> A) a b x : Nat.iter (a + b) f x = Nat.iter b f (Nat.iter a f x).
Proof. induction b; [rewrite Nat.add_0_r; reflexivity|]. rewrite Nat.add_succ_r, !iter_S. congruence. Qed.

Lemma groups_ok nk s :
  (forall P L r, length L = nk -> (length P + nk = r * nk)%nat -> Nat.iter nk (kstep nk) (P ++ L) = (P ++ L) ++ s r L) ->
  (forall r L, length L = nk -> length (s r L) = nk) ->
  forall n r P L, length L = nk -> (length P + nk = r * nk)%nat ->
  Nat.iter (n * nk) (kstep nk) (P ++ L) = P ++ L ++ concat (groups s n r L).
Proof.
  intros Hg Hs. induction n as [|n IH]; intros r P L HL HP.
  - cbn [Nat.mul groups concat]. rewrite app_nil_r. reflexivity.
  - cbn [Nat.mul]. rewrite iter_plus, (Hg P L r) by auto.
    rewrite (IH (S r) (P ++ L) (s r L)); auto.
    + cbn [groups concat]. rewrite <- !app_assoc. reflexivity.
    + rewrite app_length, HL. cbn [Nat.mul]. lia.
Qed.

(** Words produced later do not change earlier round keys. *)
Lemma iter_kstep_prefix nk n W : exists T, Nat.iter n (kstep nk) W = W ++ T /\ length T = n.
Proof.
  induction n as [|n [T [E HT]]]; [exists []; rewrite app_nil_r; auto|].
  rewrite iter_S, E. unfold kstep. exists (T ++ [next_word nk (W ++ T)]).
  rewrite app_assoc, app_length. cbn. split; auto; lia.
Qed.
Lemma round_key_prefix W T r : (4 * r + 4 <= length W)%nat -> round_key (W ++ T) r = round_key W r.
Proof.
  intros H. unfold round_key. rewrite !(firstn4_skipn []) by (rewrite ?app_length; lia).
  rewrite !app_nth1 by lia. reflexivity.
Qed.

(** ** The instruction sequences compute the groups *)
Definition W4 (L : list (list Z)) : Prop := Forall word4 L.
Ltac w4L H := repeat match type of H with
  | Forall word4 (_ :: _) => let A := fresh "Hw" in let B := fresh "HL" in inversion H as [|? ? A B]; subst; clear H; rename B into H
  | W4 (_ :: _) => unfold W4 in H
  end.

Lemma sub_rot w : word4 w -> RotWord (SubWord w) = SubWord (RotWord w).
Proof. intros H. w4 H. reflexivity. Qed.

Ltac reg := unfold aes_128_assist, key_192_assist, key_256_assist_1, key_256_assist_2, mm_xor;
  unfold mm_shuffle_epi32, mm_slli_si128, mm_aeskeygenassist, dword.

Lemma dword_app a b c d : word4 a -> word4 b -> word4 c -> word4 d ->
  dword 0 (a ++ b ++ c ++ d) = a /\ dword 1 (a ++ b ++ c ++ d) = b /\
  dword 2 (a ++ b ++ c ++ d) = c /\ dword 3 (a ++ b ++ c ++ d) = d.
Proof. intros Ha Hb Hc Hd. w4 Ha. w4 Hb. w4 Hc. w4 Hd. auto. Qed.
Lemma shuffle_ff a b c d : word4 a -> word4 b -> word4 c -> word4 d ->
  mm_shuffle_epi32 (a ++ b ++ c ++ d) 0xff = d ++ d ++ d ++ d.
Proof. intros Ha Hb Hc Hd. w4 Ha. w4 Hb. w4 Hc. w4 Hd. reflexivity. Qed.
Lemma shuffle_55 a b c d : word4 a -> word4 b -> word4 c -> word4 d ->
  mm_shuffle_epi32 (a ++ b ++ c ++ d) 0x55 = b ++ b ++ b ++ b.
Proof. intros Ha Hb Hc Hd. w4 Ha. w4 Hb. w4 Hc. w4 Hd. reflexivity. Qed.
Lemma shuffle_aa a b c d : word4 a -> word4 b -> word4 c -> word4 d ->
  mm_shuffle_epi32 (a ++ b ++ c ++ d) 0xaa = c ++ c ++ c ++ c.
Proof. intros Ha Hb Hc Hd. w4 Ha. w4 Hb. w4 Hc. w4 Hd. reflexivity. Qed.
Definition z4 : list Z := [0; 0; 0; 0].
Lemma z4_word : word4 z4. Proof. apply word4_cons; apply byte0. Qed.
Lemma slli_app a b c d : word4 a -> word4 b -> word4 c -> word4 d ->
  mm_slli_si128 (a ++ b ++ c ++ d) 4 = z4 ++ a ++ b ++ c.
Proof. intros Ha Hb Hc Hd. w4 Ha. w4 Hb. w4 Hc. w4 Hd. reflexivity. Qed.
Lemma xor_app4 a b c d a' b' c' d' : word4 a -> word4 b -> word4 c -> word4 a' -> word4 b' -> word4 c' ->
  mm_xor (a ++ b ++ c ++ d) (a' ++ b' ++ c' ++ d') = xorl a a' ++ xorl b b' ++ xorl c c' ++ xorl d d'.
Proof.
  intros Ha Hb Hc Ha' Hb' Hc'. unfold mm_xor.
  repeat match goal with H : word4 ?x |- _ => destruct H end.
  rewrite !xorl_app by congruence. reflexivity.
Qed.
Definition kga_word (d : list Z) (rc : Z) : list Z := xorl (RotWord (SubWord d)) [rc; 0; 0; 0].
Lemma kga_app a b c d rc : word4 a -> word4 b -> word4 c -> word4 d ->
  mm_aeskeygenassist (a ++ b ++ c ++ d) rc = SubWord b ++ kga_word b rc ++ SubWord d ++ kga_word d rc.
Proof.
  intros Ha Hb Hc Hd. unfold mm_aeskeygenassist.
  destruct (dword_app a b c d) as [_ [-> [_ ->]]]; auto.
Qed.
Lemma rcw rc : byte rc -> word4 [rc; 0; 0; 0].
Proof. intros. apply word4_cons; auto using byte0. Qed.
Lemma kga_word_word d rc : word4 d -> byte rc -> word4 (kga_word d rc).
Proof. intros. apply xor_word; [apply RotWord_word, SubWord_word|apply rcw]; auto. Qed.
Lemma kga_word_ok d rc r : word4 d -> Rcon r = [rc; 0; 0; 0] -> kga_word d rc = xorl (SubWord (RotWord d)) (Rcon r).
Proof. intros. unfold kga_word. rewrite sub_rot, H0; auto. Qed.

(** The prefix-xor that all assists share. *)
Lemma spread a b c d t : word4 a -> word4 b -> word4 c -> word4 d -> word4 t ->
  let t1 := a ++ b ++ c ++ d in
  let t3 := mm_slli_si128 t1 4 in
  let t1 := mm_xor t1 t3 in
  let t3 := mm_slli_si128 t3 4 in
  let t1 := mm_xor t1 t3 in
  let t3 := mm_slli_si128 t3 4 in
  let t1 := mm_xor t1 t3 in
  mm_xor t1 (t ++ t ++ t ++ t) =
    (let a' := xorl a t in let b' := xorl b a' in let c' := xorl c b' in let d' := xorl d c' in
     a' ++ b' ++ c' ++ d').
Proof.
  intros Ha Hb Hc Hd Ht. cbv zeta. pose proof z4_word as Hz.
  rewrite !slli_app by auto using xor_word.
  repeat rewrite xor_app4 by auto 10 using xor_word.
  w4 Ha. w4 Hb. w4 Hc. w4 Hd. w4 Ht. unfold z4. cbn [xorl app].
  repeat apply (f_equal2 (@cons Z)); try reflexivity; xor_ac.
Qed.

Lemma assist128 a b c d rc r : word4 a -> word4 b -> word4 c -> word4 d -> byte rc -> Rcon r = [rc; 0; 0; 0] ->
  aes_128_assist (a ++ b ++ c ++ d) (mm_aeskeygenassist (a ++ b ++ c ++ d) rc) = concat (s4 r [a; b; c; d]).
Proof.
  intros Ha Hb Hc Hd Hrc Hr. unfold aes_128_assist.
  rewrite kga_app, shuffle_ff by auto using SubWord_word, kga_word_word.
  rewrite spread by auto using kga_word_word. cbv zeta. cbn [s4 concat].
  rewrite (kga_word_ok d rc r) by auto. rewrite app_nil_r. reflexivity.
Qed.

Lemma assist192 a b c d e f j1 j2 rc r :
  word4 a -> word4 b -> word4 c -> word4 d -> word4 e -> word4 f -> word4 j1 -> word4 j2 -> byte rc -> Rcon r = [rc; 0; 0; 0] ->
  let t1 := a ++ b ++ c ++ d in
  let t3 := e ++ f ++ j1 ++ j2 in
  exists a' b' c' d' e' f' j1' j2', s6 r [a; b; c; d; e; f] = [a'; b'; c'; d'; e'; f'] /\
    W4 [a'; b'; c'; d'; e'; f'; j1'; j2'] /\
    key_192_assist t1 (mm_aeskeygenassist t3 rc) t3 = (a' ++ b' ++ c' ++ d', e' ++ f' ++ j1' ++ j2').
Proof.
  intros Ha Hb Hc Hd He Hf Hj1 Hj2 Hrc Hr. cbv zeta. pose proof z4_word as Hz.
  pose proof (kga_word_word f rc Hf Hrc) as Hkg. pose proof (kga_word_ok f rc r Hf Hr) as Hko.
  set (t := xorl (SubWord (RotWord f)) (Rcon r)) in *.
  assert (Ht : word4 t) by (rewrite <- Hko; auto). 
  set (a' := xorl a t). set (b' := xorl b a'). set (c' := xorl c b'). set (d' := xorl d c').
  assert (Ha' : word4 a') by (apply xor_word; auto). assert (Hb' : word4 b') by (apply xor_word; auto).
  assert (Hc' : word4 c') by (apply xor_word; auto). assert (Hd' : word4 d') by (apply xor_word; auto).
  exists a', b', c', d', (xorl e d'), (xorl f (xorl e d')), (xorl (xorl j1 f) d'), (xorl (xorl j2 j1) d').
  split; [reflexivity|]. split; [clearbody t a' b' c' d'; unfold W4; auto 20 using xor_word|].
  unfold key_192_assist.
  rewrite kga_app, shuffle_55 by auto using SubWord_word, kga_word_word.
  rewrite Hko. rewrite (spread a b c d t) by auto. cbv zeta. fold a' b' c' d'.
  rewrite shuffle_ff by auto. rewrite slli_app by auto. repeat rewrite xor_app4 by auto using xor_word.
  f_equal. f_equal; [|f_equal].
  - clearbody d'. clear - He Hd' . w4 He. w4 Hd'. unfold z4. cbn [xorl]. rewrite !Z.lxor_0_r. reflexivity.
  - rewrite xorl_assoc. reflexivity.
Qed.

Lemma assist256 a b c d e f g h rc r :
  word4 a -> word4 b -> word4 c -> word4 d -> word4 e -> word4 f -> word4 g -> word4 h -> byte rc -> Rcon r = [rc; 0; 0; 0] ->
  let t1 := a ++ b ++ c ++ d in
  let t3 := e ++ f ++ g ++ h in
  exists a' b' c' d' e' f' g' h', s8 r [a; b; c; d; e; f; g; h] = [a'; b'; c'; d'; e'; f'; g'; h'] /\
    W4 [a'; b'; c'; d'; e'; f'; g'; h'] /\
    key_256_assist_1 t1 (mm_aeskeygenassist t3 rc) = a' ++ b' ++ c' ++ d' /\
    key_256_assist_2 (a' ++ b' ++ c' ++ d') t3 = e' ++ f' ++ g' ++ h'.
Proof.
  intros Ha Hb Hc Hd He Hf Hg Hh Hrc Hr. cbv zeta.
  pose proof (kga_word_word h rc Hh Hrc) as Hkg. pose proof (kga_word_ok h rc r Hh Hr) as Hko.
  set (t := xorl (SubWord (RotWord h)) (Rcon r)) in *.
  assert (Ht : word4 t) by (rewrite <- Hko; auto).
  set (a' := xorl a t). set (b' := xorl b a'). set (c' := xorl c b'). set (d' := xorl d c').
  set (e' := xorl e (SubWord d')). set (f' := xorl f e'). set (g' := xorl g f'). set (h' := xorl h g').
  assert (Ha' : word4 a') by (apply xor_word; auto). assert (Hb' : word4 b') by (apply xor_word; auto).
  assert (Hc' : word4 c') by (apply xor_word; auto). assert (Hd' : word4 d') by (apply xor_word; auto).
  assert (He' : word4 e') by (apply xor_word; auto using SubWord_word). assert (Hf' : word4 f') by (apply xor_word; auto).
  assert (Hg' : word4 g') by (apply xor_word; auto). assert (Hh' : word4 h') by (apply xor_word; auto).
  exists a', b', c', d', e', f', g', h'. split; [reflexivity|].
  split; [clearbody t a' b' c' d' e' f' g' h'; unfold W4; auto 20|]. split.
  - unfold key_256_assist_1. rewrite kga_app, shuffle_ff by auto using SubWord_word, kga_word_word.
    rewrite Hko. apply (spread a b c d t); auto.
  - unfold key_256_assist_2. rewrite kga_app, shuffle_aa by auto using SubWord_word, kga_word_word, byte0.
    apply (spread e f g h (SubWord d')); auto using SubWord_word.
Qed.

Lemma shuffle_pd0 a b c d a' b' c' d' : word4 a -> word4 b -> word4 a' -> word4 b' ->
  mm_shuffle_pd (a ++ b ++ c ++ d) (a' ++ b' ++ c' ++ d') 0 = a ++ b ++ a' ++ b'.
Proof. intros Ha Hb Hc Hd. w4 Ha. w4 Hb. w4 Hc. w4 Hd. reflexivity. Qed.
Lemma shuffle_pd1 a b c d a' b' c' d' : word4 a -> word4 b -> word4 a' -> word4 b' ->
  mm_shuffle_pd (a ++ b ++ c ++ d) (a' ++ b' ++ c' ++ d') 1 = c ++ d ++ a' ++ b'.
Proof. intros Ha Hb Hc Hd. w4 Ha. w4 Hb. w4 Hc. w4 Hd. unfold mm_shuffle_pd. cbn. rewrite <- app_assoc. reflexivity. Qed.

(** ** Round keys from a longer expansion *)
Lemma rks_iter key N : bytes key -> keylen_ok key ->
  (4 * (length key / 4 + 7) - length key / 4 <= N)%nat ->
  AES_round_keys key = map (round_key (Nat.iter N (kstep (length key / 4)) (chunks 4 key))) (seq 0 (length key / 4 + 7)).
Proof.
  intros Hb Hk HN. destruct (enc_schedule_ok key Hb Hk) as [_ [HL _]].
  unfold AES_round_keys. set (nk := (length key / 4)%nat) in *.
  replace N with ((4 * (nk + 7) - nk) + (N - (4 * (nk + 7) - nk)))%nat by lia. rewrite iter_plus.
  change (Nat.iter (4 * (nk + 7) - nk) (kstep nk) (chunks 4 key)) with (KeyExpansion key).
  destruct (iter_kstep_prefix nk (N - (4 * (nk + 7) - nk)) (KeyExpansion key)) as [T [-> _]].
  apply map_ext_in. intros r Hr. apply in_seq in Hr. symmetry. apply round_key_prefix. lia.
Qed.

Ltac chop k := lazymatch k with O => idtac | S ?k' => idtac end.

Lemma s4_len r L : length L = 4%nat -> length (s4 r L) = 4%nat.
Proof. intros H. do 4 (destruct L as [|? L]; [discriminate|]). destruct L; [reflexivity|discriminate]. Qed.
Lemma s6_len r L : length L = 6%nat -> length (s6 r L) = 6%nat.
Proof. intros H. do 6 (destruct L as [|? L]; [discriminate|]). destruct L; [reflexivity|discriminate]. Qed.
Lemma s8_len r L : length L = 8%nat -> length (s8 r L) = 8%nat.
Proof. intros H. do 8 (destruct L as [|? L]; [discriminate|]). destruct L; [reflexivity|discriminate]. Qed.

Lemma chunks4_words key n : bytes key -> length key = (4 * n)%nat ->
  concat (chunks 4 key) = key /\ Forall word4 (chunks 4 key) /\ length (chunks 4 key) = n.
Proof.
  intros Hb Hl.
  assert (Hm : (length key mod 4 = 0)%nat) by (rewrite Hl, Nat.mul_comm; apply Nat.mod_mul; lia).
  split; [apply concat_chunks; lia|]. split; [apply (key_words_ok (length key) key); auto|].
  rewrite chunks4_length by auto. rewrite Hl, Nat.mul_comm. apply Nat.div_mul; lia.
Qed.

Lemma Rcon_val r rc : Nat.iter (r - 1) xtime 1 = rc -> Rcon r = [rc; 0; 0; 0].
Proof. intros <-. reflexivity. Qed.

Ltac bb := unfold byte; lia.
Ltac rconv := apply Rcon_val; vm_compute; reflexivity.

(** Group 128. *)
Lemma s4_word r L : W4 L -> length L = 4%nat -> W4 (s4 r L).
Proof.
  intros H Hl. do 4 (destruct L as [|? L]; [discriminate|]). destruct L; [|discriminate].
  w4L H. cbn [s4]. pose proof (Rcon_word r).
  assert (word4 (xorl (SubWord (RotWord l2)) (Rcon r))) by (apply xor_word; auto using SubWord_word, RotWord_word).
  set (t := xorl _ (Rcon r)) in *. clearbody t. unfold W4. repeat constructor; repeat apply xor_word; auto.
Qed.

Lemma ks128_ok : forall rcs r L, W4 L -> length L = 4%nat ->
  Forall byte rcs -> (forall i, (i < length rcs)%nat -> Rcon (r + i) = [nth i rcs 0; 0; 0; 0]) ->
  ks128_loop (concat L) rcs = map (@concat Z) (groups s4 (length rcs) r L).
Proof.
  induction rcs as [|rc rcs IH]; intros r L HW HL Hb Hr; [reflexivity|].
  cbn [ks128_loop length groups map]. inversion Hb; subst.
  assert (E : aes_128_assist (concat L) (mm_aeskeygenassist (concat L) rc) = concat (s4 r L)).
  { do 4 (destruct L as [|? L]; [discriminate|]). destruct L; [|discriminate]. w4L HW.
    cbn [concat]. rewrite !app_nil_r. apply assist128; auto.
    specialize (Hr 0%nat ltac:(cbn; lia)). rewrite Nat.add_0_r in Hr. exact Hr. }
  rewrite E. f_equal. apply IH; auto using s4_word, s4_len.
  intros i Hi. specialize (Hr (S i) ltac:(cbn; lia)). rewrite Nat.add_succ_comm. exact Hr.
Qed.

Lemma round_keys_groups : forall Ls, Forall (fun L => length L = 4%nat) Ls ->
  map (round_key (concat Ls)) (seq 0 (length Ls)) = map (@concat Z) Ls.
Proof.
  induction Ls as [|L Ls IH]; intros H; [reflexivity|]. inversion H; subst.
  cbn [length seq map concat]. f_equal.
  - unfold round_key. rewrite Nat.mul_0_r. cbn [skipn]. rewrite <- H2. rewrite firstn_app, Nat.sub_diag.
    cbn [firstn]. rewrite app_nil_r, firstn_all. reflexivity.
  - rewrite <- IH by auto. rewrite <- seq_shift, map_map. apply map_ext. intros r. unfold round_key.
    replace (4 * S r)%nat with (length L + 4 * r)%nat by lia.
    rewrite skipn_app. rewrite skipn_all2 by lia. cbn [app].
    replace (length L + 4 * r - length L)%nat with (4 * r)%nat by lia. reflexivity.
Qed.

Lemma groups_len s nk : (forall r L, length L = nk -> length (s r L) = nk) ->
  forall n r L, length L = nk -> Forall (fun L => length L = nk) (groups s n r L) /\ length (groups s n r L) = n.
Proof.
  intros Hs. induction n as [|n IH]; intros r L HL; cbn [groups length]; auto.
  destruct (IH (S r) (s r L)) as [A B]; auto.
Qed.

Lemma ni128_ok key : bytes key -> length key = 16%nat -> ni_key_schedule_128 key = AES_round_keys key.
Proof.
  intros Hb Hl. destruct (chunks4_words key 4 Hb Hl) as [HC [HW HN]].
  rewrite (rks_iter key 40) by first [assumption | rewrite Hl; cbn; lia | left; auto].
  rewrite Hl. change (16 / 4)%nat with 4%nat. change 40%nat with (10 * 4)%nat.
  pose proof (groups_ok 4 s4 grp4 s4_len 10 1 [] (chunks 4 key) HN eq_refl) as G. cbn [app] in G. rewrite G. clear G.
  destruct (groups_len s4 4 s4_len 10 1 (chunks 4 key) HN) as [GL GN].
  change (chunks 4 key ++ concat (groups s4 10 1 (chunks 4 key))) with (concat (chunks 4 key :: groups s4 10 1 (chunks 4 key))).
  replace (4 + 7)%nat with (length (chunks 4 key :: groups s4 10 1 (chunks 4 key))) by (cbn [length]; rewrite GN; reflexivity).
  rewrite round_keys_groups by auto. cbn [map]. rewrite HC. unfold ni_key_schedule_128. f_equal.
  rewrite <- HC at 1. rewrite (ks128_ok _ 1).
  - reflexivity.
  - exact HW.
  - exact HN.
  - repeat constructor; lia.
  - intros i Hi. do 10 (destruct i as [|i]; [reflexivity|]). cbn in Hi; lia.
Qed.

Ltac w4all := repeat match goal with
  | H : W4 _ |- _ => unfold W4 in H
  | H : Forall word4 (_ :: _) |- _ => let A := fresh "Hw" in let B := fresh "HL" in inversion H as [|? ? A B]; subst; clear H
  | H : Forall word4 [] |- _ => clear H end.

Lemma ni192_ok junk key : bytes key -> length key = 24%nat -> bytes junk -> length junk = 8%nat ->
  ni_key_schedule_192 junk key = AES_round_keys key.
Proof.
  intros Hb Hl Hj Hjl. destruct (chunks4_words key 6 Hb Hl) as [HC [HW HN]].
  destruct (chunks4_words junk 2 Hj Hjl) as [HCj [HWj HNj]].
  rewrite (rks_iter key 48) by first [assumption | rewrite Hl; cbn; lia | right; left; auto].
  rewrite Hl. change (24 / 4)%nat with 6%nat. change 48%nat with (8 * 6)%nat.
  pose proof (groups_ok 6 s6 grp6 s6_len 8 1 [] (chunks 4 key) HN eq_refl) as G. cbn [app] in G. rewrite G. clear G.
  unfold ni_key_schedule_192.
  replace key with (concat (chunks 4 key)) at 1 2 3 by auto. rewrite <- HCj.
  clear HC HCj Hb Hj Hl Hjl. revert HW HN HWj HNj. generalize (chunks 4 key). generalize (chunks 4 junk). clear key junk.
  intros J L HW HN HWj HNj.
  do 6 (destruct L as [|? L]; [discriminate|]). destruct L; [|discriminate].
  do 2 (destruct J as [|? J]; [discriminate|]). destruct J; [|discriminate]. w4all.
  cbn [concat]. rewrite !app_nil_r.
  replace (firstn 16 (l ++ l0 ++ l1 ++ l2 ++ l3 ++ l4)) with (l ++ l0 ++ l1 ++ l2).
  2:{ repeat match goal with H : word4 _ |- _ => w4 H end. reflexivity. }
  replace (skipn 16 (l ++ l0 ++ l1 ++ l2 ++ l3 ++ l4) ++ l5 ++ l6) with (l3 ++ l4 ++ l5 ++ l6).
  2:{ repeat match goal with H : word4 _ |- _ => w4 H end. reflexivity. }
  cbn [groups ks192_loop].
  destruct (assist192 l l0 l1 l2 l3 l4 l5 l6 1 1) as [a1 [b1 [c1 [d1 [e1 [f1 [g1 [h1 [E1 [H1 K1]]]]]]]]]]; [assumption|assumption|assumption|assumption|assumption|assumption|assumption|assumption|bb|rconv|].
  cbv zeta in *. rewrite E1, K1. w4all. clear E1 K1.
  destruct (assist192 a1 b1 c1 d1 e1 f1 g1 h1 2 2) as [a2 [b2 [c2 [d2 [e2 [f2 [g2 [h2 [E1 [H1 K1]]]]]]]]]]; [assumption|assumption|assumption|assumption|assumption|assumption|assumption|assumption|bb|rconv|].
  cbv zeta in *. rewrite E1, K1. w4all. clear E1 K1.
  destruct (assist192 a2 b2 c2 d2 e2 f2 g2 h2 4 3) as [a3 [b3 [c3 [d3 [e3 [f3 [g3 [h3 [E1 [H1 K1]]]]]]]]]]; [assumption|assumption|assumption|assumption|assumption|assumption|assumption|assumption|bb|rconv|].
  cbv zeta in *. rewrite E1, K1. w4all. clear E1 K1.
  destruct (assist192 a3 b3 c3 d3 e3 f3 g3 h3 8 4) as [a4 [b4 [c4 [d4 [e4 [f4 [g4 [h4 [E1 [H1 K1]]]]]]]]]]; [assumption|assumption|assumption|assumption|assumption|assumption|assumption|assumption|bb|rconv|].
  cbv zeta in *. rewrite E1, K1. w4all. clear E1 K1.
  destruct (assist192 a4 b4 c4 d4 e4 f4 g4 h4 16 5) as [a5 [b5 [c5 [d5 [e5 [f5 [g5 [h5 [E1 [H1 K1]]]]]]]]]]; [assumption|assumption|assumption|assumption|assumption|assumption|assumption|assumption|bb|rconv|].
  cbv zeta in *. rewrite E1, K1. w4all. clear E1 K1.
  destruct (assist192 a5 b5 c5 d5 e5 f5 g5 h5 32 6) as [a6 [b6 [c6 [d6 [e6 [f6 [g6 [h6 [E1 [H1 K1]]]]]]]]]]; [assumption|assumption|assumption|assumption|assumption|assumption|assumption|assumption|bb|rconv|].
  cbv zeta in *. rewrite E1, K1. w4all. clear E1 K1.
  destruct (assist192 a6 b6 c6 d6 e6 f6 g6 h6 64 7) as [a7 [b7 [c7 [d7 [e7 [f7 [g7 [h7 [E1 [H1 K1]]]]]]]]]]; [assumption|assumption|assumption|assumption|assumption|assumption|assumption|assumption|bb|rconv|].
  cbv zeta in *. rewrite E1, K1. w4all. clear E1 K1.
  destruct (assist192 a7 b7 c7 d7 e7 f7 g7 h7 128 8) as [a8 [b8 [c8 [d8 [e8 [f8 [g8 [h8 [E1 [H1 K1]]]]]]]]]]; [assumption|assumption|assumption|assumption|assumption|assumption|assumption|assumption|bb|rconv|].
  cbv zeta in *. rewrite E1, K1. w4all. clear E1 K1.
  rewrite !shuffle_pd0, !shuffle_pd1 by auto.
  cbn [concat app map seq Nat.add]. unfold round_key.
  cbn [Nat.mul Nat.add skipn firstn concat]. rewrite !app_nil_r. reflexivity.
Qed.

Lemma ni256_ok key : bytes key -> length key = 32%nat -> ni_key_schedule_256 key = AES_round_keys key.
Proof.
  intros Hb Hl. destruct (chunks4_words key 8 Hb Hl) as [HC [HW HN]].
  rewrite (rks_iter key 56) by first [assumption | rewrite Hl; cbn; lia | right; right; auto].
  rewrite Hl. change (32 / 4)%nat with 8%nat. change 56%nat with (7 * 8)%nat.
  pose proof (groups_ok 8 s8 grp8 s8_len 7 1 [] (chunks 4 key) HN eq_refl) as G. cbn [app] in G. rewrite G. clear G.
  unfold ni_key_schedule_256.
  replace key with (concat (chunks 4 key)) at 1 2 3 4 by auto.
  clear HC Hb Hl. revert HW HN. generalize (chunks 4 key). clear key.
  intros L HW HN.
  do 8 (destruct L as [|? L]; [discriminate|]). destruct L; [|discriminate]. w4all.
  cbn [concat]. rewrite !app_nil_r.
  replace (firstn 16 (l ++ l0 ++ l1 ++ l2 ++ l3 ++ l4 ++ l5 ++ l6)) with (l ++ l0 ++ l1 ++ l2).
  2:{ repeat match goal with H : word4 _ |- _ => w4 H end. reflexivity. }
  replace (skipn 16 (l ++ l0 ++ l1 ++ l2 ++ l3 ++ l4 ++ l5 ++ l6)) with (l3 ++ l4 ++ l5 ++ l6).
  2:{ repeat match goal with H : word4 _ |- _ => w4 H end. reflexivity. }
  cbn [groups ks256_loop].
  destruct (assist256 l l0 l1 l2 l3 l4 l5 l6 1 1) as [a1 [b1 [c1 [d1 [e1 [f1 [g1 [h1 [E1 [H1 [K1 K2]]]]]]]]]]]; [assumption|assumption|assumption|assumption|assumption|assumption|assumption|assumption|bb|rconv|].
  cbv zeta in *. rewrite E1, K1, K2. w4all. clear E1 K1 K2.
  destruct (assist256 a1 b1 c1 d1 e1 f1 g1 h1 2 2) as [a2 [b2 [c2 [d2 [e2 [f2 [g2 [h2 [E1 [H1 [K1 K2]]]]]]]]]]]; [assumption|assumption|assumption|assumption|assumption|assumption|assumption|assumption|bb|rconv|].
  cbv zeta in *. rewrite E1, K1, K2. w4all. clear E1 K1 K2.
  destruct (assist256 a2 b2 c2 d2 e2 f2 g2 h2 4 3) as [a3 [b3 [c3 [d3 [e3 [f3 [g3 [h3 [E1 [H1 [K1 K2]]]]]]]]]]]; [assumption|assumption|assumption|assumption|assumption|assumption|assumption|assumption|bb|rconv|].
  cbv zeta in *. rewrite E1, K1, K2. w4all. clear E1 K1 K2.
  destruct (assist256 a3 b3 c3 d3 e3 f3 g3 h3 8 4) as [a4 [b4 [c4 [d4 [e4 [f4 [g4 [h4 [E1 [H1 [K1 K2]]]]]]]]]]]; [assumption|assumption|assumption|assumption|assumption|assumption|assumption|assumption|bb|rconv|].
  cbv zeta in *. rewrite E1, K1, K2. w4all. clear E1 K1 K2.
  destruct (assist256 a4 b4 c4 d4 e4 f4 g4 h4 16 5) as [a5 [b5 [c5 [d5 [e5 [f5 [g5 [h5 [E1 [H1 [K1 K2]]]]]]]]]]]; [assumption|assumption|assumption|assumption|assumption|assumption|assumption|assumption|bb|rconv|].
  cbv zeta in *. rewrite E1, K1, K2. w4all. clear E1 K1 K2.
  destruct (assist256 a5 b5 c5 d5 e5 f5 g5 h5 32 6) as [a6 [b6 [c6 [d6 [e6 [f6 [g6 [h6 [E1 [H1 [K1 K2]]]]]]]]]]]; [assumption|assumption|assumption|assumption|assumption|assumption|assumption|assumption|bb|rconv|].
  cbv zeta in *. rewrite E1, K1, K2. w4all. clear E1 K1 K2.
  destruct (assist256 a6 b6 c6 d6 e6 f6 g6 h6 64 7) as [a7 [b7 [c7 [d7 [e7 [f7 [g7 [h7 [E1 [H1 [K1 K2]]]]]]]]]]]; [assumption|assumption|assumption|assumption|assumption|assumption|assumption|assumption|bb|rconv|].
  cbv zeta in *. rewrite E1, K1. w4all. clear E1 K1 K2.
  cbn [concat app map seq Nat.add]. unfold round_key.
  cbn [Nat.mul Nat.add skipn firstn concat]. rewrite !app_nil_r. reflexivity.
Qed.

(** ** The block functions *)
Lemma sub_shift s : st16 s -> SubBytes (ShiftRows s) = ShiftRows (SubBytes s).
Proof.
  intros H. unfold SubBytes. generalize sbox. intros f. s16 H. reflexivity.
Qed.

Lemma fold_enc ks kl : forall st, Forall st16 ks -> st16 kl -> st16 st ->
  mm_aesenclast (fold_left mm_aesenc ks st) kl = enc_rounds st (ks ++ [kl]).
Proof.
  induction ks as [|k ks IH]; intros st Hk Hl Hs.
  - cbn [fold_left app enc_rounds]. unfold mm_aesenclast. rewrite sub_shift by auto. reflexivity.
  - inversion Hk; subst. cbn [fold_left]. rewrite <- app_comm_cons, enc_rounds_cons_app.
    unfold mm_aesenc at 2. rewrite sub_shift by auto.
    apply IH; auto. apply xor_st; auto using MC_st, SR_st, SB_st.
Qed.
Lemma fold_dec ks kl : forall st, Forall st16 ks -> st16 kl -> st16 st ->
  mm_aesdeclast (fold_left mm_aesdec ks st) kl = eq_dec_rounds st (ks ++ [kl]).
Proof.
  induction ks as [|k ks IH]; intros st Hk Hl Hs; [reflexivity|].
  inversion Hk; subst. cbn [fold_left]. rewrite <- app_comm_cons.
  assert (E : eq_dec_rounds st (k :: ks ++ [kl]) = eq_dec_rounds (mm_aesdec st k) (ks ++ [kl])).
  { destruct ks; reflexivity. }
  rewrite E. apply IH; auto. apply xor_st; auto using IMC_st, ISR_st, ISB_st.
Qed.

Theorem aesni_enc_keys junk key : bytes key -> keylen_ok key -> bytes junk -> length junk = 8%nat ->
  ni_enc (aesni_make junk key) = AES_round_keys key /\ ni_nr (aesni_make junk key) = (length key / 4 + 6)%nat /\
  ni_dec (aesni_make junk key) = gen_dec_key (AES_round_keys key) (length key / 4 + 6).
Proof.
  intros Hb Hk Hj Hjl. unfold aesni_make.
  destruct Hk as [H|[H|H]]; rewrite H; cbn [Nat.eqb Nat.div Nat.divmod fst Nat.add ni_enc ni_nr ni_dec].
  - rewrite ni128_ok by auto. auto.
  - rewrite ni192_ok by auto. auto.
  - rewrite ni256_ok by auto. auto.
Qed.

Theorem ni_crypt_fips junk key m : bytes key -> keylen_ok key -> bytes junk -> length junk = 8%nat -> st16 m ->
  ni_crypt_block (aesni_make junk key) m = AES_Cipher key m.
Proof.
  intros Hb Hk Hj Hjl Hm. destruct (aesni_enc_keys junk key Hb Hk Hj Hjl) as [E1 [E2 _]].
  unfold ni_crypt_block, AES_Cipher. rewrite E1, E2. rewrite (rks_split key).
  set (nr := (length key / 4 + 6)%nat). pose proof (nr_ge key) as Hnr. fold nr in Hnr.
  pose proof (rks_st key Hb Hk) as RS. fold nr in RS.
  set (ks := map _ (seq 1 (nr - 1))) in *.
  assert (Hks : length ks = (nr - 1)%nat) by (unfold ks; rewrite map_length, seq_length; auto).
  cbn [nth skipn]. rewrite app_comm_cons, last_last. rewrite <- Hks, firstn_app, Nat.sub_diag, firstn_all.
  cbn [firstn]. rewrite app_nil_r.
  apply fold_enc; auto; [apply rk_st; auto|apply xor_st; auto; apply rk_st; auto; lia].
Qed.

Theorem ni_decrypt_fips junk key m : bytes key -> keylen_ok key -> bytes junk -> length junk = 8%nat -> st16 m ->
  ni_decrypt_block (aesni_make junk key) m = AES_InvCipher key m.
Proof.
  intros Hb Hk Hj Hjl Hm. destruct (aesni_enc_keys junk key Hb Hk Hj Hjl) as [_ [E2 E3]].
  unfold ni_decrypt_block, AES_InvCipher. rewrite E2, E3. unfold gen_dec_key. rewrite (rks_split key).
  set (nr := (length key / 4 + 6)%nat). pose proof (nr_ge key) as Hnr. fold nr in Hnr.
  pose proof (rks_st key Hb Hk) as RS. fold nr in RS.
  set (ks := map _ (seq 1 (nr - 1))) in *.
  assert (Hks : length ks = (nr - 1)%nat) by (unfold ks; rewrite map_length, seq_length; auto).
  set (k0 := round_key _ 0). set (kl := round_key _ nr).
  cbn [rev]. rewrite rev_app_distr. cbn [rev app nth skipn]. rewrite app_comm_cons, last_last.
  assert (F : firstn (nr - 1) (rev ks ++ [k0]) = rev ks).
  { rewrite <- Hks, <- (rev_length ks), firstn_app, Nat.sub_diag, firstn_all. apply app_nil_r. }
  rewrite F. clear F.
  assert (F : firstn (nr - 1) (map mm_aesimc (rev ks) ++ [k0]) = map mm_aesimc (rev ks)).
  { rewrite <- Hks, <- (rev_length ks), <- (map_length mm_aesimc (rev ks)), firstn_app, Nat.sub_diag, firstn_all.
    apply app_nil_r. }
  rewrite F. clear F.
  rewrite app_comm_cons, last_last.
  assert (st16 k0) by (apply rk_st; auto; lia). assert (st16 kl) by (apply rk_st; auto).
  rewrite fold_dec; auto.
  - rewrite eq_dec_ok; auto. + apply Forall_rev; auto. + apply xor_st; auto.
  - apply Forall_forall. intros x Hx. apply in_map_iff in Hx. destruct Hx as [y [<- Hy]].
    apply IMC_st. apply in_rev in Hy. apply (proj1 (Forall_forall _ _) RS y Hy).
  - apply xor_st; auto.
Qed.
