(** Property C69: ECDSA objects through any number of calls with one random source.
    Specification: EcdsaSpec.v (FIPS 186-4) and EcdsaObjSpec.v.  [ws] are the words the random source yields.
    [D] computes the hash function [H] on messages shorter than [limit], from states satisfying [I]. *)
From Coq Require Import Znumtheory String.
From Verif Require Import Base HashModel HashSpec HashApi PropHash MacApi NumTheory RsaModel RsaProofs RsaEncModel RsaEncProofs RsaSigProofs DsaModel DsaSpec DsaProofs
  EllModel EllSpec EllApi AesSpec EcdsaModel EcdsaSpec EcdsaGroup EcdsaProofs PropDsa PropEc PropEcdsa PropCurves EcdsaObjModel EcdsaObjSpec.

(** ** One call *)
Section Call.
Context {S : Type}.
Variables (D : digest S) (I : S -> Prop) (H : list Z -> list Z) (limit : Z).
Hypothesis HG : DigestOk D I H limit.
Variables (eo : ec_obj) (kp : ec_kp).
Notation dbs := (option_map (fun k => to_be_bytes (ed_d k)) (ekp_private kp)).
Definition state_ok (o : ecdsa S) : Prop := es_curve o = eo /\ es_kp o = kp /\ es_dbytes o = dbs /\ I (es_hf o).
Definition key_fits : Prop := forall sk, ekp_private kp = Some sk -> Z.of_nat (length (to_be_bytes (ed_d sk))) + Z.of_nat (d_bits_len D / 8) + 32 < 2 ^ 64.
Definition words : nat := match ekp_private kp with Some _ => sign_words (cp_bits (eo_params eo)) | None => 0 end.
Hypothesis KF : key_fits.
Lemma new_ok hf : I hf -> state_ok (ecdsa_new hf eo kp).
Proof using. intros Hh. split; [reflexivity|]. split; [reflexivity|]. split; [reflexivity|exact Hh]. Qed.
Lemma draw_first len ws : fst (draw_bytes len ws) = fst (draw_bytes len (firstn (Nat.max 1 ((len + 3) / 4)) ws)).
Proof using. unfold draw_bytes. cbn [fst]. rewrite firstn_firstn, Nat.min_id. reflexivity. Qed.
(** The outcome of a signing call is a function of the message, the content and the first words of the source. *)
Lemma sign_indep fuel o o' ws sc m : state_ok o -> state_ok o' -> bytes m -> Z.of_nat (length m) < limit ->
  let a := ecdsa_sign D fuel o ws sc m in let b := ecdsa_sign D fuel o' (firstn words ws) sc m in
  snd (fst a) = snd (fst b) /\ snd a = snd b /\ snd (fst (fst a)) = skipn words ws.
Proof using HG KF.
  intros (C1 & K1 & D1 & I1) (C2 & K2 & D2 & I2) B L. unfold ecdsa_sign.
  pose proof (ec_hash_ok D I H limit HG o m I1 B L) as E1. pose proof (ec_hash_ok D I H limit HG o' m I2 B L) as E2.
  destruct (ec_hash_keeps D I H limit HG o m I1) as (A1 & A2 & A3 & _). destruct (ec_hash_keeps D I H limit HG o' m I2) as (B1 & B2 & B3 & _).
  set (o1 := ec_hash D o m) in *. set (o2 := ec_hash D o' m) in *. clearbody o1 o2.
  unfold ec_sign_inner, words. rewrite A1, A2, A3, B1, B2, B3, C1, C2, K1, K2, D1, D2, E1, E2.
  unfold key_fits in KF. destruct (ekp_private kp) as [sk|]; [|cbn; auto]. cbn [option_map]. specialize (KF sk eq_refl).
  assert (HB : length (H m) = (d_bits_len D / 8)%nat /\ bytes (H m)) by (destruct HG as [_ _ _ _ _ G6]; exact (G6 m B L)). destruct HB as [HL HB].
  set (len := entropy_len (eo_params eo)) in *. assert (LL : (len <= 32)%nat) by (unfold len, entropy_len; lia).
  change (sign_words (cp_bits (eo_params eo))) with (Nat.max 1 ((len + 3) / 4)). set (mm := Nat.max 1 ((len + 3) / 4)).
  pose proof (draw_first len ws) as DF. fold mm in DF. destruct (draw_bytes_bytes len ws) as [DB DL].
  assert (SW : snd (draw_bytes len ws) = skipn mm ws) by reflexivity.
  destruct (draw_bytes len ws) as [en ws1]. destruct (draw_bytes len (firstn mm ws)) as [en' ws2]. cbn [fst snd] in *. subst en' ws1.
  assert (RUN : forall md0, exists md, hash_run SHA512 md0 [to_be_bytes (ed_d sk); en; H m] = (md, SHA512_hash (to_be_bytes (ed_d sk) ++ en ++ H m))).
  { intros md0. destruct (hash_run_ok SHA512 _ _ _ sha512_ok md0 [to_be_bytes (ed_d sk); en; H m] Logic.I) as (md & EM & _).
    - repeat constructor; [apply to_be_bytes_are|exact DB|exact HB].
    - cbn [concat]. rewrite !app_length. cbn [length]. change M64 with (2 ^ 64). lia.
    - exists md. rewrite EM. cbn [concat]. rewrite app_nil_r. reflexivity. }
  destruct (RUN (es_md o1)) as (md1 & ->). destruct (RUN (es_md o2)) as (md2 & ->). cbn [es_curve es_hash].
  match goal with |- context [match csprng_new ?k ?v with Ok _ => _ | Err _ => _ | Panic => _ end] => destruct (csprng_new k v) as [g|e|] end; [|cbn; auto|cbn; auto].
  destruct (negb _); [cbn; auto|]. destruct (ec_sign_loop _ _ _ _ _) as [[r s]|e|]; cbn; auto.
Qed.
Lemma verify_indep o o' sc m : state_ok o -> state_ok o' -> bytes m -> Z.of_nat (length m) < limit ->
  snd (ecdsa_verify D o sc m) = snd (ecdsa_verify D o' sc m).
Proof using HG.
  intros (C1 & K1 & D1 & I1) (C2 & K2 & D2 & I2) B L. unfold ecdsa_verify.
  pose proof (ec_hash_ok D I H limit HG o m I1 B L) as E1. pose proof (ec_hash_ok D I H limit HG o' m I2 B L) as E2.
  destruct (ec_hash_keeps D I H limit HG o m I1) as (A1 & A2 & A3 & _). destruct (ec_hash_keeps D I H limit HG o' m I2) as (B1 & B2 & B3 & _).
  destruct (sigc_to_bigint sc) as [[r s]|e|]; cbn [snd]; [|reflexivity|reflexivity].
  unfold ec_verify_inner. rewrite A1, A2, B1, B2, C1, C2, K1, K2, E1, E2. reflexivity.
Qed.
Definition op_words (op : ec_op) : nat := match op with ESign _ _ _ => words | EVerify _ _ => 0 end.
Definition op_seg (ws : list Z) (op : ec_op) : list Z := firstn (op_words op) ws.
Lemma call_ok hf o ws op : I hf -> state_ok o -> eop_ok limit op ->
  state_ok (fst (fst (ec_call D (o, ws) op))) /\ snd (fst (ec_call D (o, ws) op)) = skipn (op_words op) ws /\
  snd (ec_call D (o, ws) op) = fresh_call D hf eo kp (op_seg ws op) op.
Proof using HG KF.
  intros Hh SO OK. unfold fresh_call, op_seg, op_words. destruct op as [fuel c m|c m]; cbn [ec_call fst snd eop_ok] in *; destruct OK as [B L].
  - destruct (sign_indep fuel o (ecdsa_new hf eo kp) ws c m SO (new_ok hf Hh) B L) as (X & Y & Z0).
    destruct SO as (C1 & K1 & D1 & I1). destruct (ec_sign_keeps D I H limit HG fuel o ws c m I1) as (A1 & A2 & A3 & A4).
    destruct (ecdsa_sign D fuel o ws c m) as [[[o1 ws1] c1] r1]. destruct (ecdsa_sign D fuel (ecdsa_new hf eo kp) (firstn words ws) c m) as [[[o2 ws2] c2] r2].
    cbn [fst snd] in *. subst. split; [|split; reflexivity]. split; [congruence|]. split; [congruence|]. split; [congruence|exact A4].
  - pose proof (verify_indep o (ecdsa_new hf eo kp) c m SO (new_ok hf Hh) B L) as X.
    destruct SO as (C1 & K1 & D1 & I1). destruct (ec_verify_keeps D I H limit HG o c m I1) as (A1 & A2 & A3 & A4).
    destruct (ecdsa_verify D o c m) as [o1 r1]. destruct (ecdsa_verify D (ecdsa_new hf eo kp) c m) as [o2 r2]. cbn [fst snd] in *. subst.
    split; [|split; reflexivity]. split; [congruence|]. split; [congruence|]. split; [congruence|exact A4].
Qed.
Lemma results_ok hf : I hf -> forall ops o ws, state_ok o -> Forall (eop_ok limit) ops ->
  ec_results D (o, ws) ops = until_panic (map (fun '(op, seg) => fresh_call D hf eo kp seg op) (combine ops (segments words ws ops))).
Proof using HG KF.
  intros Hh. induction ops as [|op ops IH]; intros o ws SO F; [reflexivity|]. inversion F as [|? ? OK F']; subst. cbn [ec_results].
  destruct (call_ok hf o ws op Hh SO OK) as (S1 & W1 & R1). destruct (ec_call D (o, ws) op) as [[o1 ws1] x]. cbn [fst snd] in *. subst ws1.
  assert (E : segments words ws (op :: ops) = op_seg ws op :: segments words (skipn (op_words op) ws) ops) by (destruct op; reflexivity).
  rewrite E. cbn [combine map until_panic]. rewrite <- R1. f_equal. rewrite <- (IH o1 (skipn (op_words op) ws) S1 F'). reflexivity.
Qed.
Lemma after_ok : forall ops o ws, state_ok o -> Forall (eop_ok limit) ops ->
  state_ok (fst (ec_after D (o, ws) ops)) /\ snd (ec_after D (o, ws) ops) = skipn (list_sum (map op_words ops)) ws.
Proof using HG KF.
  unfold ec_after. induction ops as [|op ops IH]; intros o ws SO F; [split; [exact SO|reflexivity]|]. inversion F as [|? ? OK F']; subst. cbn [fold_left].
  destruct (call_ok (es_hf o) o ws op ltac:(apply SO) SO OK) as (S1 & W1 & _). destruct (ec_call D (o, ws) op) as [[o1 ws1] x]. cbn [fst snd] in *. subst ws1.
  destruct (IH o1 (skipn (op_words op) ws) S1 F') as [X Y]. split; [exact X|]. rewrite Y, skipn_skipn. f_equal. cbn [map list_sum fold_right]. unfold list_sum. lia.
Qed.
End Call.

(** ** Histories *)
Lemma firstn_plus {A} : forall a b (l : list A), firstn (a + b) l = firstn a l ++ firstn b (skipn a l).
Proof. induction a as [|a IH]; intros b l; [reflexivity|]. destruct l as [|x l]; [cbn; rewrite firstn_nil; reflexivity|]. cbn [Nat.add firstn skipn app]. rewrite IH. reflexivity. Qed.
(** What a history of calls returns: each call what a fresh object returns with its own segment of the source; the segments are
    consecutive.  Any curve object and any key pair. *)
Theorem C69_histories : forall (S : Type) (D : digest S) (I : S -> Prop) H limit hf hf' eo kp ws ops, DigestOk D I H limit -> I hf -> I hf' ->
  key_fits D kp -> Forall (eop_ok limit) ops ->
  let m := words eo kp in let segs := segments m ws ops in
  ec_results D (ecdsa_new hf eo kp, ws) ops = until_panic (map (fun '(op, seg) => fresh_call D hf' eo kp seg op) (combine ops segs)) /\
  concat segs = firstn (length (concat segs)) ws /\ length segs = length ops /\
  snd (ec_after D (ecdsa_new hf eo kp, ws) ops) = skipn (m * length (filter (fun op => match op with ESign _ _ _ => true | EVerify _ _ => false end) ops)) ws.
Proof.
  intros S D I H limit hf hf' eo kp ws ops HG Hh Hh' KF F m segs.
  split; [exact (results_ok D I H limit HG eo kp KF hf' Hh' ops (ecdsa_new hf eo kp) ws (new_ok I eo kp hf Hh) F)|].
  assert (Q : forall ops ws, concat (segments m ws ops) = firstn (length (concat (segments m ws ops))) ws /\ length (segments m ws ops) = length ops).
  { clear. induction ops as [|op ops IH]; intros ws; [split; reflexivity|]. destruct op as [fuel c msg|c msg]; cbn [segments concat length app].
    - destruct (IH (skipn m ws)) as [A B]. split; [|f_equal; exact B]. rewrite app_length. rewrite A at 1. rewrite firstn_length.
      destruct (Nat.le_gt_cases m (length ws)) as [G|G].
      + rewrite Nat.min_l by exact G. rewrite firstn_plus. reflexivity.
      + rewrite (skipn_all2 ws) by lia. rewrite firstn_nil, app_nil_r, (firstn_all2 ws) by lia. symmetry. apply firstn_all2. lia.
    - destruct (IH ws) as [A B]. split; [exact A|f_equal; exact B]. }
  destruct (Q ops ws) as [Q1 Q2]. split; [exact Q1|]. split; [exact Q2|].
  rewrite (proj2 (after_ok D I H limit HG eo kp KF ops (ecdsa_new hf eo kp) ws (new_ok I eo kp hf Hh) F)). f_equal. fold m. clear.
  induction ops as [|op ops IH]; [cbn; lia|]. cbn [map filter]. unfold list_sum in *. cbn [fold_right]. rewrite IH. destruct op; cbn [op_words length]; fold m; lia.
Qed.
Print Assumptions C69_histories.

Lemma until_panic_nth {A} : forall (l : list (A * res unit)) i x, nth_error (until_panic l) i = Some x -> nth_error l i = Some x.
Proof.
  induction l as [|y l IH]; intros i x E; [destruct i; discriminate|]. destruct i as [|i]; cbn [until_panic nth_error] in *; [exact E|].
  destruct (snd y); [exact (IH i x E)|exact (IH i x E)|destruct i; discriminate].
Qed.
Lemma nth_combine2 {A B C} (f : A * B -> C) : forall (l : list A) (l' : list B) i x, nth_error (map f (combine l l')) i = Some x ->
  exists a b, nth_error l i = Some a /\ nth_error l' i = Some b /\ x = f (a, b).
Proof.
  induction l as [|a l IH]; intros l' i x E; [destruct i; discriminate|]. destruct l' as [|b l']; [destruct i; discriminate|].
  destruct i as [|i]; cbn [combine map nth_error] in *; [injection E as <-; exists a, b; repeat split|exact (IH l' i x E)].
Qed.
Lemma concat_segs {A} : forall (segs : list (list A)) i j l l', (i < j)%nat -> nth_error segs i = Some l -> nth_error segs j = Some l' ->
  exists a b d, concat segs = a ++ l ++ b ++ l' ++ d.
Proof.
  induction segs as [|x segs IH]; intros i j l l' L E E'; [destruct i; discriminate|]. destruct j as [|j]; [lia|]. destruct i as [|i]; cbn [nth_error concat] in *.
  - injection E as ->. destruct (nth_error_split segs j E') as (a & d & -> & _). exists [], (concat a), (concat d). rewrite concat_app. reflexivity.
  - destruct (IH i j l l' ltac:(lia) E E') as (a & b & d & ->). exists (x ++ a), b, d. rewrite <- app_assoc. reflexivity.
Qed.
(** The signature returned by a signing call of a history. *)
Lemma history_sign {S} (D : digest S) (I : S -> Prop) H limit hf eo pk d ws ops i f c m c1 : DigestOk D I H limit -> I hf -> group_of (eo_params eo) ->
  (forall k, 0 < k < cp_n (eo_params eo) -> eo_base eo k = curve_scalar_base (eo_params eo) k) ->
  key_fits D (inr (mkEpriv pk d)) -> Forall (eop_ok limit) ops -> nth_error ops i = Some (ESign f c m) ->
  nth_error (ec_results D (ecdsa_new hf eo (inr (mkEpriv pk d)), ws) ops) i = Some (c1, Ok tt) ->
  exists e t r s, nth_error (segments (words eo (inr (mkEpriv pk d))) ws ops) i = Some e /\
    fresh_call D hf eo (inr (mkEpriv pk d)) e (ESign f c m) = (c1, Ok tt) /\
    sigc_to_bigint c1 = Ok (r, s) /\
    ECDSA_signature (cp_p (eo_params eo)) (cp_n (eo_params eo)) (decode (cp_gx (eo_params eo), cp_gy (eo_params eo))) d (DSA_z (Z.of_nat (bits_len (cp_n (eo_params eo)))) (H m))
      (ECDSA_nonce (cp_n (eo_params eo)) (cp_bits (eo_params eo) / 8 + 8)
        (ECDSA_key (to_be_bytes d) (firstn (Nat.min 32 ((cp_bits (eo_params eo) + 7) / 16)) (flat_map (be_bytes 4) e)) (H m)) ECDSA_IV t) r s.
Proof.
  intros HG Hh GR BASE KF F Oi Ri. destruct (C69_histories S D I H limit hf hf eo (inr (mkEpriv pk d)) ws ops HG Hh Hh KF F) as (E & _). rewrite E in Ri. clear E.
  apply until_panic_nth in Ri. destruct (nth_combine2 _ _ _ _ _ Ri) as (op & e & Oi' & Ei & X). rewrite Oi in Oi'. injection Oi' as <-.
  pose proof (proj1 (Forall_forall _ _) F _ (nth_error_In _ _ Oi)) as [B L].
  pose proof (C47_sign_exact S D I H limit (eo_params eo) d (ecdsa_new hf eo (inr (mkEpriv pk d))) f e c m HG GR) as SX.
  assert (SG : signer I (eo_params eo) d (ecdsa_new hf eo (inr (mkEpriv pk d)))).
  { split; [reflexivity|]. split; [exact BASE|]. split; [exists pk; reflexivity|]. split; [reflexivity|exact Hh]. }
  assert (HL : length (H m) = (d_bits_len D / 8)%nat) by (destruct HG as [_ _ _ _ _ G6]; exact (proj1 (G6 m B L))).
  specialize (SX SG B L). rewrite HL in SX. specialize (SX (KF _ eq_refl)). cbv zeta in SX.
  exists e. pose proof X as X'. unfold fresh_call in X. cbn [ec_call fst snd] in X.
  destruct (ecdsa_sign D f (ecdsa_new hf eo (inr (mkEpriv pk d))) e c m) as [[[o1 ws1] c2] out]. cbn [snd] in X. injection X as <- <-.
  destruct SX as (_ & _ & _ & SX). destruct (SX eq_refl) as (t & r & s & _ & SGN & _ & ES). exists t, r, s. split; [exact Ei|]. split; [symmetry; exact X'|]. split; [exact ES|exact SGN].
Qed.

(** Two signatures of one history: their nonces are derived from words at different places of the source, and the strings that are
    hashed to derive them are different unless both the bytes of entropy and the digests agree. *)
Theorem C69_nonces : forall (S : Type) (D : digest S) (I : S -> Prop) H limit hf eo pk d ws ops i j f f' c c' m m' c1 c2, DigestOk D I H limit -> I hf ->
  group_of (eo_params eo) -> (forall k, 0 < k < cp_n (eo_params eo) -> eo_base eo k = curve_scalar_base (eo_params eo) k) ->
  let kp := inr (mkEpriv pk d) in key_fits D kp -> Forall (eop_ok limit) ops -> (i < j)%nat ->
  nth_error ops i = Some (ESign f c m) -> nth_error ops j = Some (ESign f' c' m') ->
  let rs := ec_results D (ecdsa_new hf eo kp, ws) ops in nth_error rs i = Some (c1, Ok tt) -> nth_error rs j = Some (c2, Ok tt) ->
  let cv := eo_params eo in
  let entropy l := firstn (Nat.min 32 ((cp_bits cv + 7) / 16)) (flat_map (be_bytes 4) l) in
  let signature l m t r s := ECDSA_signature (cp_p cv) (cp_n cv) (decode (cp_gx cv, cp_gy cv)) d (DSA_z (Z.of_nat (bits_len (cp_n cv))) (H m))
    (ECDSA_nonce (cp_n cv) (cp_bits cv / 8 + 8) (firstn 32 (SHA512_hash (to_be_bytes d ++ entropy l ++ H m))) ECDSA_IV t) r s in
  exists a e b e' rest t r s t' r' s', ws = a ++ e ++ b ++ e' ++ rest /\
    sigc_to_bigint c1 = Ok (r, s) /\ signature e m t r s /\ sigc_to_bigint c2 = Ok (r', s') /\ signature e' m' t' r' s' /\
    (entropy e <> entropy e' \/ H m <> H m' -> to_be_bytes d ++ entropy e ++ H m <> to_be_bytes d ++ entropy e' ++ H m').
Proof.
  intros S D I H limit hf eo pk d ws ops i j f f' c c' m m' c1 c2 HG Hh GR BASE kp KF F L Oi Oj rs Ri Rj cv entropy signature.
  destruct (history_sign D I H limit hf eo pk d ws ops i f c m c1 HG Hh GR BASE KF F Oi Ri) as (e & t & r & s & Ei & _ & ES & SG).
  destruct (history_sign D I H limit hf eo pk d ws ops j f' c' m' c2 HG Hh GR BASE KF F Oj Rj) as (e' & t' & r' & s' & Ej & _ & ES' & SG').
  destruct (concat_segs _ i j e e' L Ei Ej) as (a & b & q & EC).
  destruct (C69_histories S D I H limit hf hf eo kp ws ops HG Hh Hh KF F) as (_ & PF & _). fold kp in EC. rewrite EC in PF.
  exists a, e, b, e', (q ++ skipn (length (a ++ e ++ b ++ e' ++ q)) ws), t, r, s, t', r', s'.
  split; [rewrite <- (firstn_skipn (length (a ++ e ++ b ++ e' ++ q)) ws) at 1; rewrite <- PF; rewrite <- !app_assoc; reflexivity|].
  split; [exact ES|]. split; [exact SG|]. split; [exact ES'|]. split; [exact SG'|].
  pose proof (proj1 (Forall_forall _ _) F _ (nth_error_In _ _ Oi)) as [B1 L1]. pose proof (proj1 (Forall_forall _ _) F _ (nth_error_In _ _ Oj)) as [B2 L2].
  assert (HL : length (H m) = length (H m')) by (destruct HG as [_ _ _ _ _ G6]; rewrite (proj1 (G6 m B1 L1)), (proj1 (G6 m' B2 L2)); reflexivity).
  intros N E. apply app_inv_head in E. assert (LE : length (entropy e) = length (entropy e')) by (apply (f_equal (@length Z)) in E; rewrite !app_length in E; lia).
  assert (Q : forall (x y x' y' : list Z), length x = length x' -> x ++ y = x' ++ y' -> x = x' /\ y = y').
  { clear. induction x as [|u x IH]; intros y x' y' L E; destruct x' as [|u' x']; try discriminate L; [split; [reflexivity|exact E]|].
    cbn [app] in E. injection E as -> E. destruct (IH y x' y' ltac:(cbn in L; lia) E) as [-> ->]. split; reflexivity. }
  destruct (Q _ _ _ _ LE E) as [X Y]. destruct N as [N|N]; [exact (N X)|exact (N Y)].
Qed.
Print Assumptions C69_nonces.

(** A signature made in any history verifies in any history of any object with the matching public key. *)
Theorem C69_sign_verify : forall (S : Type) (D : digest S) (I : S -> Prop) H limit hf eo d qx qy ws ops i f c m c1 hf' eo' kp' ws' ops' j, DigestOk D I H limit -> I hf -> I hf' ->
  group_of (eo_params eo) -> (forall k, 0 < k < cp_n (eo_params eo) -> eo_base eo k = curve_scalar_base (eo_params eo) k) ->
  0 <= d -> curve_scalar_base (eo_params eo) d = Some (qx, qy) ->
  let kp := inr (mkEpriv (mkEpub qx qy) d) in key_fits D kp -> key_fits D kp' -> Forall (eop_ok limit) ops -> Forall (eop_ok limit) ops' ->
  nth_error ops i = Some (ESign f c m) -> nth_error (ec_results D (ecdsa_new hf eo kp, ws) ops) i = Some (c1, Ok tt) ->
  eo_params eo' = eo_params eo -> ekp_public kp' = mkEpub qx qy -> nth_error ops' j = Some (EVerify c1 m) ->
  let rs' := ec_results D (ecdsa_new hf' eo' kp', ws') ops' in (j < length rs')%nat -> nth_error rs' j = Some (c1, Ok tt).
Proof.
  intros S D I H limit hf eo d qx qy ws ops i f c m c1 hf' eo' kp' ws' ops' j HG Hh Hh' GR BASE D0 EQ kp KF KF' F F' Oi Ri EP EK Oj rs' Lj.
  destruct (history_sign D I H limit hf eo (mkEpub qx qy) d ws ops i f c m c1 HG Hh GR BASE KF F Oi Ri) as (e & t & r & s & Ei & X & ES & SG).
  destruct (C69_histories S D I H limit hf' hf' eo' kp' ws' ops' HG Hh' Hh' KF' F') as (E & _). fold rs' in E.
  destruct (nth_error rs' j) as [y|] eqn:Rj; [|apply nth_error_None in Rj; lia]. rewrite E in Rj. apply until_panic_nth in Rj.
  destruct (nth_combine2 _ _ _ _ _ Rj) as (oj & l' & Oj' & Lj' & Xj). rewrite Oj in Oj'. injection Oj' as <-. subst y. f_equal.
  pose proof (proj1 (Forall_forall _ _) F _ (nth_error_In _ _ Oi)) as [B L].
  unfold fresh_call in X. cbn [ec_call fst snd] in X. destruct (ecdsa_sign D f (ecdsa_new hf eo (inr (mkEpriv (mkEpub qx qy) d))) e c m) as [[[o1 ws1] c2] out] eqn:ESN. cbn [snd] in X. injection X as -> ->.
  assert (HL : length (H m) = (d_bits_len D / 8)%nat) by (destruct HG as [_ _ _ _ _ G6]; exact (proj1 (G6 m B L))).
  assert (V : snd (ecdsa_verify D (ecdsa_new hf' eo' kp') c1 m) = Ok tt).
  { apply (C47_sign_verify S D I H limit (eo_params eo) d qx qy (ecdsa_new hf eo kp) o1 (ecdsa_new hf' eo' kp') f e ws1 c c1 m HG GR); try assumption.
    - split; [reflexivity|]. split; [exact BASE|]. split; [exists (mkEpub qx qy); reflexivity|]. split; [reflexivity|exact Hh].
    - split; [exact EP|]. split; [exact EK|exact Hh'].
    - rewrite HL. exact (KF _ eq_refl). }
  unfold fresh_call. cbn [ec_call fst snd]. destruct (ecdsa_verify D (ecdsa_new hf' eo' kp') c1 m) as [o2 r2]. cbn [snd] in *. rewrite V. reflexivity.
Qed.
Print Assumptions C69_sign_verify.

(** The accessors after any history: the curve and the key given, a hash object with nothing written, and the source in the state from
    which the next signature draws. *)
Theorem C69_accessors : forall (S : Type) (D : digest S) (I : S -> Prop) H limit hf eo kp ws ops, DigestOk D I H limit -> I hf -> key_fits D kp -> Forall (eop_ok limit) ops ->
  let st := ec_after D (ecdsa_new hf eo kp, ws) ops in
  ec_curve st = eo /\ ec_public_key st = ekp_public kp /\
  (forall ds, Forall bytes ds -> Z.of_nat (length (concat ds)) < limit -> snd (d_checksum D (fold_left (d_write D) ds (ec_digest_func D st))) = H (concat ds)) /\
  (forall op, eop_ok limit op -> snd (ec_call D st op) = snd (ec_call D (ecdsa_new hf eo kp, ec_rand_source st) op)).
Proof.
  intros S D I H limit hf eo kp ws ops HG Hh KF F st. destruct (after_ok D I H limit HG eo kp KF ops (ecdsa_new hf eo kp) ws (new_ok I eo kp hf Hh) F) as [SO _]. fold st in SO.
  pose proof SO as (A & B & C & E). unfold ec_curve, ec_public_key, ec_rand_source. split; [exact A|]. split; [rewrite B; reflexivity|]. split.
  - intros ds Bd L. destruct HG as [_ _ _ G _ _]. exact (G _ ds E Bd L).
  - intros op OK. destruct st as [o w]. cbn [fst snd] in *.
    rewrite (proj2 (proj2 (call_ok D I H limit HG eo kp KF hf o w op Hh SO OK))).
    rewrite (proj2 (proj2 (call_ok D I H limit HG eo kp KF hf (ecdsa_new hf eo kp) w op Hh (new_ok I eo kp hf Hh) OK))). reflexivity.
Qed.
Print Assumptions C69_accessors.

(** ** Sources that end *)
(** One would expect an error when the random source ends.  Signing goes on without entropy and never returns an error ... *)
Theorem C69_ended_source_refuted : forall (S : Type) (D : digest S) (I : S -> Prop) H limit c d o o' fuel sc sc' msg, DigestOk D I H limit ->
  group_of c -> signer I c d o -> signer I c d o' -> bytes msg -> Z.of_nat (length msg) < limit ->
  Z.of_nat (length (to_be_bytes d)) + Z.of_nat (length (H msg)) + 32 < 2 ^ 64 ->
  let '(_, _, c1, out) := ecdsa_sign D fuel o [] sc msg in let '(_, _, c2, out') := ecdsa_sign D fuel o' [] sc' msg in
  (forall e, out <> Err e) /\ out = out' /\ (out = Ok tt -> sigc_to_bigint c1 = sigc_to_bigint c2).
Proof.
  intros S D I H limit c d o o' fuel sc sc' msg HG GR SI SI' B L LL.
  pose proof (C47_sign_exact S D I H limit c d o fuel [] sc msg HG GR SI B L LL) as X. pose proof (C47_sign_exact S D I H limit c d o' fuel [] sc' msg HG GR SI' B L LL) as Y. cbv zeta in X, Y.
  destruct (ecdsa_sign D fuel o [] sc msg) as [[[o1 w1] c1] out]. destruct (ecdsa_sign D fuel o' [] sc' msg) as [[[o2 w2] c2] out'].
  destruct X as (_ & X1 & X2 & X3), Y as (_ & Y1 & Y2 & Y3).
  assert (EO : out = out') by (destruct X1 as [-> | ->], Y1 as [-> | ->]; [reflexivity|exfalso|exfalso|reflexivity];
    [pose proof (proj2 X2 (proj1 Y2 eq_refl)); discriminate|pose proof (proj2 Y2 (proj1 X2 eq_refl)); discriminate]).
  split; [intros e; destruct X1 as [-> | ->]; discriminate|]. split; [exact EO|]. intros ->. symmetry in EO.
  destruct (X3 eq_refl) as (i & r & s & _ & SG & BE & ES), (Y3 EO) as (i' & r' & s' & _ & SG' & BE' & ES').
  assert (i = i') by (destruct (Nat.lt_trichotomy i i') as [T|[T|T]]; [exfalso; apply (BE' i T); exists r, s; exact SG|exact T|exfalso; apply (BE i' T); exists r', s'; exact SG']). subst i'.
  assert (N2 : 1 < cp_n c) by (assert (2 < cp_n c) by apply GR; lia).
  destruct (C47_signature_unique c d _ _ r s r' s' GR (nonce_range _ _ _ _ _ N2) SG SG') as (-> & -> & _). congruence.
Qed.
Print Assumptions C69_ended_source_refuted.
(** ... and key generation from a source that yields one word and ends returns one of 2^32 keys, on every built-in curve. *)
Theorem C69_short_source_refuted : forall (S : Type) (hf : S) c w, In c builtin_curves -> 0 <= w < 2 ^ 32 ->
  exists qx qy, auto_generate_key hf [w] (params_obj c) = Ok (ecdsa_new hf (params_obj c) (inr (mkEpriv (mkEpub qx qy) (w + 1))), []).
Proof.
  intros S hf c w IN W. destruct (C47_auto_generate_key S hf [w] (params_obj c) (C50_prime_order c IN) ltac:(reflexivity)) as (_ & qx & qy & _ & E). cbv zeta in E.
  cbn [params_obj eo_params] in E. exists qx, qy. rewrite E. clear E.
  assert (N : 2 ^ 32 < cp_n c - 1) by (destruct IN as [<-|[<-|[<-|[<-|[]]]]]; reflexivity). revert N. generalize (cp_n c). intros n N.
  assert (V : be_val (firstn (cp_bits c / 8 + 8) (flat_map (be_bytes 4) [w])) = w).
  { rewrite firstn_all2 by (cbn [flat_map]; rewrite app_nil_r, be_bytes_length; lia). cbn [flat_map]. rewrite app_nil_r, be_val_bytes. apply Z.mod_small. exact W. }
  rewrite V, Z.mod_small by lia. do 3 f_equal.
  assert (1 <= (cp_bits c / 8 + 8 + 3) / 4)%nat by (apply (Nat.div_le_lower_bound (cp_bits c / 8 + 8 + 3) 4); lia).
  destruct ((cp_bits c / 8 + 8 + 3) / 4)%nat; [lia|]. cbn [skipn]. apply skipn_nil.
Qed.
Print Assumptions C69_short_source_refuted.

(** A history of six calls on the curve of 271 points, whose source ends before the third signature; the hypotheses hold. *)
Definition toy_ops : list ec_op :=
  [ESign 2 sigc_new [5; 6]; EVerify (sigc_from 20 211) [5; 6]; ESign 2 sigc_new [5; 6]; EVerify (sigc_from 20 211) [5; 7]; ESign 2 sigc_new [5; 6]; ESign 2 sigc_new [5; 6]].
Example C69_met : key_fits Sum2 (inr (mkEpriv (mkEpub 18 167) 100)) /\ Forall (eop_ok (2 ^ 64)) toy_ops /\ words (params_obj toy9) (inr (mkEpriv (mkEpub 18 167) 100)) = 1%nat.
Proof.
  split; [intros sk E; injection E as <-; vm_compute; reflexivity|]. split; [|reflexivity].
  repeat constructor; unfold byte; try lia; cbn; lia.
Qed.
Example C69_case : ec_results Sum2 (toy_signer, [2 ^ 24; 2 ^ 25]) toy_ops =
  [(sigc_from 190 143, Ok tt); (sigc_from 20 211, Ok tt); (sigc_from 96 254, Ok tt); (sigc_from 20 211, Err VerificationFailed); (sigc_from 166 109, Ok tt); (sigc_from 166 109, Ok tt)].
Proof. vm_compute. reflexivity. Qed.
