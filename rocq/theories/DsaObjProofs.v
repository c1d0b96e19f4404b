(** Lemmas on DSA objects. *)
From Coq Require Import Znumtheory.
From Verif Require Import Base HashModel HashSpec HashApi MacApi NumTheory RsaModel RsaProofs RsaEncModel RsaEncProofs RsaSigProofs DsaModel DsaSpec DsaProofs DsaObjModel DsaObjSpec.

Section Gen.
Context {R : Type}.
Variable src : rsrc R.

Lemma drawn_app q r l1 r1 l2 r2 : drawn src q r l1 r1 -> drawn src q r1 l2 r2 -> drawn src q r (l1 ++ l2) r2.
Proof. intros A B. induction A as [|r k r1' l r2' E A IH]; [exact B|]. cbn [app]. econstructor; [exact E|]. apply IH, B. Qed.
Lemma drawn_split q l1 : forall r l2 r2, drawn src q r (l1 ++ l2) r2 -> exists r1, drawn src q r l1 r1 /\ drawn src q r1 l2 r2.
Proof.
  induction l1 as [|k l1 IH]; intros r l2 r2 A; [exists r; split; [constructor|exact A]|]. cbn [app] in A. inversion A as [|? ? r1 ? ? E A']; subst.
  destruct (IH _ _ _ A') as (r3 & B & C). exists r3. split; [econstructor; eassumption|exact C].
Qed.

(** ** Construction *)
Lemma draw_bytes_bytes fuel n : forall r acc r' bs, bytes acc -> draw_bytes src fuel n r acc = (r', bs) -> bytes bs.
Proof.
  induction fuel as [|fuel IH]; intros r acc r' bs B E; cbn [draw_bytes] in E; [injection E as _ <-; exact B|].
  destruct (rs_next src r) as [r1 [e|]]; [|injection E as _ <-; exact B].
  assert (B' : bytes (acc ++ be_bytes 4 e)) by (apply bytes_app; split; [exact B|apply be_bytes_bytes]).
  destruct (_ <=? _)%nat; [injection E as _ <-; exact B'|]. exact (IH _ _ _ _ B' E).
Qed.
Hypothesis OK : source_ok src.
Lemma try_p_r_ok (l l8 trt : nat) q : (l = 8 * l8)%nat -> (0 < l8)%nat -> prime q ->
  forall rounds r r' p, try_p_r src l trt q rounds r = (r', Ok (Some p)) -> prime p /\ bits_len p = l /\ (q | p - 1).
Proof.
  intros EL L8 Q. pose proof (prime_ge_2 q Q) as Q2. induction rounds as [|rounds IH]; intros r r' p F; [discriminate|]. cbn [try_p_r] in F.
  destruct (draw_bytes _ _ _ _ _) as [r1 bs0] eqn:DB. pose proof (draw_bytes_bytes _ _ _ _ _ _ (Forall_nil _) DB) as B0.
  destruct (_ || _) eqn:G; [discriminate|]. apply orb_false_iff in G. destruct G as [_ G]. apply Nat.ltb_ge in G.
  set (bs := firstn (l / 8) bs0) in *. assert (B : bytes bs) by (apply Forall_firstn', B0).
  destruct (or_last_ok _ B) as [B1 L1]. destruct (or_first_ok _ B1) as [B2 L2].
  set (p0 := be_val (or_first (or_last bs))) in *. destruct (Nat.ltb_spec (bits_len (p_adjust p0 q)) l) as [C|C]; [apply (IH _ _ _ F)|].
  destruct (rs_test src r1 _ trt) as [r2 []] eqn:TT; [|apply (IH _ _ _ F)]. injection F as _ <-. pose proof (proj2 (proj2 OK) _ _ _ _ TT) as PP.
  destruct (p_adjust_ok p0 q ltac:(lia)) as [M UB]. split; [exact PP|]. split; [|apply mod_eq_divide; [lia|exact M]].
  apply Nat.le_antisymm; [|exact C]. pose proof (be_val_bound _ B2) as V. fold p0 in V. rewrite L2, L1 in V.
  assert (LB : length bs = l8). { apply Nat.le_antisymm; [unfold bs; rewrite firstn_length; rewrite EL, Nat.mul_comm, Nat.div_mul by lia; lia|]. rewrite EL, Nat.mul_comm, Nat.div_mul in G by lia. exact G. }
  rewrite LB, pow256 in V. replace (8 * l8)%nat with l in V by lia. apply bits_len_bound. pose proof (prime_ge_2 _ PP). split; [lia|].
  destruct (Z.eq_dec (p_adjust p0 q) (2 ^ Z.of_nat l)) as [E|]; [|lia]. exfalso. rewrite E in PP.
  assert (D : (2 | 2 ^ Z.of_nat l)). { replace (Z.of_nat l) with (Z.succ (Z.of_nat (l - 1))) by lia. rewrite Z.pow_succ_r by lia. apply Z.divide_factor_l. }
  assert (2 ^ 8 <= 2 ^ Z.of_nat l) by (apply Z.pow_le_mono_r; lia). change (2 ^ 8) with 256 in *.
  destruct (prime_divisors _ PP 2 D) as [X|[X|[X|X]]]; lia.
Qed.
Lemma bits_len_range n z : 2 ^ (Z.of_nat n - 1) <= z < 2 ^ Z.of_nat n -> 0 < z -> bits_len z = n.
Proof.
  intros B Z0. apply Nat.le_antisymm; [apply bits_len_bound; lia|]. destruct (Nat.le_gt_cases n (bits_len z)) as [|C]; [assumption|]. exfalso.
  pose proof (bits_len_upper z ltac:(lia)) as U. assert (2 ^ Z.of_nat (bits_len z) <= 2 ^ (Z.of_nat n - 1)) by (apply Z.pow_le_mono_r; lia). lia.
Qed.
Lemma gen_params_ok hfuel l l8 n trt : (l = 8 * l8)%nat -> (0 < l8)%nat -> forall fuel r r' dp,
  gen_params src fuel hfuel l n trt r = (r', Ok dp) -> DSA_params (Z.of_nat l) (Z.of_nat n) (dp_p dp) (dp_q dp) (dp_g dp).
Proof.
  intros EL L8. induction fuel as [|fuel IH]; intros r r' dp G; [discriminate|]. cbn [gen_params] in G.
  destruct (rs_prime src r n trt) as [r1 [q|]] eqn:RP; [|discriminate]. destruct (proj1 (proj2 OK) _ _ _ _ _ RP) as [Q QB].
  destruct (try_p_r _ _ _ _ _ _) as [r2 [[p|]|e|]] eqn:TP; try discriminate; [|exact (IH _ _ _ G)].
  destruct (find_g _ _ _ _) as [g|] eqn:FG; [|discriminate]. injection G as _ <-. cbn [dp_p dp_q dp_g].
  destruct (try_p_r_ok l l8 trt q EL L8 Q _ _ _ _ TP) as (P & PB & D). pose proof (prime_ge_2 p P) as P2.
  destruct (find_g_ok p q P Q D hfuel 2 g ltac:(lia)) as [G1 G2]; [|exact FG|].
  { intros x Hx. replace x with 1 by lia. pose proof (prime_ge_2 q Q). rewrite Z.pow_1_l by (apply Z.div_pos; lia). apply Z.mod_1_l. lia. }
  destruct (bits_len_lower p ltac:(lia)) as [B1 B2]. pose proof (bits_len_upper p ltac:(lia)) as B3. rewrite PB in *.
  split; [exact P|]. split; [exact Q|]. split; [|split; [exact QB|split; [exact D|split; [exact G1|exact G2]]]].
  split; [|exact B3]. replace (Z.of_nat l - 1) with (Z.of_nat (l - 1)) by lia. exact B2.
Qed.
Lemma try_p_r_err l trt q : forall rounds r r' e, try_p_r src l trt q rounds r <> (r', Err e).
Proof.
  induction rounds as [|rounds IH]; intros r r' e F; [discriminate|]. cbn [try_p_r] in F. destruct (draw_bytes _ _ _ _ _) as [r1 bs0].
  destruct (_ || _); [discriminate|]. destruct (_ <? _)%nat; [apply (IH _ _ _ F)|]. destruct (rs_test _ _ _ _) as [r2 []]; [discriminate|apply (IH _ _ _ F)].
Qed.
Lemma gen_params_err hfuel l n trt : forall fuel r r' e, gen_params src fuel hfuel l n trt r = (r', Err e) -> e = OuterErr.
Proof.
  induction fuel as [|fuel IH]; intros r r' e G; [discriminate|]. cbn [gen_params] in G.
  destruct (rs_prime src r n trt) as [r1 [q|]]; [|injection G as _ <-; reflexivity]. destruct (try_p_r _ _ _ _ _ _) as [r2 [[p|]|e'|]] eqn:TP; try discriminate.
  - destruct (find_g _ _ _ _); discriminate.
  - exact (IH _ _ _ G).
  - destruct (try_p_r_err _ _ _ _ _ _ _ TP).
Qed.
Lemma gen_key_ok dp : 0 < dp_p dp -> forall fuel r r' sk, gen_key src fuel dp r = (r', Ok sk) ->
  dk_dp (ds_pk sk) = dp /\ DSA_key (dp_p dp) (dp_q dp) (dp_g dp) (ds_x sk) (dk_y (ds_pk sk)).
Proof.
  intros P. induction fuel as [|fuel IH]; intros r r' sk G; [discriminate|]. cbn [gen_key] in G. destruct (rs_random src r _) as [r1 x] eqn:RR.
  pose proof (proj1 OK _ _ _ _ RR) as X. destruct (Z.eqb_spec x 0); cbn [negb andb] in G; [exact (IH _ _ _ G)|]. destruct (Z.ltb_spec x (dp_q dp)); [|exact (IH _ _ _ G)].
  injection G as _ <-. cbn. split; [reflexivity|]. split; [lia|]. apply powmod_ok. lia.
Qed.
Lemma gen_key_err dp : forall fuel r r' e, gen_key src fuel dp r <> (r', Err e).
Proof. induction fuel as [|fuel IH]; intros r r' e G; [discriminate|]. cbn [gen_key] in G. destruct (rs_random src r _) as [r1 x]. destruct (_ && _); [discriminate|exact (IH _ _ _ G)]. Qed.
End Gen.

Section Obj.
Context {R S : Type}.
Variables (src : rsrc R) (D : digest S) (fuel : nat).

Lemma next_k_r_ok q : forall f r r' o, next_k_r src f q r = (r', o) ->
  exists l, drawn src q r l r' /\ match o with Some k => forall rest, next_k (l ++ rest) = Some (k, rest) | None => next_k l = None end.
Proof.
  induction f as [|f IH]; intros r r' o E; cbn [next_k_r] in E; [injection E as <- <-; exists []; split; [constructor|reflexivity]|].
  destruct (rs_random src r q) as [r1 k] eqn:RR. destruct (Z.sgn k =? 1) eqn:K.
  - injection E as <- <-. exists [k]. split; [econstructor; [exact RR|constructor]|]. intros rest. cbn [app next_k]. rewrite K. reflexivity.
  - destruct (IH _ _ _ E) as (l & A & B). exists (k :: l). split; [econstructor; eassumption|]. destruct o as [k'|]; cbn [app next_k]; [intros rest|]; rewrite K; auto.
Qed.
Lemma sign_loop_r_ok dp x z : forall tries rd rd' o, sign_loop_r src fuel tries dp x z rd = (rd', o) ->
  exists l, drawn src (dp_q dp) rd l rd' /\ sign_loop tries dp x z l = o.
Proof.
  induction tries as [|tries IH]; intros rd rd' o E; [injection E as <- <-; exists []; split; [constructor|reflexivity]|].
  cbn [sign_loop_r] in E. destruct (next_k_r _ _ _ _) as [r1 [k|]] eqn:NK; destruct (next_k_r_ok _ _ _ _ _ NK) as (l1 & A & B).
  2: { injection E as <- <-. exists l1. split; [exact A|]. cbn [sign_loop]. rewrite B. reflexivity. }
  cbn [sign_loop]. set (r := powmod (dp_g dp) k (dp_p dp) mod dp_q dp) in *. set (s := ((x * r + z) mod dp_q dp * fermat_inverse k (dp_q dp)) mod dp_q dp) in *. cbv zeta in E.
  destruct (negb (Z.sgn r =? 1)) eqn:G.
  - destruct (IH _ _ _ E) as (l2 & A2 & B2). exists (l1 ++ l2). split; [exact (drawn_app _ _ _ _ _ _ _ A A2)|]. rewrite B. cbv zeta. fold r. rewrite G. exact B2.
  - destruct (Z.sgn s =? 1) eqn:G2.
    + injection E as <- <-. exists (l1 ++ []). split; [exact (drawn_app _ _ _ _ _ _ _ A (drawn_nil _ _ _))|]. rewrite B. cbv zeta. fold r. rewrite G. fold s. rewrite G2. reflexivity.
    + destruct (IH _ _ _ E) as (l2 & A2 & B2). exists (l1 ++ l2). split; [exact (drawn_app _ _ _ _ _ _ _ A A2)|]. rewrite B. cbv zeta. fold r. rewrite G. fold s. rewrite G2. exact B2.
Qed.
Definition kp_q (kp : dsa_kp) : Z := dp_q (dk_dp (dkp_public kp)).
Lemma obj_sign_inner_ok s rd kp msg o r : obj_sign_inner src fuel D (mkDsa s rd kp) msg = (o, r) ->
  exists l, drawn src (kp_q kp) rd l (do_rd o) /\ sign_inner D kp s l msg = (do_hf o, r) /\ do_kp o = kp.
Proof.
  unfold obj_sign_inner, sign_inner. cbn [do_hf do_rd do_kp]. destruct kp as [pk|sk]; cbn [dkp_private].
  { intros E. injection E as <- <-. exists []. split; [constructor|split; reflexivity]. }
  intros E. cbv zeta in *. destruct (_ || negb (_ mod 8 =? 0)%nat) eqn:G.
  { injection E as <- <-. exists []. split; [constructor|split; reflexivity]. }
  destruct (hash_run D s [msg]) as [s' hm]. destruct (_ <? _)%nat eqn:LT.
  { injection E as <- <-. exists []. split; [constructor|split; reflexivity]. }
  destruct (sign_loop_r _ _ _ _ _ _ _) as [rd' x] eqn:SL. injection E as <- <-. destruct (sign_loop_r_ok _ _ _ _ _ _ _ SL) as (l & A & B).
  exists l. split; [exact A|]. split; [|reflexivity]. cbn [do_hf]. rewrite B. reflexivity.
Qed.

Variables (I : S -> Prop) (H : list Z -> list Z) (limit : Z).
Hypothesis HG : DigestOk D I H limit.
Lemma hash1 s msg : I s -> bytes msg -> Z.of_nat (length msg) < limit -> exists s', hash_run D s [msg] = (s', H msg) /\ I s'.
Proof.
  intros Hs B L. destruct (hash_run_ok D I H limit HG s [msg] Hs) as (s' & E & Hs'); [constructor; [exact B|constructor]|cbn [concat]; rewrite app_nil_r; exact L|].
  cbn [concat] in E. rewrite app_nil_r in E. exists s'. split; assumption.
Qed.
Lemma sign_inner_state kp draws msg : bytes msg -> Z.of_nat (length msg) < limit ->
  exists o, forall s, I s -> exists s', I s' /\ sign_inner D kp s draws msg = (s', o).
Proof.
  intros B L. unfold sign_inner. destruct (dkp_private kp) as [sk|]; [|eexists; intros s Hs; exists s; split; [exact Hs|reflexivity]].
  cbv zeta. destruct (_ || negb (_ mod 8 =? 0)%nat); [eexists; intros s Hs; exists s; split; [exact Hs|reflexivity]|].
  eexists. intros s Hs. destruct (hash1 s msg Hs B L) as (s' & E & Hs'). exists s'. split; [exact Hs'|]. rewrite E. reflexivity.
Qed.
Lemma verify_inner_state kp msg r v : bytes msg -> Z.of_nat (length msg) < limit ->
  exists o, forall s, I s -> exists s', I s' /\ verify_inner D kp s msg r v = (s', o).
Proof.
  intros B L. unfold verify_inner. cbv zeta. destruct (_ || negb (_ mod 8 =? 0)%nat); [eexists; intros s Hs; exists s; split; [exact Hs|reflexivity]|].
  destruct (_ || _); [eexists; intros s Hs; exists s; split; [exact Hs|reflexivity]|].
  destruct (mod_inverse _ _) as [w|]; [|eexists; intros s Hs; exists s; split; [exact Hs|reflexivity]].
  destruct (w =? 0); [eexists; intros s Hs; exists s; split; [exact Hs|reflexivity]|].
  eexists. intros s Hs. destruct (hash1 s msg Hs B L) as (s' & E & Hs'). exists s'. split; [exact Hs'|]. rewrite E. reflexivity.
Qed.
Lemma dsa_verify_state kp c msg : bytes msg -> Z.of_nat (length msg) < limit ->
  exists o, forall s, I s -> exists s', I s' /\ dsa_verify D kp s c msg = (s', o).
Proof.
  intros B L. unfold dsa_verify. destruct (sigc_to_bigint c) as [[r v]|e|]; [exact (verify_inner_state kp msg r v B L)| |]; eexists; intros s Hs; exists s; (split; [exact Hs|reflexivity]).
Qed.
(** One call. *)
Lemma obj_call_ok s0 s rd kp op o x : I s0 -> I s -> dop_ok limit op -> obj_call src fuel D (mkDsa s rd kp) op = (o, x) ->
  exists l, drawn src (kp_q kp) rd l (do_rd o) /\ I (do_hf o) /\ do_kp o = kp /\ x = fresh_outcome D kp s0 l op /\ (forall c msg, op = DVerify c msg -> l = []).
Proof.
  intros H0 Hs OKo E. destruct op as [c msg|c msg]; destruct OKo as [B L]; cbn [obj_call fresh_outcome] in *.
  - unfold obj_sign in E. destruct (obj_sign_inner _ _ _ _ _) as [o1 r1] eqn:SI. destruct (obj_sign_inner_ok _ _ _ _ _ _ SI) as (l & A & SI' & K).
    destruct (sign_inner_state kp l msg B L) as (r0 & ST). destruct (ST s Hs) as (s' & I' & E1). destruct (ST s0 H0) as (s0' & I0' & E0).
    rewrite SI' in E1. apply pair_equal_spec in E1. destruct E1 as [E1 ->]. exists l. unfold dsa_sign. rewrite E0.
    destruct r0 as [[r v]|e|]; injection E as <- <-; (split; [exact A|]); (split; [rewrite E1; exact I'|]); (split; [exact K|]); (split; [reflexivity|discriminate]).
  - unfold obj_verify in E. cbn [do_hf do_rd do_kp] in E. destruct (dsa_verify_state kp c msg B L) as (r0 & ST). destruct (ST s Hs) as (s' & I' & E1). destruct (ST s0 H0) as (s0' & I0' & E0).
    rewrite E1 in E. injection E as <- <-. exists []. rewrite E0. cbn [do_hf do_rd do_kp snd]. split; [constructor|]. split; [exact I'|]. split; [reflexivity|]. split; reflexivity.
Qed.
Lemma obj_results_ok s0 kp : I s0 -> forall ops s rd, I s -> Forall (dop_ok limit) ops ->
  exists segs rd', drawn src (kp_q kp) rd (concat segs) rd' /\
    obj_results src fuel D (mkDsa s rd kp) ops = map (fun '(op, l) => fresh_outcome D kp s0 l op) (combine ops segs) /\
    (length segs <= length ops)%nat /\ (Forall (fun x => snd x <> Panic) (obj_results src fuel D (mkDsa s rd kp) ops) -> length segs = length ops) /\
    (forall c msg l, In (DVerify c msg, l) (combine ops segs) -> l = []).
Proof.
  intros H0. induction ops as [|op ops IH]; intros s rd Hs F.
  { exists [], rd. split; [constructor|]. split; [reflexivity|]. split; [cbn; lia|]. split; [reflexivity|intros ? ? ? []]. }
  inversion F as [|? ? O F']; subst. cbn [obj_results]. destruct (obj_call _ _ _ _ _) as [o x] eqn:C.
  destruct (obj_call_ok s0 s rd kp op o x H0 Hs O C) as (l & A & Ho & K & -> & V). destruct o as [s1 rd1 kp1]. cbn [do_hf do_rd do_kp] in *. subst kp1.
  set (x := fresh_outcome D kp s0 l op). destruct (snd x) as [u|e|] eqn:SX.
  3: { assert (CN : combine ops (@nil (list Z)) = []) by (destruct ops; reflexivity).
       exists [l], rd1. cbn [concat combine map length]. rewrite app_nil_r, CN. split; [exact A|]. split; [reflexivity|]. split; [lia|]. split; [intros G; inversion G; subst; contradiction|].
       intros c msg l' [E|[]]. injection E as -> ->. exact (V _ _ eq_refl). }
  all: destruct (IH s1 rd1 Ho F') as (segs & rd' & A' & E' & L' & N' & V'); exists (l :: segs), rd'; cbn [concat combine map length];
    (split; [exact (drawn_app _ _ _ _ _ _ _ A A')|]); (split; [fold x; rewrite E'; reflexivity|]); (split; [lia|]);
    (split; [intros G; apply Forall_inv_tail in G; rewrite (N' G); reflexivity|]); intros c msg l' [E|E]; [injection E as -> ->; exact (V _ _ eq_refl)|exact (V' _ _ _ E)].
Qed.
Lemma obj_after_ok s0 kp : I s0 -> forall ops s rd, I s -> Forall (dop_ok limit) ops ->
  let o := obj_after src fuel D (mkDsa s rd kp) ops in I (do_hf o) /\ do_kp o = kp.
Proof.
  intros H0. induction ops as [|op ops IH]; intros s rd Hs F; [split; [exact Hs|reflexivity]|]. inversion F as [|? ? O F']; subst.
  unfold obj_after. cbn [fold_left]. destruct (obj_call _ _ _ _ _) as [o x] eqn:C. destruct (obj_call_ok s0 s rd kp op o x H0 Hs O C) as (l & A & Ho & K & _). cbn [fst].
  destruct o as [s1 rd1 kp1]. cbn [do_hf do_kp] in *. subst kp1. exact (IH s1 rd1 Ho F').
Qed.
End Obj.
