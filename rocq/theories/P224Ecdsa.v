(** ECDSA when the object's own multiples of the base point have other coordinates, which is what CurveP224 does. *)
From Coq Require Import Znumtheory String.
From Verif Require Import Base HashModel HashSpec HashApi NumTheory RsaModel RsaProofs RsaEncModel RsaEncProofs RsaSigProofs DsaModel DsaSpec DsaProofs Words
  EcGroup Fp EllModel EllSpec EllProofs EllApi ModesModel ModesSpec ModesApi ModesExtra AesModel AesSpec AesKeys EcdsaModel EcdsaSpec EcdsaGroup EcdsaProofs.

(** ** When (r, s) with s k = z + d r is accepted *)
Section Sig.
Variable c : curve.
Notation p := (cp_p c). Notation b := (cp_b c). Notation n := (cp_n c).
Notation G := (decode (cp_gx c, cp_gy c)).
Hypothesis GR : ECDSA_group p b n G.
Let S : sound_curve p b := proj1 GR.
Let Hp : prime p := proj1 S.
Let P3 : 3 < p := proj1 (proj2 S).
Let Hb : ~ cong p b 0 := proj1 (proj2 (proj2 S)).
Let Hd : ~ cong p (b * b) 4 := proj2 (proj2 (proj2 S)).
Let OG : on_curve p b G := proj1 (proj2 GR).
Let NG : G <> None := proj1 (proj2 (proj2 GR)).
Let Gn : prime n := proj1 (proj2 (proj2 (proj2 GR))).
Let N2 : 2 < n := proj1 (proj2 (proj2 (proj2 (proj2 GR)))).
Let MG : ec_multiple p (Z.to_nat n) G None := proj2 (proj2 (proj2 (proj2 (proj2 GR)))).
Notation on xy := (on_curve p b (decode xy)).
Notation phi := (phi p Hp). Notation psi := (psi p). Notation zmul := (zmul p Hp).
Notation fpadd := (@padd (Fp p) (f1 p Hp) (fadd p Hp) (fmul p Hp) (fsub p Hp) (fopp p Hp) (fdiv p Hp) (Fp_eq_dec p) (fa p Hp)).
Notation fon := (@EcGroup.on (Fp p) (fadd p Hp) (fmul p Hp) (fa p Hp) (fb p b Hp)).
Let on_iff := on_phi p b Hp P3.


Lemma accepted_iff d z k r s qx qy x y : 0 < k < n -> 0 <= d -> 0 <= z -> curve_scalar_base c d = Some (qx, qy) -> curve_scalar_base c k = Some (x, y) ->
  0 < r < n -> 0 < s < n -> (s * k) mod n = (z + d * r) mod n -> ECDSA_accepts p n G (decode (qx, qy)) z r s <-> r = x mod n.
Proof.
  intros K D0 Z0 EQ EB R0 S0 EK. destruct (multiple_order c GR d qx qy D0 EQ) as (OQ & MQ & FQ).
  destruct (base_point c GR k K) as (x' & y' & EB' & X & Y & O & DS & FK). rewrite EB in EB'. injection EB' as <- <-.
  assert (GC : Z.gcd s n = 1) by (apply prime_gcd_1; [exact Gn|intros D; apply Z.divide_pos_le in D; lia]).
  destruct (inv_mod_coprime s n ltac:(lia) GC) as (w & _ & RW & HW).
  assert (HW1 : cong n (s * w) 1) by (apply cong_mod; [lia|]; rewrite Z.mul_comm; exact HW).
  pose proof (Z.mod_pos_bound (z * w) n ltac:(lia)) as B1. pose proof (Z.mod_pos_bound (r * w) n ltac:(lia)) as B2.
  destruct (scalar_some c S (cp_gx c) (cp_gy c) ((z * w) mod n) OG ltac:(lia)) as (x1 & y1 & E1 & X1 & Y1 & O1 & F1).
  destruct (scalar_some c S qx qy ((r * w) mod n) OQ ltac:(lia)) as (x2 & y2 & E2 & X2 & Y2 & O2 & F2).
  destruct (api_add c S x1 y1 x2 y2 O1 O2) as (x3 & y3 & E3 & X3 & Y3 & O3 & F3).
  assert (EXY : (x3, y3) = (x, y)).
  { assert (SE : Some (x3, y3) = Some (x, y)); [|congruence]. rewrite <- E3, <- EB.
    etransitivity; [exact (add_ok p b Hp P3 c eq_refl x1 y1 x2 y2 O1 O2)|]. rewrite (base_ok c GR) by lia.
    apply (f_equal (fun v => Some (psi v))).
    assert (F1' : phi (x1, y1) = zmul ((z * w) mod n) (phi (cp_gx c, cp_gy c))) by exact F1. assert (F2' : phi (x2, y2) = zmul ((r * w) mod n) (phi (qx, qy))) by exact F2.
    assert (FQ' : phi (qx, qy) = zmul d (phi (cp_gx c, cp_gy c))) by exact FQ.
    change (fpadd (phi (x1, y1)) (phi (x2, y2)) = zmul k (phi (cp_gx c, cp_gy c))). rewrite F1', F2', FQ'.
    rewrite <- (zmul_mul p b Hp P3 Hd), <- (zmul_add p b Hp P3 Hd) by (try exact (PG_on c GR); try lia; apply Z.mul_nonneg_nonneg; lia).
    apply (order_eq c S Gn _ (PG_on c GR) (PG_n c GR)); [apply Z.add_nonneg_nonneg; [lia|apply Z.mul_nonneg_nonneg; lia]|lia|]. apply cong_mod; [lia|].
    apply cong_mod in EK; [|lia].
    apply (cong_trans n _ (w * (s * k))).
    - apply (cong_trans n _ (w * (z + d * r))); [|apply cong_mul; [apply cong_refl|apply cong_sym, EK]].
      replace (w * (z + d * r)) with (z * w + r * w * d) by ring. apply cong_add; [|apply cong_mul; [|apply cong_refl]]; apply cong_mod; try lia; apply Z.mod_mod; lia.
    - replace (w * (s * k)) with (s * w * k) by ring. rewrite <- (Z.mul_1_l k) at 2. apply cong_mul; [exact HW1|apply cong_refl]. }
  injection EXY as -> ->. split.
  - intros (_ & _ & w' & U & V & x' & y' & HW' & MU & MV & SU & RX & ER).
    assert (CW : cong n w' w).
    { apply cong_1 in HW'; [|lia]. apply (cong_trans n _ (w' * (s * w))).
      - rewrite <- (Z.mul_1_r w') at 1. apply cong_mul; [apply cong_refl|apply cong_sym, HW1].
      - replace (w' * (s * w)) with (s * w' * w) by ring. rewrite <- (Z.mul_1_l w) at 2. apply cong_mul; [exact HW'|apply cong_refl]. }
    replace ((z * w') mod n) with ((z * w) mod n) in MU by (apply cong_mod; [lia|apply cong_mul; [apply cong_refl|apply cong_sym, CW]]).
    replace ((r * w') mod n) with ((r * w) mod n) in MV by (apply cong_mod; [lia|apply cong_mul; [apply cong_refl|apply cong_sym, CW]]).
    apply (multiple_ok c S) in MU; [|exact OG]. apply (multiple_ok c S) in MV; [|exact OQ]. rewrite Z2Nat.id in MU, MV by lia.
    destruct MU as (a1 & a2 & EA & SA). rewrite E1 in EA. injection EA as <- <-. destruct MV as (b1 & b2 & EBB & SB). rewrite E2 in EBB. injection EBB as <- <-.
    apply same_sym in SA. apply same_sym in SB. pose proof (sum_proper p _ _ _ _ _ _ SA SB (same_refl p _) SU) as SU'.
    pose proof (sum_unique p _ _ _ _ Hp P3 F3 SU') as SP. rewrite DS in SP. rewrite (base_inj c GR _ _ _ _ X RX SP). exact ER.
  - intros ER. split; [exact R0|]. split; [exact S0|]. exists w, (decode (x1, y1)), (decode (x2, y2)), x, y.
    split; [apply cong_1; [lia|exact HW1]|].
    split; [apply (multiple_ok c S); [exact OG|]; rewrite Z2Nat.id by lia; exists x1, y1; split; [exact E1|apply same_refl]|].
    split; [apply (multiple_ok c S); [exact OQ|]; rewrite Z2Nat.id by lia; exists x2, y2; split; [exact E2|apply same_refl]|].
    split; [|split; [exact X|exact ER]]. rewrite <- DS. exact F3.
Qed.
End Sig.

(** ** The signing loop with base multiples (t x, u y) for (x, y) *)
Section Loop.
Variable o : ec_obj.
Notation c := (eo_params o). Notation p := (cp_p c). Notation b := (cp_b c). Notation n := (cp_n c).
Notation G := (decode (cp_gx c, cp_gy c)).
Variables t u : Z -> Z.
Hypothesis GR : ECDSA_group p b n G.
Hypothesis BASE : forall k x y, 0 < k < n -> curve_scalar_base c k = Some (x, y) -> eo_base o k = Some (t x, u y).
Variables (d z : Z) (key : list Z).
Hypothesis KB : bytes key.
Hypothesis KL : length key = 32%nat.
Notation nonce := (ECDSA_nonce n (element_len c) key ECDSA_IV).
Definition tsig k r s := exists x y, curve_scalar_base c k = Some (x, y) /\ r = t x mod n /\ 0 < r < n /\ 0 < s < n /\ (s * k) mod n = (z + d * r) mod n.
Definition tsigns k := exists r s, tsig k r s.
Lemma tloop_ok fuel : forall j,
  (exists i r s, (i < fuel)%nat /\ tsig (nonce (j + i)) r s /\ (forall i', (i' < i)%nat -> ~ tsigns (nonce (j + i'))) /\
     ec_sign_loop fuel o d z (gk c key j) = Ok (r, s)) \/
  ((forall i, (i < fuel)%nat -> ~ tsigns (nonce (j + i))) /\ ec_sign_loop fuel o d z (gk c key j) = Panic).
Proof.
  assert (N2 : 2 < n) by apply GR. induction fuel as [|fuel IH]; intros j; [right; split; [lia|reflexivity]|].
  assert (NR := fun j => nonce_range n (element_len c) key ECDSA_IV j ltac:(lia)).
  assert (STEP : (exists r s, tsig (nonce j) r s /\ ec_sign_loop (S fuel) o d z (gk c key j) = Ok (r, s)) \/
    (~ tsigns (nonce j) /\ ec_sign_loop (S fuel) o d z (gk c key j) = ec_sign_loop fuel o d z (gk c key (S j)))).
  { cbn [ec_sign_loop]. rewrite (read_ok c key KB KL).
    destruct (base_point c GR (nonce j) (NR j)) as (x & y & E & X & _). rewrite (BASE _ x y (NR j) E).
    pose proof (Z.mod_pos_bound (t x) n ltac:(lia)) as RB. pose proof (Z.mod_pos_bound ((d * (t x mod n) + z) * fermat_inverse (nonce j) n) n ltac:(lia)) as SB.
    destruct (Z.eqb_spec (Z.sgn (t x mod n)) 1) as [R|R].
    - apply Z.sgn_pos_iff in R. destruct (Z.eqb_spec (Z.sgn (((d * (t x mod n) + z) * fermat_inverse (nonce j) n) mod n)) 1) as [SS|SS].
      + apply Z.sgn_pos_iff in SS. left. eexists. eexists. split; [|reflexivity]. exists x, y. split; [exact E|]. split; [reflexivity|]. split; [lia|]. split; [lia|].
        apply (s_value c GR); [apply NR|exact SB|reflexivity].
      + right. split; [|reflexivity]. intros (r & s & x' & y' & E' & -> & R0 & S0 & SV). rewrite E in E'. injection E' as <- <-.
        apply (s_value c GR) in SV; [|apply NR|lia]. apply SS, Z.sgn_pos_iff. rewrite <- SV. lia.
    - right. split; [|reflexivity]. intros (r & s & x' & y' & E' & -> & R0 & _). rewrite E in E'. injection E' as <- <-. apply R, Z.sgn_pos_iff. lia. }
  destruct STEP as [(r & s & SG & E)|[NS E]].
  - left. exists 0%nat, r, s. rewrite Nat.add_0_r. split; [lia|]. split; [exact SG|]. split; [lia|exact E].
  - rewrite E. destruct (IH (S j)) as [(i & r & s & L & SG & B & EI)|[B EI]].
    + left. exists (S i), r, s. rewrite <- plus_n_Sm. split; [lia|]. split; [exact SG|]. split; [|exact EI].
      intros i' L'. destruct i' as [|i']; [rewrite Nat.add_0_r; exact NS|]. rewrite <- plus_n_Sm. apply B. lia.
    + right. split; [|exact EI]. intros i' L'. destruct i' as [|i']; [rewrite Nat.add_0_r; exact NS|]. rewrite <- plus_n_Sm. apply B. lia.
Qed.
End Loop.

Section Obj.
Context {S : Type}.
Variables (D : digest S) (I : S -> Prop) (H : list Z -> list Z) (limit : Z).
Hypothesis HG : DigestOk D I H limit.
(** Signing: the nonces of the specification, in turn. *)
Lemma tsign_ok t u fuel o ws sc m pk d :
  let c := eo_params (es_curve o) in let G := decode (cp_gx c, cp_gy c) in
  ECDSA_group (cp_p c) (cp_b c) (cp_n c) G ->
  (forall k x y, 0 < k < cp_n c -> curve_scalar_base c k = Some (x, y) -> eo_base (es_curve o) k = Some (t x, u y)) ->
  es_kp o = inr (mkEpriv pk d) -> es_dbytes o = Some (to_be_bytes d) -> I (es_hf o) -> bytes m -> Z.of_nat (length m) < limit ->
  Z.of_nat (length (to_be_bytes d)) + Z.of_nat (length (H m)) + 32 < 2 ^ 64 ->
  let z := DSA_z (Z.of_nat (bits_len (cp_n c))) (H m) in
  let key := ECDSA_key (to_be_bytes d) (fst (draw_bytes (entropy_len c) ws)) (H m) in
  let nonce := ECDSA_nonce (cp_n c) (element_len c) key ECDSA_IV in
  let res := ecdsa_sign D fuel o ws sc m in
  snd (fst (fst res)) = snd (draw_bytes (entropy_len c) ws) /\
  ((exists i r s, (i < fuel)%nat /\ tsig (es_curve o) t d z (nonce i) r s /\
      (forall i', (i' < i)%nat -> ~ exists r' s', tsig (es_curve o) t d z (nonce i') r' s') /\
      snd res = Ok tt /\ snd (fst res) = sigc_set sc r s) \/
   ((forall i, (i < fuel)%nat -> ~ exists r' s', tsig (es_curve o) t d z (nonce i) r' s') /\ snd res = Panic)).
Proof.
  intros c G GR BASE KP DB IH B L LL z key nonce res.
  assert (HB : bytes (H m) /\ length (H m) = (d_bits_len D / 8)%nat) by (destruct HG as [_ _ _ _ _ G6]; destruct (G6 m B L); auto).
  destruct HB as [HB _]. pose proof (ec_hash_ok D I H limit HG o m IH B L) as EH. destruct (ec_hash_keeps D I H limit HG o m IH) as (A1 & A2 & A3 & A4).
  subst res. unfold ecdsa_sign. set (o1 := ec_hash D o m) in *. clearbody o1. unfold ec_sign_inner. rewrite A1, A2, A3, KP, DB, EH. cbn [ekp_private ed_d].
  fold c. destruct (draw_bytes_bytes (entropy_len c) ws) as [DBB DBL]. subst nonce key. destruct (draw_bytes (entropy_len c) ws) as [en ws'] eqn:DR. cbn [fst snd] in *.
  assert (EL : (length en <= 32)%nat) by (unfold entropy_len in DBL; lia).
  destruct (hash_run_ok SHA512 _ _ _ sha512_ok (es_md o1) [to_be_bytes d; en; H m] Logic.I) as (md & EM & _).
  { repeat constructor; [apply to_be_bytes_are|exact DBB|exact HB]. }
  { cbn [concat]. rewrite !app_length. cbn [length]. change M64 with (2 ^ 64). lia. }
  rewrite EM. cbn [concat] in *. rewrite app_nil_r.
  assert (KK : bytes (SHA512_hash (to_be_bytes d ++ en ++ H m)) /\ length (SHA512_hash (to_be_bytes d ++ en ++ H m)) = 64%nat).
  { destruct sha512_ok as [_ _ _ _ _ G6]. destruct (G6 (to_be_bytes d ++ en ++ H m)) as [X Y].
    - apply bytes_app. split; [apply to_be_bytes_are|]. apply bytes_app. split; [exact DBB|exact HB].
    - rewrite !app_length. change M64 with (2 ^ 64). lia.
    - split; [exact Y|]. rewrite X. reflexivity. }
  fold (ECDSA_key (to_be_bytes d) en (H m)). set (key := ECDSA_key (to_be_bytes d) en (H m)).
  assert (KB : bytes key) by (unfold key, ECDSA_key; apply Forall_firstn', KK).
  assert (KL : length key = 32%nat) by (unfold key, ECDSA_key; rewrite firstn_length, (proj2 KK); reflexivity).
  clearbody key. clear KK EM. rewrite (csprng_ok key KL).
  assert (N2 : 2 < cp_n c) by apply GR. rewrite (proj2 (sgn1 (cp_n c)) ltac:(lia)). cbn [es_curve es_hash].
  rewrite hash_number by exact HB. fold z.
  change (g0 key) with (gk c key 0).
  destruct (tloop_ok (es_curve o) t u GR BASE d z key KB KL fuel 0) as [(i & r & s & LI & SG & BE & E)|[BE E]]; fold c in E; rewrite E; cbn [fst snd]; (split; [reflexivity|]).
  - left. exists i, r, s. cbn [Nat.add] in *. split; [exact LI|]. split; [exact SG|]. split; [exact BE|]. split; reflexivity.
  - right. split; [exact BE|reflexivity].
Qed.
End Obj.
