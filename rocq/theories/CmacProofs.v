(** CMAC objects compute the SP 800-38B value in every history. *)
From Verif Require Import Base Words ModesModel ModesSpec HashModel HashSpec MacModel MacSpec MdProofs HashApi.

(** ** Subkeys: the bytewise shift is doubling in GF(2^(8b)) *)
Lemma shl_go_val l : forall cur, bytes l -> byte cur -> Z.even cur = true ->
  be_val (shl_go cur l) = cur * 256 ^ Z.of_nat (length l) + 2 * be_val l /\
  length (shl_go cur l) = S (length l) /\ bytes (shl_go cur l).
Proof.
  induction l as [|a l IH]; intros cur Hl Hc He.
  - cbn [shl_go length]. split; [cbn; lia|]. split; [reflexivity|]. constructor; [exact Hc|constructor].
  - unfold bytes in Hl. apply Forall_cons_iff in Hl as [Ha Hl]. cbn [shl_go].
    assert (Hs : byte ((Z.shiftl a 1) mod 256)) by (unfold byte; apply Z.mod_pos_bound; lia).
    assert (Hse : Z.even ((Z.shiftl a 1) mod 256) = true).
    { rewrite Z.shiftl_mul_pow2 by lia. change (2 ^ 1) with 2. apply Z.even_spec. exists (a mod 128).
      rewrite Z.mul_comm. change 256 with (2 * 128). rewrite Z.mul_mod_distr_l by lia. reflexivity. }
    destruct (IH _ Hl Hs Hse) as (V & L & By).
    assert (Hor : Z.lor cur (Z.shiftr a 7) = cur + a / 128).
    { rewrite Z.shiftr_div_pow2 by lia. change (2 ^ 7) with 128.
      assert (R : 0 <= a / 128 < 2) by (unfold byte in Ha; split; [apply Z.div_pos; lia|apply Z.div_lt_upper_bound; lia]).
      rewrite <- Z.lxor_lor; [rewrite Z.add_nocarry_lxor; [reflexivity|]|];
        (apply Z.bits_inj'; intros i Hi; rewrite Z.land_spec, Z.bits_0;
         destruct (Z.eq_dec i 0) as [->|Ni];
         [rewrite Z.bit0_odd, <- Z.negb_even, He; reflexivity|
          assert (Z.testbit (a / 128) i = false) as ->; [|apply andb_false_r];
          rewrite Z.testbit_eqb by lia; rewrite Z.div_small; [reflexivity|]; split; [lia|];
          apply Z.lt_le_trans with (2 ^ 1); [cbn; lia|apply Z.pow_le_mono_r; lia]]). }
    rewrite Hor. split; [|split].
    + change (be_val ((cur + a / 128) :: shl_go ((Z.shiftl a 1) mod 256) l)) with (be_val ([cur + a / 128] ++ shl_go ((Z.shiftl a 1) mod 256) l)).
      change (be_val (a :: l)) with (be_val ([a] ++ l)). rewrite !be_val_app, V, L. cbn [be_val fold_left length].
      rewrite Z.shiftl_mul_pow2 by lia. change (2 ^ 1) with 2. rewrite Nat2Z.inj_succ, Z.pow_succ_r by lia.
      assert (E : a * 2 = 256 * (a / 128) + (a * 2) mod 256).
      { replace (a / 128) with ((a * 2) / 256); [apply Z.div_mod; lia|]. change 256 with (128 * 2). apply Z.div_mul_cancel_r; lia. }
      generalize dependent ((a * 2) mod 256). intros r **. generalize (a / 128) E. intros q E'. nia.
    + cbn [length]. rewrite L. reflexivity.
    + constructor; [|exact By]. unfold byte in *. apply Z.even_spec in He. destruct He as [k ->].
      assert (0 <= a / 128 < 2) by (split; [apply Z.div_pos; lia|apply Z.div_lt_upper_bound; lia]). lia.
Qed.
Lemma shl_one_val l : bytes l -> l <> [] ->
  be_val (shl_one l) = (2 * be_val l) mod 256 ^ Z.of_nat (length l) /\ length (shl_one l) = length l /\ bytes (shl_one l).
Proof.
  destruct l as [|a l]; [congruence|]. intros Hl _. unfold bytes in Hl. apply Forall_cons_iff in Hl as [Ha Hl]. cbn [shl_one].
  assert (Hs : byte ((Z.shiftl a 1) mod 256)) by (unfold byte; apply Z.mod_pos_bound; lia).
  assert (Hse : Z.even ((Z.shiftl a 1) mod 256) = true).
  { rewrite Z.shiftl_mul_pow2 by lia. change (2 ^ 1) with 2. apply Z.even_spec. exists (a mod 128).
    rewrite Z.mul_comm. change 256 with (2 * 128). rewrite Z.mul_mod_distr_l by lia. reflexivity. }
  destruct (shl_go_val l _ Hl Hs Hse) as (V & L & By). split; [|split; assumption]. rewrite V.
  pose proof (be_val_bound _ By) as Bd. rewrite V, L in Bd.
  change (be_val (a :: l)) with (be_val ([a] ++ l)). rewrite be_val_app. cbn [be_val fold_left length].
  apply Z.mod_unique_pos with (q := (a * 2) / 256); [exact Bd|].
  rewrite Z.shiftl_mul_pow2 by lia. change (2 ^ 1) with 2. rewrite Nat2Z.inj_succ, Z.pow_succ_r by lia.
  pose proof (Z.div_mod (a * 2) 256 ltac:(lia)) as E. generalize dependent ((a * 2) mod 256). intros r **. nia.
Qed.
Lemma cm_dbl_ok b R l : bytes l -> length l = b -> (0 < b)%nat -> 0 <= R < 256 ^ Z.of_nat b ->
  cm_dbl (be_bytes b R) l = gf_double b R l.
Proof.
  intros Hl Lb Hb HR. assert (N : l <> []) by (intros ->; cbn in Lb; lia).
  destruct (shl_one_val l Hl N) as (V & L & By). rewrite Lb in V, L. unfold cm_dbl, gf_double.
  pose proof (be_val_bound l Hl) as Bd. rewrite Lb in Bd.
  assert (T : (0 <? Z.shiftr (hd 0 l) 7) = negb (2 * be_val l <? 256 ^ Z.of_nat b)).
  { destruct l as [|a l]; [congruence|]. cbn [hd]. unfold bytes in Hl. apply Forall_cons_iff in Hl as [Ha Hl].
    rewrite Z.shiftr_div_pow2 by lia. change (2 ^ 7) with 128. rewrite <- Lb.
    change (be_val (a :: l)) with (be_val ([a] ++ l)). rewrite be_val_app. cbn [be_val fold_left length].
    pose proof (be_val_bound l Hl) as B2. rewrite Nat2Z.inj_succ, Z.pow_succ_r by lia.
    unfold byte in Ha. destruct (Z.ltb_spec 0 (a / 128)) as [Q|Q]; destruct (Z.ltb_spec (2 * ((0 * 256 + a) * 256 ^ Z.of_nat (length l) + be_val l)) (256 * 256 ^ Z.of_nat (length l))) as [P|P]; cbn [negb]; auto; exfalso.
    - assert (128 <= a) by (destruct (Z_lt_le_dec a 128); [rewrite Z.div_small in Q; lia|lia]). nia.
    - assert (a < 128) by (destruct (Z_lt_le_dec a 128); [lia|]; assert (1 <= a / 128) by (apply Z.div_le_lower_bound; lia); lia). nia. }
  rewrite T. destruct (Z.ltb_spec (2 * be_val l) (256 ^ Z.of_nat b)) as [Q|Q]; cbn [negb].
  - rewrite Z.mod_small in V by lia. rewrite <- V, <- L. symmetry. apply be_bytes_val. exact By.
  - assert (V' : be_val (shl_one l) = 2 * be_val l - 256 ^ Z.of_nat b).
    { rewrite V. symmetry. apply Z.mod_unique_pos with (q := 1); lia. }
    unfold xor_into. rewrite be_bytes_length, skipn_all2 by lia. rewrite app_nil_r.
    assert (X : be_val (be_bytes b R) = R) by (rewrite be_val_bytes; apply Z.mod_small; lia).
    assert (Y : Z.lxor (2 * be_val l - 256 ^ Z.of_nat b) R = be_val (xorl (shl_one l) (be_bytes b R))).
    { rewrite <- be_val_lxor by (auto using be_bytes_bytes; rewrite be_bytes_length; lia). rewrite V', X. reflexivity. }
    rewrite Y.
    assert (LX : length (xorl (shl_one l) (be_bytes b R)) = b) by (rewrite xorl_length, be_bytes_length; lia).
    rewrite <- LX at 2. symmetry. apply be_bytes_val. apply xorl_bytes; auto using be_bytes_bytes.
Qed.
Lemma rb_ok b R : block_size_to_rb b = Some R -> (0 < b)%nat /\ 0 <= R < 256 ^ Z.of_nat b /\ rb_buf b R = be_bytes b R.
Proof.
  unfold block_size_to_rb. intros H. destruct (find _ rb_table) as [e|] eqn:F; [|discriminate H]. injection H as <-.
  apply find_some in F as [I E]. apply Z.eqb_eq in E.
  assert (G : forallb (fun e => (0 <? fst e) && (0 <=? snd e) && (snd e <? 256 ^ fst e) &&
    if list_eq_dec Z.eq_dec (rb_buf (Z.to_nat (fst e)) (snd e)) (be_bytes (Z.to_nat (fst e)) (snd e)) then true else false) rb_table = true)
    by (vm_compute; reflexivity).
  rewrite forallb_forall in G. specialize (G e I). rewrite !andb_true_iff in G. destruct G as (((G1 & G2) & G3) & G4).
  rewrite <- E, <- (Nat2Z.id b), <- E.
  apply Z.ltb_lt in G1, G3. apply Z.leb_le in G2.
  destruct (list_eq_dec _ _ _) as [G|]; [|discriminate G4]. repeat split; auto; lia.
Qed.
Lemma gf_double_length b R l : length (gf_double b R l) = b.
Proof. apply be_bytes_length. Qed.
Lemma gf_double_bytes b R l : bytes (gf_double b R l).
Proof. apply be_bytes_bytes. Qed.

(** ** Histories *)
Section CmacP.
Variables (c : cipher) (b : nat) (E Dd : list Z -> list Z) (R : Z).
Hypothesis HG : GoodCipher c b E Dd.
Hypothesis HR : block_size_to_rb b = Some R.
Notation MAC := (CMAC_value E b R).

Definition cm_exec (st : res (cmac * list (list Z))) (o : hop) : res (cmac * list (list Z)) :=
  rbind st (fun '(s, outs) =>
  match o with
  | HWrite d => rbind (cmac_write c b s d) (fun s => Ok (s, outs))
  | HChecksum => rbind (cmac_checksum c b s) (fun '(s, dg) => Ok (s, outs ++ [dg]))
  | HReset => Ok (cmac_reset b s, outs)
  end).
Definition cbc (w : list Z) : list Z := fold_left (fun C M => E (xorl C M)) (chunks b w) (repeat 0 b).

Lemma b_pos : (0 < b)%nat.
Proof. exact (gc_pos _ _ _ _ HG). Qed.
Lemma Eok x : length x = b -> bytes x -> length (E x) = b /\ bytes (E x).
Proof. exact (gc_E _ _ _ _ HG x). Qed.
Lemma enc_ok x : length x = b -> enc_unwrap c x = Ok (E x).
Proof. intros H. unfold enc_unwrap. rewrite (gc_enc _ _ _ _ HG) by exact H. reflexivity. Qed.
Lemma zb : bytes (repeat 0 b).
Proof. apply bytes_repeat. unfold byte. lia. Qed.
Lemma cbc_app w x : (length w mod b = 0)%nat -> length x = b -> cbc (w ++ x) = E (xorl (cbc w) x).
Proof.
  intros Hw Hx. pose proof b_pos. unfold cbc. rewrite chunks_app_mult by (auto; lia). rewrite fold_left_app.
  rewrite <- (app_nil_r x) at 1. rewrite chunks_app, chunks_nil by (auto; lia). reflexivity.
Qed.
Lemma cbc_ok w : (length w mod b = 0)%nat -> bytes w -> length (cbc w) = b /\ bytes (cbc w).
Proof.
  intros Hw Bw. pose proof b_pos as Hb. unfold cbc.
  pose proof (chunks_lengths b w ltac:(lia) Hw) as FL. pose proof (chunks_bytes b w Hb Bw) as FB.
  assert (HI : length (repeat 0 b) = b /\ bytes (repeat 0 b)) by (split; [apply repeat_length|exact zb]).
  revert HI FL FB. generalize (repeat 0 b) as i, (chunks b w) as cs. intros i cs. revert i.
  induction cs as [|x cs IH]; intros i [Hi Bi] FL FB; cbn [fold_left]; [auto|].
  apply Forall_cons_iff in FL as [L1 L2]. apply Forall_cons_iff in FB as [F1 F2]. apply IH; auto.
  apply Eok; [rewrite xorl_length; lia|apply xorl_bytes; auto].
Qed.
Lemma cbc_nil : cbc [] = repeat 0 b.
Proof. unfold cbc. rewrite chunks_nil by exact b_pos. reflexivity. Qed.
Lemma mod_add_b n k : (n mod b = 0)%nat -> k = b -> ((n + k) mod b = 0)%nat.
Proof. intros H ->. pose proof b_pos. rewrite Nat.add_mod, Nat.mod_same by lia. rewrite H. apply Nat.mod_0_l. lia. Qed.

Lemma cm_blocks_ok : forall fuel cur data w, (length w mod b = 0)%nat -> bytes w -> bytes data ->
  (0 < length data <= fuel)%nat ->
  exists w' cur' data', cm_blocks c b fuel (cbc w) cur data = Ok (cbc w', cur', data') /\ w ++ data = w' ++ data' /\
    (length w' mod b = 0)%nat /\ (0 < length data' <= b)%nat.
Proof.
  pose proof b_pos as Hb. induction fuel as [|fuel IH]; intros cur data w Hw Bw Bd Hl; [lia|]. cbn [cm_blocks].
  destruct (Nat.ltb_spec b (length data)) as [Q|Q].
  - assert (L1 : length (firstn b data) = b) by (apply firstn_length_le; lia).
    destruct (cbc_ok w Hw Bw) as [L2 B2]. rewrite enc_ok by (rewrite xorl_length; lia). cbn [rbind].
    rewrite <- cbc_app by auto.
    destruct (IH (xorl (cbc w) (firstn b data)) (skipn b data) (w ++ firstn b data)) as (w' & cur' & data' & E1 & E2 & E3 & E4).
    + rewrite app_length. apply mod_add_b; auto.
    + apply bytes_app. split; [exact Bw|apply bytes_firstn; exact Bd].
    + apply bytes_skipn. exact Bd.
    + rewrite skipn_length. lia.
    + exists w', cur', data'. split; [exact E1|]. split; [|auto]. rewrite <- E2, <- app_assoc, firstn_skipn. reflexivity.
  - exists w, cur, data. split; [reflexivity|]. split; [reflexivity|]. split; [exact Hw|lia].
Qed.
(** The state of an unfinished object holding the message [m]. *)
Definition copen (s : cmac) (m : list Z) : Prop :=
  cm_check s = false /\ exists w, m = w ++ cm_data s /\ (length w mod b = 0)%nat /\ (length (cm_data s) <= b)%nat /\
    (cm_data s = [] -> w = []) /\ cm_nonce s = cbc w.
Definition crep (s : cmac) (m : list Z) (fin : bool) : Prop :=
  cm_k1 s = CMAC_K1 E b R /\ cm_k2 s = CMAC_K2 E b R /\
  if fin then cm_check s = true /\ cm_data s = [] /\ cm_nonce s = MAC m else copen s m.

Lemma xor_into_eq a x : length x = length a -> xor_into a x = xorl a x.
Proof. intros L. unfold xor_into. rewrite skipn_all2 by lia. apply app_nil_r. Qed.
Lemma crep_write s m fin d : crep s m fin -> bytes m -> bytes d ->
  exists s', cmac_write c b s d = Ok s' /\ crep s' (if fin then d else m ++ d) false.
Proof.
  intros (K1 & K2 & I) Bm Bd. pose proof b_pos as Hb.
  assert (P : exists w, (if fin then d else m ++ d) = w ++ cm_data s ++ d /\ (length w mod b = 0)%nat /\ (length (cm_data s) <= b)%nat /\
     (cm_data s = [] -> w = []) /\ (if cm_check s then repeat 0 b else cm_nonce s) = cbc w /\ bytes w /\ bytes (cm_data s)).
  { destruct fin.
    - destruct I as (I1 & I2 & I3). exists []. rewrite I1, I2. rewrite cbc_nil. cbn [app length].
      repeat split; try lia; try apply Forall_nil. apply Nat.mod_0_l. lia.
    - destruct I as (I1 & w & -> & I3 & I4 & I5 & I6). apply bytes_app in Bm as [B1 B2]. exists w. rewrite I1. rewrite <- app_assoc. auto 10. }
  destruct P as (w & -> & Hw & Hd & Hz & Hn & Bw & Bc). unfold cmac_write. rewrite Hn.
  destruct (Nat.ltb_spec (length d + length (cm_data s)) b) as [Q|Q].
  - rewrite app_length. cbn [length].
    rewrite (proj2 (Nat.ltb_ge b _)) by lia. cbn [rbind]. eexists. split; [reflexivity|].
    split; [exact K1|]. split; [exact K2|]. split; [reflexivity|]. exists w. cbn [cm_data cm_nonce].
    repeat split; auto; [rewrite app_length; lia|]. intros Z. apply Hz. destruct (cm_data s); [reflexivity|discriminate Z].
  - set (len := (b - length (cm_data s))%nat). assert (L1 : length (firstn len d) = len) by (apply firstn_length_le; lia).
    assert (Lc : length (cm_data s ++ firstn len d) = b) by (rewrite app_length; lia).
    assert (Bc2 : bytes (cm_data s ++ firstn len d)) by (apply bytes_app; split; [exact Bc|apply bytes_firstn; exact Bd]).
    rewrite Lc. destruct (cbc_ok w Hw Bw) as [L2 B2].
    assert (Em : w ++ cm_data s ++ d = (w ++ (cm_data s ++ firstn len d)) ++ skipn len d)
      by (rewrite <- !app_assoc, firstn_skipn; reflexivity).
    destruct (Nat.ltb_spec b (b + length (skipn len d))) as [G|G].
    + rewrite xor_into_eq by lia. rewrite enc_ok by (rewrite xorl_length; lia). cbn [rbind].
      rewrite xorl_comm, <- cbc_app by auto.
      destruct (cm_blocks_ok (length (skipn len d)) (xorl (cbc w) (cm_data s ++ firstn len d)) (skipn len d) (w ++ cm_data s ++ firstn len d)) as (w' & cur' & data' & E1 & E2 & E3 & E4).
      * rewrite app_length. apply mod_add_b; auto.
      * apply bytes_app; auto.
      * apply bytes_skipn; exact Bd.
      * lia.
      * rewrite E1. cbn [rbind]. eexists. split; [reflexivity|]. split; [exact K1|]. split; [exact K2|]. split; [reflexivity|].
        exists w'. cbn [cm_data cm_nonce]. rewrite Em, E2. destruct data' as [|x data']; [cbn in E4; lia|].
        repeat split; auto; [lia|discriminate].
    + assert (Z : skipn len d = []) by (apply length_zero_iff_nil; lia). cbn [rbind]. rewrite Z in *. eexists. split; [reflexivity|].
      split; [exact K1|]. split; [exact K2|]. split; [reflexivity|]. exists w. cbn [cm_data cm_nonce].
      rewrite Em, app_nil_r. repeat split; auto; [lia|]. intros Z2. rewrite Z2 in Lc. cbn in Lc. lia.
Qed.
Lemma sub_ok : bytes (CMAC_K1 E b R) /\ length (CMAC_K1 E b R) = b /\ bytes (CMAC_K2 E b R) /\ length (CMAC_K2 E b R) = b.
Proof. unfold CMAC_K2, CMAC_K1. repeat split; auto using gf_double_length, gf_double_bytes. Qed.
Lemma crep_checksum s m fin : crep s m fin -> bytes m ->
  exists s', cmac_checksum c b s = Ok (s', MAC m) /\ crep s' m true.
Proof.
  intros (K1 & K2 & I) Bm. pose proof b_pos as Hb. destruct sub_ok as (S1 & S2 & S3 & S4). unfold cmac_checksum. destruct fin.
  - destruct I as (I1 & I2 & I3). rewrite I1, I3. cbn [negb]. exists s. split; [reflexivity|]. split; [exact K1|]. split; [exact K2|]. auto.
  - destruct I as (I1 & w & -> & I3 & I4 & I5 & I6). apply bytes_app in Bm as [B1 B2]. rewrite I1. cbn [negb].
    destruct (cbc_ok w I3 B1) as [L2 B3].
    assert (D : (length w = length w / b * b)%nat) by (pose proof (Nat.div_mod (length w) b ltac:(lia)); lia).
    assert (V : MAC (w ++ cm_data s) = E (if (length (cm_data s) =? b)%nat then xorl (xorl (cm_data s) (cm_k1 s)) (cm_nonce s)
      else xorl (xorl (resize0 b (cm_data s ++ [128])) (cm_k2 s)) (cm_nonce s))).
    { unfold CMAC_value. rewrite I6, K1, K2.
      destruct (Nat.eqb_spec (length (cm_data s)) b) as [Q|Q].
      - rewrite app_length. rewrite (proj2 (Nat.ltb_lt 0 _)) by lia. rewrite (mod_add_b _ _ I3 Q). cbn [andb Nat.eqb].
        rewrite Q, Nat.add_sub. rewrite skipn_app, skipn_all, Nat.sub_diag. cbn [skipn app].
        rewrite firstn_app, Nat.sub_diag, firstn_all, firstn_O, app_nil_r. rewrite xorl_comm. reflexivity.
      - assert (Q' : (length (cm_data s) < b)%nat) by lia.
        assert (Cf : ((0 <? length (w ++ cm_data s)) && (length (w ++ cm_data s) mod b =? 0))%nat = false).
        { destruct (cm_data s) as [|x t] eqn:Ed.
          - rewrite (I5 eq_refl). reflexivity.
          - apply andb_false_iff. right. apply Nat.eqb_neq. rewrite app_length, Nat.add_mod, I3 by lia.
            rewrite Nat.add_0_l, Nat.mod_mod, Nat.mod_small by lia. cbn [length]. lia. }
        rewrite Cf. assert (Kk : (length (w ++ cm_data s) / b * b = length w)%nat).
        { rewrite app_length. rewrite D at 1. rewrite Nat.div_add_l by lia. rewrite (Nat.div_small (length (cm_data s))) by lia. lia. }
        rewrite Kk. rewrite skipn_app, skipn_all, Nat.sub_diag. cbn [skipn app].
        rewrite firstn_app, Nat.sub_diag, firstn_all, firstn_O, app_nil_r. f_equal. rewrite xorl_comm. f_equal. f_equal.
        unfold resize0. rewrite firstn_all2 by (rewrite app_length; cbn [length]; lia). rewrite <- app_assoc, app_length. cbn [app length].
        do 3 f_equal. lia. }
    rewrite V. rewrite enc_ok.
    + cbn [rbind]. eexists. split; [reflexivity|]. split; [exact K1|]. split; [exact K2|]. cbn [cm_check cm_data cm_nonce]. auto.
    + rewrite I6, K1, K2. destruct (Nat.eqb_spec (length (cm_data s)) b) as [Q|Q]; rewrite !xorl_length; [lia|].
      unfold resize0. rewrite app_length, firstn_length, repeat_length, app_length. cbn [length]. lia.
Qed.
Lemma crep_reset s m fin : crep s m fin -> crep (cmac_reset b s) [] false.
Proof.
  intros (K1 & K2 & _). pose proof b_pos. split; [exact K1|]. split; [exact K2|]. split; [reflexivity|]. exists []. cbn [cmac_reset cm_data cm_nonce].
  rewrite cbc_nil. repeat split; auto; cbn [length]; [apply Nat.mod_0_l; lia|lia].
Qed.
Definition mop_of (o : hop) : mop := match o with HWrite d => MWrite d | HChecksum => MChecksum | HReset => MReset end.
Lemma cmac_history os : forall s m fin outs, crep s m fin -> bytes m -> Forall op_bytes os ->
  exists s', fold_left cm_exec os (Ok (s, outs)) = Ok (s', outs ++ mac_run (fun _ => MAC) [] m fin (map mop_of os)).
Proof.
  induction os as [|o os IH]; intros s m fin outs Rp Bm Fo; cbn [fold_left map mac_run]; [exists s; rewrite app_nil_r; reflexivity|].
  apply Forall_cons_iff in Fo as [F1 F2]. destruct o as [d| |]; cbn [mop_of mac_run].
  - destruct (crep_write s m fin d Rp Bm F1) as (s' & E1 & Rp'). cbn [cm_exec rbind]. rewrite E1. cbn [rbind].
    apply IH; auto. destruct fin; [exact F1|]. apply bytes_app; auto.
  - destruct (crep_checksum s m fin Rp Bm) as (s' & E1 & Rp'). cbn [cm_exec rbind]. rewrite E1. cbn [rbind].
    destruct (IH s' m true (outs ++ [MAC m]) Rp' Bm F2) as [s2 E2]. exists s2. rewrite E2, <- app_assoc. reflexivity.
  - cbn [cm_exec rbind]. apply IH; auto; [|constructor]. apply (crep_reset s m fin); auto.
Qed.
Lemma cmac_new_ok : exists s, cmac_new c = Ok s /\ crep s [] false.
Proof.
  pose proof b_pos. destruct (rb_ok b R HR) as (_ & RR & RB). unfold cmac_new. rewrite (gc_blk _ _ _ _ HG), HR.
  unfold subkey_gen. rewrite (gc_enc _ _ _ _ HG) by apply repeat_length. cbn [rbind].
  destruct (Eok (repeat 0 b) (repeat_length _ _) zb) as [L1 B1]. rewrite RB.
  rewrite cm_dbl_ok by auto. rewrite (cm_dbl_ok b R (gf_double b R _)) by auto using gf_double_length, gf_double_bytes.
  eexists. split; [reflexivity|]. split; [reflexivity|]. split; [reflexivity|]. split; [reflexivity|]. exists []. cbn [cm_data cm_nonce fst snd].
  rewrite cbc_nil. repeat split; auto; cbn [length]; [apply Nat.mod_0_l; lia|lia].
Qed.
Lemma cmac_correct os : Forall op_bytes os ->
  exists s s', cmac_new c = Ok s /\ fold_left cm_exec os (Ok (s, [])) = Ok (s', mac_run (fun _ => MAC) [] [] false (map mop_of os)).
Proof.
  intros Fo. destruct cmac_new_ok as (s & E1 & Rp). destruct (cmac_history os s [] false [] Rp (Forall_nil _) Fo) as [s' E2].
  exists s, s'. auto.
Qed.
End CmacP.
