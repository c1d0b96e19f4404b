(** The scalar multiplications of InplaceModel on memory are those of P224Model and P256Model on values. *)
From Coq Require Import Lia.
From Verif Require Import Base Words HashModel NumTheory RsaModel RsaEncModel EllModel P224Model P256Model InplaceModel CompressProofs InplaceProofs InplaceGroup.

(** ** P-224 *)
Definition len3 (n : nat) (q : list Z * list Z * list Z) : Prop := let '(x, y, z) := q in length x = n /\ length y = n /\ length z = n.
Lemma double_len3 x y z : length x = 8%nat -> length y = 8%nat -> length z = 8%nat -> len3 8 (p224_double_jacobian x y z).
Proof. intros. unfold p224_double_jacobian, len3. cbv zeta. (split; [|split]); repeat len8. Qed.
Lemma add_len3 x1 y1 z1 x2 y2 z2 : length x1 = 8%nat -> length y1 = 8%nat -> length z1 = 8%nat -> length x2 = 8%nat -> length y2 = 8%nat -> length z2 = 8%nat ->
  len3 8 (p224_add_jacobian x1 y1 z1 x2 y2 z2).
Proof.
  intros. unfold p224_add_jacobian. cbv zeta. match goal with |- len3 8 (if ?c then _ else _) => destruct c end; [apply double_len3; auto|].
  unfold len3. (split; [|split]); repeat len8.
Qed.
Lemma scalar_bit_ok byte x1 y1 z1 x0 y0 z0 xx yy zz i :
  wf 8 [x1; y1; z1; x0; y0; z0; xx; yy; zz] -> exists xx' yy' zz',
  let '(x1', y1', z1') := scalar_bit x0 y0 z0 byte (x1, y1, z1) i in
  scalar_bit_m byte (Some [x1; y1; z1; x0; y0; z0; xx; yy; zz]) i = Some [x1'; y1'; z1'; x0; y0; z0; xx'; yy'; zz'] /\
  wf 8 [x1'; y1'; z1'; x0; y0; z0; xx'; yy'; zz'].
Proof.
  intros W. unfold scalar_bit, scalar_bit_m.
  assert (Lx : forall v, In v [x1; y1; z1; x0; y0; z0; xx; yy; zz] -> length v = 8%nat) by (apply Forall_forall; exact W).
  rewrite double224_ok by (auto; cbn; lia). cbn [nth].
  pose proof (double_len3 x1 y1 z1 ltac:(apply Lx; cbn; tauto) ltac:(apply Lx; cbn; tauto) ltac:(apply Lx; cbn; tauto)) as Ld.
  destruct (p224_double_jacobian x1 y1 z1) as [[a b] c]. destruct Ld as (La & Lb & Lc).
  change (wr3 [x1; y1; z1; x0; y0; z0; xx; yy; zz] 0 1 2 (a, b, c)) with [a; b; c; x0; y0; z0; xx; yy; zz].
  assert (W2 : wf 8 [a; b; c; x0; y0; z0; xx; yy; zz]) by (repeat constructor; try assumption; apply Lx; cbn; tauto).
  rewrite add_jacobian_ok; [|exact W2|cbn; lia ..|intros j Hj; cbn in Hj; lia]. cbn [nth].
  pose proof (add_len3 x0 y0 z0 a b c ltac:(apply Lx; cbn; tauto) ltac:(apply Lx; cbn; tauto) ltac:(apply Lx; cbn; tauto) La Lb Lc) as Ls.
  destruct (p224_add_jacobian x0 y0 z0 a b c) as [[sx sy] sz]. destruct Ls as (Lsx & Lsy & Lsz).
  change (wr3 [a; b; c; x0; y0; z0; xx; yy; zz] 6 7 8 (sx, sy, sz)) with [a; b; c; x0; y0; z0; sx; sy; sz].
  exists sx, sy, sz. cbv zeta. set (bit := Z.land _ _).
  rewrite (copy224_spec (A 0) (A 6)) by (cbn; lia || assumption). cbn [get nth fst].
  change (set ([a; b; c; x0; y0; z0; sx; sy; sz], []) (A 0) ?v) with ([v; b; c; x0; y0; z0; sx; sy; sz], @nil (list Z)).
  rewrite (copy224_spec (A 1) (A 7)) by (cbn; lia || assumption). cbn [get nth fst].
  change (set (?u :: [b; c; x0; y0; z0; sx; sy; sz], []) (A 1) ?v) with ([u; v; c; x0; y0; z0; sx; sy; sz], @nil (list Z)).
  rewrite (copy224_spec (A 2) (A 8)) by (cbn; lia || assumption). cbn [get nth fst].
  split; [reflexivity|].
  repeat constructor; try assumption; try (apply Lx; cbn; tauto); apply copyc_len; assumption.
Qed.
Lemma fold_cons {X Y} (f : X -> Y -> X) y l x : fold_left f (y :: l) x = fold_left f l (f x y).
Proof. reflexivity. Qed.
Lemma bits_ok byte x0 y0 z0 l : forall q xx yy zz, wf 8 [fst (fst q); snd (fst q); snd q; x0; y0; z0; xx; yy; zz] -> exists xx' yy' zz',
  let q' := fold_left (scalar_bit x0 y0 z0 byte) l q in
  fold_left (scalar_bit_m byte) l (Some [fst (fst q); snd (fst q); snd q; x0; y0; z0; xx; yy; zz]) =
    Some [fst (fst q'); snd (fst q'); snd q'; x0; y0; z0; xx'; yy'; zz'] /\ wf 8 [fst (fst q'); snd (fst q'); snd q'; x0; y0; z0; xx'; yy'; zz'].
Proof.
  induction l as [|i l IH]; intros [[x y] z] xx yy zz W; [exists xx, yy, zz; split; [reflexivity|exact W]|].
  cbn [fst snd] in W. cbv zeta. rewrite !fold_cons. cbn [fst snd]. destruct (scalar_bit_ok byte x y z x0 y0 z0 xx yy zz i W) as (xx' & yy' & zz' & E).
  destruct (scalar_bit x0 y0 z0 byte (x, y, z) i) as [[x' y'] z']. destruct E as [-> W'].
  pose proof (IH (x', y', z') xx' yy' zz' W') as G. cbv zeta in G. cbn [fst snd] in G. exact G.
Qed.
Lemma scalar224_ok x0 y0 z0 scalar out : wf 8 [x0; y0; z0] -> wf 8 out -> length out = 3%nat ->
  scalar224_m x0 y0 z0 scalar out = Some (let '(x, y, z) := p224_scalar_mult x0 y0 z0 scalar in [x; y; z]).
Proof.
  intros W0 Wo L. destruct out as [|o0 [|o1 [|o2 [|]]]]; try discriminate. unfold scalar224_m, p224_scalar_mult. cbv zeta.
  change (put (put (put ([o0; o1; o2] ++ [x0; y0; z0] ++ repeat fe0 3) 0 fe0) 1 fe0) 2 fe0) with
    [fst (fst (fe0, fe0, fe0)); snd (fst (fe0, fe0, fe0)); snd (fe0, fe0, fe0); x0; y0; z0; fe0; fe0; fe0].
  assert (G : forall q xx yy zz, wf 8 [fst (fst q); snd (fst q); snd q; x0; y0; z0; xx; yy; zz] -> exists xx' yy' zz',
    let q' := fold_left (fun q byte => fold_left (scalar_bit x0 y0 z0 byte) (seq 0 8) q) scalar q in
    fold_left (fun om byte => fold_left (scalar_bit_m byte) (seq 0 8) om) scalar (Some [fst (fst q); snd (fst q); snd q; x0; y0; z0; xx; yy; zz]) =
    Some [fst (fst q'); snd (fst q'); snd q'; x0; y0; z0; xx'; yy'; zz']).
  { induction scalar as [|b s IH]; intros q xx yy zz W; [exists xx, yy, zz; reflexivity|]. cbv zeta. rewrite !fold_cons.
    destruct (bits_ok b x0 y0 z0 (seq 0 8) q xx yy zz W) as (xx' & yy' & zz' & E & W'). cbv zeta in E, W'. rewrite E.
    pose proof (IH _ xx' yy' zz' W') as G. cbv zeta in G. exact G. }
  destruct (G (fe0, fe0, fe0) fe0 fe0 fe0) as (xx & yy & zz & E).
  - inversion W0 as [|? ? H1 H2]; subst. inversion H2 as [|? ? H3 H4]; subst. inversion H4 as [|? ? H5 H6]; subst. repeat constructor; assumption.
  - cbv zeta in E. rewrite E. destruct (fold_left _ scalar (fe0, fe0, fe0)) as [[x y] z]. reflexivity.
Qed.

(** ** P-256 *)
Ltac opt_len := repeat match goal with
  | |- (match ?o with Some _ => _ | None => _ end) = Some _ -> _ =>
      let v := fresh "v" in let E := fresh "E" in destruct o as [v|] eqn:E; [|discriminate];
      lazymatch type of E with p256_square _ _ = _ => apply square_len in E | _ => apply mul_len in E end end;
  let H := fresh "H" in intros H; apply (f_equal (fun o => match o with Some r => len3 9 r | None => True end)) in H; cbv beta iota in H; rewrite <- H;
  unfold len3; (split; [|split]); repeat len.
Lemma pdouble_len dbg q r : len3 9 q -> p256_point_double dbg q = Some r -> len3 9 r.
Proof. destruct q as [[x y] z]. intros (Lx & Ly & Lz). unfold p256_point_double. cbv zeta. opt_len. Qed.
Lemma pmixed_len dbg q x2 y2 r : len3 9 q -> length x2 = 9%nat -> length y2 = 9%nat -> p256_point_add_mixed dbg q x2 y2 = Some r -> len3 9 r.
Proof. destruct q as [[x y] z]. intros (Lx & Ly & Lz) Lx2 Ly2. unfold p256_point_add_mixed. cbv zeta. opt_len. Qed.
Lemma padd_len dbg q q' r : len3 9 q -> len3 9 q' -> p256_point_add dbg q q' = Some r -> len3 9 r.
Proof. destruct q as [[x y] z], q' as [[x' y'] z']. intros (Lx & Ly & Lz) (Lx' & Ly' & Lz'). unfold p256_point_add. cbv zeta. opt_len. Qed.

(** The point at three consecutive addresses. *)
Definition pt (ms : list (list Z)) (i : nat) : jac := (nth i ms [], nth (i + 1) ms [], nth (i + 2) ms []).
Definition wrp (ms : list (list Z)) (i : nat) (q : jac) : list (list Z) := wr3 ms i (i + 1) (i + 2) q.
Lemma wrp_length ms i q : (i + 2 < length ms)%nat -> length (wrp ms i q) = length ms.
Proof. intros H. destruct q as [[x y] z]. unfold wrp, wr3. rewrite !put_length; repeat apply put_lt; lia. Qed.
Lemma wrp_wf ms i q : wf 9 ms -> len3 9 q -> wf 9 (wrp ms i q).
Proof. intros W. destruct q as [[x y] z]. intros (Lx & Ly & Lz). unfold wrp, wr3. repeat apply wf_put; auto. Qed.
Lemma wrp_other ms i q k : (i + 2 < length ms)%nat -> (k < i \/ i + 2 < k)%nat -> nth k (wrp ms i q) [] = nth k ms [].
Proof. intros H Hk. destruct q as [[x y] z]. unfold wrp, wr3. rewrite !put_other; repeat apply put_lt; lia || reflexivity. Qed.
Lemma wrp_same ms i q : (i + 2 < length ms)%nat -> pt (wrp ms i q) i = q.
Proof.
  intros H. destruct q as [[x y] z]. unfold pt, wrp, wr3. f_equal; [f_equal|].
  - rewrite !put_other by (repeat apply put_lt; lia). apply put_same. lia.
  - rewrite put_other by (repeat apply put_lt; lia). apply put_same. apply put_lt; lia.
  - apply put_same. repeat apply put_lt; lia.
Qed.
Lemma wrp_pt_other ms i q k : (i + 2 < length ms)%nat -> (k + 2 < i \/ i + 2 < k)%nat -> pt (wrp ms i q) k = pt ms k.
Proof. intros H Hk. unfold pt. rewrite !wrp_other by lia. reflexivity. Qed.
Lemma pt_len ms i : wf 9 ms -> (i + 2 < length ms)%nat -> len3 9 (pt ms i).
Proof. intros W H. unfold pt, len3. repeat split; apply wf_nth; auto; lia. Qed.
Lemma wrp_ext ms ms' i q : (i + 2 < length ms)%nat -> length ms' = length ms -> pt ms' i = q ->
  (forall k, (k < i \/ i + 2 < k)%nat -> nth k ms' [] = nth k ms []) -> ms' = wrp ms i q.
Proof.
  intros H L E Ho. destruct q as [[x y] z]. unfold pt in E. injection E as Ex Ey Ez. apply wr3_ext; auto; try lia. intros k K1 K2 K3. apply Ho. lia.
Qed.
Lemma wrp_wrp ms i q q' : (i + 2 < length ms)%nat -> wrp (wrp ms i q) i q' = wrp ms i q'.
Proof.
  intros H. apply wrp_ext; auto.
  - rewrite !wrp_length; auto. rewrite wrp_length; auto.
  - apply wrp_same. rewrite wrp_length; auto.
  - intros k Hk. rewrite !wrp_other; auto. rewrite wrp_length; auto.
Qed.

(** The table. *)
Definition tab (ms : list (list Z)) (t : list jac) : Prop := forall j, (j < length t)%nat -> pt ms (3 * j) = nth j t (fz, fz, fz).
Definition base_ok (x y : list Z) (n : nat) (ms : list (list Z)) : Prop := wf 9 ms /\ length ms = n /\ nth 48 ms [] = x /\ nth 49 ms [] = y.
Definition tab_rel (x y : list Z) (n : nat) (tl : list (list Z)) (k : nat) (om : option (list (list Z))) (ot : option (list jac)) : Prop :=
  match om, ot with
  | Some ms, Some t => base_ok x y n ms /\ tab ms t /\ length t = k /\ skipn 48 ms = tl
  | None, None => True
  | _, _ => False
  end.
Lemma nth_skipn {T} (l : list T) n i d : nth i (skipn n l) d = nth (n + i) l d.
Proof. revert l; induction n; intros [|x l]; cbn; auto. destruct i; reflexivity. Qed.
Lemma skipn_wrp ms i q n : (i + 2 < length ms)%nat -> (i + 2 < n)%nat -> skipn n (wrp ms i q) = skipn n ms.
Proof.
  intros H Hn. apply (nth_ext _ _ [] []); [rewrite !skipn_length, wrp_length; auto|]. intros k _.
  rewrite !nth_skipn. apply wrp_other; auto; lia.
Qed.
Lemma precomp_body_ok dbg x y n tl i om ot : length x = 9%nat -> length y = 9%nat -> (50 <= n)%nat -> (2 <= 2 * i)%nat -> (2 * i + 1 < 16)%nat ->
  tab_rel x y n tl (2 * i) om ot -> tab_rel x y n tl (2 * i + 2) (precomp_body dbg om (2 * i)) (precomp_step dbg x y ot (2 * i)).
Proof.
  intros Lx Ly Hn Hi1 Hi2 H. destruct om as [ms|], ot as [t|]; try contradiction; [|exact I].
  destruct H as ((W & L & E48 & E49) & T & Lt & Tl). unfold precomp_body, precomp_step. cbv zeta.
  replace (2 * i / 2)%nat with i by (rewrite Nat.mul_comm, Nat.div_mul; lia).
  rewrite point_double_ok by (auto; lia). change (nth (3 * i) ms [], nth (3 * i + 1) ms [], nth (3 * i + 2) ms []) with (pt ms (3 * i)).
  rewrite (T i) by lia. pose proof (pt_len ms (3 * i) W ltac:(lia)) as Lp. rewrite (T i) in Lp by lia.
  destruct (p256_point_double dbg (nth i t (fz, fz, fz))) as [d|] eqn:Ed; [|exact I]. cbn [option_map].
  pose proof (pdouble_len _ _ _ Lp Ed) as Ld. change (wr3 ms (3 * (2 * i)) (3 * (2 * i) + 1) (3 * (2 * i) + 2) d) with (wrp ms (3 * (2 * i)) d).
  set (p := (3 * (2 * i))%nat) in *. assert (Hp : (p + 5 < 48)%nat) by (subst p; lia).
  assert (W1 : wf 9 (wrp ms p d)) by (apply wrp_wf; auto). assert (L1 : length (wrp ms p d) = n) by (rewrite wrp_length; lia).
  rewrite point_add_mixed_ok by (auto; lia). change (nth p ?m [], nth (p + 1) ?m [], nth (p + 2) ?m []) with (pt m p).
  rewrite wrp_same by lia. rewrite !(wrp_other ms p d) by lia. rewrite E48, E49.
  destruct (p256_point_add_mixed dbg d x y) as [a|] eqn:Ea; [|exact I]. cbn [option_map].
  pose proof (pmixed_len _ _ _ _ _ Ld Lx Ly Ea) as La.
  replace (wr3 (wrp ms p d) (p + 3) (p + 4) (p + 5) a) with (wrp (wrp ms p d) (p + 3) a)
    by (unfold wrp at 1; replace (p + 3 + 1)%nat with (p + 4)%nat by lia; replace (p + 3 + 2)%nat with (p + 5)%nat by lia; reflexivity).
  split; [split; [|split; [|split]]|split; [|split]].
  - apply wrp_wf; auto.
  - rewrite wrp_length; lia.
  - rewrite !wrp_other by lia. exact E48.
  - rewrite !wrp_other by lia. exact E49.
  - intros j Hj. rewrite app_length in Hj. cbn [length] in Hj. destruct (Nat.eq_dec j (2 * i)) as [->|N1].
    + rewrite wrp_pt_other by lia. fold p. rewrite wrp_same by lia. rewrite app_nth2 by lia. replace (2 * i - length t)%nat with 0%nat by lia. reflexivity.
    + destruct (Nat.eq_dec j (2 * i + 1)) as [->|N2].
      * replace (3 * (2 * i + 1))%nat with (p + 3)%nat by (subst p; lia). rewrite wrp_same by lia. rewrite app_nth2 by lia.
        replace (2 * i + 1 - length t)%nat with 1%nat by lia. reflexivity.
      * rewrite !wrp_pt_other by (subst p; lia). rewrite app_nth1 by lia. apply T. lia.
  - rewrite app_length. cbn. lia.
  - rewrite !skipn_wrp by lia. exact Tl.
Qed.
Lemma precomp_ok dbg x y out : length x = 9%nat -> length y = 9%nat -> wf 9 out -> length out = 3%nat ->
  tab_rel x y 59 ([x; y] ++ out ++ repeat fz 6) 16 (precomp_m dbg (repeat fz 48 ++ [x; y] ++ out ++ repeat fz 6)) (precomp dbg x y).
Proof.
  intros Lx Ly Wo Lo. unfold precomp_m, precomp. cbv zeta.
  set (tl := [x; y] ++ out ++ repeat fz 6).
  assert (L0 : length (repeat fz 48 ++ tl) = 59%nat) by (subst tl; rewrite !app_length, !repeat_length, Lo; reflexivity).
  assert (W0 : wf 9 (repeat fz 48 ++ tl)).
  { subst tl. unfold wf. apply Forall_app. split; [apply Forall_forall; intros v Hv; apply repeat_spec in Hv; subst v; reflexivity|].
    constructor; auto. constructor; auto. apply Forall_app. split; [exact Wo|]. repeat constructor. }
  assert (N48 : nth 48 (repeat fz 48 ++ tl) [] = x) by reflexivity. assert (N49 : nth 49 (repeat fz 48 ++ tl) [] = y) by reflexivity.
  assert (P0 : pt (repeat fz 48 ++ tl) 0 = (fz, fz, fz)) by reflexivity.
  assert (S0 : skipn 48 (repeat fz 48 ++ tl) = tl) by reflexivity.
  generalize dependent (repeat fz 48 ++ tl). intros ms L0 W0 N48 N49 P0 S0.
  rewrite put_other by lia. rewrite N48, N49. change (put (put (put ms 3 x) 4 y) 5 P256_ONE) with (wrp ms 3 (x, y, P256_ONE)).
  assert (R : tab_rel x y 59 tl 2 (Some (wrp ms 3 (x, y, P256_ONE))) (Some [(fz, fz, fz); (x, y, P256_ONE)])).
  { split; [split; [|split; [|split]]|split; [|split]].
    - apply wrp_wf; auto. repeat split; auto.
    - rewrite wrp_length; lia.
    - rewrite wrp_other by lia. exact N48.
    - rewrite wrp_other by lia. exact N49.
    - intros j Hj. cbn [length] in Hj. assert (j = 0 \/ j = 1)%nat as [-> | ->] by lia.
      + rewrite wrp_pt_other by lia. exact P0.
      + apply wrp_same. lia.
    - reflexivity.
    - rewrite skipn_wrp by lia. exact S0. }
  revert R. generalize (Some (wrp ms 3 (x, y, P256_ONE))), (Some [(fz, fz, fz); (x, y, P256_ONE)]). intros om ot R. cbn [fold_left].
  change 2%nat with (2 * 1)%nat in R. apply (precomp_body_ok dbg) in R; try assumption; try lia.
  change (2 * 1 + 2)%nat with (2 * 2)%nat in R. apply (precomp_body_ok dbg) in R; try assumption; try lia.
  change (2 * 2 + 2)%nat with (2 * 3)%nat in R. apply (precomp_body_ok dbg) in R; try assumption; try lia.
  change (2 * 3 + 2)%nat with (2 * 4)%nat in R. apply (precomp_body_ok dbg) in R; try assumption; try lia.
  change (2 * 4 + 2)%nat with (2 * 5)%nat in R. apply (precomp_body_ok dbg) in R; try assumption; try lia.
  change (2 * 5 + 2)%nat with (2 * 6)%nat in R. apply (precomp_body_ok dbg) in R; try assumption; try lia.
  change (2 * 6 + 2)%nat with (2 * 7)%nat in R. apply (precomp_body_ok dbg) in R; try assumption; try lia.
Qed.

Definition or_point (mask : Z) (q t : jac) : jac :=
  let '(x, y, z) := q in let '(tx, ty, tz) := t in
  (zip_with (fun x t => Z.lor x (Z.land t mask)) x tx, zip_with (fun x t => Z.lor x (Z.land t mask)) y ty, zip_with (fun x t => Z.lor x (Z.land t mask)) z tz).
Lemma zip_len9 f a b : length a = 9%nat -> length b = 9%nat -> length (zip_with f a b) = 9%nat.
Proof. intros Ha Hb. rewrite zip_len, Ha, Hb. reflexivity. Qed.
Lemma or_point_len mask q t : len3 9 q -> len3 9 t -> len3 9 (or_point mask q t).
Proof. destruct q as [[x y] z], t as [[x' y'] z']. intros (? & ? & ?) (? & ? & ?). repeat split; apply zip_len9; auto. Qed.
Lemma copy_point_len mask q t : len3 9 q -> len3 9 t -> len3 9 (copy_point q t mask).
Proof. destruct q as [[x y] z], t as [[x' y'] z']. intros (? & ? & ?) (? & ? & ?). repeat split; apply zip_len9; auto. Qed.
(** Three selections, and three conditional copies, between points that do not overlap. *)
Lemma select3 mask ms p k : wf 9 ms -> (p + 2 < length ms)%nat -> (k + 2 < p)%nat ->
  select_m mask (p + 2) (k + 2) (select_m mask (p + 1) (k + 1) (select_m mask p k ms)) = wrp ms p (or_point mask (pt ms p) (pt ms k)).
Proof.
  intros W Hp Hk. assert (Lv : forall i, (i < length ms)%nat -> length (nth i ms []) = 9%nat) by (intros; apply wf_nth; auto).
  rewrite (select_spec p) by (lia || (apply Lv; lia)).
  rewrite (select_spec (p + 1)); [|apply put_lt; lia|rewrite put_other by lia; apply Lv; lia|rewrite put_other by lia; apply Lv; lia].
  rewrite !(put_other ms p) by lia.
  rewrite (select_spec (p + 2)); [|repeat apply put_lt; lia| |]; rewrite ?put_other by (repeat apply put_lt; lia); try (apply Lv; lia). reflexivity.
Qed.
Lemma copy3 mask ms p k : wf 9 ms -> (k + 2 < length ms)%nat -> (p + 2 < k)%nat ->
  copy256_m (p + 2) (k + 2) mask (copy256_m (p + 1) (k + 1) mask (copy256_m p k mask ms)) = wrp ms p (copy_point (pt ms p) (pt ms k) mask).
Proof.
  intros W Hp Hk. assert (Lv : forall i, (i < length ms)%nat -> length (nth i ms []) = 9%nat) by (intros; apply wf_nth; auto).
  rewrite (copy256_spec p) by (lia || (apply Lv; lia)).
  rewrite (copy256_spec (p + 1)); [|apply put_lt; lia|rewrite put_other by lia; apply Lv; lia|rewrite put_other by lia; apply Lv; lia].
  rewrite !(put_other ms p) by lia.
  rewrite (copy256_spec (p + 2)); [|repeat apply put_lt; lia| |]; rewrite ?put_other by (repeat apply put_lt; lia); try (apply Lv; lia). reflexivity.
Qed.
Lemma select_ok table index ms p : wf 9 ms -> (48 <= p)%nat -> (p + 2 < length ms)%nat -> tab ms table -> length table = 16%nat ->
  select_jacobian_m p (p + 1) (p + 2) index ms = wrp ms p (p256_select_jacobian table index).
Proof.
  intros W Hp Lp T Lt. unfold select_jacobian_m, p256_select_jacobian. cbv zeta. change (put (put (put ms p fz) (p + 1) fz) (p + 2) fz) with (wrp ms p (fz, fz, fz)).
  assert (G : forall l q, Forall (fun i => 1 <= i < 16)%nat l -> len3 9 q ->
    fold_left (fun m i => select_m (jacobian_mask (Z.of_nat i) index) (p + 2) (3 * i + 2)
      (select_m (jacobian_mask (Z.of_nat i) index) (p + 1) (3 * i + 1) (select_m (jacobian_mask (Z.of_nat i) index) p (3 * i) m))) l (wrp ms p q) =
    wrp ms p (fold_left (fun q i => or_point (jacobian_mask (Z.of_nat i) index) q (nth i table (fz, fz, fz))) l q)).
  { induction l as [|i l IH]; intros q F Lq; [reflexivity|]. inversion F; subst. rewrite !fold_cons.
    rewrite select3; [|apply wrp_wf; auto|rewrite wrp_length; lia|lia]. rewrite wrp_same by lia. rewrite wrp_pt_other by lia. rewrite (T i) by lia.
    rewrite wrp_wrp by lia. apply IH; auto. apply or_point_len; auto. rewrite <- (T i) by lia. apply pt_len; auto. lia. }
  rewrite G; [reflexivity| |repeat split]. apply Forall_forall. intros i Hi. apply in_seq in Hi. lia.
Qed.
Lemma select_len table index : Forall (len3 9) table -> length table = 16%nat -> len3 9 (p256_select_jacobian table index).
Proof.
  intros F L. unfold p256_select_jacobian. cbv zeta.
  assert (G : forall l q, Forall (fun i => i < 16)%nat l -> len3 9 q -> len3 9 (fold_left (fun q i => or_point (jacobian_mask (Z.of_nat i) index) q (nth i table (fz, fz, fz))) l q)).
  { induction l as [|i l IH]; intros q Fl Lq; [exact Lq|]. inversion Fl; subst. rewrite fold_cons. apply IH; auto. apply or_point_len; auto.
    apply Forall_nth; [exact F|lia]. }
  apply (G (seq 1 15) (fz, fz, fz)); [|repeat split]. apply Forall_forall. intros i Hi. apply in_seq in Hi. lia.
Qed.
(** One round of the window loop. *)
Definition out_rel (table : list jac) (os : option (list (list Z) * Z)) (os' : option (jac * Z)) : Prop :=
  match os, os' with
  | Some (ms, nm), Some (out, nm') => nm = nm' /\ wf 9 ms /\ length ms = 59%nat /\ tab ms table /\ pt ms 50 = out
  | None, None => True
  | _, _ => False
  end.
Lemma tab_wrp ms p q table : (48 <= p)%nat -> (p + 2 < length ms)%nat -> length table = 16%nat -> tab ms table -> tab (wrp ms p q) table.
Proof. intros Hp Lp Lt T j Hj. rewrite wrp_pt_other by lia. apply T. exact Hj. Qed.
Lemma double_at dbg ms : wf 9 ms -> length ms = 59%nat -> point_double_m dbg 50 51 52 50 51 52 ms = option_map (wrp ms 50) (p256_point_double dbg (pt ms 50)).
Proof. intros W L. rewrite point_double_ok by (auto; lia). reflexivity. Qed.
Lemma double4_ok dbg ms : wf 9 ms -> length ms = 59%nat -> double4_m dbg ms = option_map (wrp ms 50)
  (let? out := p256_point_double dbg (pt ms 50) in let? out := p256_point_double dbg out in let? out := p256_point_double dbg out in p256_point_double dbg out).
Proof.
  intros W L. unfold double4_m. rewrite double_at by auto. pose proof (pt_len ms 50 W ltac:(lia)) as L0.
  destruct (p256_point_double dbg (pt ms 50)) as [d1|] eqn:E1; [|reflexivity]. cbn [option_map]. pose proof (pdouble_len _ _ _ L0 E1) as L1.
  rewrite double_at; [|apply wrp_wf; auto|rewrite wrp_length; lia]. rewrite wrp_same by lia.
  destruct (p256_point_double dbg d1) as [d2|] eqn:E2; [|reflexivity]. cbn [option_map]. pose proof (pdouble_len _ _ _ L1 E2) as L2. rewrite wrp_wrp by lia.
  rewrite double_at; [|apply wrp_wf; auto|rewrite wrp_length; lia]. rewrite wrp_same by lia.
  destruct (p256_point_double dbg d2) as [d3|] eqn:E3; [|reflexivity]. cbn [option_map]. pose proof (pdouble_len _ _ _ L2 E3) as L3. rewrite wrp_wrp by lia.
  rewrite double_at; [|apply wrp_wf; auto|rewrite wrp_length; lia]. rewrite wrp_same by lia.
  destruct (p256_point_double dbg d3) as [d4|] eqn:E4; [|reflexivity]. cbn [option_map]. rewrite wrp_wrp by lia. reflexivity.
Qed.
Lemma round_tail dbg table index ms nm : length table = 16%nat -> wf 9 ms -> length ms = 59%nat -> tab ms table ->
  out_rel table
    (let m := select_jacobian_m 53 54 55 index ms in
     let? m := point_add_m dbg 56 57 58 50 51 52 53 54 55 m in
     let m := copy256_m 50 53 nm m in let m := copy256_m 51 54 nm m in let m := copy256_m 52 55 nm m in
     let pm := nz_mask index in let mask := Z.land pm (not32 nm) in
     let m := copy256_m 50 56 mask m in let m := copy256_m 51 57 mask m in let m := copy256_m 52 58 mask m in
     Some (m, Z.land nm (not32 pm)))
    (let q := p256_select_jacobian table index in let? t := p256_point_add dbg (pt ms 50) q in Some (window_copy (pt ms 50) q t index nm)).
Proof.
  intros Lt W L T. cbv zeta. rewrite (select_ok table index ms 53 W ltac:(lia) ltac:(lia) T Lt : select_jacobian_m 53 54 55 index ms = _).
  assert (Ft : Forall (len3 9) table). { apply Forall_forall. intros q Hq. destruct (In_nth table q (fz, fz, fz) Hq) as (j & Hj & <-). rewrite <- T by auto. apply pt_len; auto. lia. }
  pose proof (select_len table index Ft Lt) as Lq. pose proof (pt_len ms 50 W ltac:(lia)) as L0.
  set (q := p256_select_jacobian table index) in *. clearbody q.
  assert (W1 : wf 9 (wrp ms 53 q)) by (apply wrp_wf; auto). assert (L1 : length (wrp ms 53 q) = 59%nat) by (rewrite wrp_length; lia).
  rewrite point_add_ok by (auto; lia).
  change (nth 50 (wrp ms 53 q) [], nth 51 (wrp ms 53 q) [], nth 52 (wrp ms 53 q) []) with (pt (wrp ms 53 q) 50).
  change (nth 53 (wrp ms 53 q) [], nth 54 (wrp ms 53 q) [], nth 55 (wrp ms 53 q) []) with (pt (wrp ms 53 q) 53).
  rewrite wrp_same by lia. rewrite wrp_pt_other by lia.
  destruct (p256_point_add dbg (pt ms 50) q) as [t|] eqn:Et; [|exact I]. pose proof (padd_len _ _ _ _ L0 Lq Et) as Lt'. cbn [option_map].
  change (wr3 (wrp ms 53 q) 56 57 58 t) with (wrp (wrp ms 53 q) 56 t).
  set (m2 := wrp (wrp ms 53 q) 56 t). assert (W2 : wf 9 m2) by (apply wrp_wf; auto). assert (L2 : length m2 = 59%nat) by (subst m2; rewrite wrp_length; lia).
  assert (P50 : pt m2 50 = pt ms 50) by (subst m2; rewrite !wrp_pt_other by lia; reflexivity).
  assert (P53 : pt m2 53 = q) by (subst m2; rewrite wrp_pt_other by lia; apply wrp_same; lia).
  assert (P56 : pt m2 56 = t) by (subst m2; apply wrp_same; lia).
  assert (T2 : tab m2 table) by (subst m2; apply tab_wrp; [lia|lia|auto|]; apply tab_wrp; auto; lia).
  clearbody m2. rewrite (copy3 nm m2 50 53 W2 ltac:(lia) ltac:(lia) : copy256_m 52 55 nm (copy256_m 51 54 nm (copy256_m 50 53 nm m2)) = _).
  rewrite P50, P53. set (o1 := copy_point (pt ms 50) q nm). assert (Lo1 : len3 9 o1) by (apply copy_point_len; auto).
  assert (W3 : wf 9 (wrp m2 50 o1)) by (apply wrp_wf; auto). assert (L3 : length (wrp m2 50 o1) = 59%nat) by (rewrite wrp_length; lia).
  set (mask := Z.land (nz_mask index) (not32 nm)).
  rewrite (copy3 mask (wrp m2 50 o1) 50 56 W3 ltac:(lia) ltac:(lia) : copy256_m 52 58 mask (copy256_m 51 57 mask (copy256_m 50 56 mask (wrp m2 50 o1))) = _).
  rewrite wrp_same, wrp_pt_other, P56, wrp_wrp by lia.
  unfold window_copy, out_rel. fold o1. cbv zeta. fold mask. split; [reflexivity|].
  split; [apply wrp_wf; auto; apply copy_point_len; auto|]. split; [rewrite wrp_length; lia|]. split; [apply tab_wrp; auto; lia|]. apply wrp_same. lia.
Qed.
Lemma round_ok dbg table scalar i os os' : length table = 16%nat -> out_rel table os os' ->
  out_rel table (window_round_m dbg scalar os i) (window_round dbg table scalar os' i).
Proof.
  intros Lt R. destruct os as [[ms nm]|], os' as [[out nm']|]; try contradiction; [|exact I].
  destruct R as (<- & W & L & T & P). unfold window_round_m, window_round. cbv zeta.
  set (index := if Nat.odd i then _ else _). destruct (Nat.eqb i 0).
  - pose proof (round_tail dbg table index ms nm Lt W L T) as H. cbv zeta in H. rewrite P in H. exact H.
  - rewrite double4_ok by auto. rewrite P. pose proof (pt_len ms 50 W ltac:(lia)) as L0. rewrite P in L0.
    match goal with |- context [option_map (wrp ms 50) ?o] => destruct o as [d|] eqn:E end; [|exact I]. cbn [option_map].
    assert (Ld : len3 9 d).
    { destruct (p256_point_double dbg out) as [d1|] eqn:E1; [|discriminate]. apply (pdouble_len _ _ _ L0) in E1.
      destruct (p256_point_double dbg d1) as [d2|] eqn:E2; [|discriminate]. apply (pdouble_len _ _ _ E1) in E2.
      destruct (p256_point_double dbg d2) as [d3|] eqn:E3; [|discriminate]. apply (pdouble_len _ _ _ E2) in E3.
      exact (pdouble_len _ _ _ E3 E). }
    pose proof (round_tail dbg table index (wrp ms 50 d) nm Lt (wrp_wf _ _ _ W Ld) ltac:(rewrite wrp_length; lia) (tab_wrp ms 50 d table ltac:(lia) ltac:(lia) Lt T)) as H.
    cbv zeta in H. rewrite wrp_same in H by lia. exact H.
Qed.
Lemma scalar_mult_ok dbg x y scalar out : length x = 9%nat -> length y = 9%nat -> wf 9 out -> length out = 3%nat ->
  scalar_mult_m dbg x y scalar out = option_map (fun '(a, b, c) => [a; b; c]) (p256_scalar_mult dbg x y scalar).
Proof.
  intros Lx Ly Wo Lo. unfold scalar_mult_m, p256_scalar_mult. cbv zeta. pose proof (precomp_ok dbg x y out Lx Ly Wo Lo) as R.
  destruct (precomp_m _ _) as [ms|], (precomp dbg x y) as [table|]; try contradiction; [|reflexivity].
  destruct R as ((W & L & _ & _) & T & Lt & _). change (put (put (put ms 50 fz) 51 fz) 52 fz) with (wrp ms 50 (fz, fz, fz)).
  assert (R : out_rel table (Some (wrp ms 50 (fz, fz, fz), M32 - 1)) (Some (fz, fz, fz, M32 - 1))).
  { split; [reflexivity|]. split; [apply wrp_wf; auto; repeat split|]. split; [rewrite wrp_length; lia|]. split; [apply tab_wrp; auto; lia|]. apply wrp_same. lia. }
  assert (R' : out_rel table (fold_left (window_round_m dbg scalar) (seq 0 64) (Some (wrp ms 50 (fz, fz, fz), M32 - 1)))
                             (fold_left (window_round dbg table scalar) (seq 0 64) (Some (fz, fz, fz, M32 - 1)))).
  { revert R. generalize (Some (wrp ms 50 (fz, fz, fz), M32 - 1)), (Some (fz, fz, fz, M32 - 1)), (seq 0 64). intros a b l. revert a b.
    induction l as [|i l IH]; intros a b R; [exact R|]. rewrite !fold_cons. apply IH. apply round_ok; auto. }
  destruct (fold_left (window_round_m dbg scalar) _ _) as [[m nm]|], (fold_left (window_round dbg table scalar) _ _) as [[q nm']|]; try contradiction; [|reflexivity].
  destruct R' as (_ & _ & Lm & _ & <-). unfold pt. cbn [option_map]. f_equal.
  rewrite <- (firstn_skipn 50 m) at 2 3 4. rewrite !app_nth2; rewrite !firstn_length, !min_l by lia; try lia.
  assert (Ls : length (skipn 50 m) = 9%nat) by (rewrite skipn_length; lia).
  destruct (skipn 50 m) as [|a [|b [|c l]]]; try discriminate. reflexivity.
Qed.
