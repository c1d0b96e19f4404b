(** The point operations of InplaceModel on memory are those of P256Model and P224Model on values. *)
From Coq Require Import Lia.
From Verif Require Import Base Words HashModel NumTheory RsaModel RsaEncModel EllModel P224Model P256Model InplaceModel CompressProofs InplaceProofs.

Definition wf (n : nat) (ms : list (list Z)) : Prop := Forall (fun a => length a = n) ms.
Lemma wf_nth n ms i : wf n ms -> (i < length ms)%nat -> length (nth i ms []) = n.
Proof. intros H Hi. apply Forall_nth; auto. Qed.
Lemma wf_put n ms i v : wf n ms -> length v = n -> wf n (put ms i v).
Proof.
  intros H Hv. unfold wf in *. unfold put. apply Forall_app. split.
  - revert ms H; induction i; intros ms H; [constructor|]. inversion H; subst; [constructor|]. cbn. constructor; auto.
  - constructor; auto. revert ms H. generalize (S i). induction n0; intros ms H; [exact H|]. inversion H; subst; [constructor|]. cbn. auto.
Qed.
Lemma set_A ms ls i v : set (ms, ls) (A i) v = (put ms i v, ls).
Proof. reflexivity. Qed.

Lemma put_lt l i v j : (i < length l)%nat -> (j < length l)%nat -> (j < length (put l i v))%nat.
Proof. intros. rewrite put_length; auto. Qed.
Ltac inb := match goal with H : length ?ms = ?N |- (?i < length ?ms)%nat => rewrite H; assumption end.
(** One step: the routine becomes a [set], a write to a caller's array is remembered, a write to a local one is carried out. *)
Ltac side := match goal with
    | |- vp _ (A _) => cbn [vp fst]; inb
    | |- vp _ (L _) => cbn [vp snd length]; lia
    | |- length (get _ (A _)) = _ => cbn [get fst]; apply wf_nth; [assumption|inb]
    | |- length (get _ (L _)) = _ => cbn [get snd nth]; match goal with | H : length ?v = _ |- length ?v = _ => exact H | |- _ => reflexivity end
    end.
Ltac rd := repeat match goal with
  | H : nth ?i ?ms [] = ?v |- context [nth ?i ?ms []] => rewrite H
  | E : ?ms1 = put ?ms ?i ?v |- context [nth ?k ?ms1 []] =>
      replace (nth k ms1 []) with (nth k ms []) by (rewrite E; symmetry; apply put_other; [inb | assumption])
  | |- context [get (?ms, ?ls) (A ?i)] => change (get (ms, ls) (A i)) with (nth i ms [])
  | |- context [get (?ms, ?ls) (L ?i)] => let v := eval cbn in (nth i ls []) in change (get (ms, ls) (L i)) with v
  end.
Ltac wr_local := match goal with |- context [set (?ms, ?ls) (L ?i) ?v] =>
    let ls' := eval cbv [put firstn skipn app] in (put ls i v) in change (set (ms, ls) (L i) v) with (ms, ls') end.
(** Three results written. *)
Definition wr3 (ms : list (list Z)) (xo yo zo : nat) (q : jac) : list (list Z) := let '(x, y, z) := q in put (put (put ms xo x) yo y) zo z.
Lemma square_eq d o a m : square_m d o a m = (let? v := p256_square d (get m a) in Some (set m o v)).
Proof. reflexivity. Qed.
Lemma mul_eq d o a b m : mul_m d o a b m = (let? v := p256_mul d (get m a) (get m b) in Some (set m o v)).
Proof. reflexivity. Qed.
(** Lengths of computed values. *)
Ltac len := lazymatch goal with
  | |- length (p256_sum _ _) = _ => apply sum_len
  | |- length (p256_diff _ _) = _ => apply diff_len
  | |- length (p256_scalar3 _) = _ => apply scalar3_len
  | |- length (p256_scalar4 _) = _ => apply scalar4_len
  | |- length (p256_scalar8 _) = _ => apply scalar8_len
  | H : length ?v = 9%nat |- length ?v = _ => exact H
  end.
Ltac lens := repeat len.
Ltac name_val v n Hv := assert (Hv : length v = 9%nat) by lens; generalize dependent v; intros n Hv.
Ltac wr_A ms i v :=
  let ms1 := fresh "ms" in let E := fresh "E" in let W := fresh "W" in let Ln := fresh "Ln" in let R := fresh "R" in
  rewrite (set_A ms _ i v); remember (put ms i v) as ms1 eqn:E;
  assert (W : wf 9 ms1) by (rewrite E; apply wf_put; [assumption|lens]);
  match goal with H : length ms = ?N |- _ => assert (Ln : length ms1 = N) by (rewrite E; rewrite put_length by inb; exact H) end;
  assert (R : nth i ms1 [] = v) by (rewrite E; apply put_same; inb).
Ltac wr := first [wr_local | match goal with |- context [set (?ms, ?ls) (A ?i) ?v] => wr_A ms i v end].
Ltac nm := match goal with |- context [set _ _ ?v] => is_var v | |- context [set _ _ ?v] => let n := fresh "v" in let H := fresh "Hv" in name_val v n H end.
Ltac step := match goal with
  | |- context [sum_m ?o ?a ?b ?m] => rewrite (sum_spec o a b m) by side; rd; nm; wr
  | |- context [diff_m ?o ?a ?b ?m] => rewrite (diff_spec o a b m) by side; rd; nm; wr
  | |- context [in_place ?f ?p ?m] => change (in_place f p m) with (set m p (f (get m p))); rd; nm; wr
  | |- context [square_m ?d ?o ?a ?m] => rewrite (square_eq d o a m); rd;
      match goal with |- context [p256_square d ?a'] => let E := fresh "E" in let v := fresh "v" in
        destruct (p256_square d a') as [v|] eqn:E; [apply square_len in E; wr | reflexivity] end
  | |- context [mul_m ?d ?o ?a ?b ?m] => rewrite (mul_eq d o a b m); rd;
      match goal with |- context [p256_mul d ?a' ?b'] => let E := fresh "E" in let v := fresh "v" in
        destruct (p256_mul d a' b') as [v|] eqn:E; [apply mul_len in E; wr | reflexivity] end
  end.
Lemma wr3_ext ms ms' xo yo zo a b c : (xo < length ms)%nat -> (yo < length ms)%nat -> (zo < length ms)%nat -> xo <> yo -> xo <> zo -> yo <> zo ->
  length ms' = length ms -> nth xo ms' [] = a -> nth yo ms' [] = b -> nth zo ms' [] = c ->
  (forall i, i <> xo -> i <> yo -> i <> zo -> nth i ms' [] = nth i ms []) -> ms' = wr3 ms xo yo zo (a, b, c).
Proof.
  intros Hx Hy Hz D1 D2 D3 L Ea Eb Ec E. unfold wr3. apply (nth_ext _ _ [] []); [rewrite !put_length; repeat apply put_lt; auto|].
  intros i _. destruct (Nat.eq_dec i zo) as [->|N3]; [rewrite put_same by (repeat apply put_lt; auto); exact Ec|].
  rewrite put_other by (repeat apply put_lt; auto). destruct (Nat.eq_dec i yo) as [->|N2]; [rewrite put_same by (repeat apply put_lt; auto); exact Eb|].
  rewrite put_other by (repeat apply put_lt; auto). destruct (Nat.eq_dec i xo) as [->|N1]; [rewrite put_same by auto; exact Ea|].
  rewrite put_other by auto. auto.
Qed.
Ltac lens_eq := match goal with H : length ?a = ?N, H' : length ?b = ?N |- length ?a = length ?b => rewrite H, H'; reflexivity end.
Ltac finish := cbn [fst option_map]; apply (f_equal Some); apply wr3_ext; [inb|inb|inb|assumption|assumption|assumption|lens_eq|rd; reflexivity|rd; reflexivity|rd; reflexivity|intros; rd; reflexivity].
Lemma point_double_ok dbg xo yo zo x y z ms : wf 9 ms ->
  (xo < length ms)%nat -> (yo < length ms)%nat -> (zo < length ms)%nat -> (x < length ms)%nat -> (y < length ms)%nat -> (z < length ms)%nat ->
  xo <> yo -> xo <> zo -> yo <> zo ->
  point_double_m dbg xo yo zo x y z ms = option_map (wr3 ms xo yo zo) (p256_point_double dbg (nth x ms [], nth y ms [], nth z ms [])).
Proof.
  intros W Hxo Hyo Hzo Hx Hy Hz D1 D2 D3.
  unfold point_double_m, frame, p256_point_double. cbn [repeat]. set (fin := wr3 ms xo yo zo). cbv zeta.
  pose proof (wf_nth 9 ms x W Hx) as Lx. pose proof (wf_nth 9 ms y W Hy) as Ly. pose proof (wf_nth 9 ms z W Hz) as Lz.
  pose proof (not_eq_sym D1) as D1'. pose proof (not_eq_sym D2) as D2'. pose proof (not_eq_sym D3) as D3'.
  remember (length ms) as N eqn:HN. symmetry in HN. repeat step. subst fin. finish.
Qed.
Lemma point_add_mixed_ok dbg xo yo zo x1 y1 z1 x2 y2 ms : wf 9 ms ->
  (xo < length ms)%nat -> (yo < length ms)%nat -> (zo < length ms)%nat -> (x1 < length ms)%nat -> (y1 < length ms)%nat -> (z1 < length ms)%nat ->
  (x2 < length ms)%nat -> (y2 < length ms)%nat ->
  xo <> yo -> xo <> zo -> yo <> zo -> y1 <> xo -> y1 <> yo -> y1 <> zo ->
  point_add_mixed_m dbg xo yo zo x1 y1 z1 x2 y2 ms =
  option_map (wr3 ms xo yo zo) (p256_point_add_mixed dbg (nth x1 ms [], nth y1 ms [], nth z1 ms []) (nth x2 ms []) (nth y2 ms [])).
Proof.
  intros W Hxo Hyo Hzo Hx Hy Hz Hx2 Hy2 D1 D2 D3 D4 D5 D6.
  unfold point_add_mixed_m, frame, p256_point_add_mixed. cbn [repeat]. set (fin := wr3 ms xo yo zo). cbv zeta.
  pose proof (wf_nth 9 ms x1 W Hx) as Lx. pose proof (wf_nth 9 ms y1 W Hy) as Ly. pose proof (wf_nth 9 ms z1 W Hz) as Lz.
  pose proof (wf_nth 9 ms x2 W Hx2) as Lx2. pose proof (wf_nth 9 ms y2 W Hy2) as Ly2.
  pose proof (not_eq_sym D1) as D1'. pose proof (not_eq_sym D2) as D2'. pose proof (not_eq_sym D3) as D3'.
  remember (length ms) as N eqn:HN. symmetry in HN. repeat step. subst fin. finish.
Qed.
Lemma point_add_ok dbg xo yo zo x1 y1 z1 x2 y2 z2 ms : wf 9 ms ->
  (xo < length ms)%nat -> (yo < length ms)%nat -> (zo < length ms)%nat -> (x1 < length ms)%nat -> (y1 < length ms)%nat -> (z1 < length ms)%nat ->
  (x2 < length ms)%nat -> (y2 < length ms)%nat -> (z2 < length ms)%nat ->
  xo <> yo -> xo <> zo -> yo <> zo ->
  point_add_m dbg xo yo zo x1 y1 z1 x2 y2 z2 ms =
  option_map (wr3 ms xo yo zo) (p256_point_add dbg (nth x1 ms [], nth y1 ms [], nth z1 ms []) (nth x2 ms [], nth y2 ms [], nth z2 ms [])).
Proof.
  intros W Hxo Hyo Hzo Hx Hy Hz Hx2 Hy2 Hz2 D1 D2 D3.
  unfold point_add_m, frame, p256_point_add. cbn [repeat]. set (fin := wr3 ms xo yo zo). cbv zeta.
  pose proof (wf_nth 9 ms x1 W Hx) as Lx. pose proof (wf_nth 9 ms y1 W Hy) as Ly. pose proof (wf_nth 9 ms z1 W Hz) as Lz.
  pose proof (wf_nth 9 ms x2 W Hx2) as Lx2. pose proof (wf_nth 9 ms y2 W Hy2) as Ly2. pose proof (wf_nth 9 ms z2 W Hz2) as Lz2.
  pose proof (not_eq_sym D1) as D1'. pose proof (not_eq_sym D2) as D2'. pose proof (not_eq_sym D3) as D3'.
  remember (length ms) as N eqn:HN. symmetry in HN. repeat step. subst fin. finish.
Qed.

(** ** P-224 *)
Lemma upd_len8 a i v : length a = 8%nat -> (i < 8)%nat -> length (upd a i v) = 8%nat.
Proof. intros H Hi. rewrite upd_length; lia. Qed.
Lemma add224_len a b : length a = 8%nat -> length b = 8%nat -> length (p224_add a b) = 8%nat.
Proof. intros Ha Hb. unfold p224_add. rewrite zip_len, Ha, Hb. reflexivity. Qed.
Lemma sub224_len a b : length a = 8%nat -> length b = 8%nat -> length (p224_sub a b) = 8%nat.
Proof. intros Ha Hb. unfold p224_sub. rewrite map_length, !combine_length, Ha, Hb. reflexivity. Qed.
Lemma carry_step_len a i : length a = 8%nat -> (i < 7)%nat -> length (carry_step a i) = 8%nat.
Proof. intros Ha Hi. unfold carry_step. cbv zeta. apply upd_len8; [|lia]. apply upd_len8; [exact Ha|lia]. Qed.
Lemma reduce_top_len a : length a = 8%nat -> length (reduce_top a) = 8%nat.
Proof. intros Ha. unfold reduce_top. cbv zeta. repeat (apply upd_len8; [|lia]). exact Ha. Qed.
Lemma reduce224_len a : length a = 8%nat -> length (p224_reduce a) = 8%nat.
Proof.
  intros Ha. unfold p224_reduce. cbn [fold_left seq]. apply reduce_top_len. repeat (apply carry_step_len; [|lia]). exact Ha.
Qed.
Lemma large_len a : length (p224_reduce_large a) = 8%nat.
Proof.
  unfold p224_reduce_large. cbv zeta. match goal with |- context [upd ?x 8 0] => generalize (upd x 8 0) end. clear a. intros a.
  destruct (carry_agree [1; 2; 3; 4; 5; 6; 7]%nat a fe0 fe0) as (_ & E & _); [reflexivity|repeat constructor|].
  destruct (fold_left large_carry _ _) as [a1 o]. cbn [snd] in E. change (length fe0) with 8%nat in E. unfold large_out. cbv zeta. repeat (apply upd_len8; [|lia]). exact E.
Qed.
Lemma mul224_len a b : length (p224_mul a b) = 8%nat.
Proof. apply large_len. Qed.
Lemma square224_len a : length (p224_square a) = 8%nat.
Proof. apply large_len. Qed.
Lemma map_len8 (f : Z -> Z) a : length a = 8%nat -> length (map f a) = 8%nat.
Proof. rewrite map_length. auto. Qed.
Lemma copyc_len a b c : length a = 8%nat -> length b = 8%nat -> length (copy_conditional a b c) = 8%nat.
Proof. intros Ha Hb. unfold copy_conditional. rewrite zip_len, Ha, Hb. reflexivity. Qed.
Ltac len8 := lazymatch goal with
  | |- length (p224_add _ _) = _ => apply add224_len
  | |- length (p224_sub _ _) = _ => apply sub224_len
  | |- length (p224_reduce _) = _ => apply reduce224_len
  | |- length (p224_mul _ _) = _ => apply mul224_len
  | |- length (p224_square _) = _ => apply square224_len
  | |- length (map _ _) = _ => apply map_len8
  | |- length (copy_conditional _ _ _) = _ => apply copyc_len
  | H : length ?v = 8%nat |- length ?v = _ => exact H
  end.
Ltac nm8 := match goal with |- context [set _ _ ?v] =>
  let n := fresh "v" in let H := fresh "Hv" in assert (H : length v = 8%nat) by (repeat len8); generalize dependent v; intros n H end.
Ltac wr_A8 ms i v :=
  let ms1 := fresh "ms" in let E := fresh "E" in let W := fresh "W" in let Ln := fresh "Ln" in let R := fresh "R" in
  rewrite (set_A ms _ i v); remember (put ms i v) as ms1 eqn:E;
  assert (W : wf 8 ms1) by (rewrite E; apply wf_put; [assumption|repeat len8]);
  match goal with H : length ms = ?N |- _ => assert (Ln : length ms1 = N) by (rewrite E; rewrite put_length by inb; exact H) end;
  assert (R : nth i ms1 [] = v) by (rewrite E; apply put_same; inb).
Ltac wr8 := first [wr_local | match goal with |- context [set (?ms, ?ls) (A ?i) ?v] => wr_A8 ms i v end].
(** The innermost routine is applied to a memory in normal form. *)
Ltac step8 := match goal with
  | |- context [add224_m ?o ?a ?b (?ms, ?ls)] => rewrite (add224_spec o a b (ms, ls)) by side; rd; nm8; wr8
  | |- context [sub224_m ?o ?a ?b (?ms, ?ls)] => rewrite (sub224_spec o a b (ms, ls)) by side; rd; nm8; wr8
  | |- context [shl224_m ?n ?o ?a (?ms, ?ls)] => rewrite (shl224_spec n o a (ms, ls)) by side; rd; nm8; wr8
  | |- context [copy224_m ?o ?a ?c (?ms, ?ls)] => rewrite (copy224_spec o a c (ms, ls)) by side; rd; nm8; wr8
  | |- context [mul224_m ?o ?a ?b (?ms, ?ls)] => rewrite (mul224_spec o a b (ms, ls)) by side; rd; nm8; wr8
  | |- context [square224_m ?o ?a (?ms, ?ls)] => rewrite (square224_spec o a (ms, ls)) by side; rd; nm8; wr8
  | |- context [in_place ?f ?p (?ms, ?ls)] => change (in_place f p (ms, ls)) with (set (ms, ls) p (f (get (ms, ls) p))); rd; nm8; wr8
  end.
Lemma double224_ok xo yo zo x y z ms : wf 8 ms ->
  (xo < length ms)%nat -> (yo < length ms)%nat -> (zo < length ms)%nat -> (x < length ms)%nat -> (y < length ms)%nat -> (z < length ms)%nat ->
  xo <> yo -> xo <> zo -> yo <> zo ->
  double224_m xo yo zo x y z ms = Some (wr3 ms xo yo zo (p224_double_jacobian (nth x ms []) (nth y ms []) (nth z ms []))).
Proof.
  intros W Hxo Hyo Hzo Hx Hy Hz D1 D2 D3.
  unfold double224_m, frame, p224_double_jacobian. cbn [repeat]. set (fin := wr3 ms xo yo zo). cbv zeta.
  pose proof (wf_nth 8 ms x W Hx) as Lx. pose proof (wf_nth 8 ms y W Hy) as Ly. pose proof (wf_nth 8 ms z W Hz) as Lz.
  pose proof (not_eq_sym D1) as D1'. pose proof (not_eq_sym D2) as D2'. pose proof (not_eq_sym D3) as D3'.
  remember (length ms) as N eqn:HN. symmetry in HN. repeat step8. subst fin. finish.
Qed.
Lemma add_jacobian_ok xo yo zo x1 y1 z1 x2 y2 z2 ms : wf 8 ms ->
  (xo < length ms)%nat -> (yo < length ms)%nat -> (zo < length ms)%nat -> (x1 < length ms)%nat -> (y1 < length ms)%nat -> (z1 < length ms)%nat ->
  (x2 < length ms)%nat -> (y2 < length ms)%nat -> (z2 < length ms)%nat ->
  xo <> yo -> xo <> zo -> yo <> zo -> (forall i, In i [x1; y1; z1; x2; y2; z2] -> i <> xo /\ i <> yo /\ i <> zo) ->
  add_jacobian_m xo yo zo x1 y1 z1 x2 y2 z2 ms =
  Some (wr3 ms xo yo zo (p224_add_jacobian (nth x1 ms []) (nth y1 ms []) (nth z1 ms []) (nth x2 ms []) (nth y2 ms []) (nth z2 ms []))).
Proof.
  intros W Hxo Hyo Hzo Hx1 Hy1 Hz1 Hx2 Hy2 Hz2 D1 D2 D3 D.
  destruct (D x1) as (? & ? & ?); [cbn; tauto|]. destruct (D y1) as (? & ? & ?); [cbn; tauto|]. destruct (D z1) as (? & ? & ?); [cbn; tauto|].
  destruct (D x2) as (? & ? & ?); [cbn; tauto|]. destruct (D y2) as (? & ? & ?); [cbn; tauto|]. destruct (D z2) as (? & ? & ?); [cbn; tauto|]. clear D.
  pose proof (double224_ok xo yo zo x1 y1 z1 ms W Hxo Hyo Hzo Hx1 Hy1 Hz1 D1 D2 D3) as Dbl.
  unfold add_jacobian_m, p224_add_jacobian. cbn [repeat]. set (fin := wr3 ms xo yo zo) in *. cbv zeta.
  pose proof (wf_nth 8 ms x1 W Hx1) as Lx1. pose proof (wf_nth 8 ms y1 W Hy1) as Ly1. pose proof (wf_nth 8 ms z1 W Hz1) as Lz1.
  pose proof (wf_nth 8 ms x2 W Hx2) as Lx2. pose proof (wf_nth 8 ms y2 W Hy2) as Ly2. pose proof (wf_nth 8 ms z2 W Hz2) as Lz2.
  pose proof (not_eq_sym D1) as D1'. pose proof (not_eq_sym D2) as D2'. pose proof (not_eq_sym D3) as D3'.
  remember (length ms) as N eqn:HN. symmetry in HN. do 17 step8. rd. cbn [fst].
  match goal with |- (if ?c then _ else _) = Some (fin (if ?c' then _ else _)) => change c' with c; destruct c end; [exact Dbl|].
  repeat step8. subst fin. finish.
Qed.
