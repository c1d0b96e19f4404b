(** Proofs about InplaceModel. *)
From Coq Require Import Lia.
From Verif Require Import Base Words HashModel NumTheory RsaModel RsaEncModel EllModel P224Model P256Model InplaceModel CompressProofs.

(** ** Lists and memories *)
Lemma put_length l i v : (i < length l)%nat -> length (put l i v) = length l.
Proof. intros H. unfold put. rewrite app_length, firstn_length. cbn [length]. rewrite skipn_length. lia. Qed.
Lemma put_same l i v : (i < length l)%nat -> nth i (put l i v) [] = v.
Proof. intros H. unfold put. rewrite app_nth2; rewrite firstn_length, min_l by lia; [|lia]. rewrite Nat.sub_diag. reflexivity. Qed.
Lemma put_cons x l i v : put (x :: l) (S i) v = x :: put l i v.
Proof. reflexivity. Qed.
Lemma put_other l i v j : (i < length l)%nat -> j <> i -> nth j (put l i v) [] = nth j l [].
Proof.
  revert l j; induction i; intros [|x l] j H N; cbn in H; try lia.
  - destruct j; [lia|]. reflexivity.
  - rewrite put_cons. destruct j; [reflexivity|]. cbn. apply IHi; lia.
Qed.
Lemma put_put l i v w : (i < length l)%nat -> put (put l i v) i w = put l i w.
Proof.
  revert l; induction i; intros [|x l] H; cbn in H; try lia; [reflexivity|]. rewrite !put_cons, IHi by lia. reflexivity.
Qed.
Lemma put_comm l i j v w : (i < length l)%nat -> (j < length l)%nat -> i <> j -> put (put l i v) j w = put (put l j w) i v.
Proof.
  revert l j; induction i; intros [|x l] [|j] H H' N; cbn in H, H'; try lia; try reflexivity. rewrite !put_cons, IHi by lia. reflexivity.
Qed.
Lemma put_nth l i : (i < length l)%nat -> put l i (nth i l []) = l.
Proof. revert l; induction i; intros [|x l] H; cbn in H; try lia; [reflexivity|]. rewrite put_cons. cbn. rewrite IHi by lia. reflexivity. Qed.

Definition vp (m : mem) (p : ptr) : Prop := match p with A i => (i < length (fst m))%nat | L i => (i < length (snd m))%nat end.
Lemma ptr_dec (p q : ptr) : {p = q} + {p <> q}.
Proof. decide equality; apply Nat.eq_dec. Qed.
Lemma get_set m p v : vp m p -> get (set m p v) p = v.
Proof. destruct p; cbn; intros; apply put_same; auto. Qed.
Lemma get_set_other m p v q : vp m p -> q <> p -> get (set m p v) q = get m q.
Proof. destruct p, q; cbn; intros H N; try reflexivity; apply put_other; auto; congruence. Qed.
Lemma set_set m p v w : vp m p -> set (set m p v) p w = set m p w.
Proof. destruct p; cbn; intros; rewrite put_put; auto. Qed.
Lemma set_get m p : vp m p -> set m p (get m p) = m.
Proof. destruct m, p; cbn; intros; rewrite put_nth; auto. Qed.
Lemma vp_set m p v q : vp m p -> vp (set m p v) q <-> vp m q.
Proof. destruct p, q; cbn; intros; try rewrite put_length; tauto. Qed.
Lemma st_st m p i v w : vp m p -> (i < length (get m p))%nat -> st (st m p i v) p i w = st m p i w.
Proof.
  intros H Hi. unfold st. rewrite get_set, set_set by auto. f_equal.
  generalize (get m p) Hi. clear. induction i; intros [|x l] Hi; cbn in Hi; try lia; [reflexivity|].
  change (x :: upd (upd l i v) i w = x :: upd l i w). rewrite IHi by lia. reflexivity.
Qed.
Lemma ld_st m p i v : vp m p -> (i < length (get m p))%nat -> ld (st m p i v) p i = v.
Proof. intros H Hi. unfold ld, st. rewrite get_set, upd_nth, Nat.eqb_refl by auto. reflexivity. Qed.
Lemma upd_app_skipn l k v : (k < length l)%nat -> firstn (S k) (upd l k v) = firstn k l ++ [v] /\ skipn (S k) (upd l k v) = skipn (S k) l.
Proof.
  intros H. unfold upd. split.
  - rewrite firstn_app, firstn_length, min_l by lia. replace (S k - k)%nat with 1%nat by lia.
    rewrite firstn_firstn, min_r by lia. reflexivity.
  - rewrite skipn_app, skipn_all2 by (rewrite firstn_length; lia). rewrite firstn_length, min_l by lia.
    replace (S k - k)%nat with 1%nat by lia. reflexivity.
Qed.

(** ** Loops over the limbs *)
Section Loop.
Variables (g h : nat -> Z -> Z -> Z -> Z -> Z).
(** What the loop computes when [o], [xs], [ys] are separate; position [k], carry [c]. *)
Fixpoint chain (k : nat) (c : Z) (os xs ys : list Z) : list Z * Z :=
  match os, xs, ys with
  | o :: os, x :: xs, y :: ys => let (zs, c') := chain (S k) (h k o x y c) os xs ys in (g k o x y c :: zs, c')
  | _, _, _ => ([], c)
  end.
Definition body (out a b : ptr) (mc : mem * Z) (i : nat) : mem * Z :=
  let (m, c) := mc in (st m out i (g i (ld m out i) (ld m a i) (ld m b i) c), h i (ld m out i) (ld m a i) (ld m b i) c).
Lemma skipn_cons_nth (l : list Z) k : (k < length l)%nat -> skipn k l = l.[k] :: skipn (S k) l.
Proof. revert l; induction k; intros [|x l] H; cbn in H; try lia; [reflexivity|]. cbn. apply IHk. lia. Qed.
Lemma loop_gen out a b n : forall k m c, vp m out ->
  length (get m out) = (k + n)%nat -> length (get m a) = (k + n)%nat -> length (get m b) = (k + n)%nat ->
  fold_left (body out a b) (seq k n) (m, c) =
  (set m out (firstn k (get m out) ++ fst (chain k c (skipn k (get m out)) (skipn k (get m a)) (skipn k (get m b)))),
   snd (chain k c (skipn k (get m out)) (skipn k (get m a)) (skipn k (get m b)))).
Proof.
  induction n; intros k m c V Lo La Lb.
  - cbn [seq fold_left]. rewrite (skipn_all2 (get m out)) by lia. cbn. rewrite app_nil_r, firstn_all2, set_get by (auto; lia). reflexivity.
  - cbn [seq fold_left]. cbn [body].
    set (v := g k _ _ _ _). set (c' := h k _ _ _ _).
    assert (Hs : forall q, length (get m q) = (k + S n)%nat -> skipn (S k) (get (st m out k v) q) = skipn (S k) (get m q)).
    { intros q Lq. unfold st. destruct (ptr_dec q out) as [->|N]; [rewrite get_set by auto; apply upd_app_skipn; lia|].
      rewrite get_set_other by auto. reflexivity. }
    assert (Hl : forall q, length (get m q) = (k + S n)%nat -> length (get (st m out k v) q) = (S k + n)%nat).
    { intros q Lq. unfold st. destruct (ptr_dec q out) as [->|N]; [rewrite get_set by auto; rewrite upd_length; lia|].
      rewrite get_set_other by auto. lia. }
    rewrite IHn by (auto; unfold st; apply vp_set; auto). rewrite !Hs by auto.
    rewrite !(skipn_cons_nth _ k) by lia. cbn [chain]. fold (ld m out k) (ld m a k) (ld m b k). fold v c'.
    destruct (chain (S k) c' _ _ _) as [zs cz]. cbn [fst snd]. f_equal. unfold st. rewrite set_set by auto. f_equal.
    rewrite get_set by auto. destruct (upd_app_skipn (get m out) k v ltac:(lia)) as [-> _]. rewrite <- app_assoc. reflexivity.
Qed.
Lemma loop out a b n m c : vp m out -> length (get m out) = n -> length (get m a) = n -> length (get m b) = n ->
  fold_left (body out a b) (seq 0 n) (m, c) =
  (set m out (fst (chain 0 c (get m out) (get m a) (get m b))), snd (chain 0 c (get m out) (get m a) (get m b))).
Proof. intros V Lo La Lb. rewrite loop_gen by auto. reflexivity. Qed.
End Loop.

(** A loop without a carry. *)
Lemma loop0 (g : nat -> Z -> Z -> Z -> Z) out a b n m (bd : mem -> nat -> mem) :
  (forall m i, bd m i = st m out i (g i (ld m out i) (ld m a i) (ld m b i))) ->
  vp m out -> length (get m out) = n -> length (get m a) = n -> length (get m b) = n ->
  fold_left bd (seq 0 n) m = set m out (fst (chain (fun k o x y _ => g k o x y) (fun _ _ _ _ _ => 0) 0 0 (get m out) (get m a) (get m b))).
Proof.
  intros Hb V Lo La Lb.
  pose proof (loop (fun k o x y _ => g k o x y) (fun _ _ _ _ _ => 0) out a b n m 0 V Lo La Lb) as E.
  apply (f_equal fst) in E. cbn [fst] in E. rewrite <- E. clear E V Lo La Lb. revert m. generalize (seq 0 n), 0 at 2.
  induction l; intros c m; [reflexivity|]. cbn [fold_left body]. rewrite Hb. apply IHl.
Qed.
(** Loops whose body writes more than once. *)
Lemma fold_left_inv {X Y} (I : X -> Prop) (f f' : X -> Y -> X) (P : Y -> Prop) l x :
  (forall x y, I x -> P y -> f x y = f' x y /\ I (f' x y)) -> Forall P l -> I x -> fold_left f l x = fold_left f' l x.
Proof.
  intros H. revert x; induction l; intros x F Ix; [reflexivity|]. inversion F; subst. cbn. destruct (H x a Ix H2) as [-> ?]. auto.
Qed.

(** ** P-256 *)
Definition sumv (i : nat) (o x y c : Z) : Z := add32 (add32 x y) c.
Definition diffv (i : nat) (o x y c : Z) : Z := add32 (add32 (sub32 x y) (P256ZERO31.[i])) c.
Definition lo_ (f : nat -> Z -> Z -> Z -> Z -> Z) i o x y c := Z.land (f i o x y c) (bot i).
Definition hi_ (f : nat -> Z -> Z -> Z -> Z -> Z) i o x y c := shr (f i o x y c) (wd i).
Lemma len_st m out i v n : vp m out -> (i < n)%nat -> length (get m out) = n -> length (get (st m out i v) out) = n.
Proof. intros V Hi H. unfold st. rewrite get_set by auto. rewrite upd_length; lia. Qed.
Lemma vp_st m out i v q : vp m out -> vp (st m out i v) q <-> vp m q.
Proof. apply vp_set. Qed.
Lemma Forall_seq9 : Forall (fun i => (i < 9)%nat) (seq 0 9).
Proof. repeat constructor. Qed.
Lemma len_st_lt m out i v : vp m out -> (i < length (get m out))%nat -> (i < length (get (st m out i v) out))%nat.
Proof. intros V H. rewrite (len_st _ _ _ _ (length (get m out))); auto. Qed.
Ltac vps := repeat first [assumption | lia | apply vp_st | apply len_st_lt].
Ltac stst := repeat (first [rewrite st_st by vps | rewrite ld_st by vps]).
Lemma sum_loop out a b m : vp m out -> length (get m out) = 9%nat ->
  fold_left (sum_body out a b) (seq 0 9) (m, 0) = fold_left (body (lo_ sumv) (hi_ sumv) out a b) (seq 0 9) (m, 0).
Proof.
  intros V Lo. apply (fold_left_inv (fun mc => vp (fst mc) out /\ length (get (fst mc) out) = 9%nat) _ _ (fun i => (i < 9)%nat)); auto using Forall_seq9.
  intros [m' c] i [V' L'] Hi. cbn [fst] in *. unfold sum_body, body. stst.
  split; [reflexivity|]. cbn [fst]. split; [apply vp_st; auto|]. apply len_st; auto.
Qed.
Lemma diff_loop out a b m : vp m out -> length (get m out) = 9%nat ->
  fold_left (diff_body out a b) (seq 0 9) (m, 0) = fold_left (body (lo_ diffv) (hi_ diffv) out a b) (seq 0 9) (m, 0).
Proof.
  intros V Lo. apply (fold_left_inv (fun mc => vp (fst mc) out /\ length (get (fst mc) out) = 9%nat) _ _ (fun i => (i < 9)%nat)); auto using Forall_seq9.
  intros [m' c] i [V' L'] Hi. cbn [fst] in *. unfold diff_body, body. stst.
  split; [reflexivity|]. cbn [fst]. split; [apply vp_st; auto|]. apply len_st; auto.
Qed.
Lemma chain_sum : forall os xs ys k c, length os = length xs -> length xs = length ys ->
  chain (lo_ sumv) (hi_ sumv) k c os xs ys = carry_chain (Nat.even k) c (zip_with add32 xs ys).
Proof.
  induction os as [|o os IH]; intros [|x xs] [|y ys] k c H1 H2; cbn in H1, H2; try lia; [reflexivity|].
  cbn [chain zip_with combine map carry_chain fst snd]. rewrite IH by lia. unfold lo_, hi_, sumv, bot, wd.
  rewrite Nat.even_succ, <- Nat.negb_even. fold (zip_with add32 xs ys). destruct (Nat.even k); destruct (carry_chain _ _ _); reflexivity.
Qed.
Lemma chain_diff : forall os xs ys zs k c, length os = length xs -> length xs = length ys -> zs = skipn k P256ZERO31 -> (length xs = length zs)%nat ->
  chain (lo_ diffv) (hi_ diffv) k c os xs ys = carry_chain (Nat.even k) c (zip_with add32 (zip_with sub32 xs ys) zs).
Proof.
  induction os as [|o os IH]; intros [|x xs] [|y ys] zs k c H1 H2 Ez H3; cbn in H1, H2; try lia; [reflexivity|].
  destruct zs as [|z zs]; [cbn in H3; lia|].
  assert (Hk : (k < length P256ZERO31)%nat). { apply (f_equal (@length Z)) in Ez. rewrite skipn_length in Ez. cbn [length] in Ez. lia. }
  rewrite skipn_cons_nth in Ez by auto. assert (Ez1 : z = P256ZERO31.[k]) by exact (f_equal (hd 0) Ez). assert (Ez2 : zs = skipn (S k) P256ZERO31) by exact (f_equal (@tl Z) Ez).
  cbn [chain zip_with combine map carry_chain fst snd]. rewrite (IH xs ys zs) by (auto; cbn in H3; lia). unfold lo_, hi_, diffv, bot, wd. rewrite <- Ez1.
  rewrite Nat.even_succ, <- Nat.negb_even. fold (zip_with sub32 xs ys). fold (zip_with add32 (zip_with sub32 xs ys) zs).
  destruct (Nat.even k); destruct (carry_chain _ _ _); reflexivity.
Qed.
Lemma sum_spec out a b m : vp m out -> length (get m out) = 9%nat -> length (get m a) = 9%nat -> length (get m b) = 9%nat ->
  sum_m out a b m = set m out (p256_sum (get m a) (get m b)).
Proof.
  intros V Lo La Lb. unfold sum_m. rewrite sum_loop, loop by auto. rewrite chain_sum by congruence. unfold p256_sum.
  change (Nat.even 0) with true. destruct (carry_chain _ _ _) as [o c]. cbn [fst snd]. rewrite get_set, set_set by auto. reflexivity.
Qed.
Lemma diff_spec out a b m : vp m out -> length (get m out) = 9%nat -> length (get m a) = 9%nat -> length (get m b) = 9%nat ->
  diff_m out a b m = set m out (p256_diff (get m a) (get m b)).
Proof.
  intros V Lo La Lb. unfold diff_m. rewrite diff_loop, loop by auto. rewrite (chain_diff _ _ _ P256ZERO31) by (first [congruence | reflexivity | exact La]).
  unfold p256_diff. change (Nat.even 0) with true. destruct (carry_chain _ _ _) as [o c]. cbn [fst snd]. rewrite get_set, set_set by auto. reflexivity.
Qed.

(** The results have nine limbs. *)
Lemma upd_len9 a i v : length a = 9%nat -> (i < 9)%nat -> length (upd a i v) = 9%nat.
Proof. intros H Hi. rewrite upd_length; lia. Qed.
Lemma reduce_carry_len o c : length o = 9%nat -> length (p256_reduce_carry o c) = 9%nat.
Proof. intros H. unfold p256_reduce_carry. cbv zeta. repeat (apply upd_len9; [|lia]). exact H. Qed.
Lemma chain_len xs : forall e c, length (fst (carry_chain e c xs)) = length xs.
Proof.
  induction xs as [|x xs IH]; intros e c; [reflexivity|]. cbn [carry_chain]. specialize (IH (negb e) (if e then shr (add32 x c) 29 else shr (add32 x c) 28)).
  destruct (carry_chain _ _ xs). cbn in *. lia.
Qed.
Lemma shift_chain_len s xs : forall e c, length (fst (shift_chain s e c xs)) = length xs.
Proof.
  induction xs as [|x xs IH]; intros e c; [reflexivity|]. cbn [shift_chain].
  match goal with |- context [shift_chain s ?e' ?c' xs] => specialize (IH e' c'); destruct (shift_chain s e' c' xs) end. cbn in *. lia.
Qed.
Lemma zip_len f a b : length (zip_with f a b) = Nat.min (length a) (length b).
Proof. unfold zip_with. rewrite map_length, combine_length. reflexivity. Qed.
Lemma sum_len a b : length a = 9%nat -> length b = 9%nat -> length (p256_sum a b) = 9%nat.
Proof.
  intros Ha Hb. unfold p256_sum. pose proof (chain_len (zip_with add32 a b) true 0) as H. rewrite zip_len, Ha, Hb in H.
  destruct (carry_chain _ _ _). apply reduce_carry_len. exact H.
Qed.
Lemma diff_len a b : length a = 9%nat -> length b = 9%nat -> length (p256_diff a b) = 9%nat.
Proof.
  intros Ha Hb. unfold p256_diff. pose proof (chain_len (zip_with add32 (zip_with sub32 a b) P256ZERO31) true 0) as H. rewrite !zip_len, Ha, Hb in H.
  destruct (carry_chain _ _ _). apply reduce_carry_len. exact H.
Qed.
Lemma scalar3_len a : length a = 9%nat -> length (p256_scalar3 a) = 9%nat.
Proof.
  intros Ha. unfold p256_scalar3. pose proof (chain_len (map (fun x => (x * 3) mod M32) a) true 0) as H. rewrite map_length, Ha in H.
  destruct (carry_chain _ _ _). apply reduce_carry_len. exact H.
Qed.
Lemma scalar4_len a : length a = 9%nat -> length (p256_scalar4 a) = 9%nat.
Proof.
  intros Ha. unfold p256_scalar4. match goal with |- context [shift_chain ?s ?e ?c a] => pose proof (shift_chain_len s a e c) as H; destruct (shift_chain s e c a) end.
  apply reduce_carry_len. cbn [fst] in H. lia.
Qed.
Lemma scalar8_len a : length a = 9%nat -> length (p256_scalar8 a) = 9%nat.
Proof.
  intros Ha. unfold p256_scalar8. match goal with |- context [shift_chain ?s ?e ?c a] => pose proof (shift_chain_len s a e c) as H; destruct (shift_chain s e c a) end.
  apply reduce_carry_len. cbn [fst] in H. lia.
Qed.
Lemma shift_step_len t s i : length (fst (shift_step t s i)) = (length (fst s) + 2)%nat.
Proof. unfold shift_step. destruct s as [out c]. cbv zeta. cbn [fst]. rewrite app_length. reflexivity. Qed.
Lemma shift_down_len t : length (shift_down t) = 9%nat.
Proof.
  unfold shift_down. pose proof (fun s => shift_step_len t s) as H. cbn [fold_left].
  destruct (shift_step t (shift_step _ _ _) 6) as [o c] eqn:E. apply (f_equal (fun s => length (fst s))) in E. rewrite !H in E. cbn in E.
  cbv zeta. apply reduce_carry_len. rewrite app_length. cbn. lia.
Qed.
Lemma degree_len dbg t v : p256_reduce_degree dbg t = Some v -> length v = 9%nat.
Proof. unfold p256_reduce_degree. destruct (elim_loop _ _) as [l|]; [|discriminate]. pose proof (shift_down_len l) as H. generalize dependent (shift_down l). intros w H E. congruence. Qed.
Lemma mul_len dbg a b v : p256_mul dbg a b = Some v -> length v = 9%nat.
Proof. apply degree_len. Qed.
Lemma square_len dbg a v : p256_square dbg a = Some v -> length v = 9%nat.
Proof. apply degree_len. Qed.

(** ** Loops without a carry *)
Lemma chain_zip (f : Z -> Z -> Z) (g : nat -> Z -> Z -> Z -> Z) : (forall k o x y, g k o x y = f x y) -> forall os xs ys k, length os = length xs -> length xs = length ys ->
  fst (chain (fun k o x y _ => g k o x y) (fun _ _ _ _ _ => 0) k 0 os xs ys) = zip_with f xs ys.
Proof.
  intros Hg. induction os as [|o os IH]; intros [|x xs] [|y ys] k H1 H2; cbn in H1, H2; try lia; [reflexivity|].
  cbn [chain zip_with combine map fst snd]. specialize (IH xs ys (S k)). destruct (chain _ _ _ _ os xs ys). cbn [fst] in *. rewrite Hg, IH by lia. reflexivity.
Qed.
Lemma zip_spec (f : Z -> Z -> Z) n out a b m (bd : mem -> nat -> mem) :
  (forall m i, bd m i = st m out i (f (ld m a i) (ld m b i))) -> vp m out -> length (get m out) = n -> length (get m a) = n -> length (get m b) = n ->
  fold_left bd (seq 0 n) m = set m out (zip_with f (get m a) (get m b)).
Proof.
  intros Hb V Lo La Lb. rewrite (loop0 (fun _ _ x y => f x y) out a b n m bd) by auto.
  rewrite (chain_zip f (fun _ _ x y => f x y)) by (auto; congruence). reflexivity.
Qed.
(** The body reads [out] as well. *)
Lemma chain_zip2 (f : Z -> Z -> Z) (g : nat -> Z -> Z -> Z -> Z) : (forall k o x y, g k o x y = f o x) -> forall os xs k, length os = length xs ->
  fst (chain (fun k o x y _ => g k o x y) (fun _ _ _ _ _ => 0) k 0 os xs xs) = zip_with f os xs.
Proof.
  intros Hg. induction os as [|o os IH]; intros [|x xs] k H1; cbn in H1; try lia; [reflexivity|].
  cbn [chain zip_with combine map fst snd]. specialize (IH xs (S k)). destruct (chain _ _ _ _ os xs xs). cbn [fst] in *. rewrite Hg, IH by lia. reflexivity.
Qed.
Lemma zip2_spec (f : Z -> Z -> Z) n out a m (bd : mem -> nat -> mem) :
  (forall m i, bd m i = st m out i (f (ld m out i) (ld m a i))) -> vp m out -> length (get m out) = n -> length (get m a) = n ->
  fold_left bd (seq 0 n) m = set m out (zip_with f (get m out) (get m a)).
Proof.
  intros Hb V Lo La. rewrite (loop0 (fun _ o x _ => f o x) out a a n m bd) by auto.
  rewrite (chain_zip2 f (fun _ o x _ => f o x)) by (auto; congruence). reflexivity.
Qed.
Lemma zip_diag f (l : list Z) : zip_with (fun x _ => f x) l l = map f l.
Proof. unfold zip_with. induction l; cbn; congruence. Qed.
Lemma map_spec (f : Z -> Z) n out a m (bd : mem -> nat -> mem) :
  (forall m i, bd m i = st m out i (f (ld m a i))) -> vp m out -> length (get m out) = n -> length (get m a) = n ->
  fold_left bd (seq 0 n) m = set m out (map f (get m a)).
Proof. intros Hb V Lo La. rewrite (zip_spec (fun x _ => f x) n out a a m bd) by auto. rewrite zip_diag. reflexivity. Qed.

(** ** P-224 *)
Lemma add224_spec out a b m : vp m out -> length (get m out) = 8%nat -> length (get m a) = 8%nat -> length (get m b) = 8%nat ->
  add224_m out a b m = set m out (p224_add (get m a) (get m b)).
Proof. intros. unfold add224_m. apply zip_spec; auto. Qed.
Lemma chain_sub : forall os xs ys zs k, length os = length xs -> length xs = length ys -> zs = skipn k zero31 -> length xs = length zs ->
  fst (chain (fun k o x y _ => sub32 (add32 x (zero31.[k])) y) (fun _ _ _ _ _ => 0) k 0 os xs ys) =
  map (fun q => sub32 (add32 (fst q) (fst (snd q))) (snd (snd q))) (combine xs (combine zs ys)).
Proof.
  induction os as [|o os IH]; intros [|x xs] [|y ys] zs k H1 H2 Ez H3; cbn in H1, H2; try lia; [reflexivity|].
  destruct zs as [|z zs]; [cbn in H3; lia|].
  assert (Hk : (k < length zero31)%nat). { apply (f_equal (@length Z)) in Ez. rewrite skipn_length in Ez. cbn [length] in Ez. lia. }
  rewrite skipn_cons_nth in Ez by auto. assert (Ez1 : z = zero31.[k]) by exact (f_equal (hd 0) Ez). assert (Ez2 : zs = skipn (S k) zero31) by exact (f_equal (@tl Z) Ez).
  cbn [chain combine map fst snd]. cbn in H3. specialize (IH xs ys zs (S k) ltac:(lia) ltac:(lia) Ez2 ltac:(lia)).
  destruct (chain _ _ _ _ os xs ys). cbn [fst] in *. rewrite IH, Ez1. reflexivity.
Qed.
Lemma sub224_spec out a b m : vp m out -> length (get m out) = 8%nat -> length (get m a) = 8%nat -> length (get m b) = 8%nat ->
  sub224_m out a b m = set m out (p224_sub (get m a) (get m b)).
Proof.
  intros V Lo La Lb. unfold sub224_m, p224_sub. rewrite (loop0 (fun k o x y => sub32 (add32 x (zero31.[k])) y) out a b 8 m) by auto.
  rewrite (chain_sub _ _ _ zero31) by (first [congruence | reflexivity | exact La]). reflexivity.
Qed.
Lemma shl224_spec n out a m : vp m out -> length (get m out) = 8%nat -> length (get m a) = 8%nat ->
  shl224_m n out a m = set m out (map (fun x => shl32 x n) (get m a)).
Proof. intros. unfold shl224_m. apply map_spec; auto. Qed.
Lemma copy224_spec out a c m : vp m out -> length (get m out) = 8%nat -> length (get m a) = 8%nat ->
  copy224_m out a c m = set m out (copy_conditional (get m out) (get m a) c).
Proof. intros. unfold copy224_m, copy_conditional. cbv zeta. apply zip2_spec; auto. Qed.
Lemma contract224_spec out a m : vp m out -> length (get m out) = 8%nat -> length (get m a) = 8%nat ->
  contract224_m out a m = set m out (p224_contract (get m a)).
Proof.
  intros V Lo La. unfold contract224_m. rewrite (map_spec (fun x => x) 8 out a m) by auto. rewrite map_id. unfold in_place.
  rewrite get_set, set_set by auto. reflexivity.
Qed.
(** p224_reduce_large does not depend on what [out] held. *)
Lemma carry_agree is : forall a o o', length o = length o' -> Forall (fun i => (i < length o)%nat) is ->
  fst (fold_left large_carry is (a, o)) = fst (fold_left large_carry is (a, o')) /\
  length (snd (fold_left large_carry is (a, o))) = length o /\ length (snd (fold_left large_carry is (a, o'))) = length o /\
  forall j, (In j is \/ o.[j] = o'.[j]) -> (snd (fold_left large_carry is (a, o))).[j] = (snd (fold_left large_carry is (a, o'))).[j].
Proof.
  induction is as [|i is IH]; intros a o o' L F; cbn [fold_left].
  - cbn. repeat split; auto. intros j [[]|H]; exact H.
  - inversion F; subst. unfold large_carry at 2 4 6 8 10 12.
    destruct (IH (upd a (i + 1) (add64 a.[i + 1] (shr a.[i] 28))) (upd o i (Z.land a.[i] bot28)) (upd o' i (Z.land a.[i] bot28))) as (E1 & E2 & E3 & E4).
    + rewrite !upd_length; lia.
    + rewrite upd_length by lia. exact H2.
    + rewrite upd_length in E2, E3 by lia. repeat split; auto. intros j Hj. apply E4.
      rewrite !upd_nth by lia. destruct (j =? i)%nat eqn:Ej; [right; reflexivity|]. apply Nat.eqb_neq in Ej. destruct Hj as [[->|]|]; auto. congruence.
Qed.
Lemma large_from_eq out a : length out = 8%nat -> reduce_large_from out a = p224_reduce_large a.
Proof.
  intros Lo. unfold reduce_large_from, p224_reduce_large. cbv zeta. generalize (upd (fold_left large_step [14; 13; 12; 11; 10; 9; 8]%nat (large_init a)) 8 0).
  clear a. intros a. destruct (carry_agree [1; 2; 3; 4; 5; 6; 7]%nat a out fe0) as (E1 & E2 & E3 & E4).
  - exact Lo.
  - rewrite Lo. repeat constructor.
  - destruct (fold_left large_carry _ (a, out)) as [a1 o1], (fold_left large_carry _ (a, fe0)) as [a2 o2]. cbn [fst snd] in *. subst a2. rewrite Lo in *.
    destruct o1 as [|x0 [|x1 [|x2 [|x3 [|x4 [|x5 [|x6 [|x7 [|]]]]]]]]]; try discriminate.
    destruct o2 as [|y0 [|y1 [|y2 [|y3 [|y4 [|y5 [|y6 [|y7 [|]]]]]]]]]; try discriminate.
    pose proof (E4 1%nat ltac:(cbn; tauto)) as F1. pose proof (E4 2%nat ltac:(cbn; tauto)) as F2. pose proof (E4 3%nat ltac:(cbn; tauto)) as F3.
    pose proof (E4 4%nat ltac:(cbn; tauto)) as F4. pose proof (E4 5%nat ltac:(cbn; tauto)) as F5. pose proof (E4 6%nat ltac:(cbn; tauto)) as F6.
    pose proof (E4 7%nat ltac:(cbn; tauto)) as F7. cbn in F1, F2, F3, F4, F5, F6, F7. subst. reflexivity.
Qed.
Lemma mul224_spec out a b m : length (get m out) = 8%nat -> mul224_m out a b m = set m out (p224_mul (get m a) (get m b)).
Proof. intros Lo. unfold mul224_m, p224_mul. rewrite large_from_eq by auto. reflexivity. Qed.
Lemma square224_spec out a m : length (get m out) = 8%nat -> square224_m out a m = set m out (p224_square (get m a)).
Proof. intros Lo. unfold square224_m, p224_square. rewrite large_from_eq by auto. reflexivity. Qed.
(** ** The other loops of P-256 *)
Lemma copy256_spec out a mask ms : (out < length ms)%nat -> length (nth out ms []) = 9%nat -> length (nth a ms []) = 9%nat ->
  copy256_m out a mask ms = put ms out (p256_copy (nth out ms []) (nth a ms []) mask).
Proof. intros V Lo La. unfold copy256_m. rewrite (zip2_spec (fun x y => Z.lxor x (Z.land mask (Z.lxor y x))) 9 (A out) (A a)) by auto. reflexivity. Qed.
Lemma select_spec out t mask ms : (out < length ms)%nat -> length (nth out ms []) = 9%nat -> length (nth t ms []) = 9%nat ->
  select_m mask out t ms = put ms out (zip_with (fun x t => Z.lor x (Z.land t mask)) (nth out ms []) (nth t ms [])).
Proof. intros V Lo La. unfold select_m. rewrite (zip2_spec (fun x t => Z.lor x (Z.land t mask)) 9 (A out) (A t)) by auto. reflexivity. Qed.
