(** Block transducers and the generic argument about streams. *)
From Verif Require Import Base ModesModel ModesSpec PaddingProofs.

(** ** Chained block functions *)
Section Chain.
Context {X : Type}.
Variable F : X -> list Z -> list Z.
Variable G : X -> list Z -> X.

Fixpoint chainF (x : X) (bl : list (list Z)) : list Z :=
  match bl with [] => [] | b :: bl' => F x b ++ chainF (G x b) bl' end.
Fixpoint chainG (x : X) (bl : list (list Z)) : X :=
  match bl with [] => x | b :: bl' => chainG (G x b) bl' end.

Lemma chainF_app x a b : chainF x (a ++ b) = chainF x a ++ chainF (chainG x a) b.
Proof. revert x; induction a as [|y a IH]; intros x; cbn; auto. rewrite IH, app_assoc. auto. Qed.
Lemma chainG_app x a b : chainG x (a ++ b) = chainG (chainG x a) b.
Proof. revert x; induction a as [|y a IH]; intros x; cbn; auto. Qed.
End Chain.

(** ** Splits of a byte string used by the buffering code *)
Record split (w r : list Z -> list Z) : Prop := {
  sp_wr : forall m, w m ++ r m = m;
  sp_w : forall m d, w (m ++ d) = w m ++ w (r m ++ d);
  sp_r : forall m d, r (m ++ d) = r (r m ++ d);
  sp_nil : w [] = []
}.

Lemma split_rest n : (0 < n)%nat -> split (whole n) (rest n).
Proof.
  intros Hn. assert (Hn' : n <> 0%nat) by lia. constructor.
  - intros m. apply whole_rest.
  - intros m d. rewrite <- (whole_rest n m) at 1. rewrite <- app_assoc.
    apply whole_app_mult; auto. apply whole_mod; auto.
  - intros m d. rewrite <- (whole_rest n m) at 1. rewrite <- app_assoc.
    apply rest_app_mult; auto. apply whole_mod; auto.
  - unfold whole. cbn [length]. apply firstn_nil.
Qed.

(** One block is held back. *)
Definition hw (n : nat) (m : list Z) : list Z := firstn ((length m - 1) / n * n) m.
Definition hr (n : nat) (m : list Z) : list Z := skipn ((length m - 1) / n * n) m.

Lemma hold_app n b m : (0 < n)%nat -> length b = n -> m <> [] ->
  hw n (b ++ m) = b ++ hw n m /\ hr n (b ++ m) = hr n m.
Proof.
  intros Hn Hb Hm. unfold hw, hr. rewrite app_length.
  assert (Hl : (0 < length m)%nat) by (destruct m; [congruence|cbn; lia]).
  replace (length b + length m - 1)%nat with (length m - 1 + 1 * n)%nat by lia.
  rewrite Nat.div_add by lia.
  replace (((length m - 1) / n + 1) * n)%nat with (length b + (length m - 1) / n * n)%nat by lia.
  generalize ((length m - 1) / n * n)%nat as k. intros k.
  rewrite firstn_app, skipn_app, firstn_all2, skipn_all2 by lia.
  replace (length b + k - length b)%nat with k by lia.
  auto.
Qed.

Lemma hold_app_mult n a m : (0 < n)%nat -> (length a mod n = 0)%nat -> m <> [] ->
  hw n (a ++ m) = a ++ hw n m /\ hr n (a ++ m) = hr n m.
Proof.
  intros Hn. revert a. block_induction n; auto.
  - intros a Hl Ha Hm. rewrite Nat.mod_small in Ha by lia. destruct a; [auto|cbn in Ha; lia].
  - intros b a Hb IH Ha Hm. rewrite app_length, mod_block in Ha by lia.
    destruct (IH Ha Hm) as [I1 I2]. rewrite <- !app_assoc.
    destruct (hold_app n b (a ++ m) Hn Hb) as [J1 J2].
    { destruct a; cbn; auto. congruence. }
    rewrite J1, J2, I1, I2. auto.
Qed.

Lemma hold_short n m : (length m <= n)%nat -> (0 < n)%nat -> hw n m = [] /\ hr n m = m.
Proof.
  intros Hl Hn. unfold hw, hr. rewrite Nat.div_small by lia. cbn. auto.
Qed.

Lemma hw_mod n m : (0 < n)%nat -> (length (hw n m) mod n = 0)%nat.
Proof.
  intros Hn. unfold hw. rewrite firstn_length.
  rewrite Nat.min_l.
  - apply Nat.mod_mul. lia.
  - pose proof (Nat.mul_div_le (length m - 1) n ltac:(lia)). lia.
Qed.

Lemma hr_length n m : (0 < n)%nat -> m <> [] -> (0 < length (hr n m) <= n)%nat.
Proof.
  intros Hn Hm. assert (Hl : (0 < length m)%nat) by (destruct m; [congruence|cbn; lia]).
  unfold hr. rewrite skipn_length.
  pose proof (Nat.div_mod (length m - 1) n ltac:(lia)) as Hd.
  pose proof (Nat.mod_upper_bound (length m - 1) n ltac:(lia)) as Hu.
  rewrite Nat.mul_comm. lia.
Qed.

Lemma split_hold n : (0 < n)%nat -> split (hw n) (hr n).
Proof.
  intros Hn.
  assert (Happ : forall m d, hw n (m ++ d) = hw n m ++ hw n (hr n m ++ d) /\ hr n (m ++ d) = hr n (hr n m ++ d)).
  { intros m d. destruct m as [|x m'].
    - destruct (hold_short n [] ltac:(cbn; lia) Hn) as [-> ->]. auto.
    - set (m := x :: m') in *. assert (Hm : m <> []) by discriminate.
      pose proof (hr_length n m Hn Hm) as Hr.
      assert (E : m ++ d = hw n m ++ (hr n m ++ d)).
      { rewrite app_assoc. f_equal. symmetry. apply firstn_skipn. }
      rewrite E. apply hold_app_mult; auto; [apply hw_mod; auto|].
      destruct (hr n m); cbn in *; [lia|discriminate]. }
  constructor.
  - intros m. apply firstn_skipn.
  - intros m d. apply Happ.
  - intros m d. apply Happ.
  - apply (hold_short n []); cbn; lia.
Qed.

(** ** Streams as transducers *)
Section Transducer.
Context {S X : Type}.
Variable ops : stream_ops S.
Variable mk : list Z -> list Z -> X -> S.
Variables w r : list Z -> list Z.
Variable cF : X -> list Z -> list Z.
Variable cG : X -> list Z -> X.
Variable V : X -> Prop.
Hypothesis Hsp : split w r.
Hypothesis HF0 : forall x, cF x [] = [].
Hypothesis HG0 : forall x, cG x [] = x.
Hypothesis HF : forall x m d, cF x (w (m ++ d)) = cF x (w m) ++ cF (cG x (w m)) (w (r m ++ d)).
Hypothesis HG : forall x m d, cG x (w (m ++ d)) = cG (cG x (w m)) (w (r m ++ d)).
Hypothesis HV : forall x m, V x -> bytes m -> V (cG x (w m)).
Hypothesis Hpond : forall d p x, op_pond ops (mk d p x) = p.
Hypothesis Hdrain : forall d p x, op_empty_pond ops (mk d p x) = mk d [] x.
Hypothesis Hwrite : forall m pond x d, V x -> bytes m -> bytes d ->
  op_write ops (mk (r m) pond x) d =
  (mk (r (r m ++ d)) (pond ++ cF x (w (r m ++ d))) (cG x (w (r m ++ d))), Ok tt).

Lemma run_writes_spec evs : forall m out pond x0, V x0 -> bytes m ->
  Forall (fun e => bytes (fst e)) evs ->
  out ++ pond = cF x0 (w m) ->
  exists out' pond',
    run_writes ops (mk (r m) pond (cG x0 (w m))) out evs =
      (mk (r (m ++ concat (map fst evs))) pond' (cG x0 (w (m ++ concat (map fst evs)))), out', Ok tt)
    /\ out' ++ pond' = cF x0 (w (m ++ concat (map fst evs))).
Proof.
  induction evs as [|[d draw] evs IH]; intros m out pond x0 Hx Hm Hev Ho.
  - cbn. rewrite app_nil_r. eauto.
  - inversion Hev as [|? ? Hd Hev']; subst. cbn [fst] in Hd.
    cbn [run_writes map concat fst]. rewrite Hwrite by auto.
    rewrite <- (sp_r w r Hsp), <- HG, app_assoc.
    assert (Hmd : bytes (m ++ d)) by (apply bytes_app; auto).
    destruct draw.
    + rewrite Hpond, Hdrain. apply IH; auto.
      rewrite app_nil_r, app_assoc, Ho, <- HF. reflexivity.
    + apply IH; auto. rewrite app_assoc, Ho, <- HF. reflexivity.
Qed.

Lemma run_writes_init evs x0 : V x0 -> r [] = [] ->
  Forall (fun e => bytes (fst e)) evs ->
  let m := concat (map fst evs) in
  exists out' pond',
    run_writes ops (mk [] [] x0) [] evs = (mk (r m) pond' (cG x0 (w m)), out', Ok tt)
    /\ out' ++ pond' = cF x0 (w m).
Proof.
  intros Hx Hr Hev m.
  pose proof (run_writes_spec evs [] [] [] x0 Hx (Forall_nil _) Hev) as H.
  rewrite (sp_nil w r Hsp), HF0, HG0, Hr in H. apply H. reflexivity.
Qed.
End Transducer.

Lemma bytes_concat_fst (evs : list (list Z * bool)) :
  Forall (fun e => bytes (fst e)) evs -> bytes (concat (map fst evs)).
Proof. induction 1; cbn; [constructor|]. apply bytes_app; auto. Qed.

(** Chains over the blocks of a message. *)
Section ChainMsg.
Context {X : Type}.
Variable F : X -> list Z -> list Z.
Variable G : X -> list Z -> X.
Variable n : nat.
Hypothesis Hn : (0 < n)%nat.
Definition mF x m := chainF F G x (chunks n m).
Definition mG x m := chainG G x (chunks n m).

Lemma mF_nil x : mF x [] = [].
Proof. unfold mF. rewrite chunks_nil; auto. Qed.
Lemma mG_nil x : mG x [] = x.
Proof. unfold mG. rewrite chunks_nil; auto. Qed.
Lemma mF_block x b m : length b = n -> mF x (b ++ m) = F x b ++ mF (G x b) m.
Proof. intros. unfold mF. rewrite chunks_app; auto. Qed.
Lemma mG_block x b m : length b = n -> mG x (b ++ m) = mG (G x b) m.
Proof. intros. unfold mG. rewrite chunks_app; auto. Qed.
Lemma mF_app x a m : (length a mod n = 0)%nat -> mF x (a ++ m) = mF x a ++ mF (mG x a) m.
Proof. intros. unfold mF, mG. rewrite chunks_app_mult by (auto; lia). apply chainF_app. Qed.
Lemma mG_app x a m : (length a mod n = 0)%nat -> mG x (a ++ m) = mG (mG x a) m.
Proof. intros. unfold mG. rewrite chunks_app_mult by (auto; lia). apply chainG_app. Qed.
Lemma mF_short x m : (0 < length m < n)%nat -> mF x m = F x m.
Proof. intros. unfold mF. rewrite chunks_short by auto. cbn. apply app_nil_r. Qed.

Lemma mF_split w r x m d : split w r -> (forall m, length (w m) mod n = 0)%nat ->
  mF x (w (m ++ d)) = mF x (w m) ++ mF (mG x (w m)) (w (r m ++ d)).
Proof. intros Hs Hw. rewrite (sp_w w r Hs). apply mF_app. apply Hw. Qed.
Lemma mG_split w r x m d : split w r -> (forall m, length (w m) mod n = 0)%nat ->
  mG x (w (m ++ d)) = mG (mG x (w m)) (w (r m ++ d)).
Proof. intros Hs Hw. rewrite (sp_w w r Hs). apply mG_app. apply Hw. Qed.

Lemma mG_inv (V : X -> Prop) x m :
  (forall x b, V x -> length b = n -> bytes b -> V (G x b)) ->
  V x -> bytes m -> (length m mod n = 0)%nat -> V (mG x m).
Proof.
  intros HG. revert m x. block_induction n; auto.
  - intros m Hl x Hx Hm Hmod. rewrite Nat.mod_small in Hmod by lia.
    destruct m; [rewrite mG_nil; auto|cbn in Hmod; lia].
  - intros b m Hb IH x Hx Hm Hmod. rewrite mG_block by auto.
    apply bytes_app in Hm. destruct Hm as [Hbb Hm].
    rewrite app_length, mod_block in Hmod by lia. apply IH; auto.
Qed.
End ChainMsg.
