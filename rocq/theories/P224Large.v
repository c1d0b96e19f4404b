(** Proofs about P224Model.v: products, squares and their reduction. *)
From Coq Require Import Znumtheory.
From Verif Require Import Base Words HashModel EllModel EllSpec P224Model P224Spec LimbTac.
Local Open Scope Z_scope.

Local Notation p := (2 ^ 224 - 2 ^ 96 + 1).
Lemma cong_by q x y k : x - y = k * q -> cong q x y. Proof. intros E. exists k. exact E. Qed.

Lemma reduce_large_eq a : p224_reduce_large a =
  large_out (fold_left large_carry [1; 2; 3; 4; 5; 6; 7]%nat (upd (fold_left large_step [14; 13; 12; 11; 10; 9; 8]%nat (large_init a)) 8 0, fe0)).
Proof. reflexivity. Qed.
Lemma reduce_large_8 t0 t1 t2 t3 t4 t5 t6 t7 t8 t9 t10 t11 t12 t13 t14 :
  let t := [t0; t1; t2; t3; t4; t5; t6; t7; t8; t9; t10; t11; t12; t13; t14] in
  Forall (fun x => 0 <= x <= 2 ^ 62 - 1) t ->
  exists o0 o1 o2 o3 o4 o5 o6 o7, p224_reduce_large t = [o0; o1; o2; o3; o4; o5; o6; o7] /\
    0 <= o0 <= 2 ^ 28 - 1 /\ (0 <= o1 <= 2 ^ 29 - 2 /\ 0 <= o2 <= 2 ^ 29 - 2 /\ 0 <= o3 <= 2 ^ 29 - 2 /\ 0 <= o4 <= 2 ^ 29 - 2 /\
    0 <= o5 <= 2 ^ 29 - 2 /\ 0 <= o6 <= 2 ^ 29 - 2 /\ 0 <= o7 <= 2 ^ 29 - 2) /\
    cong p (val28 [o0; o1; o2; o3; o4; o5; o6; o7]) (val28 t) /\ 1 <= o4.
Proof.
  intros t H. unfold t in H. change (2 ^ 62 - 1) with 4611686018427387903 in H.
  repeat match goal with H : Forall _ (_ :: _) |- _ => let H1 := fresh "B" in apply Forall_cons_iff in H; destruct H as [H1 H] end. clear H.
  set (R := p224_reduce_large t). assert (H : R = p224_reduce_large [t0; t1; t2; t3; t4; t5; t6; t7; t8; t9; t10; t11; t12; t13; t14]) by reflexivity. clearbody R.
  rewrite reduce_large_eq in H.
  match type of H with context [large_init ?l] => let e := eval cbv [large_init zip_with map combine fst snd firstn skipn app zero63 two63p35 two63m35 two63m35m19] in (large_init l) in ev H (large_init l) e end.
  repeat word_step H. rewrite !fold_cons, !fold_nil in H.
  repeat (match type of H with context [large_step (?x :: ?l) ?i] =>
    let e := eval cbv [large_step upd nth Nat.sub Nat.add firstn skipn app] in (large_step (x :: l) i) in ev H (large_step (x :: l) i) e end;
    repeat word_step H).
  match type of H with context [upd (?x :: ?l) 8 0] => let e := eval cbv [upd firstn skipn app] in (upd (x :: l) 8 0) in ev H (upd (x :: l) 8 0) e end.
  ev H fe0 [0; 0; 0; 0; 0; 0; 0; 0].
  repeat (match type of H with context [large_carry (?x :: ?l, ?o :: ?ol) ?i] =>
    let e := eval cbv [large_carry upd nth Nat.sub Nat.add firstn skipn app bot28] in (large_carry (x :: l, o :: ol) i) in ev H (large_carry (x :: l, o :: ol) i) e end;
    repeat word_step H).
  match type of H with context [large_out ?l] => let e := eval cbv [large_out upd nth firstn skipn app bot28] in (large_out l) in ev H (large_out l) e end.
  repeat word_step H.
  match type of H with R = [?a; ?b; ?c; ?d; ?e; ?f; ?g; ?h] => exists a, b, c, d, e, f, g, h end.
  split; [exact H|]. split; [lia|]. split; [repeat split; lia|]. clear H. split; [|lia].
  assert (Q : q16 = q14) by (clear - Ev57 Ev58 Ev63 B87 B89 B96; lia).
  repeat match goal with B : _ <= _ <= _ |- _ => clear B end.
  apply (cong_by _ _ _ (34359738368 - (v16 + 2 ^ 28 * v12 + 2 ^ 56 * v8 + 2 ^ 84 * t11 + 2 ^ 112 * t12 + 2 ^ 140 * t13 + 2 ^ 168 * t14 + v41))).
  unfold t. cbn [val28]. clear t R. lia.
Qed.

Ltac split_bounds := repeat match goal with H : Forall _ (_ :: _) |- _ => let H1 := fresh "B" in apply Forall_cons_iff in H; destruct H as [H1 H] end;
  repeat match goal with H : Forall _ [] |- _ => clear H end.
Ltac use_bound := match goal with |- ?l <= ?x <= ?h => match goal with B : _ <= x <= _ |- _ => clear - B; lia end end.
Ltac rows H R := match goal with |- context [fold_left ?f ?l ?x] => set (R := fold_left f l x); assert (H : R = fold_left f l x) by reflexivity; clearbody R end;
  ev H (seq 0 8) [0; 1; 2; 3; 4; 5; 6; 7]%nat; ev H lfe0 [0; 0; 0; 0; 0; 0; 0; 0; 0; 0; 0; 0; 0; 0; 0]; rewrite !fold_cons, !fold_nil in H;
  repeat (match type of H with
    | context [mul_row ?a ?b (?x :: ?l) ?i] =>
      let e := eval cbv [mul_row fold_left seq upd nth Nat.add firstn skipn app] in (mul_row a b (x :: l) i) in ev H (mul_row a b (x :: l) i) e
    | context [square_row ?a (?x :: ?l) ?i] =>
      let e := eval cbv [square_row fold_left seq upd nth Nat.add Nat.eqb firstn skipn app] in (square_row a (x :: l) i) in ev H (square_row a (x :: l) i) e
    end; repeat word_step H);
  match type of H with R = [?t0; ?t1; ?t2; ?t3; ?t4; ?t5; ?t6; ?t7; ?t8; ?t9; ?t10; ?t11; ?t12; ?t13; ?t14] =>
    exists t0, t1, t2, t3, t4, t5, t6, t7, t8, t9, t10, t11, t12, t13, t14 end;
  let t := fresh in intros t; split; [exact H|]; unfold t; clear t H R; split;
  [repeat (apply Forall_cons; [use_bound|]); constructor
  |repeat match goal with B : _ <= _ <= _ |- _ => clear B end; subst; cbn [val28]; ring].
Lemma mul_rows a0 a1 a2 a3 a4 a5 a6 a7 b0 b1 b2 b3 b4 b5 b6 b7 : Forall (fun x => 0 <= x <= 536870911) [a0; a1; a2; a3; a4; a5; a6; a7] -> Forall (fun x => 0 <= x <= 1073741823) [b0; b1; b2; b3; b4; b5; b6; b7] ->
  exists t0 t1 t2 t3 t4 t5 t6 t7 t8 t9 t10 t11 t12 t13 t14, let t := [t0; t1; t2; t3; t4; t5; t6; t7; t8; t9; t10; t11; t12; t13; t14] in
    fold_left (mul_row [a0; a1; a2; a3; a4; a5; a6; a7] [b0; b1; b2; b3; b4; b5; b6; b7]) (seq 0 8) lfe0 = t /\ Forall (fun x => 0 <= x <= 2 ^ 62 - 1) t /\ val28 t = val28 [a0; a1; a2; a3; a4; a5; a6; a7] * val28 [b0; b1; b2; b3; b4; b5; b6; b7].
Proof. intros HA HB. split_bounds. rows H R. Qed.
Lemma mul_rows2 a0 a1 a2 a3 a4 a5 a6 a7 b0 b1 b2 b3 b4 b5 b6 b7 : Forall (fun x => 0 <= x <= 1073741823) [a0; a1; a2; a3; a4; a5; a6; a7] -> Forall (fun x => 0 <= x <= 536870911) [b0; b1; b2; b3; b4; b5; b6; b7] ->
  exists t0 t1 t2 t3 t4 t5 t6 t7 t8 t9 t10 t11 t12 t13 t14, let t := [t0; t1; t2; t3; t4; t5; t6; t7; t8; t9; t10; t11; t12; t13; t14] in
    fold_left (mul_row [a0; a1; a2; a3; a4; a5; a6; a7] [b0; b1; b2; b3; b4; b5; b6; b7]) (seq 0 8) lfe0 = t /\ Forall (fun x => 0 <= x <= 2 ^ 62 - 1) t /\ val28 t = val28 [a0; a1; a2; a3; a4; a5; a6; a7] * val28 [b0; b1; b2; b3; b4; b5; b6; b7].
Proof. intros HA HB. split_bounds. rows H R. Qed.
Lemma square_rows a0 a1 a2 a3 a4 a5 a6 a7 : Forall (fun x => 0 <= x <= 536870911) [a0; a1; a2; a3; a4; a5; a6; a7] ->
  exists t0 t1 t2 t3 t4 t5 t6 t7 t8 t9 t10 t11 t12 t13 t14, let t := [t0; t1; t2; t3; t4; t5; t6; t7; t8; t9; t10; t11; t12; t13; t14] in
    fold_left (square_row [a0; a1; a2; a3; a4; a5; a6; a7]) (seq 0 8) lfe0 = t /\ Forall (fun x => 0 <= x <= 2 ^ 62 - 1) t /\ val28 t = val28 [a0; a1; a2; a3; a4; a5; a6; a7] * val28 [a0; a1; a2; a3; a4; a5; a6; a7].
Proof. intros HA. split_bounds. rows H R. Qed.
