(** Powers modulo N and primality certificates, evaluated with the arithmetic of Mont.v and justified by Pock.v. *)
From Coq Require Import Uint63 Znumtheory Zpow_facts.
From Verif Require Import Base NumTheory Pock Mont.
Local Open Scope Z_scope.

Section Den.
Variable M : mont.
Hypothesis OK : mont_ok M = true.
Notation N := (mo_n M).
Notation RR := (LB ^ Z.of_nat (mo_len M)).
(** [l] stands for [z] modulo N (Montgomery form) *)
Definition den (l : list int) (z : Z) : Prop := good M l /\ (N | lval l - z * RR).

Lemma RR_coprime : rel_prime N RR.
Proof.
  destruct (ok_split M OK) as (_ & _ & _ & _ & _ & O). apply rel_prime_Zpower_r; [lia|].
  change LB with (2 ^ 28). apply rel_prime_Zpower_r; [lia|]. apply rel_prime_sym, prime_rel_prime; [exact prime_2|].
  intros [k E]. rewrite E, Z.odd_mul, Bool.andb_comm in O. discriminate.
Qed.
Lemma RR_cancel x : (N | x * RR) -> (N | x).
Proof. intro H. apply (Gauss N RR x); [rewrite Z.mul_comm; exact H|exact RR_coprime]. Qed.
Lemma den_mul a b r x y : den a x -> den b y -> mmul M a b = Some r -> den r (x * y).
Proof.
  intros [A1 [k A2]] [B1 [j B2]] E. destruct (mmul_ok M OK a b r A1 B1 E) as [G [i D]]. split; [exact G|].
  apply RR_cancel. exists (i + k * j * N + k * y * RR + j * x * RR).
  assert (lval a = x * RR + k * N) as EA by lia. assert (lval b = y * RR + j * N) as EB by lia.
  assert (lval r * RR = lval a * lval b + i * N) as ER by lia.
  replace ((lval r - x * y * RR) * RR) with (lval r * RR - x * y * RR * RR) by ring. rewrite ER, EA, EB. ring.
Qed.
Lemma den_add a b r x y : den a x -> den b y -> madd M a b = Some r -> den r (x + y).
Proof.
  intros [A1 [k A2]] [B1 [j B2]] E. destruct (madd_ok M a b r A1 B1 E) as [G D]. split; [exact G|].
  exists (k + j). rewrite D. lia.
Qed.
Lemma den_sub a b r x y : den a x -> den b y -> msub M a b = Some r -> den r (x - y).
Proof.
  intros [A1 [k A2]] [B1 [j B2]] E. destruct (msub_ok M OK a b r A1 E) as [G [i D]]. split; [exact G|].
  exists (i + k - j). lia.
Qed.

Definition obind {A B} (o : option A) (f : A -> option B) : option B := match o with Some a => f a | None => None end.
Definition to_mont (z : Z) : option (list int) := limbs (mo_len M) ((z * RR) mod N).
Definition of_mont (l : list int) : option Z :=
  obind (limbs (mo_len M) 1) (fun u => obind (mmul M l u) (fun x => Some (lval x mod N))).
Lemma limbs_length n z l : limbs n z = Some l -> length l = n.
Proof.
  unfold limbs. destruct (_ && _)%bool; [|discriminate]. intro H; injection H as <-. revert z. induction n as [|n IH]; intro z; [reflexivity|].
  cbn [limbs_aux length]. rewrite IH. reflexivity.
Qed.
Lemma N_big : 1 < N. Proof. exact (proj1 (ok_split M OK)). Qed.
Lemma to_mont_ok z l : to_mont z = Some l -> den l z.
Proof.
  intro E. pose proof (limbs_length _ _ _ E) as L. apply limbs_ok in E. destruct E as [A B]. split; [split; assumption|].
  rewrite B. apply mod_eq_divide; [pose proof N_big; lia|]. apply Z.mod_mod. pose proof N_big; lia.
Qed.
Lemma of_mont_ok l z y : den l z -> of_mont l = Some y -> y = z mod N.
Proof.
  intros [A [k B]] E. unfold of_mont in E. destruct (limbs (mo_len M) 1) as [u|] eqn:U; [|discriminate]. cbn [obind] in E.
  destruct (mmul M l u) as [x|] eqn:X; [|discriminate]. cbn [obind] in E. injection E as <-.
  pose proof (limbs_length _ _ _ U) as LU. apply limbs_ok in U. destruct U as [U1 U2].
  destruct (mmul_ok M OK l u x A (conj U1 LU) X) as [_ [i D]]. pose proof N_big.
  apply divide_mod_eq; [lia|]. apply RR_cancel. exists (i + k).
  rewrite U2 in D. replace ((lval x - z) * RR) with (lval x * RR - z * RR) by ring. lia.
Qed.
Fixpoint mpow (a : list int) (e : positive) : option (list int) :=
  match e with
  | xH => Some a
  | xO e => obind (mpow a e) (fun r => mmul M r r)
  | xI e => obind (mpow a e) (fun r => obind (mmul M r r) (fun s => mmul M s a))
  end.
Lemma mpow_ok a x : den a x -> forall e r, mpow a e = Some r -> den r (x ^ Zpos e).
Proof.
  intros D. induction e as [e IH|e IH|]; intros r E; cbn [mpow] in E.
  - destruct (mpow a e) as [s|]; [|discriminate]. cbn [obind] in E. destruct (mmul M s s) as [t|] eqn:T; [|discriminate]. cbn [obind] in E.
    rewrite Pos2Z.inj_xI. replace (2 * Zpos e + 1) with (Zpos e + Zpos e + 1) by lia. rewrite !Z.pow_add_r, Z.pow_1_r by lia.
    eapply den_mul; [|exact D|exact E]. eapply den_mul; [| |exact T]; apply IH; reflexivity.
  - destruct (mpow a e) as [s|]; [|discriminate]. cbn [obind] in E.
    rewrite Pos2Z.inj_xO. replace (2 * Zpos e) with (Zpos e + Zpos e) by lia. rewrite Z.pow_add_r by lia.
    eapply den_mul; [| |exact E]; apply IH; reflexivity.
  - injection E as <-. rewrite Z.pow_1_r. exact D.
Qed.
Definition pow_mod (a e : Z) : option Z :=
  match e with
  | Zpos q => obind (to_mont a) (fun l => obind (mpow l q) of_mont)
  | _ => None
  end.
Lemma pow_mod_ok a e y : pow_mod a e = Some y -> y = a ^ e mod N.
Proof.
  destruct e as [|q|q]; try discriminate. cbn [pow_mod]. destruct (to_mont a) as [l|] eqn:L; [|discriminate]. cbn [obind].
  destruct (mpow l q) as [r|] eqn:R; [|discriminate]. cbn [obind]. intro E.
  eapply of_mont_ok; [|exact E]. eapply mpow_ok; [|exact R]. apply to_mont_ok. exact L.
Qed.
End Den.

(** A certificate for N: prime powers dividing N - 1 with their witnesses. *)
Record cert := { ce_m : mont; ce_fs : list (Z * Z * Z) }.
Definition factor_ok (known : list Z) (M : mont) (f : Z * Z * Z) : bool :=
  let '(q, e, a) := f in let N := mo_n M in
  (if existsb (Z.eqb q) known then true else if q <? 1000000 then primeb (Z.to_nat (Z.sqrt q) - 1) q else false) && (1 <=? e) &&
  match pow_mod M a ((N - 1) / q) with
  | Some v => match pow_mod M v q with Some u => (u =? 1) && (Z.gcd (v - 1) N =? 1) | None => false end && ((N - 1) mod q =? 0)
  | None => false
  end.
Fixpoint distinctb (l : list Z) : bool := match l with [] => true | x :: r => negb (existsb (Z.eqb x) r) && distinctb r end.
Definition not_square (d : Z) : bool := negb (Z.sqrt d * Z.sqrt d =? d).
Definition cert_ok (known : list Z) (c : cert) : bool :=
  let M := ce_m c in let N := mo_n M in let fs := map fst (ce_fs c) in
  let F := zprod (ppow fs) in let R := (N - 1) / F in
  mont_ok M && forallb (factor_ok known M) (ce_fs c) && distinctb (map fst fs) && (N - 1 =? F * R) && (N <? F * F * F) &&
  ((R / F =? 0) || not_square ((R mod F) * (R mod F) - 4 * (R / F))).
Fixpoint certs_ok (known : list Z) (cs : list cert) : bool :=
  match cs with [] => true | c :: cs => cert_ok known c && certs_ok (mo_n (ce_m c) :: known) cs end.

Lemma existsb_in q l : existsb (Z.eqb q) l = true <-> In q l.
Proof.
  rewrite existsb_exists. split.
  - intros (x & I & E). apply Z.eqb_eq in E. subst x. exact I.
  - intro I. exists q. split; [exact I|apply Z.eqb_refl].
Qed.
Lemma distinctb_ok l : distinctb l = true -> NoDup l.
Proof.
  induction l as [|x l IH]; cbn [distinctb]; intro H; [constructor|]. apply Bool.andb_true_iff in H. destruct H as [A B].
  constructor; [|auto]. intro I. apply existsb_in in I. rewrite I in A. discriminate.
Qed.
Lemma not_square_ok d : not_square d = true -> forall x, x * x <> d.
Proof.
  unfold not_square. intros H x E. apply Bool.negb_true_iff, Z.eqb_neq in H. apply H. rewrite <- E.
  replace (x * x) with (Z.abs x * Z.abs x) by (destruct (Z.abs_spec x) as [[_ ->]|[_ ->]]; ring). rewrite Z.sqrt_square by lia. reflexivity.
Qed.
Lemma gcd_mod_l a n : 0 < n -> Z.gcd (a mod n - 1) n = Z.gcd (a - 1) n.
Proof.
  intro H. rewrite (Z.gcd_comm (a mod n - 1)), (Z.gcd_comm (a - 1)).
  rewrite <- (Z.gcd_mod (a mod n - 1) n), <- (Z.gcd_mod (a - 1) n) by lia. now rewrite Zminus_mod_idemp_l.
Qed.
Lemma cert_ok_prime known c : Forall prime known -> cert_ok known c = true -> prime (mo_n (ce_m c)).
Proof.
  intros K H. unfold cert_ok in H. set (M := ce_m c) in *. cbv zeta in H.
  apply Bool.andb_true_iff in H. destruct H as [H HS].
  apply Bool.andb_true_iff in H. destruct H as [H HB].
  apply Bool.andb_true_iff in H. destruct H as [H HR].
  apply Bool.andb_true_iff in H. destruct H as [H HD].
  apply Bool.andb_true_iff in H. destruct H as [HM HF].
  apply Z.eqb_eq in HR. apply Z.ltb_lt in HB. rewrite forallb_forall in HF.
  pose proof (proj1 (ok_split M HM)) as N1.
  apply (bls (mo_n M) N1 (map fst (ce_fs c))) with (R := (mo_n M - 1) / zprod (ppow (map fst (ce_fs c)))).
  - apply Forall_forall. intros qe I. apply in_map_iff in I. destruct I as ([[q e] a] & <- & I). cbn [fst snd].
    specialize (HF _ I). cbn [factor_ok] in HF. apply Bool.andb_true_iff in HF. destruct HF as [HF _].
    apply Bool.andb_true_iff in HF. destruct HF as [HF HE]. apply Z.leb_le in HE. split; [|exact HE].
    destruct (existsb (Z.eqb q) known) eqn:EX.
    + apply existsb_in in EX. rewrite Forall_forall in K. apply K, EX.
    + destruct (q <? 1000000); [|discriminate]. eapply primeb_ok, HF.
  - apply distinctb_ok. exact HD.
  - apply Forall_forall. intros qe I. apply in_map_iff in I. destruct I as ([[q e] a] & <- & I). cbn [fst].
    specialize (HF _ I). cbn [factor_ok] in HF. apply Bool.andb_true_iff in HF. destruct HF as [_ HF].
    destruct (pow_mod M a ((mo_n M - 1) / q)) as [v|] eqn:EV; [|discriminate]. apply Bool.andb_true_iff in HF. destruct HF as [HF D].
    destruct (pow_mod M v q) as [u|] eqn:EU; [|discriminate]. apply Z.eqb_eq in D.
    assert (0 < q) as Q0 by (destruct q; [discriminate EU|reflexivity|discriminate EU]).
    apply Bool.andb_true_iff in HF. destruct HF as [U1 G]. apply Z.eqb_eq in U1, G. apply pow_mod_ok in EU; [|exact HM]. apply pow_mod_ok in EV; [|exact HM].
    exists a. split.
    { rewrite (Z.div_mod (mo_n M - 1) q) by (clear -Q0; lia). rewrite D, Z.add_0_r, Z.mul_comm.
      rewrite Z.pow_mul_r; [|apply Z.div_pos; clear -N1 Q0; lia|clear -Q0; lia].
      rewrite <- pow_mod_idemp by (clear -Q0; lia). rewrite <- EV, <- EU. exact U1. }
    rewrite EV, gcd_mod_l in G by lia. exact G.
  - exact HR.
  - exact HB.
  - apply Bool.orb_true_iff in HS. destruct HS as [HS|HS]; [left; apply Z.eqb_eq; exact HS|right; apply not_square_ok; exact HS].
Qed.
Theorem certs_prime : forall cs known, Forall prime known -> certs_ok known cs = true -> Forall (fun c => prime (mo_n (ce_m c))) cs.
Proof.
  induction cs as [|c cs IH]; intros known K H; [constructor|]. cbn [certs_ok] in H. apply Bool.andb_true_iff in H. destruct H as [A B].
  pose proof (cert_ok_prime known c K A) as P. constructor; [exact P|]. eapply IH; [|exact B]. constructor; assumption.
Qed.
