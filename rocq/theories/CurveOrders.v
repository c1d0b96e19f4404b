(** The base points of the four curves have the stated orders (checked below by the kernel); see MontEc.v. *)
From Coq Require Import Uint63 Znumtheory.
From Verif Require Import Base EllModel EllSpec Mont MontEc.
Local Open Scope Z_scope.
Definition mont_p224 : mont := {| mo_n := 26959946667150639794667015087019630673557916260026308143510066298881; mo_len := 9;
  mo_l := [1; 0; 0; 268431360; 268435455; 268435455; 268435455; 268435455; 0]%uint63; mo_inv := 268435455%uint63;
  mo_k := [268435522; 536870911; 536870910; 536600574; 536870910; 536870910; 536870910; 536870910; 64]%uint63 |}.
Lemma mont_p224_ok : mont_ok mont_p224 = true /\ mo_n mont_p224 = cp_p p224.
Proof. split; vm_compute; reflexivity. Qed.
Lemma order_p224 : order_check mont_p224 (cp_gx p224) (cp_gy p224) (cp_n p224) = true.
Proof. vm_compute. reflexivity. Qed.
Definition mont_p256 : mont := {| mo_n := 115792089210356248762697446949407573530086143415290314195533631308867097853951; mo_len := 10;
  mo_l := [268435455; 268435455; 268435455; 4095; 0; 0; 16777216; 0; 268435455; 15]%uint63; mo_inv := 1%uint63;
  mo_k := [536870847; 536870910; 536870910; 268701694; 536870911; 536870910; 285212670; 268435459; 536870846; 1038]%uint63 |}.
Lemma mont_p256_ok : mont_ok mont_p256 = true /\ mo_n mont_p256 = cp_p p256.
Proof. split; vm_compute; reflexivity. Qed.
Lemma order_p256 : order_check mont_p256 (cp_gx p256) (cp_gy p256) (cp_n p256) = true.
Proof. vm_compute. reflexivity. Qed.
Definition mont_p384 : mont := {| mo_n := 39402006196394479212279040100143613805079739270465446667948293404245721771496870329047266088258938001861606973112319; mo_len := 15;
  mo_l := [268435455; 15; 0; 268431360; 268369919; 268435455; 268435455; 268435455; 268435455; 268435455; 268435455; 268435455; 268435455; 1048575; 0]%uint63; mo_inv := 1%uint63;
  mo_k := [536870591; 268440590; 536870911; 535556094; 515833854; 536870910; 536870910; 536870910; 536870910; 536870910; 536870910; 536870910; 536870910; 336592894; 0]%uint63 |}.
Lemma mont_p384_ok : mont_ok mont_p384 = true /\ mo_n mont_p384 = cp_p p384.
Proof. split; vm_compute; reflexivity. Qed.
Lemma order_p384 : order_check mont_p384 (cp_gx p384) (cp_gy p384) (cp_n p384) = true.
Proof. vm_compute. reflexivity. Qed.
Definition mont_p521 : mont := {| mo_n := 6864797660130609714981900799081393217269435300143305409394463459185543183397656052122559640661454554977296311391480858037121987999716643812574028291115057151; mo_len := 20;
  mo_l := [268435455; 268435455; 268435455; 268435455; 268435455; 268435455; 268435455; 268435455; 268435455; 268435455; 268435455; 268435455; 268435455; 268435455; 268435455; 268435455; 268435455; 268435455; 131071; 0]%uint63; mo_inv := 1%uint63;
  mo_k := [536868799; 536870910; 536870910; 536870910; 536870910; 536870910; 536870910; 536870910; 536870910; 536870910; 536870910; 536870910; 536870910; 536870910; 536870910; 536870910; 536870910; 536870910; 276955134; 0]%uint63 |}.
Lemma mont_p521_ok : mont_ok mont_p521 = true /\ mo_n mont_p521 = cp_p p521.
Proof. split; vm_compute; reflexivity. Qed.
Lemma order_p521 : order_check mont_p521 (cp_gx p521) (cp_gy p521) (cp_n p521) = true.
Proof. vm_compute. reflexivity. Qed.
