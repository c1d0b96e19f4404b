(** The cubics of the four curves have no root: no point has order 2.  The inverses were computed outside, the kernel checks them. *)
From Coq Require Import Uint63.
From Verif Require Import Base EllModel Mont MontEc CurveOrders CurveRoot.
Local Open Scope Z_scope.
Lemma root_p224 : root_check mont_p224 (cp_b p224)
  1261710631285627074303005901530361786216288604486499842249704943048
  4447412785031720342771701563499662000791675740805516550464163634437
  9439789507511725786058244597052783711805086828869674293526675889612 = true.
Proof. vm_compute. reflexivity. Qed.
Lemma root_p256 : root_check mont_p256 (cp_b p256)
  76626890310466861426869089647039036757962535851890885406097439786770458211455
  74462945259064871768191128030512052509059297803194871526163573358218695456204
  34768139465301476436978405170953382516735956999154666452188405812258086013549 = true.
Proof. vm_compute. reflexivity. Qed.
Lemma root_p384 : root_check mont_p384 (cp_b p384)
  23037766613497683937702734290281044719364893268180251583910224888989381657771069200037813904257325918671976092329602
  8235438212423615602427778915669574859600037698862346933589434399495169446996583974901273360826717582835190849638831
  12157362177932134139146813183752135342286725243554133716818896354380897714709611791313184492360272402950851405460538 = true.
Proof. vm_compute. reflexivity. Qed.
Lemma root_p521 : root_check mont_p521 (cp_b p521)
  5556850081864827842302249485475501585472702946772625307642304195702912034363837867267334216347521692509406916620096684956176894315447091116492501000392161958
  2592645775458497527836362227091103884154287512470494672274301275565663408730650270660448980645397363205839490313252565391972848223674401530161387302727484004
  3919380404691066388712376322317341026252002696138380915147944189379687824774581460974855590730258562532022938584569429027963361353339635641909491533809725330 = true.
Proof. vm_compute. reflexivity. Qed.
