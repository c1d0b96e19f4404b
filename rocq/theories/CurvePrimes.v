(** Primality certificates for the constants of the curves (generated; checked below by the kernel).
    They concern numbers only and model no code. *)
From Coq Require Import Uint63 Znumtheory.
From Verif Require Import Base Mont MontPow.
Local Open Scope Z_scope.
Definition curve_certs : list cert :=
  [ {| ce_m := {| mo_n := 166571; mo_len := 1; mo_l := [166571]%uint63; mo_inv := 68607997%uint63; mo_k := [] |};
     ce_fs := [(16657, 1, 2)] |};
    {| ce_m := {| mo_n := 2998279; mo_len := 2; mo_l := [2998279; 0]%uint63; mo_inv := 142496329%uint63; mo_k := [] |};
     ce_fs := [(166571, 1, 2)] |};
    {| ce_m := {| mo_n := 67280421310721; mo_len := 2; mo_l := [27054337; 250639]%uint63; mo_inv := 268161279%uint63; mo_k := [] |};
     ce_fs := [(2998279, 1, 3)] |};
    {| ce_m := {| mo_n := 6700417; mo_len := 2; mo_l := [6700417; 0]%uint63; mo_inv := 268434815%uint63; mo_k := [] |};
     ce_fs := [(17449, 1, 3)] |};
    {| ce_m := {| mo_n := 274177; mo_len := 1; mo_l := [274177]%uint63; mo_inv := 241381119%uint63; mo_k := [] |};
     ce_fs := [(17, 1, 3); (7, 1, 5)] |};
    {| ce_m := {| mo_n := 26959946667150639794667015087019630673557916260026308143510066298881; mo_len := 9; mo_l := [1; 0; 0; 268431360; 268435455; 268435455; 268435455; 268435455; 0]%uint63; mo_inv := 268435455%uint63; mo_k := [] |};
     ce_fs := [(67280421310721, 1, 2); (6700417, 1, 2); (274177, 1, 2)] |};
    {| ce_m := {| mo_n := 11105363; mo_len := 2; mo_l := [11105363; 0]%uint63; mo_inv := 120524837%uint63; mo_k := [] |};
     ce_fs := [(10909, 1, 2)] |};
    {| ce_m := {| mo_n := 821796863; mo_len := 2; mo_l := [16490495; 3]%uint63; mo_inv := 83599361%uint63; mo_k := [] |};
     ce_fs := [(11105363, 1, 2)] |};
    {| ce_m := {| mo_n := 432621809776543; mo_len := 3; mo_l := [223033247; 1611641; 0]%uint63; mo_inv := 63167393%uint63; mo_k := [] |};
     ce_fs := [(821796863, 1, 2)] |};
    {| ce_m := {| mo_n := 136401162692544977256234449; mo_len := 4; mo_l := [238992849; 157388223; 13898200; 7]%uint63; mo_inv := 210322639%uint63; mo_k := [] |};
     ce_fs := [(432621809776543, 1, 2)] |};
    {| ce_m := {| mo_n := 34646440928557194402992574983797; mo_len := 5; mo_l := [71855733; 219700780; 3859870; 1791179; 0]%uint63; mo_inv := 117739043%uint63; mo_k := [] |};
     ce_fs := [(136401162692544977256234449, 1, 2)] |};
    {| ce_m := {| mo_n := 375503554633724504423937478103159147573209; mo_len := 6; mo_l := [106934233; 203504354; 153240187; 2494796; 72319354; 0]%uint63; mo_inv := 182722455%uint63; mo_k := [] |};
     ce_fs := [(34646440928557194402992574983797, 1, 2)] |};
    {| ce_m := {| mo_n := 50520606258875818707470860153287666700917696099933389351507; mo_len := 8; mo_l := [42756691; 59661249; 243523323; 57751983; 94361526; 145273562; 135029693; 0]%uint63; mo_inv := 167286309%uint63; mo_k := [] |};
     ce_fs := [(375503554633724504423937478103159147573209, 1, 2)] |};
    {| ce_m := {| mo_n := 26959946667150639794667015087019625940457807714424391721682722368061; mo_len := 9; mo_l := [207366717; 231904341; 149962259; 23735819; 268435455; 268435455; 268435455; 268435455; 0]%uint63; mo_inv := 169853675%uint63; mo_k := [] |};
     ce_fs := [(50520606258875818707470860153287666700917696099933389351507, 1, 2)] |};
    {| ce_m := {| mo_n := 490463; mo_len := 1; mo_l := [490463]%uint63; mo_inv := 202899425%uint63; mo_k := [] |};
     ce_fs := [(661, 1, 2)] |};
    {| ce_m := {| mo_n := 115792089210356248762697446949407573530086143415290314195533631308867097853951; mo_len := 10; mo_l := [268435455; 268435455; 268435455; 4095; 0; 0; 16777216; 0; 268435455; 15]%uint63; mo_inv := 1%uint63; mo_k := [] |};
     ce_fs := [(6700417, 1, 2); (490463, 1, 2); (65537, 1, 2); (1531, 1, 2); (641, 1, 2); (257, 1, 2)] |};
    {| ce_m := {| mo_n := 155317; mo_len := 1; mo_l := [155317]%uint63; mo_inv := 112975971%uint63; mo_k := [] |};
     ce_fs := [(43, 2, 2)] |};
    {| ce_m := {| mo_n := 191039911; mo_len := 2; mo_l := [191039911; 0]%uint63; mo_inv := 264958441%uint63; mo_k := [] |};
     ce_fs := [(155317, 1, 2)] |};
    {| ce_m := {| mo_n := 208150935158385979; mo_len := 3; mo_l := [96988475; 238551747; 2]%uint63; mo_inv := 4955149%uint63; mo_k := [] |};
     ce_fs := [(191039911, 1, 2)] |};
    {| ce_m := {| mo_n := 2624747550333869278416773953; mo_len := 4; mo_l := [187343681; 164881975; 186902992; 135]%uint63; mo_inv := 23335743%uint63; mo_k := [] |};
     ce_fs := [(208150935158385979, 1, 2)] |};
    {| ce_m := {| mo_n := 115792089210356248762697446949407573529996955224135760342422259061068512044369; mo_len := 10; mo_l := [207824209; 194817071; 127829235; 262855281; 268418278; 268435455; 16777215; 0; 268435455; 15]%uint63; mo_inv := 234929231%uint63; mo_k := [] |};
     ce_fs := [(2624747550333869278416773953, 1, 2)] |};
    {| ce_m := {| mo_n := 246608641; mo_len := 2; mo_l := [246608641; 0]%uint63; mo_inv := 118092543%uint63; mo_k := [] |};
     ce_fs := [(21407, 1, 2)] |};
    {| ce_m := {| mo_n := 529709925838459440593; mo_len := 3; mo_l := [266538449; 54210668; 7351]%uint63; mo_inv := 8099023%uint63; mo_k := [] |};
     ce_fs := [(246608641, 1, 2)] |};
    {| ce_m := {| mo_n := 513928823; mo_len := 2; mo_l := [245493367; 1]%uint63; mo_inv := 32093369%uint63; mo_k := [] |};
     ce_fs := [(661, 1, 2); (599, 1, 2)] |};
    {| ce_m := {| mo_n := 53448597593; mo_len := 2; mo_l := [29941849; 199]%uint63; mo_inv := 265787415%uint63; mo_k := [] |};
     ce_fs := [(513928823, 1, 2)] |};
    {| ce_m := {| mo_n := 1357291859799823621; mo_len := 3; mo_l := [132502789; 224467989; 18]%uint63; mo_inv := 18960435%uint63; mo_k := [] |};
     ce_fs := [(53448597593, 1, 2)] |};
    {| ce_m := {| mo_n := 19173790298027098165721053155794528970226934547887232785722672956982046098136719667167519737147526097; mo_len := 13; mo_l := [108497873; 63835703; 243414173; 72499370; 8093777; 19909324; 87966973; 140999276; 162307857; 247508607; 236667144; 36767940; 0]%uint63; mo_inv := 234705615%uint63; mo_k := [] |};
     ce_fs := [(529709925838459440593, 1, 2); (1357291859799823621, 1, 2)] |};
    {| ce_m := {| mo_n := 39402006196394479212279040100143613805079739270465446667948293404245721771496870329047266088258938001861606973112319; mo_len := 14; mo_l := [268435455; 15; 0; 268431360; 268369919; 268435455; 268435455; 268435455; 268435455; 268435455; 268435455; 268435455; 268435455; 1048575]%uint63; mo_inv := 1%uint63; mo_k := [] |};
     ce_fs := [(19173790298027098165721053155794528970226934547887232785722672956982046098136719667167519737147526097, 1, 2)] |};
    {| ce_m := {| mo_n := 272109983; mo_len := 2; mo_l := [3674527; 1]%uint63; mo_inv := 227095969%uint63; mo_k := [] |};
     ce_fs := [(421, 1, 2); (233, 1, 2)] |};
    {| ce_m := {| mo_n := 228572385721; mo_len := 2; mo_l := [133812665; 851]%uint63; mo_inv := 71900023%uint63; mo_k := [] |};
     ce_fs := [(272109983, 1, 2)] |};
    {| ce_m := {| mo_n := 23314383343543; mo_len := 2; mo_l := [227119031; 86852]%uint63; mo_inv := 175669753%uint63; mo_k := [] |};
     ce_fs := [(228572385721, 1, 2)] |};
    {| ce_m := {| mo_n := 426632512014427833817; mo_len := 3; mo_l := [210453977; 192058495; 5920]%uint63; mo_inv := 129439127%uint63; mo_k := [] |};
     ce_fs := [(23314383343543, 1, 2)] |};
    {| ce_m := {| mo_n := 1495199339761412565498084319; mo_len := 4; mo_l := [81017823; 159224314; 80529055; 77]%uint63; mo_inv := 11845601%uint63; mo_k := [] |};
     ce_fs := [(426632512014427833817, 1, 2)] |};
    {| ce_m := {| mo_n := 17942392077136950785977011829; mo_len := 4; mo_l := [166907509; 31643579; 161042299; 927]%uint63; mo_inv := 113896995%uint63; mo_k := [] |};
     ce_fs := [(1495199339761412565498084319, 1, 2)] |};
    {| ce_m := {| mo_n := 1059392654943455286185473617842338478315215895509773412096307; mo_len := 8; mo_l := [49961267; 101857230; 59551021; 111435122; 236993697; 70798703; 147152742; 10]%uint63; mo_inv := 126268933%uint63; mo_k := [] |};
     ce_fs := [(17942392077136950785977011829, 1, 2)] |};
    {| ce_m := {| mo_n := 3055465788140352002733946906144561090641249606160407884365391979704929268480326390471; mo_len := 11; mo_l := [112349895; 125923644; 149296493; 12492704; 60313784; 83615068; 45219842; 101589189; 260724152; 153764824; 1]%uint63; mo_inv := 201666825%uint63; mo_k := [] |};
     ce_fs := [(1059392654943455286185473617842338478315215895509773412096307, 1, 2)] |};
    {| ce_m := {| mo_n := 39402006196394479212279040100143613805079739270465446667946905279627659399113263569398956308152294913554433653942643; mo_len := 14; mo_l := [214247795; 247568044; 10975980; 14361739; 232740890; 136266610; 264725325; 268435455; 268435455; 268435455; 268435455; 268435455; 268435455; 1048575]%uint63; mo_inv := 143645765%uint63; mo_k := [] |};
     ce_fs := [(3055465788140352002733946906144561090641249606160407884365391979704929268480326390471, 1, 2)] |};
    {| ce_m := {| mo_n := 9211861; mo_len := 2; mo_l := [9211861; 0]%uint63; mo_inv := 176279171%uint63; mo_k := [] |};
     ce_fs := [(2437, 1, 2)] |};
    {| ce_m := {| mo_n := 24098228377; mo_len := 2; mo_l := [207472793; 89]%uint63; mo_inv := 180876375%uint63; mo_k := [] |};
     ce_fs := [(9211861, 1, 2)] |};
    {| ce_m := {| mo_n := 674750394557; mo_len := 2; mo_l := [172093629; 2513]%uint63; mo_inv := 11695467%uint63; mo_k := [] |};
     ce_fs := [(24098228377, 1, 2)] |};
    {| ce_m := {| mo_n := 361725589517273017; mo_len := 3; mo_l := [89687993; 5355549; 5]%uint63; mo_inv := 185774455%uint63; mo_k := [] |};
     ce_fs := [(674750394557, 1, 2)] |};
    {| ce_m := {| mo_n := 173308343918874810521923841; mo_len := 4; mo_l := [246591745; 61706759; 257652774; 8]%uint63; mo_inv := 22130943%uint63; mo_k := [] |};
     ce_fs := [(361725589517273017, 1, 3)] |};
    {| ce_m := {| mo_n := 8620289; mo_len := 2; mo_l := [8620289; 0]%uint63; mo_inv := 171084031%uint63; mo_k := [] |};
     ce_fs := [(223, 1, 2)] |};
    {| ce_m := {| mo_n := 2534364967; mo_len := 2; mo_l := [118445863; 9]%uint63; mo_inv := 26302313%uint63; mo_k := [] |};
     ce_fs := [(8620289, 1, 2)] |};
    {| ce_m := {| mo_n := 145295143558111; mo_len := 2; mo_l := [158030815; 541266]%uint63; mo_inv := 253921%uint63; mo_k := [] |};
     ce_fs := [(2534364967, 1, 3)] |};
    {| ce_m := {| mo_n := 108140989558681; mo_len := 2; mo_l := [155496345; 402856]%uint63; mo_inv := 268094295%uint63; mo_k := [] |};
     ce_fs := [(23609, 1, 3); (1433, 1, 3)] |};
    {| ce_m := {| mo_n := 6864797660130609714981900799081393217269435300143305409394463459185543183397656052122559640661454554977296311391480858037121987999716643812574028291115057151; mo_len := 19; mo_l := [268435455; 268435455; 268435455; 268435455; 268435455; 268435455; 268435455; 268435455; 268435455; 268435455; 268435455; 268435455; 268435455; 268435455; 268435455; 268435455; 268435455; 268435455; 131071]%uint63; mo_inv := 1%uint63; mo_k := [] |};
     ce_fs := [(173308343918874810521923841, 1, 3); (145295143558111, 1, 3); (108140989558681, 1, 3)] |};
    {| ce_m := {| mo_n := 19353437; mo_len := 2; mo_l := [19353437; 0]%uint63; mo_inv := 139428619%uint63; mo_k := [] |};
     ce_fs := [(17467, 1, 2)] |};
    {| ce_m := {| mo_n := 60018716061994831; mo_len := 3; mo_l := [180358991; 223587140; 0]%uint63; mo_inv := 243816529%uint63; mo_k := [] |};
     ce_fs := [(19353437, 1, 2)] |};
    {| ce_m := {| mo_n := 4239602065187190872179; mo_len := 3; mo_l := [251664499; 79953564; 58836]%uint63; mo_inv := 22786885%uint63; mo_k := [] |};
     ce_fs := [(60018716061994831, 1, 2)] |};
    {| ce_m := {| mo_n := 7427946019382605513260578233234962521; mo_len := 5; mo_l := [162478169; 73642004; 62532153; 153106565; 1430]%uint63; mo_inv := 169046039%uint63; mo_k := [] |};
     ce_fs := [(4239602065187190872179, 1, 2)] |};
    {| ce_m := {| mo_n := 15994076126984618329123851002118749004583184815459808099; mo_len := 7; mo_l := [26358627; 124372187; 161283474; 161394167; 89912690; 107976211; 42748]%uint63; mo_inv := 268376501%uint63; mo_k := [] |};
     ce_fs := [(7427946019382605513260578233234962521, 1, 2)] |};
    {| ce_m := {| mo_n := 3636410625392624440351547907325502812950802686368714273274221490761556277859337865760708490235892541081304511; mo_len := 14; mo_l := [70827455; 244005318; 144887374; 231540689; 56247883; 4596460; 216351219; 116367406; 20579804; 235157040; 2146230; 225399652; 25977321; 0]%uint63; mo_inv := 242863553%uint63; mo_k := [] |};
     ce_fs := [(15994076126984618329123851002118749004583184815459808099, 1, 2)] |};
    {| ce_m := {| mo_n := 3615194794881930010216942559103847593050265703173292383701371712350878926821661243755933835426896058418509759880171943; mo_len := 15; mo_l := [56168871; 209295996; 259278104; 77181656; 59949969; 111815671; 221053693; 75617681; 141275750; 194491704; 17434491; 103774390; 17471393; 96208464; 0]%uint63; mo_inv := 227637737%uint63; mo_k := [] |};
     ce_fs := [(3636410625392624440351547907325502812950802686368714273274221490761556277859337865760708490235892541081304511, 1, 2)] |};
    {| ce_m := {| mo_n := 6864797660130609714981900799081393217269435300143305409394463459185543183397655394245057746333217197532963996371363321113864768612440380340372808892707005449; mo_len := 19; mo_l := [20472841; 117141993; 206024379; 211519641; 97532853; 76509338; 192924673; 200472934; 25593731; 268435365; 268435455; 268435455; 268435455; 268435455; 268435455; 268435455; 268435455; 268435455; 131071]%uint63; mo_inv := 162108871%uint63; mo_k := [] |};
     ce_fs := [(3615194794881930010216942559103847593050265703173292383701371712350878926821661243755933835426896058418509759880171943, 1, 2)] |} ].
Lemma curve_certs_ok : certs_ok [] curve_certs = true.
Proof. vm_compute. reflexivity. Qed.
Lemma cert_prime n : In n (map (fun c => mo_n (ce_m c)) curve_certs) -> prime n.
Proof.
  intro I. apply in_map_iff in I. destruct I as (c & <- & I).
  pose proof (certs_prime curve_certs [] (Forall_nil _) curve_certs_ok) as P. rewrite Forall_forall in P. apply P, I.
Qed.
Lemma prime_p224 : prime 26959946667150639794667015087019630673557916260026308143510066298881.
Proof. apply cert_prime. apply (existsb_in _ _). vm_compute. reflexivity. Qed.
Lemma prime_n224 : prime 26959946667150639794667015087019625940457807714424391721682722368061.
Proof. apply cert_prime. apply (existsb_in _ _). vm_compute. reflexivity. Qed.
Lemma prime_p256 : prime 115792089210356248762697446949407573530086143415290314195533631308867097853951.
Proof. apply cert_prime. apply (existsb_in _ _). vm_compute. reflexivity. Qed.
Lemma prime_n256 : prime 115792089210356248762697446949407573529996955224135760342422259061068512044369.
Proof. apply cert_prime. apply (existsb_in _ _). vm_compute. reflexivity. Qed.
Lemma prime_p384 : prime 39402006196394479212279040100143613805079739270465446667948293404245721771496870329047266088258938001861606973112319.
Proof. apply cert_prime. apply (existsb_in _ _). vm_compute. reflexivity. Qed.
Lemma prime_n384 : prime 39402006196394479212279040100143613805079739270465446667946905279627659399113263569398956308152294913554433653942643.
Proof. apply cert_prime. apply (existsb_in _ _). vm_compute. reflexivity. Qed.
Lemma prime_p521 : prime 6864797660130609714981900799081393217269435300143305409394463459185543183397656052122559640661454554977296311391480858037121987999716643812574028291115057151.
Proof. apply cert_prime. apply (existsb_in _ _). vm_compute. reflexivity. Qed.
Lemma prime_n521 : prime 6864797660130609714981900799081393217269435300143305409394463459185543183397655394245057746333217197532963996371363321113864768612440380340372808892707005449.
Proof. apply cert_prime. apply (existsb_in _ _). vm_compute. reflexivity. Qed.
