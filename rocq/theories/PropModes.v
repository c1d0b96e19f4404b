(** Properties C08-C22: padding, block modes, streams, counters.
    Specification: ModesSpec.v (SP 800-38A on byte strings).  [c] ranges over every cipher
    object that implements a permutation of [n]-byte blocks ([GoodCipher]); PropAesSm4.v and
    PropDes.v provide the instances. *)
From Verif Require Import Base Words ModesModel ModesSpec PaddingProofs ModesLoops EcbCbcProofs
  CfbOfbCtrProofs ModesExtra ModesApi AesModel AesKeys.

(** The instance used in the examples: AES-128 with key 00 01 .. 0f. *)
Definition exkey : list Z := map Z.of_nat (seq 0 16).
Definition exc : cipher := aes_cipher (aes_make exkey).
Definition exiv : list Z := map (fun i => Z.of_nat (i + 32)) (seq 0 16).
Definition exmsg (k : nat) : list Z := map (fun i => Z.of_nat (i mod 7)) (seq 0 k).
Example instance_good : exists E D, GoodCipher exc 16 E D.
Proof.
  eexists. eexists. apply aes_good; [apply bytes_check; vm_compute; reflexivity|left; reflexivity].
Qed.

(** ** C08 *)
Theorem C08_padding : forall n m, (0 < n)%nat -> bytes m ->
  let p := default_pad n m in
  (exists z, (1 <= z <= n)%nat /\ p = m ++ 128 :: repeat 0 z) /\
  (length m < length p)%nat /\ (length p mod n = 0)%nat /\ bytes p /\
  default_unpad p = (m, Ok (length m)).
Proof. exact padding_spec. Qed.
Print Assumptions C08_padding.
Example C08_case : default_pad 8 [1; 128; 0] = [1; 128; 0; 128; 0; 0; 0; 0] /\
  default_unpad [1; 128; 0; 128; 0; 0; 0; 0] = ([1; 128; 0], Ok 3%nat).
Proof. split; reflexivity. Qed.

(** ** C09.  What is accepted: any buffer containing 0x80.  What is returned: the buffer cut
    so that the zeros after the last 0x80, plus one byte, are dropped.  Errors leave the buffer alone. *)
Theorem C09_unpadding_exact : forall buf,
  (In 128 buf -> exists a t, buf = a ++ 128 :: t /\ ~ In 128 t /\
     let keep := (length a + (length t - length (filter (Z.eqb 0) t)))%nat in
     default_unpad buf = (firstn keep buf, Ok keep)) /\
  (~ In 128 buf -> default_unpad buf = (buf, Err UnpaddingNotMatch)).
Proof. exact unpadding_exact. Qed.
Print Assumptions C09_unpadding_exact.
(** Correctly padded strings are handled as intended, and only those give back what precedes the mark. *)
Theorem C09_unpadding_strict : forall a t, ~ In 128 t ->
  (fst (default_unpad (a ++ 128 :: t)) = a <-> t = repeat 0 (length t)).
Proof. exact unpad_strict_iff. Qed.
Print Assumptions C09_unpadding_strict.
(** The strict reading is false: a malformed padding is accepted. *)
Theorem C09_strict_refuted : exists buf, bytes buf /\
  (forall m k, buf <> m ++ 128 :: repeat 0 k) /\ snd (default_unpad buf) = Ok 2%nat.
Proof.
  exists [7; 128; 9; 0]. split; [apply bytes_check; reflexivity|]. split; [|reflexivity].
  intros m k H. pose proof (proj2 (C09_unpadding_strict m (repeat 0 k)
    (fun i => ltac:(apply repeat_spec in i; discriminate)))) as X.
  rewrite <- H, repeat_length in X. specialize (X eq_refl). cbn in X. subst m. discriminate.
Qed.
Print Assumptions C09_strict_refuted.
Example C09_case : In 128 [1; 128; 5; 128; 0; 0] /\ ~ In 128 [0; 0] /\ default_unpad ([1; 128; 5] ++ 128 :: [0; 0]) = ([1; 128; 5], Ok 3%nat) /\
  ~ In 128 [1; 2; 0] /\ default_unpad [1; 2; 0] = ([1; 2; 0], Err UnpaddingNotMatch).
Proof. split; [cbn; tauto|]. split; [cbn; intros H; lia|]. split; [reflexivity|]. split; [cbn; intros H; lia|reflexivity]. Qed.

(** ** C10 *)
Theorem C10_ecb_default : forall c n E D, GoodCipher c n E D -> forall dst dst' m, bytes m ->
  let o := mkEcb c (DefaultPadding c) in
  let ct := ECB E n (pad10 n m) in
  ecb_encrypt o dst m = (ct, Ok (length ct)) /\ (length ct mod n = 0)%nat /\
  ecb_decrypt o dst' ct = (m, Ok (length m)).
Proof. exact ecb_default_spec. Qed.
Print Assumptions C10_ecb_default.
Theorem C10_ecb_empty : forall c n E D, GoodCipher c n E D -> forall dst dst' m, bytes m ->
  let o := mkEcb c EmptyPadding in
  ((length m mod n = 0)%nat ->
     let ct := ECB E n m in
     ecb_encrypt o dst m = (ct, Ok (length ct)) /\ ecb_decrypt o dst' ct = (m, Ok (length m))) /\
  ((length m mod n <> 0)%nat ->
     snd (ecb_encrypt o dst m) = Err InvalidParameter /\
     ecb_decrypt o dst' m = (dst', Err InvalidParameter)).
Proof. exact ecb_empty_spec. Qed.
Print Assumptions C10_ecb_empty.
Example C10_case : let o := mkEcb exc (DefaultPadding exc) in
  length (fst (ecb_encrypt o [] (exmsg 20))) = 32%nat /\
  ecb_decrypt o [] (fst (ecb_encrypt o [] (exmsg 20))) = (exmsg 20, Ok 20%nat).
Proof. vm_compute. auto. Qed.

(** ** C11: [evs] are the writes, each with a flag telling whether the client draws off the pond
    after it; the result is (final state, everything drawn including after finish, status). *)
Theorem C11_ecb_stream_encrypt : forall c n E D, GoodCipher c n E D -> forall evs,
  Forall (fun e => bytes (fst e)) evs ->
  let o := mkEcb c (DefaultPadding c) in
  run_stream (ecb_enc_ops o) ecb_stream_init evs =
    (ecb_stream_init, fst (ecb_encrypt o [] (concat (map fst evs))), Ok tt).
Proof. exact ecb_enc_stream_default. Qed.
Print Assumptions C11_ecb_stream_encrypt.
Theorem C11_ecb_stream_encrypt_empty : forall c n E D, GoodCipher c n E D -> forall evs,
  Forall (fun e => bytes (fst e)) evs ->
  (length (concat (map fst evs)) mod n = 0)%nat ->
  let o := mkEcb c EmptyPadding in
  run_stream (ecb_enc_ops o) ecb_stream_init evs =
    (ecb_stream_init, fst (ecb_encrypt o [] (concat (map fst evs))), Ok tt).
Proof. exact ecb_enc_stream_empty. Qed.
Print Assumptions C11_ecb_stream_encrypt_empty.
Example C11_case : let o := mkEcb exc (DefaultPadding exc) in
  run_stream (ecb_enc_ops o) ecb_stream_init [(exmsg 5, true); ([], false); (exmsg 30, false); (exmsg 1, true)] =
   (ecb_stream_init, fst (ecb_encrypt o [] (exmsg 5 ++ exmsg 30 ++ exmsg 1)), Ok tt).
Proof. vm_compute. reflexivity. Qed.

(** ** C12 *)
Theorem C12_ecb_stream_decrypt : forall c n E D, GoodCipher c n E D -> forall evs m, bytes m ->
  let o := mkEcb c (DefaultPadding c) in
  concat (map fst evs) = fst (ecb_encrypt o [] m) ->
  Forall (fun e => bytes (fst e)) evs ->
  ((length m mod n <> n - 1)%nat ->
     run_stream (ecb_dec_ops o) ecb_stream_init evs = (ecb_stream_init, m, Ok tt)) /\
  ((length m mod n = n - 1)%nat ->
     snd (run_stream (ecb_dec_ops o) ecb_stream_init evs) = Err UnpaddingNotMatch /\
     ecb_decrypt o [] (concat (map fst evs)) = (m, Ok (length m))).
Proof. exact ecb_dec_stream_spec. Qed.
Print Assumptions C12_ecb_stream_decrypt.
Example C12_case : let o := mkEcb exc (DefaultPadding exc) in
  let feed k := run_stream (ecb_dec_ops o) ecb_stream_init
                  [(firstn 7 (fst (ecb_encrypt o [] (exmsg k))), true); (skipn 7 (fst (ecb_encrypt o [] (exmsg k))), false)] in
  feed 20%nat = (ecb_stream_init, exmsg 20, Ok tt) /\ snd (feed 15%nat) = Err UnpaddingNotMatch.
Proof. vm_compute. auto. Qed.

(** ** C13 *)
Theorem C13_cbc_decrypt : forall c n E D, GoodCipher c n E D -> forall iv dst m,
  length iv = n -> bytes iv -> bytes m ->
  let o := mkCbc c (DefaultPadding c) iv in
  cbc_decrypt o dst (CBC E n iv (pad10 n m)) = (m, Ok (length m)).
Proof. exact cbc_decrypt_standard'. Qed.
Print Assumptions C13_cbc_decrypt.
Theorem C13_cbc_empty : forall c n E D, GoodCipher c n E D -> forall iv dst dst' m,
  length iv = n -> bytes iv -> bytes m ->
  let o := mkCbc c EmptyPadding iv in
  ((length m mod n = 0)%nat ->
     cbc_encrypt o dst m = (CBC E n iv m, Ok (length m)) /\
     cbc_decrypt o dst' (CBC E n iv m) = (m, Ok (length m))) /\
  ((length m mod n <> 0)%nat ->
     snd (cbc_encrypt o dst m) = Err InvalidParameter /\
     cbc_decrypt o dst' m = (dst', Err InvalidParameter)).
Proof. exact cbc_empty_spec. Qed.
Print Assumptions C13_cbc_empty.
(** With the default padding: the exact ciphertext, whose last one or two blocks are not chained, ... *)
Theorem C13_cbc_default_exact : forall c n E D, GoodCipher c n E D -> forall iv dst m,
  length iv = n -> bytes iv -> bytes m ->
  let ct := CBC E n iv (whole n m) ++ ECB E n (pad10 n (rest n m)) in
  cbc_encrypt (mkCbc c (DefaultPadding c) iv) dst m = (ct, Ok (length ct)).
Proof. exact cbc_default_exact. Qed.
Print Assumptions C13_cbc_default_exact.
(** ... so that decryption can give the message back only if the first |m| mod n bytes of the last
    chaining block (of IV || full ciphertext blocks) are all zero. *)
Theorem C13_cbc_default_roundtrip_needs_zero : forall c n E D, GoodCipher c n E D -> forall iv dst dst' m,
  length iv = n -> bytes iv -> bytes m ->
  let o := mkCbc c (DefaultPadding c) iv in
  fst (cbc_decrypt o dst (fst (cbc_encrypt o dst' m))) = m ->
  firstn (length m mod n) (lastn n (iv ++ CBC E n iv (whole n m))) = repeat 0 (length m mod n).
Proof. exact cbc_default_needs. Qed.
Print Assumptions C13_cbc_default_roundtrip_needs_zero.
(** The complete description of what comes back. *)
Theorem C13_cbc_default_roundtrip_exact : forall c n E D, GoodCipher c n E D -> forall iv dst dst' m,
  length iv = n -> bytes iv -> bytes m ->
  let o := mkCbc c (DefaultPadding c) iv in
  let prev := lastn n (iv ++ CBC E n iv (whole n m)) in
  let r := rest n m in
  ((length m mod n <> n - 1)%nat ->
    cbc_decrypt o dst (fst (cbc_encrypt o dst' m)) = default_unpad (whole n m ++ xorl (pad10 n r) prev)) /\
  ((length m mod n = n - 1)%nat ->
    cbc_decrypt o dst (fst (cbc_encrypt o dst' m)) =
      default_unpad (whole n m ++ xorl (r ++ [128]) prev ++ E (r ++ [128]))).
Proof. exact cbc_default_roundtrip. Qed.
Print Assumptions C13_cbc_default_roundtrip_exact.
Theorem C13_cbc_default_refuted : exists iv m,
  length iv = 16%nat /\ bytes iv /\ bytes m /\
  let o := mkCbc exc (DefaultPadding exc) iv in
  cbc_decrypt o [] (fst (cbc_encrypt o [] m)) <> (m, Ok (length m)).
Proof.
  exists exiv, (exmsg 20). split; [reflexivity|]. split; [apply bytes_check; reflexivity|].
  split; [apply bytes_check; reflexivity|]. cbv zeta. vm_compute. discriminate.
Qed.
Print Assumptions C13_cbc_default_refuted.
Example C13_case : let o := mkCbc exc EmptyPadding exiv in
  snd (cbc_encrypt o [] (exmsg 32)) = Ok 32%nat /\
  cbc_decrypt o [] (fst (cbc_encrypt o [] (exmsg 32))) = (exmsg 32, Ok 32%nat).
Proof. vm_compute. auto. Qed.

(** ** C14 *)
Theorem C14_cbc_stream_encrypt : forall c n E D, GoodCipher c n E D -> forall iv evs,
  length iv = n -> bytes iv -> Forall (fun e => bytes (fst e)) evs ->
  let o := mkCbc c (DefaultPadding c) iv in
  let m := concat (map fst evs) in
  ((length m mod n <> n - 1)%nat ->
     run_stream (cbc_enc_ops o) (cbc_stream_init o) evs =
       (cbc_stream_init o, CBC E n iv (pad10 n m), Ok tt)) /\
  ((length m mod n = n - 1)%nat ->
     run_stream (cbc_enc_ops o) (cbc_stream_init o) evs =
       (cbc_stream_init o, CBC E n iv (m ++ [128]) ++ E (xorl (repeat 0 n) iv), Ok tt)).
Proof. exact cbc_enc_stream_spec. Qed.
Print Assumptions C14_cbc_stream_encrypt.
Example C14_case : let o := mkCbc exc (DefaultPadding exc) exiv in
  snd (run_stream (cbc_enc_ops o) (cbc_stream_init o) [(exmsg 3, true); (exmsg 20, true)]) = Ok tt /\
  length (snd (fst (run_stream (cbc_enc_ops o) (cbc_stream_init o) [(exmsg 3, true); (exmsg 28, true)]))) = 48%nat.
Proof. vm_compute. auto. Qed.

(** ** C15 *)
Theorem C15_cbc_stream_decrypt : forall c n E D, GoodCipher c n E D -> forall iv evs m,
  length iv = n -> bytes iv -> bytes m ->
  concat (map fst evs) = CBC E n iv (pad10 n m) ->
  Forall (fun e => bytes (fst e)) evs ->
  let o := mkCbc c (DefaultPadding c) iv in
  ((length m mod n <> n - 1)%nat ->
     run_stream (cbc_dec_ops o) (cbc_stream_init o) evs = (cbc_stream_init o, m, Ok tt)) /\
  ((length m mod n = n - 1)%nat ->
     snd (run_stream (cbc_dec_ops o) (cbc_stream_init o) evs) = Err UnpaddingNotMatch).
Proof. exact cbc_dec_stream_std'. Qed.
Print Assumptions C15_cbc_stream_decrypt.
Theorem C15_cbc_stream_roundtrip : forall c n E D, GoodCipher c n E D -> forall iv evs evs',
  length iv = n -> bytes iv ->
  Forall (fun e => bytes (fst e)) evs -> Forall (fun e => bytes (fst e)) evs' ->
  let o := mkCbc c (DefaultPadding c) iv in
  let m := concat (map fst evs) in
  concat (map fst evs') = snd (fst (run_stream (cbc_enc_ops o) (cbc_stream_init o) evs)) ->
  ((length m mod n <> n - 1)%nat ->
     run_stream (cbc_dec_ops o) (cbc_stream_init o) evs' = (cbc_stream_init o, m, Ok tt)) /\
  ((length m mod n = n - 1)%nat -> forall st out,
     run_stream (cbc_dec_ops o) (cbc_stream_init o) evs' = (st, out, Ok tt) -> out <> m).
Proof. exact cbc_stream_roundtrip. Qed.
Print Assumptions C15_cbc_stream_roundtrip.
Example C15_case : let o := mkCbc exc (DefaultPadding exc) exiv in
  let ct := snd (fst (run_stream (cbc_enc_ops o) (cbc_stream_init o) [(exmsg 3, true); (exmsg 20, true)])) in
  run_stream (cbc_dec_ops o) (cbc_stream_init o) [(firstn 17 ct, true); (skipn 17 ct, false)] =
   (cbc_stream_init o, exmsg 3 ++ exmsg 20, Ok tt).
Proof. vm_compute. reflexivity. Qed.

(** ** C16 *)
Theorem C16_cfb_default : forall c n E D, GoodCipher c n E D -> (4 <= n)%nat ->
  forall iv sbits o dst dst' m, length iv = n -> bytes iv -> bytes m ->
  cfb_new c (DefaultPadding c) (iv, Ok tt) sbits = Ok o ->
  let s := (sbits / 8)%nat in
  let ct := CFB E s iv (whole s m ++ pad10 n (rest s m)) in
  cfb_encrypt o dst m = (ct, Ok (length ct)) /\
  cfb_decrypt o dst' ct = (m, Ok (length m)) /\
  forall bad, (length bad mod s <> 0)%nat -> cfb_decrypt o dst' bad = (dst', Err InvalidParameter).
Proof. exact cfb_default_spec. Qed.
Print Assumptions C16_cfb_default.
Theorem C16_cfb_empty : forall c n E D, GoodCipher c n E D ->
  forall iv s dst dst' m, length iv = n -> bytes iv -> bytes m ->
  (0 < s <= n)%nat ->
  let o := mkCfb s c EmptyPadding iv in
  let ct := CFB E s iv (whole s m) in
  cfb_encrypt o dst m = (ct, Ok (length ct)) /\
  cfb_decrypt o dst' ct = (whole s m, Ok (length (whole s m))) /\
  length ct = (length m - length m mod s)%nat.
Proof. exact cfb_empty_spec. Qed.
Print Assumptions C16_cfb_empty.
Example C16_case : exists o, cfb_new exc (DefaultPadding exc) (exiv, Ok tt) 32 = Ok o /\
  cfb_decrypt o [] (fst (cfb_encrypt o [] (exmsg 21))) = (exmsg 21, Ok 21%nat).
Proof. eexists. split; [reflexivity|]. vm_compute. reflexivity. Qed.

(** ** C17 *)
Theorem C17_cfb_stream_encrypt : forall c n E D, GoodCipher c n E D ->
  forall s iv evs, (0 < s <= n)%nat ->
  length iv = n -> bytes iv -> Forall (fun e => bytes (fst e)) evs ->
  let m := concat (map fst evs) in
  ((n mod s = 0)%nat -> let o := mkCfb s c (DefaultPadding c) iv in
   run_stream (cfb_enc_ops o) (cfb_stream_init o) evs = (cfb_stream_init o, fst (cfb_encrypt o [] m), Ok tt)) /\
  (let o := mkCfb s c EmptyPadding iv in
   run_stream (cfb_enc_ops o) (cfb_stream_init o) evs = (cfb_stream_init o, fst (cfb_encrypt o [] m), Ok tt)).
Proof. exact cfb_enc_stream_spec. Qed.
Print Assumptions C17_cfb_stream_encrypt.
(** Decryption is right exactly as long as no more than |m| bytes were drawn off before finish
    (in particular when nothing was); otherwise finish fails. *)
Theorem C17_cfb_stream_decrypt : forall c n E D, GoodCipher c n E D ->
  forall s iv evs m, (0 < s <= n)%nat -> (n mod s = 0)%nat ->
  length iv = n -> bytes iv -> bytes m ->
  let o := mkCfb s c (DefaultPadding c) iv in
  concat (map fst evs) = fst (cfb_encrypt o [] m) ->
  Forall (fun e => bytes (fst e)) evs ->
  exists st out,
   run_writes (cfb_dec_ops o) (cfb_stream_init o) [] evs = (st, out, Ok tt) /\
   ((forall d b, In (d, b) evs -> b = false) -> out = []) /\
   ((length out <= length m)%nat ->
      run_stream (cfb_dec_ops o) (cfb_stream_init o) evs = (cfb_stream_init o, m, Ok tt)) /\
   ((length m < length out)%nat ->
      snd (run_stream (cfb_dec_ops o) (cfb_stream_init o) evs) = Err UnpaddingNotMatch).
Proof. exact cfb_dec_stream_spec. Qed.
Print Assumptions C17_cfb_stream_decrypt.
Theorem C17_cfb_stream_truncated : forall c n E D, GoodCipher c n E D ->
  forall s p iv evs, (0 < s <= n)%nat ->
  length iv = n -> bytes iv -> Forall (fun e => bytes (fst e)) evs ->
  (length (concat (map fst evs)) mod s <> 0)%nat ->
  let o := mkCfb s c p iv in
  snd (run_stream (cfb_dec_ops o) (cfb_stream_init o) evs) = Panic.
Proof. exact cfb_dec_stream_trunc'. Qed.
Print Assumptions C17_cfb_stream_truncated.
Example C17_case : let o := mkCfb 4 exc (DefaultPadding exc) exiv in
  let ct := fst (cfb_encrypt o [] (exmsg 21)) in
  run_stream (cfb_dec_ops o) (cfb_stream_init o) [(firstn 9 ct, false); (skipn 9 ct, false)] =
    (cfb_stream_init o, exmsg 21, Ok tt) /\
  snd (run_stream (cfb_dec_ops o) (cfb_stream_init o) [(firstn 9 ct, true); (skipn 9 ct, true)]) = Err UnpaddingNotMatch /\
  snd (run_stream (cfb_dec_ops o) (cfb_stream_init o) [(firstn 9 ct, true)]) = Panic.
Proof. vm_compute. auto. Qed.

(** ** C18 *)
Theorem C18_ofb : forall c n E D, GoodCipher c n E D -> forall iv dst m,
  length iv = n -> bytes iv ->
  let o := mkOfb c iv in
  let ct := OFB E n iv m in
  length ct = length m /\
  ofb_encrypt o dst m = (ct, Ok (length m)) /\ ofb_decrypt o dst ct = (m, Ok (length m)) /\
  forall evs, Forall (fun e => bytes (fst e)) evs -> concat (map fst evs) = m ->
    run_stream (ofb_ops o) (ofb_stream_init o) evs = (ofb_stream_init o, ct, Ok tt).
Proof. exact ofb_spec. Qed.
Print Assumptions C18_ofb.
Example C18_case : let o := mkOfb exc exiv in
  ofb_decrypt o [] (fst (ofb_encrypt o [] (exmsg 21))) = (exmsg 21, Ok 21%nat) /\
  snd (fst (run_stream (ofb_ops o) (ofb_stream_init o) [(exmsg 5, true); (exmsg 16, false)])) =
    fst (ofb_encrypt o [] (exmsg 5 ++ exmsg 16)).
Proof. vm_compute. auto. Qed.

(** ** C19: an object that has already processed the messages [ms] *)
Theorem C19_ctr : forall c n E D, GoodCipher c n E D -> forall init bits k o ms,
  bytes init -> counter_new init bits = Ok k -> ctr_new c k = Ok o ->
  let T := counter_block n ((bits + 7) / 8) (be_val init) in
  let j := list_sum (map (fun m => nblocks n (length m)) ms) in
  forall dst m, snd (ctr_encrypt (ctr_calls o ms) dst m) = (CTR E n T j m, Ok (length m)) /\
                snd (ctr_decrypt (ctr_calls o ms) dst (CTR E n T j m)) = (m, Ok (length m)).
Proof. exact ctr_object. Qed.
Print Assumptions C19_ctr.
(** Streams start again from the initial counter; a second message on the same stream continues it. *)
Theorem C19_ctr_stream : forall c n E D, GoodCipher c n E D -> forall init bits k o ms evs,
  bytes init -> counter_new init bits = Ok k -> ctr_new c k = Ok o ->
  Forall (fun e => bytes (fst e)) evs ->
  let T := counter_block n ((bits + 7) / 8) (be_val init) in
  let m := concat (map fst evs) in
  exists st, run_stream ctr_ops (ctr_stream (ctr_calls o ms)) evs = (st, CTR E n T 0 m, Ok tt) /\
    forall evs', Forall (fun e => bytes (fst e)) evs' ->
      exists st', run_stream ctr_ops st evs' =
        (st', CTR E n T (nblocks n (length m)) (concat (map fst evs')), Ok tt).
Proof. exact ctr_stream_object. Qed.
Print Assumptions C19_ctr_stream.
Theorem C19_same_object_refuted : exists k o m, counter_new exiv 128 = Ok k /\ ctr_new exc k = Ok o /\
  let '(o', (ct, _)) := ctr_encrypt o [] m in snd (ctr_decrypt o' [] ct) <> (m, Ok (length m)).
Proof.
  eexists. eexists. exists (exmsg 5). split; [reflexivity|]. split; [reflexivity|].
  vm_compute. discriminate.
Qed.
Print Assumptions C19_same_object_refuted.
Example C19_case : exists k o, counter_new [255; 255] 128 = Ok k /\ ctr_new exc k = Ok o /\
  snd (ctr_decrypt (ctr_calls o [exmsg 3]) [] (fst (snd (ctr_encrypt (ctr_calls o [exmsg 16]) [] (exmsg 21))))) =
    (exmsg 21, Ok 21%nat).
Proof. eexists. eexists. split; [reflexivity|]. split; [reflexivity|]. vm_compute. reflexivity. Qed.

(** ** C20 *)
Theorem C20_counter_distinct : forall n v i j, i <> j ->
  Z.abs (Z.of_nat i - Z.of_nat j) < 256 ^ Z.of_nat n ->
  counter_block n n v i <> counter_block n n v j.
Proof. exact counter_distinct_run. Qed.
Print Assumptions C20_counter_distinct.
Theorem C20_counter_wraps : forall n v i j, (0 < n)%nat ->
  (Z.of_nat i - Z.of_nat j) mod 256 ^ Z.of_nat n = 0 ->
  counter_block n n v i = counter_block n n v j.
Proof. exact counter_wraps. Qed.
Print Assumptions C20_counter_wraps.
(** The blocks [counter_block] are the ones an object really uses: see C19.  After any calls, a reset
    (or a clone, or a stream) starts again at block 0. *)
Theorem C20_counter_reset : forall c n E D, GoodCipher c n E D -> forall init bits k o ms,
  bytes init -> counter_new init bits = Ok k -> ctr_new c k = Ok o ->
  ctr_clone (ctr_calls o ms) = o /\
  mkCtr c (counter_reset (ctr_ctr (ctr_calls o ms))) = o.
Proof. exact ctr_reset_calls. Qed.
Print Assumptions C20_counter_reset.
(** A counter [k] bytes wider than the block: consecutive blocks repeat the key stream unless the low
    [k] bytes just wrapped, so that two plaintext blocks are encrypted with the same pad. *)
Theorem C20_wide_counter_reuse : forall n k v j,
  (v + Z.of_nat j) mod 256 ^ Z.of_nat k <> 256 ^ Z.of_nat k - 1 ->
  counter_block n (n + k) v (S j) = counter_block n (n + k) v j.
Proof. exact counter_wide_reuse. Qed.
Print Assumptions C20_wide_counter_reuse.
Example C20_case : exists k o, counter_new exiv 136 = Ok k /\ ctr_new exc k = Ok o /\
  let ct := fst (snd (ctr_encrypt o [] (exmsg 7 ++ repeat 0 25))) in
  xorl (firstn 16 ct) (skipn 16 ct) = exmsg 7 ++ repeat 0 9.
Proof. eexists. eexists. split; [reflexivity|]. split; [reflexivity|]. vm_compute. reflexivity. Qed.

(** ** C21: [h] is any sequence of writes, draws, finishes and resets *)
Theorem C21_reset_is_fresh : forall h,
  (forall o, ecb_reset o (exec (ecb_enc_ops o) (ecb_reset o) ecb_stream_init h) = ecb_stream_init) /\
  (forall o, ecb_reset o (exec (ecb_dec_ops o) (ecb_reset o) ecb_stream_init h) = ecb_stream_init) /\
  (forall o, iv_reset (cbc_iv o) (exec (cbc_enc_ops o) (iv_reset (cbc_iv o)) (cbc_stream_init o) h) = cbc_stream_init o) /\
  (forall o, iv_reset (cbc_iv o) (exec (cbc_dec_ops o) (iv_reset (cbc_iv o)) (cbc_stream_init o) h) = cbc_stream_init o) /\
  (forall o, iv_reset (cfb_iv o) (exec (cfb_enc_ops o) (iv_reset (cfb_iv o)) (cfb_stream_init o) h) = cfb_stream_init o) /\
  (forall o, iv_reset (cfb_iv o) (exec (cfb_dec_ops o) (iv_reset (cfb_iv o)) (cfb_stream_init o) h) = cfb_stream_init o) /\
  (forall o, iv_reset (ofb_iv o) (exec (ofb_ops o) (iv_reset (ofb_iv o)) (ofb_stream_init o) h) = ofb_stream_init o) /\
  (forall o, ctr_reset (exec ctr_ops ctr_reset (ctr_stream o) h) = ctr_stream o).
Proof. exact reset_is_fresh. Qed.
Print Assumptions C21_reset_is_fresh.
Theorem C21_finish_is_fresh : forall h s,
  (forall o, ecb_enc_finish o (exec (ecb_enc_ops o) (ecb_reset o) ecb_stream_init h) = (s, Ok tt) -> drain s = ecb_stream_init) /\
  (forall o, ecb_dec_finish o (exec (ecb_dec_ops o) (ecb_reset o) ecb_stream_init h) = (s, Ok tt) -> drain s = ecb_stream_init) /\
  (forall o, cbc_dec_finish o (exec (cbc_dec_ops o) (iv_reset (cbc_iv o)) (cbc_stream_init o) h) = (s, Ok tt) -> drain s = cbc_stream_init o) /\
  (forall o, cfb_enc_finish o (exec (cfb_enc_ops o) (iv_reset (cfb_iv o)) (cfb_stream_init o) h) = (s, Ok tt) -> drain s = cfb_stream_init o) /\
  (forall o, cfb_dec_finish o (exec (cfb_dec_ops o) (iv_reset (cfb_iv o)) (cfb_stream_init o) h) = (s, Ok tt) -> drain s = cfb_stream_init o) /\
  (forall o, ofb_finish o (exec (ofb_ops o) (iv_reset (ofb_iv o)) (ofb_stream_init o) h) = (s, Ok tt) -> drain s = ofb_stream_init o) /\
  (forall c iv, let o := mkCbc c (DefaultPadding c) iv in
     cbc_enc_finish o (exec (cbc_enc_ops o) (iv_reset iv) (cbc_stream_init o) h) = (s, Ok tt) -> drain s = cbc_stream_init o).
Proof. exact finish_is_fresh. Qed.
Print Assumptions C21_finish_is_fresh.
(** A CBC encrypt stream without padding keeps its chaining value over a finish: the same message
    encrypted twice in a row on the stream gives different ciphertexts, the second one not starting
    from the IV. *)
Theorem C21_cbc_empty_padding_refuted : exists m, let o := mkCbc exc EmptyPadding exiv in
  let '(s1, out1, r1) := run_stream (cbc_enc_ops o) (cbc_stream_init o) [(m, true)] in
  let '(s2, out2, r2) := run_stream (cbc_enc_ops o) s1 [(m, true)] in
  r1 = Ok tt /\ r2 = Ok tt /\ out1 <> out2 /\ s1 <> cbc_stream_init o.
Proof. exists (exmsg 16). vm_compute. repeat split; discriminate. Qed.
Print Assumptions C21_cbc_empty_padding_refuted.
Example C21_case : let o := mkCbc exc (DefaultPadding exc) exiv in
  cbc_dec_finish o (exec (cbc_dec_ops o) (iv_reset exiv) (cbc_stream_init o)
    [Write (exmsg 16); Finish; Reset; Draw; Write (CBC (crypt_block (aes_make exkey)) 16 exiv (pad10 16 (exmsg 3)))])
   = (mkS [] (exmsg 3) exiv, Ok tt).
Proof. vm_compute. reflexivity. Qed.

(** ** C22 *)
Theorem C22_iv_length : forall c n p iv, blk c = Some n ->
  (length iv = n -> cbc_new c p (iv, Ok tt) = Ok (mkCbc c p iv) /\ ofb_new c (iv, Ok tt) = Ok (mkOfb c iv)) /\
  (length iv <> n -> cbc_new c p (iv, Ok tt) = Err InnerErr /\ ofb_new c (iv, Ok tt) = Err InnerErr) /\
  (forall e, cbc_new c p (iv, Err e) = Err e /\ ofb_new c (iv, Err e) = Err e).
Proof. exact iv_length_spec. Qed.
Print Assumptions C22_iv_length.
Theorem C22_set_iv : forall c n p iv0 iv s, blk c = Some n ->
  (length iv = n ->
     cbc_set_iv (mkCbc c p iv0) iv = (mkCbc c p iv, Ok tt) /\
     cfb_set_iv (mkCfb s c p iv0) iv = (mkCfb s c p iv, Ok tt) /\
     ofb_set_iv (mkOfb c iv0) iv = (mkOfb c iv, Ok tt)) /\
  (length iv <> n ->
     cbc_set_iv (mkCbc c p iv0) iv = (mkCbc c p iv0, Err InvalidParameter) /\
     cfb_set_iv (mkCfb s c p iv0) iv = (mkCfb s c p iv0, Err InvalidParameter) /\
     ofb_set_iv (mkOfb c iv0) iv = (mkOfb c iv0, Err InnerErr)).
Proof. exact set_iv_spec. Qed.
Print Assumptions C22_set_iv.
Theorem C22_counter_width : forall c n init bits, blk c = Some n ->
  ((exists k, counter_new init bits = Ok k) <-> (8 * length init < bits + 8)%nat) /\
  (forall k, counter_new init bits = Ok k ->
     ((exists o, ctr_new c k = Ok o) <-> (8 * n <= bits)%nat)).
Proof. exact counter_width_spec. Qed.
Print Assumptions C22_counter_width.
Theorem C22_counter_object : forall c n k, blk c = Some n ->
  ((8 * n <= ctr_bits k)%nat -> ctr_new c k = Ok (mkCtr c k)) /\ ((ctr_bits k < 8 * n)%nat -> ctr_new c k = Err InnerErr).
Proof. exact counter_object_spec. Qed.
Print Assumptions C22_counter_object.
(** A rejected counter leaves the old one, with its position, in place. *)
Theorem C22_set_counter : forall c n k0 k, blk c = Some n ->
  ((8 * n <= ctr_bits k)%nat -> ctr_set_counter (mkCtr c k0) k = (mkCtr c k, Ok tt)) /\
  ((ctr_bits k < 8 * n)%nat -> ctr_set_counter (mkCtr c k0) k = (mkCtr c k0, Err InnerErr)).
Proof. exact set_counter_spec. Qed.
Print Assumptions C22_set_counter.
Theorem C22_default_initial_vec : forall bs rnd,
  let need := ((bs + 3) / 4)%nat in
  (forall ws, firstn need rnd = map Some ws -> length ws = need ->
     default_initial_vec bs rnd = (firstn bs (flat_map (be_bytes 4) ws), Ok tt, skipn need rnd) /\
     length (firstn bs (flat_map (be_bytes 4) ws)) = bs) /\
  ((forall ws, firstn need rnd = map Some ws -> length ws <> need) ->
     snd (fst (default_initial_vec bs rnd)) = Err RandError).
Proof. exact default_iv_spec. Qed.
Print Assumptions C22_default_initial_vec.
Theorem C22_cfb_segment : forall c n E D, GoodCipher c n E D -> (4 <= n)%nat -> forall iv sbits, length iv = n ->
  ((exists o, cfb_new c (DefaultPadding c) (iv, Ok tt) sbits = Ok o) <->
     exists s, sbits = (8 * s)%nat /\ (1 <= s <= n)%nat /\ (n mod s = 0)%nat) /\
  ((exists o, cfb_new c EmptyPadding (iv, Ok tt) sbits = Ok o) <->
     exists s, sbits = (8 * s)%nat /\ (1 <= s <= n)%nat).
Proof. exact cfb_segment_spec. Qed.
Print Assumptions C22_cfb_segment.
Example C22_case :
  (exists o, cbc_new exc (DefaultPadding exc) (exiv, Ok tt) = Ok o) /\
  snd (cbc_set_iv (mkCbc exc EmptyPadding exiv) [1]) = Err InvalidParameter /\
  (exists o, cfb_new exc (DefaultPadding exc) (exiv, Ok tt) 64 = Ok o) /\
  cfb_new exc (DefaultPadding exc) (exiv, Ok tt) 24 = Err InvalidParameter /\
  (exists iv r, default_initial_vec 6 [Some 1; Some 258; Some 3] = (iv, Ok tt, r) /\ iv = [0;0;0;1;0;0]).
Proof. repeat split; try (eexists; reflexivity). do 2 eexists. split; reflexivity. Qed.
