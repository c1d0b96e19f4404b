(** Model of the mode objects of src/cipher_mode with the scratch vector [buf: Cell<Vec<u8>>] that ModesModel.v leaves out, and of
    their [Clone] implementations.  [get_buf] (ecb.rs:71-76, cbc.rs:101-106, cfb.rs:98-103, ofb.rs:90-95, ctr.rs:44-49) hands out a
    mutable reference to it from [&self], so every call can leave something behind in it.  The underlying cipher writes into a
    destination vector and may have hidden state of its own (TDES has a scratch vector too). *)
From Verif Require Import Base ModesModel AesModel AesNiModel Sm4Model DesModel CipherDst.

(** cipher.rs:6-19: [encrypt(&self, dst, block)] with the old content of [dst], and what the object hides. *)
Record dcipher (H : Type) := mkD {
  dblk : option nat;
  denc : H -> list Z -> list Z -> H * list Z * res nat;
  ddec : H -> list Z -> list Z -> H * list Z * res nat
}.
Arguments dblk {H}. Arguments denc {H}. Arguments ddec {H}. Arguments mkD {H}.
(** What a mode object hides: the cipher's hidden state and its own [buf]. *)
Definition scratch (H : Type) : Type := H * list Z.
(** [self.cipher.encrypt(txt, block)] with [txt] the scratch vector. *)
Definition into {H} (f : H -> list Z -> list Z -> H * list Z * res nat) (sc : scratch H) (b : list Z) : scratch H * res nat :=
  let '(h, t, r) := f (fst sc) (snd sc) b in ((h, t), r).
Definition dbsz {H} (c : dcipher H) : nat := match dblk c with Some n => n | None => 1%nat end.

Section Modes.
Context {H : Type}.
Variable c : dcipher H.

(** ** Loops *)
(** ecb.rs:108-119, 155-166, 220-231: [dst.append(txt)] empties [txt]. *)
Fixpoint full_b (f : scratch H -> list Z -> scratch H * res nat) (fuel n : nat) (sc : scratch H) (data dst : list Z)
  : scratch H * (list Z * list Z * res unit) :=
  match fuel with
  | O => (sc, (dst, data, Panic))
  | S fuel' =>
      if (n <=? length data)%nat then
        match f sc (firstn n data) with
        | (sc, Ok _) => full_b f fuel' n (fst sc, []) (skipn n data) (dst ++ snd sc)
        | (sc, Err e) => (sc, (dst, data, Err e))
        | (sc, Panic) => (sc, (dst, data, Panic))
        end
      else (sc, (dst, data, Ok tt))
  end.
(** ecb.rs:125-137, 246-258, cbc.rs:152-165. *)
Fixpoint nonempty_b (f : scratch H -> list Z -> scratch H * res nat) (fuel n : nat) (sc : scratch H) (data dst : list Z)
  : scratch H * (list Z * res unit) :=
  match fuel with
  | O => (sc, (dst, Panic))
  | S fuel' =>
      match data with
      | [] => (sc, (dst, Ok tt))
      | _ =>
          let len := Nat.min (length data) n in
          match f sc (firstn len data) with
          | (sc, Ok _) => nonempty_b f fuel' n (fst sc, []) (skipn len data) (dst ++ snd sc)
          | (sc, Err e) => (sc, (dst, Err e))
          | (sc, Panic) => (sc, (dst, Panic))
          end
      end
  end.
(** ecb.rs:287-298, cbc.rs:336-352; [step] works on the scratch vector, and on success leaves the bytes to append in it. *)
Fixpoint more_b (step : scratch H -> list Z -> list Z -> scratch H * list Z * res unit) (fuel n : nat) (sc : scratch H) (ij data pond : list Z)
  : scratch H * (list Z * list Z * list Z * res unit) :=
  match fuel with
  | O => (sc, (ij, data, pond, Panic))
  | S fuel' =>
      if (n <? length data)%nat then
        match step sc ij (firstn n data) with
        | (sc, ij, Ok _) => more_b step fuel' n (fst sc, []) ij (skipn n data) (pond ++ snd sc)
        | (sc, ij, Err e) => (sc, (ij, data, pond, Err e))
        | (sc, ij, Panic) => (sc, (ij, data, pond, Panic))
        end
      else (sc, (ij, data, pond, Ok tt))
  end.

(** ** ECB *)
(** ecb.rs:102-140. *)
Definition ecb_encrypt_b (p : padding) (sc : scratch H) (dst pt : list Z) : scratch H * (list Z * res nat) :=
  let n := dbsz c in
  match full_b (into (denc c)) (S (length pt)) n sc pt [] with
  | (sc, (dst1, data, Ok _)) =>
      let tmp := pad p data in
      match nonempty_b (into (denc c)) (S (length tmp)) n sc tmp dst1 with
      | (sc, (dst2, Ok _)) => (sc, (dst2, Ok (length dst2)))
      | (sc, (dst2, Err e)) => (sc, (dst2, Err e))
      | (sc, (dst2, Panic)) => (sc, (dst2, Panic))
      end
  | (sc, (dst1, _, Err e)) => (sc, (dst1, Err e))
  | (sc, (dst1, _, Panic)) => (sc, (dst1, Panic))
  end.
(** ecb.rs:142-169. *)
Definition ecb_decrypt_b (p : padding) (sc : scratch H) (dst ct : list Z) : scratch H * (list Z * res nat) :=
  let n := dbsz c in
  if negb (length ct mod n =? 0)%nat then (sc, (dst, Err InvalidParameter))
  else match full_b (into (ddec c)) (S (length ct)) n sc ct [] with
       | (sc, (dst1, _, Ok _)) => (sc, unpad p dst1)
       | (sc, (dst1, _, Err e)) => (sc, (dst1, Err e))
       | (sc, (dst1, _, Panic)) => (sc, (dst1, Panic))
       end.
(** ecb.rs:195-238. *)
Definition ecb_enc_write_b (sc : scratch H) (s : sbuf) (data : list Z) : scratch H * (sbuf * res unit) :=
  let n := dbsz c in
  match data with
  | [] => (sc, (s, Ok tt))
  | _ =>
      if (n <? length (s_data s))%nat then (sc, (s, Panic)) else
      let len := Nat.min (n - length (s_data s)) (length data) in
      let sdata := s_data s ++ firstn len data in
      let data := skipn len data in
      match (if (length sdata =? n)%nat then
               match into (denc c) sc sdata with
               | (sc, Ok _) => ((fst sc, []), Ok ([], s_pond s ++ snd sc))
               | (sc, Err e) => (sc, Err e)
               | (sc, Panic) => (sc, Panic)
               end
             else (sc, Ok (sdata, s_pond s))) with
      | (sc, Ok (sdata, pond)) =>
          match full_b (into (denc c)) (S (length data)) n sc data pond with
          | (sc, (pond, data, Ok _)) => (sc, (mkS (sdata ++ data) pond (s_ij s), Ok tt))
          | (sc, (pond, _, Err e)) => (sc, (mkS sdata pond (s_ij s), Err e))
          | (sc, (pond, _, Panic)) => (sc, (mkS sdata pond (s_ij s), Panic))
          end
      | (sc, Err e) => (sc, (mkS sdata (s_pond s) (s_ij s), Err e))
      | (sc, Panic) => (sc, (mkS sdata (s_pond s) (s_ij s), Panic))
      end
  end.
(** ecb.rs:240-262. *)
Definition ecb_enc_finish_b (p : padding) (sc : scratch H) (s : sbuf) : scratch H * (sbuf * res unit) :=
  let sdata := pad p (s_data s) in
  match nonempty_b (into (denc c)) (S (length sdata)) (dbsz c) sc sdata (s_pond s) with
  | (sc, (pond, Ok _)) => (sc, (mkS [] pond (s_ij s), Ok tt))
  | (sc, (pond, Err e)) => (sc, (mkS sdata pond (s_ij s), Err e))
  | (sc, (pond, Panic)) => (sc, (mkS sdata pond (s_ij s), Panic))
  end.
(** ecb.rs:287-298: the block decrypted into [txt]. *)
Definition ecb_step_b (sc : scratch H) (ij b : list Z) : scratch H * list Z * res unit :=
  match into (ddec c) sc b with
  | (sc, Ok _) => (sc, ij, Ok tt)
  | (sc, Err e) => (sc, ij, Err e)
  | (sc, Panic) => (sc, ij, Panic)
  end.
(** ecb.rs:276-304, cbc.rs:325-358. *)
Definition dec_write_b (step : scratch H -> list Z -> list Z -> scratch H * list Z * res unit) (sc : scratch H) (s : sbuf) (data : list Z)
  : scratch H * (sbuf * res unit) :=
  match data with
  | [] => (sc, (s, Ok tt))
  | _ =>
      let sdata := s_data s ++ data in
      match more_b step (S (length sdata)) (dbsz c) sc (s_ij s) sdata (s_pond s) with
      | (sc, (ij, data, pond, Ok _)) => (sc, (mkS data pond ij, Ok tt))
      | (sc, (ij, _, pond, Err e)) => (sc, (mkS sdata pond ij, Err e))
      | (sc, (ij, _, pond, Panic)) => (sc, (mkS sdata pond ij, Panic))
      end
  end.
(** ecb.rs:306-322: the padding is removed inside [txt], which keeps its content when that fails. *)
Definition ecb_dec_finish_b (p : padding) (sc : scratch H) (s : sbuf) : scratch H * (sbuf * res unit) :=
  match into (ddec c) sc (s_data s) with
  | (sc, Ok _) =>
      match unpad p (snd sc) with
      | (txt, Ok _) => ((fst sc, []), (mkS [] (s_pond s ++ txt) (s_ij s), Ok tt))
      | (txt, Err e) => ((fst sc, txt), (s, Err e))
      | (txt, Panic) => ((fst sc, txt), (s, Panic))
      end
  | (sc, Err e) => (sc, (s, Err e))
  | (sc, Panic) => (sc, (s, Panic))
  end.

(** ** CBC *)
(** cbc.rs:132-147. *)
Fixpoint cbc_full_b (fuel n : nat) (sc : scratch H) (civ data dst : list Z) : scratch H * (list Z * list Z * res unit) :=
  match fuel with
  | O => (sc, (dst, data, Panic))
  | S fuel' =>
      if (n <=? length data)%nat then
        match into (denc c) sc (xor_into civ (firstn n data)) with
        | (sc, Ok _) => cbc_full_b fuel' n (fst sc, []) (snd sc) (skipn n data) (dst ++ snd sc)
        | (sc, Err e) => (sc, (dst, data, Err e))
        | (sc, Panic) => (sc, (dst, data, Panic))
        end
      else (sc, (dst, data, Ok tt))
  end.
(** cbc.rs:125-168. *)
Definition cbc_encrypt_b (p : padding) (iv : list Z) (sc : scratch H) (dst pt : list Z) : scratch H * (list Z * res nat) :=
  let n := dbsz c in
  match cbc_full_b (S (length pt)) n sc iv pt [] with
  | (sc, (dst1, data, Ok _)) =>
      let tmp := pad p data in
      match nonempty_b (into (denc c)) (S (length tmp)) n sc tmp dst1 with
      | (sc, (dst2, Ok _)) => (sc, (dst2, Ok (length dst2)))
      | (sc, (dst2, Err e)) => (sc, (dst2, Err e))
      | (sc, (dst2, Panic)) => (sc, (dst2, Panic))
      end
  | (sc, (dst1, _, Err e)) => (sc, (dst1, Err e))
  | (sc, (dst1, _, Panic)) => (sc, (dst1, Panic))
  end.
(** cbc.rs:184-199: [txt] keeps the decrypted block. *)
Fixpoint cbc_dec_b (fuel n : nat) (sc : scratch H) (civ data dst : list Z) : scratch H * (list Z * res unit) :=
  match fuel with
  | O => (sc, (dst, Panic))
  | S fuel' =>
      match data with
      | [] => (sc, (dst, Ok tt))
      | _ =>
          let len := Nat.min n (length data) in
          let tmp := firstn len data in
          match into (ddec c) sc tmp with
          | (sc, Ok _) => cbc_dec_b fuel' n sc tmp (skipn len data) (dst ++ xorl civ (snd sc))
          | (sc, Err e) => (sc, (dst, Err e))
          | (sc, Panic) => (sc, (dst, Panic))
          end
      end
  end.
(** cbc.rs:170-202. *)
Definition cbc_decrypt_b (p : padding) (iv : list Z) (sc : scratch H) (dst ct : list Z) : scratch H * (list Z * res nat) :=
  let n := dbsz c in
  if negb (length ct mod n =? 0)%nat then (sc, (dst, Err InvalidParameter))
  else match cbc_dec_b (S (length ct)) n sc iv ct [] with
       | (sc, (dst1, Ok _)) => (sc, unpad p dst1)
       | (sc, (dst1, Err e)) => (sc, (dst1, Err e))
       | (sc, (dst1, Panic)) => (sc, (dst1, Panic))
       end.
(** cbc.rs:240-245 and 264-265, 278-279, 304-305: the input is put together in [txt] and encrypted into [ij]. *)
Definition cbc_block_b (sc : scratch H) (ij b : list Z) : scratch H * list Z * res nat :=
  let txt := xorl b ij in let '(h, ij, r) := denc c (fst sc) ij txt in ((h, txt), ij, r).
(** cbc.rs:276-288. *)
Fixpoint cbc_while_b (fuel n : nat) (sc : scratch H) (ij data pond : list Z) : scratch H * (list Z * list Z * list Z * res unit) :=
  match fuel with
  | O => (sc, (ij, data, pond, Panic))
  | S fuel' =>
      if (n <=? length data)%nat then
        match cbc_block_b sc ij (firstn n data) with
        | (sc, ij, Ok _) => cbc_while_b fuel' n sc ij (skipn n data) (pond ++ ij)
        | (sc, ij, Err e) => (sc, (ij, data, pond, Err e))
        | (sc, ij, Panic) => (sc, (ij, data, pond, Panic))
        end
      else (sc, (ij, data, pond, Ok tt))
  end.
(** cbc.rs:250-293. *)
Definition cbc_enc_write_b (sc : scratch H) (s : sbuf) (data : list Z) : scratch H * (sbuf * res unit) :=
  let n := dbsz c in
  match data with
  | [] => (sc, (s, Ok tt))
  | _ =>
      if (n <? length (s_data s))%nat then (sc, (s, Panic)) else
      let len := Nat.min (n - length (s_data s)) (length data) in
      let sdata := s_data s ++ firstn len data in
      let data := skipn len data in
      match (if (length sdata =? n)%nat then
               match cbc_block_b sc (s_ij s) sdata with
               | (sc, ij, Ok _) => (sc, mkS [] (s_pond s ++ ij) ij, Ok tt)
               | (sc, ij, Err e) => (sc, mkS sdata (s_pond s) ij, Err e)
               | (sc, ij, Panic) => (sc, mkS sdata (s_pond s) ij, Panic)
               end
             else (sc, mkS sdata (s_pond s) (s_ij s), Ok tt)) with
      | (sc, s1, Ok _) =>
          match cbc_while_b (S (length data)) n sc (s_ij s1) data (s_pond s1) with
          | (sc, (ij, data, pond, Ok _)) => (sc, (mkS (s_data s1 ++ data) pond ij, Ok tt))
          | (sc, (ij, _, pond, Err e)) => (sc, (mkS (s_data s1) pond ij, Err e))
          | (sc, (ij, _, pond, Panic)) => (sc, (mkS (s_data s1) pond ij, Panic))
          end
      | (sc, s1, r) => (sc, (s1, r))
      end
  end.
(** cbc.rs:301-315. *)
Fixpoint cbc_fin_b (iv : list Z) (fuel n : nat) (sc : scratch H) (ij data pond : list Z) : scratch H * (list Z * list Z * res unit) :=
  match fuel with
  | O => (sc, (ij, pond, Panic))
  | S fuel' =>
      match data with
      | [] => (sc, (ij, pond, Ok tt))
      | _ =>
          let len := Nat.min n (length data) in
          match cbc_block_b sc ij (firstn len data) with
          | (sc, ij, Ok _) => cbc_fin_b iv fuel' n sc ([] ++ iv) (skipn len data) (pond ++ ij)
          | (sc, ij, Err e) => (sc, (ij, pond, Err e))
          | (sc, ij, Panic) => (sc, (ij, pond, Panic))
          end
      end
  end.
(** cbc.rs:295-319. *)
Definition cbc_enc_finish_b (p : padding) (iv : list Z) (sc : scratch H) (s : sbuf) : scratch H * (sbuf * res unit) :=
  let sdata := pad p (s_data s) in
  match cbc_fin_b iv (S (length sdata)) (dbsz c) sc (s_ij s) sdata (s_pond s) with
  | (sc, (ij, pond, Ok _)) => (sc, (mkS [] pond ij, Ok tt))
  | (sc, (ij, pond, Err e)) => (sc, (mkS sdata pond ij, Err e))
  | (sc, (ij, pond, Panic)) => (sc, (mkS sdata pond ij, Panic))
  end.
(** cbc.rs:338-347: [txt] and [ij] are changed together, as far as the shortest of [txt], [ij] and the block goes. *)
Definition cbc_step_b (sc : scratch H) (ij b : list Z) : scratch H * list Z * res unit :=
  match into (ddec c) sc b with
  | (sc, Ok _) =>
      let k := Nat.min (length (snd sc)) (Nat.min (length ij) (length b)) in
      ((fst sc, xorl (firstn k (snd sc)) ij ++ skipn k (snd sc)), firstn k b ++ skipn k ij, Ok tt)
  | (sc, Err e) => (sc, ij, Err e)
  | (sc, Panic) => (sc, ij, Panic)
  end.
(** cbc.rs:360-379. *)
Definition cbc_dec_finish_b (p : padding) (iv : list Z) (sc : scratch H) (s : sbuf) : scratch H * (sbuf * res unit) :=
  match into (ddec c) sc (s_data s) with
  | (sc, Ok _) =>
      match unpad p (xorl (snd sc) (s_ij s) ++ skipn (length (s_ij s)) (snd sc)) with
      | (txt, Ok _) => ((fst sc, []), (mkS [] (s_pond s ++ txt) iv, Ok tt))
      | (txt, Err e) => ((fst sc, txt), (s, Err e))
      | (txt, Panic) => ((fst sc, txt), (s, Panic))
      end
  | (sc, Err e) => (sc, (s, Err e))
  | (sc, Panic) => (sc, (s, Panic))
  end.

(** ** CFB; [s] is the segment size in bytes *)
(** cfb.rs:124-152, line by line: the cipher output is xored in place, copied to [dst], lengthened by the tail of [ij], and [ij] is read
    back from it. *)
Fixpoint cfb_enc_b (s fuel : nat) (sc : scratch H) (ij dst data : list Z) : scratch H * (list Z * list Z * res unit) :=
  match fuel with
  | O => (sc, (ij, dst, Panic))
  | S fuel' =>
      if (s <=? length data)%nat then
        match into (denc c) sc ij with
        | (sc, Ok _) =>
            let block := firstn s data in
            let oj := xorl (firstn s (snd sc)) block ++ skipn (Nat.min s (length block)) (snd sc) in
            let dst := dst ++ firstn s oj in
            let oj_len := length oj in
            let oj := oj ++ skipn s ij in
            let ij := skipn oj_len oj in
            let ij := ij ++ firstn s oj in
            cfb_enc_b s fuel' (fst sc, oj) ij dst (skipn s data)
        | (sc, Err e) => (sc, (ij, dst, Err e))
        | (sc, Panic) => (sc, (ij, dst, Panic))
        end
      else (sc, (ij, dst, Ok tt))
  end.
(** cfb.rs:154-180: the tail of [ij] passes through the scratch vector. *)
Fixpoint cfb_dec_b (s fuel : nat) (sc : scratch H) (ij dst data : list Z) : scratch H * (list Z * list Z * res unit) :=
  match fuel with
  | O => (sc, (ij, dst, Panic))
  | S fuel' =>
      match data with
      | [] => (sc, (ij, dst, Ok tt))
      | _ =>
        match into (denc c) sc ij with
        | (sc, Ok _) =>
            if (length data <? s)%nat then (sc, (ij, dst, Panic))
            else
              let cj := firstn s data in
              let dst := dst ++ xorl cj (firstn s (snd sc)) in
              let oj := [] ++ skipn s ij in
              let ij := [] ++ oj in
              let ij := ij ++ cj in
              cfb_dec_b s fuel' (fst sc, []) ij dst (skipn s data)
        | (sc, Err e) => (sc, (ij, dst, Err e))
        | (sc, Panic) => (sc, (ij, dst, Panic))
        end
      end
  end.
(** cfb.rs:191-204. *)
Definition cfb_encrypt_b (s : nat) (p : padding) (iv : list Z) (sc : scratch H) (dst pt : list Z) : scratch H * (list Z * res nat) :=
  match cfb_enc_b s (S (length pt)) sc iv [] pt with
  | (sc, (ij, dst1, Ok _)) =>
      let remain := (length pt mod s)%nat in
      let data := pad p (skipn (length pt - remain) pt) in
      match cfb_enc_b s (S (length data)) sc ij dst1 data with
      | (sc, (_, dst2, Ok _)) => (sc, (dst2, Ok (length dst2)))
      | (sc, (_, dst2, Err e)) => (sc, (dst2, Err e))
      | (sc, (_, dst2, Panic)) => (sc, (dst2, Panic))
      end
  | (sc, (_, dst1, Err e)) => (sc, (dst1, Err e))
  | (sc, (_, dst1, Panic)) => (sc, (dst1, Panic))
  end.
(** cfb.rs:206-218. *)
Definition cfb_decrypt_b (s : nat) (p : padding) (iv : list Z) (sc : scratch H) (dst ct : list Z) : scratch H * (list Z * res nat) :=
  if negb (length ct mod s =? 0)%nat then (sc, (dst, Err InvalidParameter))
  else match cfb_dec_b s (S (length ct)) sc iv [] ct with
       | (sc, (_, dst1, Ok _)) => (sc, unpad p dst1)
       | (sc, (_, dst1, Err e)) => (sc, (dst1, Err e))
       | (sc, (_, dst1, Panic)) => (sc, (dst1, Panic))
       end.
(** cfb.rs:257-283. *)
Definition cfb_enc_write_b (sz : nat) (sc : scratch H) (s : sbuf) (data : list Z) : scratch H * (sbuf * res unit) :=
  match data with
  | [] => (sc, (s, Ok tt))
  | _ =>
      if (sz <? length (s_data s))%nat then (sc, (s, Panic)) else
      let len := Nat.min (sz - length (s_data s)) (length data) in
      let sdata := s_data s ++ firstn len data in
      let data := skipn len data in
      match
        (if (length sdata =? sz)%nat then
           match cfb_enc_b sz (S (length sdata)) sc (s_ij s) (s_pond s) sdata with
           | (sc, (ij, pond, Ok _)) => (sc, (mkS [] pond ij, Ok tt))
           | (sc, (ij, pond, Err e)) => (sc, (mkS sdata pond ij, Err e))
           | (sc, (ij, pond, Panic)) => (sc, (mkS sdata pond ij, Panic))
           end
         else (sc, (mkS sdata (s_pond s) (s_ij s), Ok tt))) with
      | (sc, (s1, Ok _)) =>
          match cfb_enc_b sz (S (length data)) sc (s_ij s1) (s_pond s1) data with
          | (sc, (ij, pond, Ok _)) =>
              let len := (length data mod sz)%nat in
              (sc, (mkS (s_data s1 ++ skipn (length data - len) data) pond ij, Ok tt))
          | (sc, (ij, pond, Err e)) => (sc, (mkS (s_data s1) pond ij, Err e))
          | (sc, (ij, pond, Panic)) => (sc, (mkS (s_data s1) pond ij, Panic))
          end
      | r => r
      end
  end.
(** cfb.rs:285-296. *)
Definition cfb_enc_finish_b (sz : nat) (p : padding) (iv : list Z) (sc : scratch H) (s : sbuf) : scratch H * (sbuf * res unit) :=
  let sdata := pad p (s_data s) in
  match cfb_enc_b sz (S (length sdata)) sc (s_ij s) (s_pond s) sdata with
  | (sc, (_, pond, Ok _)) => (sc, (mkS [] pond iv, Ok tt))
  | (sc, (ij, pond, Err e)) => (sc, (mkS sdata pond ij, Err e))
  | (sc, (ij, pond, Panic)) => (sc, (mkS sdata pond ij, Panic))
  end.
(** cfb.rs:301-321: the rest of the data goes through the scratch vector. *)
Definition cfb_dec_write_b (sz : nat) (sc : scratch H) (s : sbuf) (data : list Z) : scratch H * (sbuf * res unit) :=
  match data with
  | [] => (sc, (s, Ok tt))
  | _ =>
      let sdata := s_data s ++ data in
      let bound := (length sdata - length sdata mod sz)%nat in
      match cfb_dec_b sz (S (length sdata)) sc (s_ij s) (s_pond s) (firstn bound sdata) with
      | (sc, (ij, pond, Ok _)) =>
          let tmp := [] ++ skipn bound sdata in
          ((fst sc, []), (mkS ([] ++ tmp) pond ij, Ok tt))
      | (sc, (ij, pond, Err e)) => (sc, (mkS sdata pond ij, Err e))
      | (sc, (ij, pond, Panic)) => (sc, (mkS sdata pond ij, Panic))
      end
  end.
(** cfb.rs:323-336. *)
Definition cfb_dec_finish_b (sz : nat) (p : padding) (iv : list Z) (sc : scratch H) (s : sbuf) : scratch H * (sbuf * res unit) :=
  match cfb_dec_b sz (S (length (s_data s))) sc (s_ij s) (s_pond s) (s_data s) with
  | (sc, (ij, pond, Ok _)) =>
      match unpad p pond with
      | (pond, Ok _) => (sc, (mkS [] pond iv, Ok tt))
      | (pond, Err e) => (sc, (mkS (s_data s) pond ij, Err e))
      | (pond, Panic) => (sc, (mkS (s_data s) pond ij, Panic))
      end
  | (sc, (ij, pond, Err e)) => (sc, (mkS (s_data s) pond ij, Err e))
  | (sc, (ij, pond, Panic)) => (sc, (mkS (s_data s) pond ij, Panic))
  end.

(** ** OFB *)
(** ofb.rs:97-119: [ij.append(oj)] empties the scratch vector. *)
Fixpoint ofb_inner_b (fuel : nat) (sc : scratch H) (data ij dst : list Z) : scratch H * (list Z * list Z * res unit) :=
  match fuel with
  | O => (sc, (ij, dst, Panic))
  | S fuel' =>
      let n := dbsz c in
      if (n <=? length data)%nat then
        match into (denc c) sc ij with
        | (sc, Ok _) => ofb_inner_b fuel' (fst sc, []) (skipn n data) ([] ++ snd sc) (dst ++ xorl (snd sc) (firstn n data))
        | (sc, Err e) => (sc, (ij, dst, Err e))
        | (sc, Panic) => (sc, (ij, dst, Panic))
        end
      else (sc, (ij, dst, Ok tt))
  end.
(** ofb.rs:142-167. *)
Definition ofb_encrypt_b (iv : list Z) (sc : scratch H) (dst pt : list Z) : scratch H * (list Z * res nat) :=
  let n := dbsz c in
  let remain := (length pt mod n)%nat in
  let cut := (length pt - remain)%nat in
  match ofb_inner_b (S (length pt)) sc (firstn cut pt) iv [] with
  | (sc, (ij, dst1, Ok _)) =>
      match into (denc c) sc ij with
      | (sc, Ok _) => let dst2 := dst1 ++ xorl (firstn remain (snd sc)) (skipn cut pt) in (sc, (dst2, Ok (length dst2)))
      | (sc, Err e) => (sc, (dst1, Err e))
      | (sc, Panic) => (sc, (dst1, Panic))
      end
  | (sc, (_, dst1, Err e)) => (sc, (dst1, Err e))
  | (sc, (_, dst1, Panic)) => (sc, (dst1, Panic))
  end.
(** ofb.rs:191-213, 240-262: the rest of the data is copied through the scratch vector and stays in it. *)
Definition ofb_write_b (sc : scratch H) (s : sbuf) (data : list Z) : scratch H * (sbuf * res unit) :=
  match data with
  | [] => (sc, (s, Ok tt))
  | _ =>
      let sdata := s_data s ++ data in
      match ofb_inner_b (S (length sdata)) sc sdata (s_ij s) (s_pond s) with
      | (sc, (ij, pond, Ok _)) =>
          let remain := (length sdata mod dbsz c)%nat in
          let tmp := [] ++ skipn (length sdata - remain) sdata in
          ((fst sc, tmp), (mkS ([] ++ tmp) pond ij, Ok tt))
      | (sc, (ij, pond, Err e)) => (sc, (mkS sdata pond ij, Err e))
      | (sc, (ij, pond, Panic)) => (sc, (mkS sdata pond ij, Panic))
      end
  end.
(** ofb.rs:215-235, 264-284. *)
Definition ofb_finish_b (iv : list Z) (sc : scratch H) (s : sbuf) : scratch H * (sbuf * res unit) :=
  match s_data s with
  | [] => (sc, (mkS [] (s_pond s) iv, Ok tt))
  | _ =>
      match into (denc c) sc (s_ij s) with
      | (sc, Ok _) => (sc, (mkS [] (s_pond s ++ xorl (s_data s) (firstn (length (s_data s)) (snd sc))) iv, Ok tt))
      | (sc, Err e) => (sc, (s, Err e))
      | (sc, Panic) => (sc, (s, Panic))
      end
  end.

(** ** CTR *)
(** ctr.rs:58-86: [oj] keeps the last block of key stream. *)
Fixpoint ctr_inner_b (fuel : nat) (sc : scratch H) (k : counter) (data dst : list Z) : scratch H * (counter * list Z * res unit) :=
  match fuel with
  | O => (sc, (k, dst, Panic))
  | S fuel' =>
      match data with
      | [] => (sc, (k, dst, Ok tt))
      | _ =>
          let n := dbsz c in
          let '(k', v) := counter_next k in
          if (length v <? n)%nat then (sc, (k', dst, Panic))
          else match into (denc c) sc (firstn n v) with
               | (sc, Ok _) =>
                   let len := Nat.min n (length data) in
                   ctr_inner_b fuel' sc k' (skipn len data) (dst ++ xorl (firstn len data) (snd sc))
               | (sc, Err e) => (sc, (k', dst, Err e))
               | (sc, Panic) => (sc, (k', dst, Panic))
               end
      end
  end.
(** ctr.rs:113-122. *)
Definition ctr_encrypt_b (sc : scratch H) (k : counter) (dst pt : list Z) : scratch H * (counter * (list Z * res nat)) :=
  match ctr_inner_b (S (length pt)) sc k pt [] with
  | (sc, (k, dst1, Ok _)) => (sc, (k, (dst1, Ok (length dst1))))
  | (sc, (k, dst1, Err e)) => (sc, (k, (dst1, Err e)))
  | (sc, (k, dst1, Panic)) => (sc, (k, (dst1, Panic)))
  end.
(** ctr.rs:199-218; the stream's counter, data and pond. *)
Definition ctr_write_b (sc : scratch H) (s : counter * list Z * list Z) (data : list Z) : scratch H * (counter * list Z * list Z * res unit) :=
  let '(k, sd, pond) := s in
  match data with
  | [] => (sc, (k, sd, pond, Ok tt))
  | _ =>
      let sdata := sd ++ data in
      let remain := (length sdata mod dbsz c)%nat in
      let cut := (length sdata - remain)%nat in
      match ctr_inner_b (S (length sdata)) sc k (firstn cut sdata) pond with
      | (sc, (k, pond, Ok _)) =>
          let tmp := [] ++ skipn cut sdata in
          ((fst sc, []), (k, [] ++ tmp, pond, Ok tt))
      | (sc, (k, pond, Err e)) => (sc, (k, sdata, pond, Err e))
      | (sc, (k, pond, Panic)) => (sc, (k, sdata, pond, Panic))
      end
  end.
(** ctr.rs:220-230. *)
Definition ctr_finish_b (sc : scratch H) (s : counter * list Z * list Z) : scratch H * (counter * list Z * list Z * res unit) :=
  let '(k, sd, pond) := s in
  match ctr_inner_b (S (length sd)) sc k sd pond with
  | (sc, (k, pond, Ok _)) => (sc, (k, [], pond, Ok tt))
  | (sc, (k, pond, Err e)) => (sc, (k, sd, pond, Err e))
  | (sc, (k, pond, Panic)) => (sc, (k, sd, pond, Panic))
  end.
End Modes.

(** ** What a client can do with a stream object: the [Cipher] calls of the macros (cipher_mode_macros.rs:1-19, 34-52, 69-87; ctr.rs:162-190),
    [write], [finish], drawing off the pond, and [reset]. *)
Record obj (St : Type) := mkObj {
  o_enc : St -> list Z -> list Z -> St * (list Z * res nat);
  o_dec : St -> list Z -> list Z -> St * (list Z * res nat);
  o_write : St -> list Z -> St * res unit;
  o_finish : St -> St * res unit;
  o_pond : St -> list Z;
  o_drain : St -> St;
  o_reset : St -> St
}.
Arguments mkObj {St}. Arguments o_enc {St}. Arguments o_dec {St}. Arguments o_write {St}. Arguments o_finish {St}.
Arguments o_pond {St}. Arguments o_drain {St}. Arguments o_reset {St}.

(** The objects of ModesModel.v, which have no scratch vector.  [pure f] is a call that leaves the object alone. *)
Definition pure {St} (f : list Z -> list Z -> list Z * res nat) : St -> list Z -> list Z -> St * (list Z * res nat) := fun s dst m => (s, f dst m).
Definition ecb_enc_obj (o : ecb) : obj sbuf := mkObj (pure (ecb_encrypt o)) (pure (ecb_decrypt o)) (ecb_enc_write o) (ecb_enc_finish o) s_pond drain (ecb_reset o).
Definition ecb_dec_obj (o : ecb) : obj sbuf := mkObj (pure (ecb_encrypt o)) (pure (ecb_decrypt o)) (ecb_dec_write o) (ecb_dec_finish o) s_pond drain (ecb_reset o).
Definition cbc_enc_obj (o : cbc) : obj sbuf := mkObj (pure (cbc_encrypt o)) (pure (cbc_decrypt o)) (cbc_enc_write o) (cbc_enc_finish o) s_pond drain (iv_reset (cbc_iv o)).
Definition cbc_dec_obj (o : cbc) : obj sbuf := mkObj (pure (cbc_encrypt o)) (pure (cbc_decrypt o)) (cbc_dec_write o) (cbc_dec_finish o) s_pond drain (iv_reset (cbc_iv o)).
Definition cfb_enc_obj (o : cfb) : obj sbuf := mkObj (pure (cfb_encrypt o)) (pure (cfb_decrypt o)) (cfb_enc_write o) (cfb_enc_finish o) s_pond drain (iv_reset (cfb_iv o)).
Definition cfb_dec_obj (o : cfb) : obj sbuf := mkObj (pure (cfb_encrypt o)) (pure (cfb_decrypt o)) (cfb_dec_write o) (cfb_dec_finish o) s_pond drain (iv_reset (cfb_iv o)).
Definition ofb_obj (o : ofb) : obj sbuf := mkObj (pure (ofb_encrypt o)) (pure (ofb_decrypt o)) (ofb_write o) (ofb_finish o) s_pond drain (iv_reset (ofb_iv o)).
Definition ctr_call (f : ctr -> list Z -> list Z -> ctr * (list Z * res nat)) (s : ctrs) (dst m : list Z) : ctrs * (list Z * res nat) :=
  let '(k, r) := f (cs_ctr s) dst m in (mkCtrs k (cs_data s) (cs_pond s), r).
Definition ctr_obj : obj ctrs := mkObj (ctr_call ctr_encrypt) (ctr_call ctr_decrypt) ctr_write ctr_finish cs_pond (fun s => mkCtrs (cs_ctr s) (cs_data s) []) ctr_reset.

(** The same objects with the scratch vector: the state is the scratch and the buffers. *)
Section Objects.
Context {H : Type}.
Variable c : dcipher H.
Definition lift_call (f : scratch H -> list Z -> list Z -> scratch H * (list Z * res nat)) (s : scratch H * sbuf) (dst m : list Z)
  : (scratch H * sbuf) * (list Z * res nat) := let '(sc, r) := f (fst s) dst m in ((sc, snd s), r).
Definition lift_write (f : scratch H -> sbuf -> list Z -> scratch H * (sbuf * res unit)) (s : scratch H * sbuf) (d : list Z)
  : (scratch H * sbuf) * res unit := let '(sc, (b, r)) := f (fst s) (snd s) d in ((sc, b), r).
Definition lift_finish (f : scratch H -> sbuf -> scratch H * (sbuf * res unit)) (s : scratch H * sbuf)
  : (scratch H * sbuf) * res unit := let '(sc, (b, r)) := f (fst s) (snd s) in ((sc, b), r).
Definition buffers (f : sbuf -> sbuf) (s : scratch H * sbuf) : scratch H * sbuf := (fst s, f (snd s)).
Definition sobj e d w f rst : obj (scratch H * sbuf) :=
  mkObj (lift_call e) (lift_call d) (lift_write w) (lift_finish f) (fun s => s_pond (snd s)) (buffers drain) (buffers rst).
(** ecb.rs:184-322, cipher_mode_macros.rs:21-32. *)
Definition ecb_enc_obj_b p := sobj (ecb_encrypt_b c p) (ecb_decrypt_b c p) (ecb_enc_write_b c) (ecb_enc_finish_b c p) (fun s => mkS [] [] (s_ij s)).
Definition ecb_dec_obj_b p := sobj (ecb_encrypt_b c p) (ecb_decrypt_b c p) (dec_write_b c (ecb_step_b c)) (ecb_dec_finish_b c p) (fun s => mkS [] [] (s_ij s)).
(** cbc.rs:219-379, cipher_mode_macros.rs:54-67. *)
Definition cbc_enc_obj_b p iv := sobj (cbc_encrypt_b c p iv) (cbc_decrypt_b c p iv) (cbc_enc_write_b c) (cbc_enc_finish_b c p iv) (iv_reset iv).
Definition cbc_dec_obj_b p iv := sobj (cbc_encrypt_b c p iv) (cbc_decrypt_b c p iv) (dec_write_b c (cbc_step_b c)) (cbc_dec_finish_b c p iv) (iv_reset iv).
(** cfb.rs:236-336, cipher_mode_macros.rs:54-67. *)
Definition cfb_enc_obj_b s p iv := sobj (cfb_encrypt_b c s p iv) (cfb_decrypt_b c s p iv) (cfb_enc_write_b c s) (cfb_enc_finish_b c s p iv) (iv_reset iv).
Definition cfb_dec_obj_b s p iv := sobj (cfb_encrypt_b c s p iv) (cfb_decrypt_b c s p iv) (cfb_dec_write_b c s) (cfb_dec_finish_b c s p iv) (iv_reset iv).
(** ofb.rs:170-284, cipher_mode_macros.rs:89-101. *)
Definition ofb_obj_b iv := sobj (ofb_encrypt_b c iv) (ofb_encrypt_b c iv) (ofb_write_b c) (ofb_finish_b c iv) (iv_reset iv).
(** ctr.rs:137-251; the state is the scratch, the counter, [data] and [pond]. *)
Definition ctr_state : Type := scratch H * (counter * list Z * list Z).
Definition ctr_call_b (s : ctr_state) (dst m : list Z) : ctr_state * (list Z * res nat) :=
  let '(sc, (k, d, p)) := s in let '(sc, (k, r)) := ctr_encrypt_b c sc k dst m in ((sc, (k, d, p)), r).
Definition ctr_obj_b : obj ctr_state :=
  mkObj ctr_call_b ctr_call_b
    (fun s x => let '(sc, (k, d, p, r)) := ctr_write_b c (fst s) (snd s) x in ((sc, (k, d, p)), r))
    (fun s => let '(sc, (k, d, p, r)) := ctr_finish_b c (fst s) (snd s) in ((sc, (k, d, p)), r))
    (fun s => snd (snd s))
    (fun s => let '(sc, (k, d, p)) := s in (sc, (k, d, [])))
    (fun s => let '(sc, (k, d, p)) := s in (sc, (counter_reset k, [], []))).
End Objects.

(** ** Ciphers with their destination vectors; only TDES hides something. *)
Definition stateless (f : list Z -> list Z -> list Z * res nat) : unit -> list Z -> list Z -> unit * list Z * res nat :=
  fun u dst b => let '(d, r) := f dst b in (u, d, r).
(** aes.rs:46-78. *)
Definition aes_d (a : aes) : dcipher unit := mkD (Some 16%nat) (stateless (aes_encrypt_dst a)) (stateless (aes_decrypt_dst a)).
(** aes.rs:46-78 with the block functions of aes_amd64.rs:221-256. *)
Definition aesni_d (a : aesni) : dcipher unit := mkD (Some 16%nat) (stateless (aesni_encrypt_dst a)) (stateless (aesni_decrypt_dst a)).
(** des.rs:170-201. *)
Definition des_d (ks : list Z) : dcipher unit := mkD (Some 8%nat) (stateless (des_crypt_dst ks true)) (stateless (des_crypt_dst ks false)).
(** sm4.rs:89-128. *)
Definition sm4_d (ks : list Z) : dcipher unit :=
  mkD (Some 16%nat) (stateless (sm4_ed_dst (fun i => nth i ks 0))) (stateless (sm4_ed_dst (fun i => nth (31 - i) ks 0))).
(** tdes.rs:51-71: the hidden state is [buf]. *)
Definition tdes_d (k1 k2 k3 : list Z) : dcipher (list Z) :=
  mkD (Some 8%nat) (tdes_encrypt_dst k1 k2 k3) (tdes_decrypt_dst k1 k2 k3).

(** ** Clone.  ecb.rs:172-182, cbc.rs:205-217, cfb.rs:221-234, ofb.rs:122-133: everything is copied but the scratch vector, which is new;
    [ch] is the cipher's own [clone] on its hidden state. *)
Definition clone_scratch {H} (ch : H -> H) (sc : scratch H) : scratch H := (ch (fst sc), []).
(** tdes.rs:20-29: a new [buf]. *)
Definition tdes_clone (buf : list Z) : list Z := [].
(** ctr.rs:125-135: the scratch vector is copied, and the counter cloned ([counter_reset], counter.rs:21-29). *)
Definition ctr_clone_b {H} (ch : H -> H) (o : scratch H * counter) : scratch H * counter := ((ch (fst (fst o)), snd (fst o)), counter_reset (snd o)).

(** ** The mode objects themselves (not streams): one-shot calls, [set_iv] and [clone]. *)
Section Base.
Context {H : Type}.
Variable c : dcipher H.
Variable ch : H -> H.
(** ecb.rs:50-182. *)
Record bobj (St : Type) := mkB {
  b_enc : St -> list Z -> list Z -> St * (list Z * res nat);
  b_dec : St -> list Z -> list Z -> St * (list Z * res nat);
  b_set : St -> list Z -> St * res unit;
  b_clone : St -> St
}.
(** cbc.rs:70-81, cfb.rs:85-96 and (with [e] = [InnerErr]) ofb.rs:58-68. *)
Definition set_iv_b (e : err) (s : scratch H * list Z) (iv : list Z) : (scratch H * list Z) * res unit :=
  match dblk c with
  | Some n => if (length iv =? n)%nat then ((fst s, iv), Ok tt) else (s, Err e)
  | None => ((fst s, iv), Ok tt)
  end.
Definition lift_base (f : list Z -> scratch H -> list Z -> list Z -> scratch H * (list Z * res nat)) (s : scratch H * list Z) (dst m : list Z)
  : (scratch H * list Z) * (list Z * res nat) := let '(sc, r) := f (snd s) (fst s) dst m in ((sc, snd s), r).
Definition clone_iv (s : scratch H * list Z) : scratch H * list Z := (clone_scratch ch (fst s), snd s).
(** ecb.rs:50-182: there is no IV; the second component stays. *)
Definition ecb_base p := mkB _ (lift_base (fun _ => ecb_encrypt_b c p)) (lift_base (fun _ => ecb_decrypt_b c p)) (fun s _ => (s, Ok tt)) clone_iv.
(** cbc.rs:14-217. *)
Definition cbc_base p := mkB _ (lift_base (cbc_encrypt_b c p)) (lift_base (cbc_decrypt_b c p)) (set_iv_b InvalidParameter) clone_iv.
(** cfb.rs:8-234. *)
Definition cfb_base s p := mkB _ (lift_base (cfb_encrypt_b c s p)) (lift_base (cfb_decrypt_b c s p)) (set_iv_b InvalidParameter) clone_iv.
(** ofb.rs:8-167. *)
Definition ofb_base := mkB _ (lift_base (ofb_encrypt_b c)) (lift_base (ofb_encrypt_b c)) (set_iv_b InnerErr) clone_iv.
(** ctr.rs:9-135; [set_counter] (34-42) is not among the calls. *)
Definition ctr_base : bobj (scratch H * counter) :=
  mkB _ (fun s dst m => let '(sc, (k, r)) := ctr_encrypt_b c (fst s) (snd s) dst m in ((sc, k), r))
        (fun s dst m => let '(sc, (k, r)) := ctr_encrypt_b c (fst s) (snd s) dst m in ((sc, k), r))
        (fun s _ => (s, Ok tt)) (ctr_clone_b ch).
End Base.
Arguments b_enc {St}. Arguments b_dec {St}. Arguments b_set {St}. Arguments b_clone {St}.
