(** Model of src/cipher.rs (trait Cipher) and src/cipher_mode/*.rs.

    Simplification used throughout: the scratch vector [buf: Cell<Vec<u8>>] of
    the mode objects is not part of the state.  ScratchModel.v models the same
    code with it, and C67 (PropScratch.v) proves that it never shows. *)
From Verif Require Import Base.

(** src/cipher.rs:6-19, trait [Cipher].  [enc]/[dec] give the new content of
    [dst] on success.  (That [dst] is left alone on error is shown for the
    concrete ciphers in their own models.) *)
Record cipher := mkCipher {
  blk : option nat;
  enc : list Z -> res (list Z);
  dec : list Z -> res (list Z)
}.

(** [block_size().unwrap_or(1)], used at the head of every mode routine. *)
Definition bsz (c : cipher) : nat := match blk c with Some n => n | None => 1%nat end.

(** src/cipher_mode/padding.rs:4-10, trait [Padding]: [unpad] gives the new
    buffer and the returned value. *)
Record padding := mkPadding {
  pad : list Z -> list Z;
  unpad : list Z -> list Z * res nat
}.

(** [Vec::resize(n, 0)]. *)
Definition resize0 (n : nat) (l : list Z) : list Z :=
  firstn n l ++ repeat 0 (n - length l).

(** padding.rs:29-39, [DefaultPadding::padding].  A block size of 0 makes [%]
    panic in Rust; it is excluded by every theorem. *)
Definition default_pad (bs : nat) (buf : list Z) : list Z :=
  let buf := buf ++ [128] in
  let old_len := length buf in
  if (bs <? old_len)%nat then resize0 (old_len + (bs - old_len mod bs)) buf
  else if (old_len <? bs)%nat then resize0 bs buf
  else resize0 (bs * 2) buf.

(** padding.rs:42-50, the loop of [DefaultPadding::unpadding] over the reversed
    buffer: bytes other than 0 and 0x80 are passed over without counting. *)
Fixpoint unpad_scan (r : list Z) (len : nat) : option nat :=
  match r with
  | [] => None
  | e :: r' =>
      if e =? 0 then unpad_scan r' (S len)
      else if e =? 128 then Some len
      else unpad_scan r' len
  end.

(** padding.rs:41-54, [DefaultPadding::unpadding]. *)
Definition default_unpad (buf : list Z) : list Z * res nat :=
  match unpad_scan (rev buf) 0 with
  | Some len => let buf' := firstn (length buf - len - 1) buf in (buf', Ok (length buf'))
  | None => (buf, Err UnpaddingNotMatch)
  end.

(** padding.rs:19-26. *)
Definition DefaultPadding (c : cipher) : padding := mkPadding (default_pad (bsz c)) default_unpad.

(** padding.rs:67-74. *)
Definition EmptyPadding : padding := mkPadding (fun b => b) (fun b => (b, Ok (length b))).

(** ** ECB: src/cipher_mode/ecb.rs *)

(** ecb.rs:108-119 and 155-166 (also 220-231): [while data.len() >= block_size]
    with [f] the cipher direction.  Returns (dst, remaining data, status). *)
Fixpoint while_full (f : list Z -> res (list Z)) (fuel : nat) (n : nat) (data dst : list Z)
  : list Z * list Z * res unit :=
  match fuel with
  | O => (dst, data, Panic)
  | S fuel' =>
      if (n <=? length data)%nat then
        match f (firstn n data) with
        | Ok t => while_full f fuel' n (skipn n data) (dst ++ t)
        | Err e => (dst, data, Err e)
        | Panic => (dst, data, Panic)
        end
      else (dst, data, Ok tt)
  end.

(** ecb.rs:125-137 and 246-258: [while !data.is_empty()] in pieces of
    [min(len, block_size)]. *)
Fixpoint while_nonempty (f : list Z -> res (list Z)) (fuel : nat) (n : nat) (data dst : list Z)
  : list Z * res unit :=
  match fuel with
  | O => (dst, Panic)
  | S fuel' =>
      match data with
      | [] => (dst, Ok tt)
      | _ =>
          let len := Nat.min (length data) n in
          match f (firstn len data) with
          | Ok t => while_nonempty f fuel' n (skipn len data) (dst ++ t)
          | Err e => (dst, Err e)
          | Panic => (dst, Panic)
          end
      end
  end.

Record ecb := mkEcb { ecb_cipher : cipher; ecb_pad : padding }.

(** ecb.rs:102-140, [ECB::encrypt]; result = (new dst, returned value). *)
Definition ecb_encrypt (o : ecb) (dst pt : list Z) : list Z * res nat :=
  let n := bsz (ecb_cipher o) in
  match while_full (enc (ecb_cipher o)) (S (length pt)) n pt [] with
  | (dst1, data, Ok _) =>
      let tmp := pad (ecb_pad o) data in
      match while_nonempty (enc (ecb_cipher o)) (S (length tmp)) n tmp dst1 with
      | (dst2, Ok _) => (dst2, Ok (length dst2))
      | (dst2, Err e) => (dst2, Err e)
      | (dst2, Panic) => (dst2, Panic)
      end
  | (dst1, _, Err e) => (dst1, Err e)
  | (dst1, _, Panic) => (dst1, Panic)
  end.

(** ecb.rs:142-169, [ECB::decrypt]. *)
Definition ecb_decrypt (o : ecb) (dst ct : list Z) : list Z * res nat :=
  let n := bsz (ecb_cipher o) in
  if negb (length ct mod n =? 0)%nat then (dst, Err InvalidParameter)
  else match while_full (dec (ecb_cipher o)) (S (length ct)) n ct [] with
       | (dst1, _, Ok _) => unpad (ecb_pad o) dst1
       | (dst1, _, Err e) => (dst1, Err e)
       | (dst1, _, Panic) => (dst1, Panic)
       end.

(** Buffers of a stream object: ecb.rs:184-188, cbc.rs:219-224, cfb.rs:236-241,
    ofb.rs:170-175.  [s_ij] is the chaining value (unused by ECB). *)
Record sbuf := mkS { s_data : list Z; s_pond : list Z; s_ij : list Z }.

(** ecb.rs:78-92. *)
Definition ecb_stream_init : sbuf := mkS [] [] [].

(** ecb.rs:195-238, [ECBEncrypt::write].  [block_len - self.data.len()] would
    underflow when more than a block is buffered (possible only after a failed
    finish); that is the [Panic] branch. *)
Definition ecb_enc_write (o : ecb) (s : sbuf) (data : list Z) : sbuf * res unit :=
  let n := bsz (ecb_cipher o) in
  match data with
  | [] => (s, Ok tt)
  | _ =>
      if (n <? length (s_data s))%nat then (s, Panic) else
      let len := Nat.min (n - length (s_data s)) (length data) in
      let sdata := s_data s ++ firstn len data in
      let data := skipn len data in
      let first :=
        if (length sdata =? n)%nat then
          match enc (ecb_cipher o) sdata with
          | Ok t => Ok ([], s_pond s ++ t)
          | Err e => Err e
          | Panic => Panic
          end
        else Ok (sdata, s_pond s) in
      match first with
      | Ok (sdata, pond) =>
          match while_full (enc (ecb_cipher o)) (S (length data)) n data pond with
          | (pond, data, Ok _) => (mkS (sdata ++ data) pond (s_ij s), Ok tt)
          | (pond, _, Err e) => (mkS sdata pond (s_ij s), Err e)
          | (pond, _, Panic) => (mkS sdata pond (s_ij s), Panic)
          end
      | Err e => (mkS sdata (s_pond s) (s_ij s), Err e)
      | Panic => (mkS sdata (s_pond s) (s_ij s), Panic)
      end
  end.

(** ecb.rs:240-262, [ECBEncrypt::finish]. *)
Definition ecb_enc_finish (o : ecb) (s : sbuf) : sbuf * res unit :=
  let sdata := pad (ecb_pad o) (s_data s) in
  match while_nonempty (enc (ecb_cipher o)) (S (length sdata)) (bsz (ecb_cipher o)) sdata (s_pond s) with
  | (pond, Ok _) => (mkS [] pond (s_ij s), Ok tt)
  | (pond, Err e) => (mkS sdata pond (s_ij s), Err e)
  | (pond, Panic) => (mkS sdata pond (s_ij s), Panic)
  end.

(** ecb.rs:287-298 and cbc.rs:336-352: [while data.len() > block_len], one block
    is always held back.  [f] transforms (chaining value, block). *)
Fixpoint while_more (f : list Z -> list Z -> res (list Z * list Z)) (fuel : nat) (n : nat)
  (ij data pond : list Z) : list Z * list Z * list Z * res unit :=
  match fuel with
  | O => (ij, data, pond, Panic)
  | S fuel' =>
      if (n <? length data)%nat then
        match f ij (firstn n data) with
        | Ok (t, ij') => while_more f fuel' n ij' (skipn n data) (pond ++ t)
        | Err e => (ij, data, pond, Err e)
        | Panic => (ij, data, pond, Panic)
        end
      else (ij, data, pond, Ok tt)
  end.

Definition ecb_dec_step (o : ecb) (ij b : list Z) : res (list Z * list Z) :=
  rmap (fun t => (t, ij)) (dec (ecb_cipher o) b).

(** ecb.rs:276-304, [ECBDecrypt::write].  On a cipher error [self.data] keeps
    everything that was appended (the local slice is dropped). *)
Definition ecb_dec_write (o : ecb) (s : sbuf) (data : list Z) : sbuf * res unit :=
  match data with
  | [] => (s, Ok tt)
  | _ =>
      let sdata := s_data s ++ data in
      match while_more (ecb_dec_step o) (S (length sdata)) (bsz (ecb_cipher o)) (s_ij s) sdata (s_pond s) with
      | (ij, data, pond, Ok _) => (mkS data pond ij, Ok tt)
      | (ij, _, pond, Err e) => (mkS sdata pond ij, Err e)
      | (ij, _, pond, Panic) => (mkS sdata pond ij, Panic)
      end
  end.

(** ecb.rs:306-322, [ECBDecrypt::finish]. *)
Definition ecb_dec_finish (o : ecb) (s : sbuf) : sbuf * res unit :=
  match dec (ecb_cipher o) (s_data s) with
  | Ok txt =>
      match unpad (ecb_pad o) txt with
      | (txt, Ok _) => (mkS [] (s_pond s ++ txt) (s_ij s), Ok tt)
      | (_, Err e) => (s, Err e)
      | (_, Panic) => (s, Panic)
      end
  | Err e => (s, Err e)
  | Panic => (s, Panic)
  end.

(** cipher_mode_macros.rs:21-32, [reset] of the ECB streams. *)
Definition ecb_reset (o : ecb) (s : sbuf) : sbuf := mkS [] [] (s_ij s).

(** ** Initial vectors: src/cipher_mode/initial_vec.rs *)

(** initial_vec.rs:27-44, [DefaultInitialVec::initial_vec].  The rng is an
    oracle: the list of results its [gen()] calls return ([None] = error; an
    exhausted list also counts as an error).  Returns (iv, status, rest of rng). *)
Fixpoint gen_words (k : nat) (rnd : list (option Z)) (iv : list Z) : list Z * res unit * list (option Z) :=
  match k with
  | O => (iv, Ok tt, rnd)
  | S k' =>
      match rnd with
      | Some r :: rnd' => gen_words k' rnd' (iv ++ be_bytes 4 r)
      | None :: rnd' => (iv, Err RandError, rnd')
      | [] => (iv, Err RandError, [])
      end
  end.

Definition default_initial_vec (bs : nat) (rnd : list (option Z)) : list Z * res unit * list (option Z) :=
  match gen_words ((bs + 3) / 4) rnd [] with
  | (iv, Ok _, rnd') => (firstn bs iv, Ok tt, rnd')
  | r => r
  end.

(** ** CBC: src/cipher_mode/cbc.rs *)
Record cbc := mkCbc { cbc_cipher : cipher; cbc_pad : padding; cbc_iv : list Z }.

(** The IV length check shared by the constructors: cbc.rs:33-38, cfb.rs:46-51,
    ofb.rs:24-29 ([ivr] is what [initial_vec] produced). *)
Definition iv_check (c : cipher) (ivr : list Z * res unit) : res (list Z) :=
  match ivr with
  | (iv, Ok _) =>
      match blk c with
      | Some n => if (length iv =? n)%nat then Ok iv else Err InnerErr
      | None => Ok iv
      end
  | (_, Err e) => Err e
  | (_, Panic) => Panic
  end.

(** cbc.rs:28-48, [CBC::new]. *)
Definition cbc_new (c : cipher) (p : padding) (ivr : list Z * res unit) : res cbc :=
  rmap (mkCbc c p) (iv_check c ivr).

(** cbc.rs:51-64, [CBC::update_iv]: [cur_iv] is overwritten in place before the
    length is checked. *)
Definition cbc_update_iv (o : cbc) (ivr : list Z * res unit) : cbc * res (list Z) :=
  (mkCbc (cbc_cipher o) (cbc_pad o) (fst ivr), iv_check (cbc_cipher o) ivr).

(** cbc.rs:70-81, [CBC::set_iv]. *)
Definition cbc_set_iv (o : cbc) (iv : list Z) : cbc * res unit :=
  match blk (cbc_cipher o) with
  | Some n => if (length iv =? n)%nat then (mkCbc (cbc_cipher o) (cbc_pad o) iv, Ok tt)
              else (o, Err InvalidParameter)
  | None => (mkCbc (cbc_cipher o) (cbc_pad o) iv, Ok tt)
  end.

(** cbc.rs:109-113, [CBC::xor_iv]: bytes of [cur_iv] beyond the block are kept. *)
Definition xor_into (cur block : list Z) : list Z :=
  xorl cur block ++ skipn (length block) cur.

(** cbc.rs:132-147, the full-block loop of [CBC::encrypt]. *)
Fixpoint cbc_enc_full (c : cipher) (fuel : nat) (n : nat) (civ data dst : list Z)
  : list Z * list Z * res unit :=
  match fuel with
  | O => (dst, data, Panic)
  | S fuel' =>
      if (n <=? length data)%nat then
        match enc c (xor_into civ (firstn n data)) with
        | Ok t => cbc_enc_full c fuel' n t (skipn n data) (dst ++ t)
        | Err e => (dst, data, Err e)
        | Panic => (dst, data, Panic)
        end
      else (dst, data, Ok tt)
  end.

(** cbc.rs:125-168, [CBC::encrypt].  Lines 152-165 encrypt the padding block(s)
    directly, with no chaining value. *)
Definition cbc_encrypt (o : cbc) (dst pt : list Z) : list Z * res nat :=
  let n := bsz (cbc_cipher o) in
  match cbc_enc_full (cbc_cipher o) (S (length pt)) n (cbc_iv o) pt [] with
  | (dst1, data, Ok _) =>
      let tmp := pad (cbc_pad o) data in
      match while_nonempty (enc (cbc_cipher o)) (S (length tmp)) n tmp dst1 with
      | (dst2, Ok _) => (dst2, Ok (length dst2))
      | (dst2, Err e) => (dst2, Err e)
      | (dst2, Panic) => (dst2, Panic)
      end
  | (dst1, _, Err e) => (dst1, Err e)
  | (dst1, _, Panic) => (dst1, Panic)
  end.

(** cbc.rs:184-199, the loop of [CBC::decrypt]. *)
Fixpoint cbc_dec_loop (c : cipher) (fuel : nat) (n : nat) (civ data dst : list Z)
  : list Z * res unit :=
  match fuel with
  | O => (dst, Panic)
  | S fuel' =>
      match data with
      | [] => (dst, Ok tt)
      | _ =>
          let len := Nat.min n (length data) in
          let tmp := firstn len data in
          match dec c tmp with
          | Ok t => cbc_dec_loop c fuel' n tmp (skipn len data) (dst ++ xorl civ t)
          | Err e => (dst, Err e)
          | Panic => (dst, Panic)
          end
      end
  end.

(** cbc.rs:170-202, [CBC::decrypt]. *)
Definition cbc_decrypt (o : cbc) (dst ct : list Z) : list Z * res nat :=
  let n := bsz (cbc_cipher o) in
  if negb (length ct mod n =? 0)%nat then (dst, Err InvalidParameter)
  else match cbc_dec_loop (cbc_cipher o) (S (length ct)) n (cbc_iv o) ct [] with
       | (dst1, Ok _) => unpad (cbc_pad o) dst1
       | (dst1, Err e) => (dst1, Err e)
       | (dst1, Panic) => (dst1, Panic)
       end.

(** cbc.rs:83-99. *)
Definition cbc_stream_init (o : cbc) : sbuf := mkS [] [] (cbc_iv o).

(** cbc.rs:276-288, the full-block loop of [CBCEncrypt::write]. *)
Fixpoint cbc_enc_while (c : cipher) (fuel : nat) (n : nat) (ij data pond : list Z)
  : list Z * list Z * list Z * res unit :=
  match fuel with
  | O => (ij, data, pond, Panic)
  | S fuel' =>
      if (n <=? length data)%nat then
        match enc c (xorl (firstn n data) ij) with
        | Ok t => cbc_enc_while c fuel' n t (skipn n data) (pond ++ t)
        | Err e => (ij, data, pond, Err e)
        | Panic => (ij, data, pond, Panic)
        end
      else (ij, data, pond, Ok tt)
  end.

(** cbc.rs:250-293, [CBCEncrypt::write]. *)
Definition cbc_enc_write (o : cbc) (s : sbuf) (data : list Z) : sbuf * res unit :=
  let n := bsz (cbc_cipher o) in
  match data with
  | [] => (s, Ok tt)
  | _ =>
      if (n <? length (s_data s))%nat then (s, Panic) else
      let len := Nat.min (n - length (s_data s)) (length data) in
      let sdata := s_data s ++ firstn len data in
      let data := skipn len data in
      let first :=
        if (length sdata =? n)%nat then
          match enc (cbc_cipher o) (xorl sdata (s_ij s)) with
          | Ok t => Ok ([], s_pond s ++ t, t)
          | Err e => Err e
          | Panic => Panic
          end
        else Ok (sdata, s_pond s, s_ij s) in
      match first with
      | Ok (sdata, pond, ij) =>
          match cbc_enc_while (cbc_cipher o) (S (length data)) n ij data pond with
          | (ij, data, pond, Ok _) => (mkS (sdata ++ data) pond ij, Ok tt)
          | (ij, _, pond, Err e) => (mkS sdata pond ij, Err e)
          | (ij, _, pond, Panic) => (mkS sdata pond ij, Panic)
          end
      | Err e => (mkS sdata (s_pond s) (s_ij s), Err e)
      | Panic => (mkS sdata (s_pond s) (s_ij s), Panic)
      end
  end.

(** cbc.rs:301-315, the loop of [CBCEncrypt::finish]: after each block the
    chaining value becomes the IV again (line 308). *)
Fixpoint cbc_fin_loop (c : cipher) (iv : list Z) (fuel : nat) (n : nat) (ij data pond : list Z)
  : list Z * list Z * res unit :=
  match fuel with
  | O => (ij, pond, Panic)
  | S fuel' =>
      match data with
      | [] => (ij, pond, Ok tt)
      | _ =>
          let len := Nat.min n (length data) in
          match enc c (xorl (firstn len data) ij) with
          | Ok t => cbc_fin_loop c iv fuel' n iv (skipn len data) (pond ++ t)
          | Err e => (ij, pond, Err e)
          | Panic => (ij, pond, Panic)
          end
      end
  end.

(** cbc.rs:295-319, [CBCEncrypt::finish]. *)
Definition cbc_enc_finish (o : cbc) (s : sbuf) : sbuf * res unit :=
  let sdata := pad (cbc_pad o) (s_data s) in
  match cbc_fin_loop (cbc_cipher o) (cbc_iv o) (S (length sdata)) (bsz (cbc_cipher o)) (s_ij s) sdata (s_pond s) with
  | (ij, pond, Ok _) => (mkS [] pond ij, Ok tt)
  | (ij, pond, Err e) => (mkS sdata pond ij, Err e)
  | (ij, pond, Panic) => (mkS sdata pond ij, Panic)
  end.

(** cbc.rs:338-347: one block of [CBCDecrypt::write]; positions beyond the
    shorter of the three zipped sequences are left unchanged. *)
Definition cbc_dec_step (o : cbc) (ij b : list Z) : res (list Z * list Z) :=
  rmap (fun t =>
          let k := Nat.min (length t) (Nat.min (length ij) (length b)) in
          (xorl (firstn k t) ij ++ skipn k t, firstn k b ++ skipn k ij))
       (dec (cbc_cipher o) b).

(** cbc.rs:325-358, [CBCDecrypt::write]. *)
Definition cbc_dec_write (o : cbc) (s : sbuf) (data : list Z) : sbuf * res unit :=
  match data with
  | [] => (s, Ok tt)
  | _ =>
      let sdata := s_data s ++ data in
      match while_more (cbc_dec_step o) (S (length sdata)) (bsz (cbc_cipher o)) (s_ij s) sdata (s_pond s) with
      | (ij, data, pond, Ok _) => (mkS data pond ij, Ok tt)
      | (ij, _, pond, Err e) => (mkS sdata pond ij, Err e)
      | (ij, _, pond, Panic) => (mkS sdata pond ij, Panic)
      end
  end.

(** cbc.rs:360-379, [CBCDecrypt::finish]. *)
Definition cbc_dec_finish (o : cbc) (s : sbuf) : sbuf * res unit :=
  match dec (cbc_cipher o) (s_data s) with
  | Ok txt =>
      let txt := xorl txt (s_ij s) ++ skipn (length (s_ij s)) txt in
      match unpad (cbc_pad o) txt with
      | (txt, Ok _) => (mkS [] (s_pond s ++ txt) (cbc_iv o), Ok tt)
      | (_, Err e) => (s, Err e)
      | (_, Panic) => (s, Panic)
      end
  | Err e => (s, Err e)
  | Panic => (s, Panic)
  end.

(** cipher_mode_macros.rs:54-67, [reset] of the CBC and CFB streams, and 89-101
    for OFB. *)
Definition iv_reset (iv : list Z) (s : sbuf) : sbuf := mkS [] [] iv.

(** ** CFB: src/cipher_mode/cfb.rs; [cfb_s] is the segment size in bytes. *)
Record cfb := mkCfb { cfb_s : nat; cfb_cipher : cipher; cfb_pad : padding; cfb_iv : list Z }.

(** cfb.rs:25-63, [CFB::new]; [sbits] is the parameter [s] in bits. *)
Definition cfb_new (c : cipher) (p : padding) (ivr : list Z * res unit) (sbits : nat) : res cfb :=
  if (0 <? sbits mod 8)%nat then Err InvalidParameter
  else
    let s := (sbits / 8)%nat in
    let bmax := match blk c with Some n => n | None => s end in
    if (s <? 1)%nat || (bmax <? s)%nat then Err InvalidParameter
    else if negb (length (pad p (repeat 0%Z s)) mod s =? 0)%nat then Err InvalidParameter
    else rmap (mkCfb s c p) (iv_check c ivr).

(** cfb.rs:85-96, [CFB::set_iv]. *)
Definition cfb_set_iv (o : cfb) (iv : list Z) : cfb * res unit :=
  match blk (cfb_cipher o) with
  | Some n => if (length iv =? n)%nat then (mkCfb (cfb_s o) (cfb_cipher o) (cfb_pad o) iv, Ok tt)
              else (o, Err InvalidParameter)
  | None => (mkCfb (cfb_s o) (cfb_cipher o) (cfb_pad o) iv, Ok tt)
  end.

(** cfb.rs:124-152, [CFB::encrypt_inner]; returns (ij, dst, status).  A tail
    shorter than a segment is left unprocessed. *)
Fixpoint cfb_enc_inner (o : cfb) (fuel : nat) (ij dst data : list Z) : list Z * list Z * res unit :=
  match fuel with
  | O => (ij, dst, Panic)
  | S fuel' =>
      let s := cfb_s o in
      if (s <=? length data)%nat then
        match enc (cfb_cipher o) ij with
        | Ok oj =>
            let cj := xorl (firstn s oj) (firstn s data) in
            cfb_enc_inner o fuel' (skipn s ij ++ cj) (dst ++ cj) (skipn s data)
        | Err e => (ij, dst, Err e)
        | Panic => (ij, dst, Panic)
        end
      else (ij, dst, Ok tt)
  end.

(** cfb.rs:154-180, [CFB::decrypt_inner]; line 159 slices out of range when
    fewer than [s] bytes remain. *)
Fixpoint cfb_dec_inner (o : cfb) (fuel : nat) (ij dst data : list Z) : list Z * list Z * res unit :=
  match fuel with
  | O => (ij, dst, Panic)
  | S fuel' =>
      let s := cfb_s o in
      match data with
      | [] => (ij, dst, Ok tt)
      | _ =>
        match enc (cfb_cipher o) ij with
        | Ok oj =>
            if (length data <? s)%nat then (ij, dst, Panic)
            else
              let cj := firstn s data in
              cfb_dec_inner o fuel' (skipn s ij ++ cj) (dst ++ xorl cj (firstn s oj)) (skipn s data)
        | Err e => (ij, dst, Err e)
        | Panic => (ij, dst, Panic)
        end
      end
  end.

(** cfb.rs:191-204, [CFB::encrypt]. *)
Definition cfb_encrypt (o : cfb) (dst pt : list Z) : list Z * res nat :=
  match cfb_enc_inner o (S (length pt)) (cfb_iv o) [] pt with
  | (ij, dst1, Ok _) =>
      let remain := (length pt mod cfb_s o)%nat in
      let data := pad (cfb_pad o) (skipn (length pt - remain) pt) in
      match cfb_enc_inner o (S (length data)) ij dst1 data with
      | (_, dst2, Ok _) => (dst2, Ok (length dst2))
      | (_, dst2, Err e) => (dst2, Err e)
      | (_, dst2, Panic) => (dst2, Panic)
      end
  | (_, dst1, Err e) => (dst1, Err e)
  | (_, dst1, Panic) => (dst1, Panic)
  end.

(** cfb.rs:206-218, [CFB::decrypt]. *)
Definition cfb_decrypt (o : cfb) (dst ct : list Z) : list Z * res nat :=
  if negb (length ct mod cfb_s o =? 0)%nat then (dst, Err InvalidParameter)
  else match cfb_dec_inner o (S (length ct)) (cfb_iv o) [] ct with
       | (_, dst1, Ok _) => unpad (cfb_pad o) dst1
       | (_, dst1, Err e) => (dst1, Err e)
       | (_, dst1, Panic) => (dst1, Panic)
       end.

Definition cfb_stream_init (o : cfb) : sbuf := mkS [] [] (cfb_iv o).

(** cfb.rs:257-283, [CFBEncrypt::write]. *)
Definition cfb_enc_write (o : cfb) (s : sbuf) (data : list Z) : sbuf * res unit :=
  match data with
  | [] => (s, Ok tt)
  | _ =>
      if (cfb_s o <? length (s_data s))%nat then (s, Panic) else
      let len := Nat.min (cfb_s o - length (s_data s)) (length data) in
      let sdata := s_data s ++ firstn len data in
      let data := skipn len data in
      match
        (if (length sdata =? cfb_s o)%nat then
           match cfb_enc_inner o (S (length sdata)) (s_ij s) (s_pond s) sdata with
           | (ij, pond, Ok _) => (mkS [] pond ij, Ok tt)
           | (ij, pond, Err e) => (mkS sdata pond ij, Err e)
           | (ij, pond, Panic) => (mkS sdata pond ij, Panic)
           end
         else (mkS sdata (s_pond s) (s_ij s), Ok tt)) with
      | (s1, Ok _) =>
          match cfb_enc_inner o (S (length data)) (s_ij s1) (s_pond s1) data with
          | (ij, pond, Ok _) =>
              let len := (length data mod cfb_s o)%nat in
              (mkS (s_data s1 ++ skipn (length data - len) data) pond ij, Ok tt)
          | (ij, pond, Err e) => (mkS (s_data s1) pond ij, Err e)
          | (ij, pond, Panic) => (mkS (s_data s1) pond ij, Panic)
          end
      | r => r
      end
  end.

(** cfb.rs:285-296, [CFBEncrypt::finish]. *)
Definition cfb_enc_finish (o : cfb) (s : sbuf) : sbuf * res unit :=
  let sdata := pad (cfb_pad o) (s_data s) in
  match cfb_enc_inner o (S (length sdata)) (s_ij s) (s_pond s) sdata with
  | (_, pond, Ok _) => (mkS [] pond (cfb_iv o), Ok tt)
  | (ij, pond, Err e) => (mkS sdata pond ij, Err e)
  | (ij, pond, Panic) => (mkS sdata pond ij, Panic)
  end.

(** cfb.rs:301-321, [CFBDecrypt::write]. *)
Definition cfb_dec_write (o : cfb) (s : sbuf) (data : list Z) : sbuf * res unit :=
  match data with
  | [] => (s, Ok tt)
  | _ =>
      let sdata := s_data s ++ data in
      let bound := (length sdata - length sdata mod cfb_s o)%nat in
      match cfb_dec_inner o (S (length sdata)) (s_ij s) (s_pond s) (firstn bound sdata) with
      | (ij, pond, Ok _) => (mkS (skipn bound sdata) pond ij, Ok tt)
      | (ij, pond, Err e) => (mkS sdata pond ij, Err e)
      | (ij, pond, Panic) => (mkS sdata pond ij, Panic)
      end
  end.

(** cfb.rs:323-336, [CFBDecrypt::finish]: the padding is removed from whatever
    is still in the pond. *)
Definition cfb_dec_finish (o : cfb) (s : sbuf) : sbuf * res unit :=
  match cfb_dec_inner o (S (length (s_data s))) (s_ij s) (s_pond s) (s_data s) with
  | (ij, pond, Ok _) =>
      match unpad (cfb_pad o) pond with
      | (pond, Ok _) => (mkS [] pond (cfb_iv o), Ok tt)
      | (pond, Err e) => (mkS (s_data s) pond ij, Err e)
      | (pond, Panic) => (mkS (s_data s) pond ij, Panic)
      end
  | (ij, pond, Err e) => (mkS (s_data s) pond ij, Err e)
  | (ij, pond, Panic) => (mkS (s_data s) pond ij, Panic)
  end.

(** ** OFB: src/cipher_mode/ofb.rs *)
Record ofb := mkOfb { ofb_cipher : cipher; ofb_iv : list Z }.

(** ofb.rs:19-40, [OFB::new]. *)
Definition ofb_new (c : cipher) (ivr : list Z * res unit) : res ofb :=
  rmap (mkOfb c) (iv_check c ivr).

(** ofb.rs:58-68, [OFB::set_iv]. *)
Definition ofb_set_iv (o : ofb) (iv : list Z) : ofb * res unit :=
  match blk (ofb_cipher o) with
  | Some n => if (length iv =? n)%nat then (mkOfb (ofb_cipher o) iv, Ok tt) else (o, Err InnerErr)
  | None => (mkOfb (ofb_cipher o) iv, Ok tt)
  end.

(** ofb.rs:97-119, [OFB::encrypt_inner]; returns (ij, dst, status). *)
Fixpoint ofb_inner (o : ofb) (fuel : nat) (data ij dst : list Z) : list Z * list Z * res unit :=
  match fuel with
  | O => (ij, dst, Panic)
  | S fuel' =>
      let n := bsz (ofb_cipher o) in
      if (n <=? length data)%nat then
        match enc (ofb_cipher o) ij with
        | Ok oj => ofb_inner o fuel' (skipn n data) oj (dst ++ xorl oj (firstn n data))
        | Err e => (ij, dst, Err e)
        | Panic => (ij, dst, Panic)
        end
      else (ij, dst, Ok tt)
  end.

(** ofb.rs:142-163, [OFB::encrypt]; 165-167, [OFB::decrypt] is the same. *)
Definition ofb_encrypt (o : ofb) (dst pt : list Z) : list Z * res nat :=
  let n := bsz (ofb_cipher o) in
  let remain := (length pt mod n)%nat in
  let cut := (length pt - remain)%nat in
  match ofb_inner o (S (length pt)) (firstn cut pt) (ofb_iv o) [] with
  | (ij, dst1, Ok _) =>
      match enc (ofb_cipher o) ij with
      | Ok oj =>
          let dst2 := dst1 ++ xorl (firstn remain oj) (skipn cut pt) in
          (dst2, Ok (length dst2))
      | Err e => (dst1, Err e)
      | Panic => (dst1, Panic)
      end
  | (_, dst1, Err e) => (dst1, Err e)
  | (_, dst1, Panic) => (dst1, Panic)
  end.

Definition ofb_decrypt := ofb_encrypt.

Definition ofb_stream_init (o : ofb) : sbuf := mkS [] [] (ofb_iv o).

(** ofb.rs:191-213 and 240-262, [write] of both OFB streams. *)
Definition ofb_write (o : ofb) (s : sbuf) (data : list Z) : sbuf * res unit :=
  match data with
  | [] => (s, Ok tt)
  | _ =>
      let sdata := s_data s ++ data in
      match ofb_inner o (S (length sdata)) sdata (s_ij s) (s_pond s) with
      | (ij, pond, Ok _) =>
          let remain := (length sdata mod bsz (ofb_cipher o))%nat in
          (mkS (skipn (length sdata - remain) sdata) pond ij, Ok tt)
      | (ij, pond, Err e) => (mkS sdata pond ij, Err e)
      | (ij, pond, Panic) => (mkS sdata pond ij, Panic)
      end
  end.

(** ofb.rs:215-235 and 264-284, [finish] of both OFB streams. *)
Definition ofb_finish (o : ofb) (s : sbuf) : sbuf * res unit :=
  match s_data s with
  | [] => (mkS [] (s_pond s) (ofb_iv o), Ok tt)
  | _ =>
      match enc (ofb_cipher o) (s_ij s) with
      | Ok oj => (mkS [] (s_pond s ++ xorl (s_data s) (firstn (length (s_data s)) oj)) (ofb_iv o), Ok tt)
      | Err e => (s, Err e)
      | Panic => (s, Panic)
      end
  end.

(** ** Counters: src/cipher_mode/counter.rs *)
Record counter := mkCounter { ctr_bits : nat; ctr_init : list Z; ctr_cur : option (list Z) }.

(** counter.rs:32-45, [DefaultCounter::new]. *)
Definition counter_new (init : list Z) (bits : nat) : res counter :=
  if ((bits + 7) / 8 <? length init)%nat then Err InvalidParameter
  else Ok (mkCounter bits init None).

(** counter.rs:63-69, the carry loop on the reversed vector. *)
Fixpoint inc_rev (r : list Z) (c : Z) : list Z :=
  match r with
  | [] => []
  | a :: r' =>
      let x := (a + c) mod 256 in
      let y := 256 <=? a + c in
      x :: inc_rev r' (if y then 1 else 0)
  end.

(** counter.rs:53-72, [DefaultCounter::next] (always [Some]). *)
Definition counter_next (c : counter) : counter * list Z :=
  let v :=
    match ctr_cur c with
    | None =>
        let len := ((ctr_bits c + 7) / 8)%nat in
        let z := (len - length (ctr_init c))%nat in
        repeat 0 z ++ firstn (len - z) (ctr_init c)
    | Some v => rev (inc_rev (rev v) 1)
    end in
  (mkCounter (ctr_bits c) (ctr_init c) (Some v), v).

(** counter.rs:49-51 [reset]; 21-29 [clone] also drops the current value. *)
Definition counter_reset (c : counter) : counter := mkCounter (ctr_bits c) (ctr_init c) None.

(** ** CTR: src/cipher_mode/ctr.rs.  The counter advances through a [Cell], so
    [encrypt(&self)] also returns the new object. *)
Record ctr := mkCtr { ctr_cipher : cipher; ctr_ctr : counter }.

(** ctr.rs:17-32, [CTR::new] and 34-42 [set_counter]. *)
Definition ctr_new (c : cipher) (k : counter) : res ctr :=
  if (ctr_bits k <? bsz c * 8)%nat then Err InnerErr else Ok (mkCtr c k).

Definition ctr_set_counter (o : ctr) (k : counter) : ctr * res unit :=
  if (ctr_bits k <? bsz (ctr_cipher o) * 8)%nat then (o, Err InnerErr)
  else (mkCtr (ctr_cipher o) k, Ok tt).

(** ctr.rs:58-86, [CTR::encrypt_inner]; line 64 takes the leading block_len
    bytes of the counter value (panicking if there are fewer). *)
Fixpoint ctr_inner (c : cipher) (fuel : nat) (k : counter) (data dst : list Z) : counter * list Z * res unit :=
  match fuel with
  | O => (k, dst, Panic)
  | S fuel' =>
      match data with
      | [] => (k, dst, Ok tt)
      | _ =>
          let n := bsz c in
          let '(k', v) := counter_next k in
          if (length v <? n)%nat then (k', dst, Panic)
          else match enc c (firstn n v) with
               | Ok oj =>
                   let len := Nat.min n (length data) in
                   ctr_inner c fuel' k' (skipn len data) (dst ++ xorl (firstn len data) oj)
               | Err e => (k', dst, Err e)
               | Panic => (k', dst, Panic)
               end
      end
  end.

(** ctr.rs:113-122, [CTR::encrypt]/[decrypt]. *)
Definition ctr_encrypt (o : ctr) (dst pt : list Z) : ctr * (list Z * res nat) :=
  match ctr_inner (ctr_cipher o) (S (length pt)) (ctr_ctr o) pt [] with
  | (k, dst1, Ok _) => (mkCtr (ctr_cipher o) k, (dst1, Ok (length dst1)))
  | (k, dst1, Err e) => (mkCtr (ctr_cipher o) k, (dst1, Err e))
  | (k, dst1, Panic) => (mkCtr (ctr_cipher o) k, (dst1, Panic))
  end.
Definition ctr_decrypt := ctr_encrypt.

(** ctr.rs:125-135 with counter.rs:21-29: a clone starts from the initial counter. *)
Definition ctr_clone (o : ctr) : ctr := mkCtr (ctr_cipher o) (counter_reset (ctr_ctr o)).

(** ctr.rs:137-141, stream object. *)
Record ctrs := mkCtrs { cs_ctr : ctr; cs_data : list Z; cs_pond : list Z }.

(** ctr.rs:88-96. *)
Definition ctr_stream (o : ctr) : ctrs :=
  mkCtrs (mkCtr (ctr_cipher o) (counter_reset (ctr_ctr o))) [] [].

(** ctr.rs:149-153. *)
Definition ctr_reset (s : ctrs) : ctrs := ctr_stream (cs_ctr s).

(** ctr.rs:199-218. *)
Definition ctr_write (s : ctrs) (data : list Z) : ctrs * res unit :=
  match data with
  | [] => (s, Ok tt)
  | _ =>
      let c := ctr_cipher (cs_ctr s) in
      let sdata := cs_data s ++ data in
      let remain := (length sdata mod bsz c)%nat in
      let cut := (length sdata - remain)%nat in
      match ctr_inner c (S (length sdata)) (ctr_ctr (cs_ctr s)) (firstn cut sdata) (cs_pond s) with
      | (k, pond, Ok _) => (mkCtrs (mkCtr c k) (skipn cut sdata) pond, Ok tt)
      | (k, pond, Err e) => (mkCtrs (mkCtr c k) sdata pond, Err e)
      | (k, pond, Panic) => (mkCtrs (mkCtr c k) sdata pond, Panic)
      end
  end.

(** ctr.rs:220-230. *)
Definition ctr_finish (s : ctrs) : ctrs * res unit :=
  let c := ctr_cipher (cs_ctr s) in
  match ctr_inner c (S (length (cs_data s))) (ctr_ctr (cs_ctr s)) (cs_data s) (cs_pond s) with
  | (k, pond, Ok _) => (mkCtrs (mkCtr c k) [] pond, Ok tt)
  | (k, pond, Err e) => (mkCtrs (mkCtr c k) (cs_data s) pond, Err e)
  | (k, pond, Panic) => (mkCtrs (mkCtr c k) (cs_data s) pond, Panic)
  end.

(** ** Clients of a stream (src/cipher_mode/pond.rs).

    A client calls [write] with successive chunks; after each successful write
    it may or may not draw off the pond (pond.rs:24-28, which empties it).
    Finally it calls [finish] and draws off; the pond is cleared when the last
    [Pond] is dropped (pond.rs:31-37). *)
Record stream_ops (S : Type) := mkOps {
  op_write : S -> list Z -> S * res unit;
  op_finish : S -> S * res unit;
  op_pond : S -> list Z;
  op_empty_pond : S -> S
}.
Arguments op_write {S}. Arguments op_finish {S}. Arguments op_pond {S}. Arguments op_empty_pond {S}.
Arguments mkOps {S}.

(** State and output collected so far, stopping at the first error. *)
Fixpoint run_writes {S} (ops : stream_ops S) (s : S) (out : list Z) (evs : list (list Z * bool))
  : S * list Z * res unit :=
  match evs with
  | [] => (s, out, Ok tt)
  | (chunk, draw) :: evs' =>
      match op_write ops s chunk with
      | (s', Ok _) =>
          if draw then run_writes ops (op_empty_pond ops s') (out ++ op_pond ops s') evs'
          else run_writes ops s' out evs'
      | (s', Err e) => (s', out, Err e)
      | (s', Panic) => (s', out, Panic)
      end
  end.

Definition run_stream {S} (ops : stream_ops S) (s : S) (evs : list (list Z * bool))
  : S * list Z * res unit :=
  match run_writes ops s [] evs with
  | (s1, out, Ok _) =>
      match op_finish ops s1 with
      | (s2, Ok _) => (op_empty_pond ops s2, out ++ op_pond ops s2, Ok tt)
      | (s2, Err e) => (s2, out, Err e)
      | (s2, Panic) => (s2, out, Panic)
      end
  | r => r
  end.

Definition drain (s : sbuf) : sbuf := mkS (s_data s) [] (s_ij s).
Definition ecb_enc_ops o := mkOps (ecb_enc_write o) (ecb_enc_finish o) s_pond drain.
Definition ecb_dec_ops o := mkOps (ecb_dec_write o) (ecb_dec_finish o) s_pond drain.
Definition cbc_enc_ops o := mkOps (cbc_enc_write o) (cbc_enc_finish o) s_pond drain.
Definition cbc_dec_ops o := mkOps (cbc_dec_write o) (cbc_dec_finish o) s_pond drain.
Definition cfb_enc_ops o := mkOps (cfb_enc_write o) (cfb_enc_finish o) s_pond drain.
Definition cfb_dec_ops o := mkOps (cfb_dec_write o) (cfb_dec_finish o) s_pond drain.
Definition ofb_ops o := mkOps (ofb_write o) (ofb_finish o) s_pond drain.
Definition ctr_ops := mkOps ctr_write ctr_finish cs_pond
                        (fun s => mkCtrs (cs_ctr s) (cs_data s) []).
