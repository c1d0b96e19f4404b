(** Model of src/hmac/hmac.rs and src/cmac/cmac.rs. *)
From Verif Require Import Base ModesModel HashModel.

(** ** HMAC *)
(** hmac.rs:13-20. *)
Record hmac (S : Type) := mkHmac { hm_df : S; hm_ki : list Z; hm_ko : list Z; hm_buf : list Z; hm_checked : bool }.
Arguments mkHmac {S}. Arguments hm_df {S}. Arguments hm_ki {S}. Arguments hm_ko {S}. Arguments hm_buf {S}. Arguments hm_checked {S}.

Section Hmac.
Context {S : Type}.
Variable D : digest S.
(** hmac.rs:10-11 *)
Definition HMAC_IPAD : Z := 0x36.
Definition HMAC_OPAD : Z := 0x5c.
(** hmac.rs:23-39, [generate_k0_io]: the digest state, [k0_i] and [k0_o]. *)
Definition generate_k0_io (key : list Z) (b : nat) (df : S) : S * list Z * list Z :=
  let '(df, key) :=
    if (length key <? b)%nat then (df, resize0 b key)
    else if (b <? length key)%nat then
      let '(df, dg) := d_checksum D (d_write D (d_reset D df) key) in (df, resize0 b dg)
    else (df, key) in
  (df, map (fun k => Z.lxor k HMAC_IPAD) key, map (fun k => Z.lxor k HMAC_OPAD) key).
(** hmac.rs:41-67. *)
Definition hmac_new (key : list Z) (df : S) : res (hmac S) :=
  match d_block_size D with
  | Some b =>
      if (b <? d_bits_len D / 8)%nat then Err NotSupportUsage
      else let '(df, ki, ko) := generate_k0_io key b df in Ok (mkHmac df ki ko [] false)
  | None => Err NotSupportUsage
  end.
(** [self.df.block_size().unwrap()]: the constructor has checked that it is [Some]. *)
Definition hm_b : nat := match d_block_size D with Some b => b | None => 0%nat end.
(** hmac.rs:105-116. *)
Definition hmac_write (s : hmac S) (data : list Z) : hmac S :=
  let '(ki, ko) := if hm_checked s then (firstn hm_b (hm_ki s), firstn hm_b (hm_ko s)) else (hm_ki s, hm_ko s) in
  mkHmac (hm_df s) (ki ++ data) ko (hm_buf s) false.
(** hmac.rs:118-135. *)
Definition hmac_checksum (s : hmac S) : hmac S * list Z :=
  if negb (hm_checked s) then
    let '(df, buf) := d_checksum D (d_write D (d_reset D (hm_df s)) (hm_ki s)) in
    let ko := hm_ko s ++ buf in
    let '(df, dg) := d_checksum D (d_write D (d_reset D df) ko) in
    (mkHmac df (hm_ki s) ko buf true, dg)
  else
    let '(df, dg) := d_checksum D (hm_df s) in
    (mkHmac df (hm_ki s) (hm_ko s) (hm_buf s) (hm_checked s), dg).
(** hmac.rs:137-143. *)
Definition hmac_reset (s : hmac S) : hmac S :=
  mkHmac (d_reset D (hm_df s)) (firstn hm_b (hm_ki s)) (firstn hm_b (hm_ko s)) [] false.
(** hmac.rs:70-73. *)
Definition hmac_set_key (s : hmac S) (key : list Z) : hmac S :=
  let '(df, ki, ko) := generate_k0_io key hm_b (hm_df s) in
  hmac_reset (mkHmac df ki ko (hm_buf s) (hm_checked s)).
(** hmac.rs:96-103: HMAC as a [Digest]. *)
Definition HMAC : digest (hmac S) := mkDigest (d_block_size D) (d_bits_len D) hmac_write hmac_checksum hmac_reset.
End Hmac.

(** ** CMAC *)
(** cmac.rs:10-17; the cipher is a parameter. *)
Record cmac := mkCmac { cm_k1 : list Z; cm_k2 : list Z; cm_data : list Z; cm_nonce : list Z; cm_check : bool }.

(** cmac.rs:20-31, [shl_one]: [cur] runs along the bytes.  An empty [l] panics ([first().unwrap()]); the
    block sizes accepted by [new] exclude it, and the model returns [[]]. *)
Fixpoint shl_go (cur : Z) (l : list Z) : list Z :=
  match l with
  | [] => [cur]
  | a :: l => Z.lor cur (Z.shiftr a 7) :: shl_go ((Z.shiftl a 1) mod 256) l
  end.
Definition shl_one (l : list Z) : list Z :=
  match l with [] => [] | a :: l => shl_go ((Z.shiftl a 1) mod 256) l end.
(** [a.iter_mut().zip(b).for_each(|(a,&b)| *a ^= b)] *)
Definition xor_into (a b : list Z) : list Z := xorl a b ++ skipn (length b) a.
(** cmac.rs:33-55. *)
Definition cm_dbl (rb : list Z) (l : list Z) : list Z :=
  let k := shl_one l in if 0 <? Z.shiftr (hd 0 l) 7 then xor_into k rb else k.
Definition subkey_gen (c : cipher) (b : nat) (rb : list Z) : res (list Z * list Z) :=
  rbind (enc c (repeat 0 b)) (fun l => let k1 := cm_dbl rb l in Ok (k1, cm_dbl rb k1)).
(** cmac.rs:57-78 and const_tables.rs:20-35. *)
Definition rb_table : list (Z * Z) :=
  [(4, 0x8d); (6, 0x2d); (8, 0x1b); (12, 0x641); (16, 0x87); (20, 0x2d); (24, 0x87); (28, 0x309); (32, 0x425);
   (40, 0x1b); (48, 0x100d); (56, 0x851); (64, 0x125); (96, 0xa0011); (128, 0x80043); (256, 0x86001)].
Definition block_size_to_rb (n : nat) : option Z :=
  match find (fun e => fst e =? Z.of_nat n) rb_table with Some e => Some (snd e) | None => None end.
(** cmac.rs:79-84. *)
Definition cmac_is_support (c : cipher) : bool :=
  match blk c with Some b => match block_size_to_rb b with Some _ => true | None => false end | None => false end.
(** cmac.rs:90-95: the four little-endian bytes of [rb] go to the end of the buffer, last byte first. *)
Definition rb_buf (b : nat) (x : Z) : list Z :=
  rev (put (repeat 0 b) 0 (firstn b (le_bytes 4 x))).
(** cmac.rs:87-112. *)
Definition cmac_new (c : cipher) : res cmac :=
  match blk c with
  | Some b =>
      match block_size_to_rb b with
      | Some x => rbind (subkey_gen c b (rb_buf b x)) (fun ks => Ok (mkCmac (fst ks) (snd ks) [] (repeat 0 b) false))
      | None => Err InvalidParameter
      end
  | None => Err InvalidParameter
  end.
Section Cmac.
Variables (c : cipher) (b : nat).
(** [self.cipher.encrypt(..).unwrap()] *)
Definition enc_unwrap (x : list Z) : res (list Z) := match enc c x with Ok y => Ok y | _ => Panic end.
(** cmac.rs:148-155: the [while] loop, with the data length as fuel.  [self.data] has block length here, so the
    zip replaces all of it. *)
Fixpoint cm_blocks (fuel : nat) (nonce cur data : list Z) : res (list Z * list Z * list Z) :=
  match fuel with
  | O => Ok (nonce, cur, data)
  | S fuel =>
      if (b <? length data)%nat then
        let cur := xorl nonce (firstn b data) in
        rbind (enc_unwrap cur) (fun nonce => cm_blocks fuel nonce cur (skipn b data))
      else Ok (nonce, cur, data)
  end.
(** cmac.rs:124-162. *)
Definition cmac_write (s : cmac) (data : list Z) : res cmac :=
  let nonce := if cm_check s then repeat 0 b else cm_nonce s in
  let '(cur, data) :=
    if (length data + length (cm_data s) <? b)%nat then (cm_data s ++ data, [])
    else let len := (b - length (cm_data s))%nat in (cm_data s ++ firstn len data, skipn len data) in
  rbind (if (b <? length cur + length data)%nat then
           let cur := xor_into cur nonce in
           rbind (enc_unwrap cur) (fun nonce => cm_blocks (length data) nonce cur data)
         else Ok (nonce, cur, data))
        (fun '(nonce, cur, data) =>
           Ok (mkCmac (cm_k1 s) (cm_k2 s) (match data with [] => cur | _ => data end) nonce false)).
(** cmac.rs:164-188. *)
Definition cmac_checksum (s : cmac) : res (cmac * list Z) :=
  if negb (cm_check s) then
    let last :=
      if (length (cm_data s) =? b)%nat then xorl (xorl (cm_data s) (cm_k1 s)) (cm_nonce s)
      else xorl (xorl (resize0 b (cm_data s ++ [0x80])) (cm_k2 s)) (cm_nonce s) in
    rbind (enc_unwrap last) (fun nonce => Ok (mkCmac (cm_k1 s) (cm_k2 s) [] nonce true, nonce))
  else Ok (s, cm_nonce s).
(** cmac.rs:190-196. *)
Definition cmac_reset (s : cmac) : cmac := mkCmac (cm_k1 s) (cm_k2 s) [] (repeat 0 b) false.
End Cmac.
