(** Independent specification of padding and the block-cipher modes
    (NIST SP 800-38A), over an abstract block permutation. *)
From Verif Require Import Base ModesModel.

(** [c] is a block cipher with block length [n] computing [E] and its inverse
    [D]: it accepts exactly [n]-byte blocks and [E], [D] are mutually inverse
    permutations of the [n]-byte strings. *)
Record GoodCipher (c : cipher) (n : nat) (E D : list Z -> list Z) : Prop := {
  gc_blk : blk c = Some n;
  gc_pos : (0 < n)%nat;
  gc_enc : forall b, length b = n -> enc c b = Ok (E b);
  gc_dec : forall b, length b = n -> dec c b = Ok (D b);
  gc_enc_bad : forall b, length b <> n -> enc c b = Err InvalidParameter;
  gc_dec_bad : forall b, length b <> n -> dec c b = Err InvalidParameter;
  gc_E : forall b, length b = n -> bytes b -> length (E b) = n /\ bytes (E b);
  gc_D : forall b, length b = n -> bytes b -> length (D b) = n /\ bytes (D b);
  gc_DE : forall b, length b = n -> bytes b -> D (E b) = b;
  gc_ED : forall b, length b = n -> bytes b -> E (D b) = b
}.

(** The "1 then zeros" padding as this library pads: a 0x80 byte and then
    between 1 and [n] zero bytes up to the next multiple of [n]. *)
Definition pad10 (n : nat) (m : list Z) : list Z :=
  m ++ 128 :: repeat 0 (n - (length m + 1) mod n).

(** ECB (SP 800-38A, 6.1). *)
Definition ECB (E : list Z -> list Z) (n : nat) (m : list Z) : list Z :=
  concat (map E (chunks n m)).

(** CBC (6.2): C_1 = E(P_1 xor IV), C_j = E(P_j xor C_{j-1}). *)
Fixpoint CBCb (E : list Z -> list Z) (iv : list Z) (ps : list (list Z)) : list (list Z) :=
  match ps with
  | [] => []
  | p :: ps' => let c := E (xorl p iv) in c :: CBCb E c ps'
  end.
Definition CBC (E : list Z -> list Z) (n : nat) (iv m : list Z) : list Z :=
  concat (CBCb E iv (chunks n m)).

(** P_1 = D(C_1) xor IV, P_j = D(C_j) xor C_{j-1}. *)
Fixpoint CBCb_inv (D : list Z -> list Z) (iv : list Z) (cs : list (list Z)) : list (list Z) :=
  match cs with
  | [] => []
  | c :: cs' => xorl (D c) iv :: CBCb_inv D c cs'
  end.
Definition CBC_inv (D : list Z -> list Z) (n : nat) (iv m : list Z) : list Z :=
  concat (CBCb_inv D iv (chunks n m)).

(** CFB (6.3) with [s]-byte segments:
    O_j = E(I_j), C_j = P_j xor MSB_s(O_j), I_{j+1} = LSB_{b-s}(I_j) | C_j. *)
Fixpoint CFBb (E : list Z -> list Z) (s : nat) (i : list Z) (ps : list (list Z)) : list (list Z) :=
  match ps with
  | [] => []
  | p :: ps' => let c := xorl p (firstn s (E i)) in c :: CFBb E s (skipn s i ++ c) ps'
  end.
Definition CFB (E : list Z -> list Z) (s : nat) (iv m : list Z) : list Z :=
  concat (CFBb E s iv (chunks s m)).

(** OFB (6.4): O_j = E^j(IV), C = P xor O_1 | O_2 | ... (last one truncated). *)
Definition OFB (E : list Z -> list Z) (n : nat) (iv m : list Z) : list Z :=
  xorl m (concat (map (fun j => Nat.iter (S j) E iv) (seq 0 (nblocks n (length m))))).

(** CTR (6.5): C = P xor E(T_k) | E(T_{k+1}) | ... *)
Definition CTR (E : list Z -> list Z) (n : nat) (T : nat -> list Z) (k : nat) (m : list Z) : list Z :=
  xorl m (concat (map (fun j => E (T (k + j)%nat)) (seq 0 (nblocks n (length m))))).

(** The [j]-th counter block when the counter is an [L]-byte big-endian integer
    starting at [v] of which the leading [n] bytes are used. *)
Definition counter_block (n L : nat) (v : Z) (j : nat) : list Z :=
  firstn n (be_bytes L (v + Z.of_nat j)).

(** The last [k] bytes: the CBC chaining value after [iv || c_1 || ... || c_j]. *)
Definition lastn (k : nat) (l : list Z) : list Z := skipn (length l - k) l.

(** Histories of a stream object: what a client can do to it, in any order. *)
Inductive op := Write (d : list Z) | Draw | Finish | Reset.
Definition exec1 {S} (ops : stream_ops S) (rst : S -> S) (s : S) (o : op) : S :=
  match o with
  | Write d => fst (op_write ops s d)
  | Draw => op_empty_pond ops s
  | Finish => fst (op_finish ops s)
  | Reset => rst s
  end.
Definition exec {S} (ops : stream_ops S) (rst : S -> S) (s : S) (h : list op) : S :=
  fold_left (exec1 ops rst) h s.


(** A client encrypting several messages in turn with one CTR object. *)
Definition ctr_calls (o : ctr) (ms : list (list Z)) : ctr :=
  fold_left (fun o m => fst (ctr_encrypt o [] m)) ms o.
