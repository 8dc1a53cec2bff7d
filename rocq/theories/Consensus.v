(** The consensus encoding of rust-bitcoin 0.32 as far as this crate uses it:
    compact sizes, byte vectors, [TxOut], [TxIn], [Witness], [Transaction],
    transaction weight.  rust-bitcoin is an external crate; this file is the
    model of the functions the crate calls at the places cited below. *)
From Verif Require Import Base.
Local Open Scope N_scope.

(** [bitcoin::consensus::encode::Error], raised through src/serialize.rs:47-63
    and src/raw.rs:86-113. The payloads of the variants are dropped, except the
    one distinguishing the numbers. *)
Inductive cerr : Type :=
| CIo                          (* unexpected end of input *)
| COversizedVectorAllocation
| CNonMinimalVarInt
| CParseFailed
| CUnsupportedSegwitFlag (f : N).

(** [encode::MAX_VEC_SIZE], used at src/raw.rs:98. *)
Definition MAX_VEC_SIZE : N := 4000000.
(** Longest value [Vec<u8>::consensus_decode] reads (src/raw.rs:43, see [Raw.dec_value]):
    the value and its length prefix, here of five bytes, take at most [MAX_VEC_SIZE] bytes. *)
Definition MAX_VALUE : N := 3999995.

(** ** Integers *)

(** A fixed number of bytes ([read_exact]); used by src/raw.rs:106-110. *)
Definition c_take (n : N) : reader cerr bytes :=
  fun bs => ok_or (take n bs) CIo.

(** [u8::consensus_decode] (src/raw.rs:104). *)
Definition dec_u8 : reader cerr N :=
  fun bs => match bs with [] => Err CIo | b :: r => Ok (b2n b, r) end.

(** Little endian [u16], [u32], [u64] decoding (src/serialize.rs:161-170). *)
Definition dec_le (k : N) : reader cerr N :=
  fun bs => '(a, r) <- c_take k bs ;; Ok (le_dec a, r).

Definition enc_u32 (n : N) : bytes := le_enc 4 n.
Definition enc_u64 (n : N) : bytes := le_enc 8 n.
Definition dec_u32 : reader cerr N := dec_le 4.
Definition dec_u64 : reader cerr N := dec_le 8.

(** ** Compact size integers ([VarInt], src/raw.rs:86-130, src/serialize.rs:47-63) *)

Definition enc_varint (n : N) : bytes :=
  if n <? 253 then [n2b n]
  else if n <? 65536 then xfd :: le_enc 2 n
  else if n <? 4294967296 then xfe :: le_enc 4 n
  else xff :: le_enc 8 n.

Definition dec_varint : reader cerr N :=
  fun bs =>
    match bs with
    | [] => Err CIo
    | b :: r =>
        let n := b2n b in
        if n =? 255 then
          '(x, r') <- dec_le 8 r ;;
          if x <? 4294967296 then Err CNonMinimalVarInt else Ok (x, r')
        else if n =? 254 then
          '(x, r') <- dec_le 4 r ;;
          if x <? 65536 then Err CNonMinimalVarInt else Ok (x, r')
        else if n =? 253 then
          '(x, r') <- dec_le 2 r ;;
          if x <? 253 then Err CNonMinimalVarInt else Ok (x, r')
        else Ok (n, r)
    end.

(** [VarInt::size]. *)
Definition varint_size (n : N) : N := blen (enc_varint n).

(** ** Byte vectors, scripts (src/serialize.rs:65-71, src/raw.rs:41-61) *)

Definition enc_bytes (b : bytes) : bytes := enc_varint (blen b) ++ b.
Definition dec_bytes : reader cerr bytes :=
  fun bs => '(n, r) <- dec_varint bs ;; c_take n r.

(** Vector of encodables: count followed by the items. *)
Definition enc_vec {A} (enc : A -> bytes) (l : list A) : bytes :=
  enc_varint (blen l) ++ enc_all enc l.

(** [for _ in 0..n { v.push(decode(r)?) }].  The fuel [S (length bs)] never runs
    out because every item takes at least one byte (proved in [ConsensusFacts]);
    it only avoids turning a hostile count into a unary number. *)
Fixpoint dec_count {A} (dec : reader cerr A) (fuel : nat) (n : N) (bs : bytes)
  : res cerr (list A * bytes) :=
  if n =? 0 then Ok ([], bs)
  else
    match fuel with
    | O => Err CIo
    | S f =>
        '(a, r) <- dec bs ;;
        '(l, r') <- dec_count dec f (n - 1) r ;;
        Ok (a :: l, r')
    end.

Definition dec_vec {A} (dec : reader cerr A) : reader cerr (list A) :=
  fun bs => '(n, r) <- dec_varint bs ;; dec_count dec (S (length r)) n r.

(** [encode::deserialize]: decode and insist on full consumption
    (src/serialize.rs:47-63). *)
Definition c_deserialize {A} (dec : reader cerr A) (bs : bytes) : res cerr A :=
  '(a, r) <- dec bs ;;
  match r with [] => Ok a | _ :: _ => Err CParseFailed end.

(** ** Transactions *)

(** [bitcoin::TxOut]. *)
Record txout := TxOut {
  to_value : N;              (* Amount, u64 satoshi *)
  to_script : bytes          (* ScriptBuf *)
}.

(** [bitcoin::Witness]: the stack of elements. *)
Definition witness := list bytes.

(** [bitcoin::TxIn] with its [OutPoint] flattened. *)
Record txin := TxIn {
  ti_txid : bytes;           (* 32 bytes *)
  ti_vout : N;               (* u32 *)
  ti_script_sig : bytes;
  ti_sequence : N;           (* u32 *)
  ti_witness : witness
}.

(** [bitcoin::Transaction]; the i32 version is kept as its u32 bit pattern. *)
Record tx := Tx {
  tx_version : N;
  tx_lock_time : N;
  tx_input : list txin;
  tx_output : list txout
}.

Definition enc_txout (o : txout) : bytes := enc_u64 (to_value o) ++ enc_bytes (to_script o).
Definition dec_txout : reader cerr txout :=
  fun bs =>
    '(v, r) <- dec_u64 bs ;;
    '(s, r') <- dec_bytes r ;;
    Ok (TxOut v s, r').

(** The witness is not part of the input's own encoding. *)
Definition enc_txin (i : txin) : bytes :=
  ti_txid i ++ enc_u32 (ti_vout i) ++ enc_bytes (ti_script_sig i) ++ enc_u32 (ti_sequence i).
Definition dec_txin : reader cerr txin :=
  fun bs =>
    '(t, r1) <- c_take 32 bs ;;
    '(v, r2) <- dec_u32 r1 ;;
    '(s, r3) <- dec_bytes r2 ;;
    '(q, r4) <- dec_u32 r3 ;;
    Ok (TxIn t v s q [], r4).

(** [Witness] encoding: number of elements, then the elements. *)
Definition enc_witness (w : witness) : bytes := enc_vec enc_bytes w.

(** Decoding bounds the content (length prefixes included) by [MAX_VEC_SIZE]. *)
Fixpoint dec_wit_items (n : nat) (used : N) (bs : bytes) : res cerr (witness * bytes) :=
  match n with
  | O => Ok ([], bs)
  | S n' =>
      '(s, r) <- dec_varint bs ;;
      let used' := used + s + varint_size s in
      if MAX_VEC_SIZE <? used' then Err COversizedVectorAllocation
      else
        '(e, r') <- c_take s r ;;
        '(l, r'') <- dec_wit_items n' used' r' ;;
        Ok (e :: l, r'')
  end.
Definition dec_witness : reader cerr witness :=
  fun bs =>
    '(n, r) <- dec_varint bs ;;
    if MAX_VEC_SIZE <? n then Err COversizedVectorAllocation
    else dec_wit_items (N.to_nat n) 0 r.

(** [Transaction::uses_segwit_serialization]. *)
Definition tx_segwit (t : tx) : bool :=
  existsb (fun i => negb (match ti_witness i with [] => true | _ => false end)) (tx_input t)
  || match tx_input t with [] => true | _ => false end.

Definition enc_tx_nowit (t : tx) : bytes :=
  enc_u32 (tx_version t) ++ enc_vec enc_txin (tx_input t) ++ enc_vec enc_txout (tx_output t)
  ++ enc_u32 (tx_lock_time t).

Definition enc_tx (t : tx) : bytes :=
  if tx_segwit t then
    enc_u32 (tx_version t) ++ [x00; x01]
    ++ enc_vec enc_txin (tx_input t) ++ enc_vec enc_txout (tx_output t)
    ++ enc_all (fun i => enc_witness (ti_witness i)) (tx_input t)
    ++ enc_u32 (tx_lock_time t)
  else enc_tx_nowit t.

(** Setting the witness of an input. *)
Definition with_witness (i : txin) (w : witness) : txin :=
  TxIn (ti_txid i) (ti_vout i) (ti_script_sig i) (ti_sequence i) w.

Fixpoint dec_witnesses (l : list txin) (bs : bytes) : res cerr (list txin * bytes) :=
  match l with
  | [] => Ok ([], bs)
  | i :: l' =>
      '(w, r) <- dec_witness bs ;;
      '(l'', r') <- dec_witnesses l' r ;;
      Ok (with_witness i w :: l'', r')
  end.

Definition all_witness_empty (l : list txin) : bool :=
  forallb (fun i => match ti_witness i with [] => true | _ => false end) l.

Definition dec_tx : reader cerr tx :=
  fun bs =>
    '(v, r1) <- dec_u32 bs ;;
    '(ins, r2) <- dec_vec dec_txin r1 ;;
    match ins with
    | [] =>
        '(flag, r3) <- dec_u8 r2 ;;
        if flag =? 1 then
          '(ins', r4) <- dec_vec dec_txin r3 ;;
          '(outs, r5) <- dec_vec dec_txout r4 ;;
          '(ins'', r6) <- dec_witnesses ins' r5 ;;
          if negb (match ins'' with [] => true | _ => false end) && all_witness_empty ins''
          then Err CParseFailed
          else
            '(lt, r7) <- dec_u32 r6 ;;
            Ok (Tx v lt ins'' outs, r7)
        else Err (CUnsupportedSegwitFlag flag)
    | _ :: _ =>
        '(outs, r3) <- dec_vec dec_txout r2 ;;
        '(lt, r4) <- dec_u32 r3 ;;
        Ok (Tx v lt ins outs, r4)
    end.

(** [Transaction::base_size], [total_size], [weight] (src/v2/extract.rs:96). *)
Definition tx_base_size (t : tx) : N := blen (enc_tx_nowit t).
Definition tx_total_size (t : tx) : N := blen (enc_tx t).
Definition tx_weight (t : tx) : N := 3 * tx_base_size t + tx_total_size t.

(** ** Well-typedness of Rust values *)

Definition wf_u8 (n : N) : Prop := n < U8.
Definition wf_u32 (n : N) : Prop := n < U32.
Definition wf_u64 (n : N) : Prop := n < U64.
(** Every Rust vector is shorter than 2^64 bytes. *)
Definition wf_vec {A} (l : list A) : Prop := blen l < U64.
(** A value that a pair can carry (src/raw.rs:43). *)
Definition wf_value (b : bytes) : Prop := blen b <= MAX_VALUE.

Definition wf_txout (o : txout) : Prop := wf_u64 (to_value o) /\ wf_vec (to_script o).

(** Sizes of the elements of a witness with their length prefixes. *)
Fixpoint wit_size (w : witness) : N :=
  match w with [] => 0 | e :: w' => blen e + varint_size (blen e) + wit_size w' end.
Definition wf_witness (w : witness) : Prop := wit_size w <= MAX_VEC_SIZE.

Definition wf_txin (i : txin) : Prop :=
  length (ti_txid i) = 32%nat /\ wf_u32 (ti_vout i) /\ wf_vec (ti_script_sig i)
  /\ wf_u32 (ti_sequence i) /\ wf_witness (ti_witness i).

Definition wf_tx (t : tx) : Prop :=
  wf_u32 (tx_version t) /\ wf_u32 (tx_lock_time t)
  /\ wf_vec (tx_input t) /\ Forall wf_txin (tx_input t)
  /\ wf_vec (tx_output t) /\ Forall wf_txout (tx_output t).
