(** Model of src/raw.rs: raw key-value pairs and proprietary keys, and of the
    error type of src/serialize.rs.  src/v0/bitcoin/raw.rs is the same code with another error
    type (V0Error.v); the definitions cite its lines second. *)
From Verif Require Import Base Consensus.
Local Open Scope N_scope.

(** src/serialize.rs:380-435 [serialize::Error].  Payload error values of external
    crates are dropped. *)
Inductive serr : Type :=
| SNotEnoughData
| SInvalidProprietaryKey
| SNoMorePairs
| SNonStandardSighashType (n : N)
| SInvalidHash
| SConsensusEncoding (e : cerr)
| SInvalidPublicKey
| SInvalidSecp256k1PublicKey
| SInvalidXOnlyPublicKey
| SInvalidEcdsaSignature
| SInvalidTaprootSignature
| SInvalidControlBlock
| SInvalidLeafVersion
| STaproot
| STapTree
| SPartialDataConsumption
| SLockTime
| SUnsupportedVersion (n : N)
| SInvalidScanKey (got expected : N)
| SInvalidEcdhShare (got expected : N)
| SInvalidDleqProof (got expected : N).

(** src/raw.rs:78-84, src/v0/bitcoin/raw.rs:24-31 [Key]. *)
Record key := Key { k_type : byte; k_data : bytes }.
(** src/raw.rs:31-39, src/v0/bitcoin/raw.rs:37-44 [Pair]. *)
Record pair := Pair { p_key : key; p_value : bytes }.

(** Sort key for the derived [Ord] of [Key] (src/raw.rs:76). *)
Definition sk_key (k : key) : list N := b2n (k_type k) :: bkey (k_data k).

(** src/raw.rs:115-130, src/v0/bitcoin/raw.rs:103-118 [Key::serialize]. *)
Definition ser_key (k : key) : bytes :=
  enc_varint (blen (k_data k) + 1) ++ k_type k :: k_data k.

(** src/raw.rs:86-113, src/v0/bitcoin/raw.rs:74-101 [Key::decode].  The byte by byte loop of lines 106-109 is
    [c_take]. *)
Definition dec_key : reader serr key :=
  fun bs =>
    '(byte_size, r1) <- map_err SConsensusEncoding (dec_varint bs) ;;
    if byte_size =? 0 then Err SNoMorePairs
    else
      let key_byte_size := byte_size - 1 in
      if MAX_VEC_SIZE <? key_byte_size
      then Err (SConsensusEncoding COversizedVectorAllocation)
      else
        match r1 with
        | [] => Err (SConsensusEncoding CIo)
        | t :: r2 =>
            '(d, r3) <- map_err SConsensusEncoding (c_take key_byte_size r2) ;;
            Ok (Key t d, r3)
        end.

(** src/raw.rs:53-61, src/v0/bitcoin/raw.rs:120-128 [Pair::serialize]. *)
Definition ser_pair (p : pair) : bytes := ser_key (p_key p) ++ enc_bytes (p_value p).

(** src/raw.rs:43 [Decodable::consensus_decode] at [Vec<u8>]: rust-bitcoin's default
    implementation reads from [r.take(MAX_VEC_SIZE)], so the length prefix and the value
    together have at most [MAX_VEC_SIZE] bytes, and a longer value ends in an I/O error. *)
Definition dec_value : reader cerr bytes :=
  fun bs =>
    '(n, r) <- dec_varint bs ;;
    if MAX_VEC_SIZE <? blen (enc_varint n) + n then Err CIo else c_take n r.

(** src/raw.rs:41-45, src/v0/bitcoin/raw.rs:137-141 [Pair::decode] (also [Deserialize for Pair], 63-68, which
    ignores what follows the pair). *)
Definition dec_pair : reader serr pair :=
  fun bs =>
    '(k, r1) <- dec_key bs ;;
    '(v, r2) <- map_err SConsensusEncoding (dec_value r1) ;;
    Ok (Pair k v, r2).

(** src/raw.rs:139-152, src/v0/bitcoin/raw.rs:54-66 [ProprietaryKey] with the default subtype [u8]. *)
Record propkey := PropKey { pk_prefix : bytes; pk_subtype : byte; pk_key : bytes }.

(** Sort key for the derived [Ord] (src/raw.rs:137): prefix (a slice: a proper
    prefix is smaller), then subtype, then key. *)
Definition sk_propkey (k : propkey) : list N :=
  map (fun b => b2n b + 1) (pk_prefix k) ++ 0 :: b2n (pk_subtype k) :: bkey (pk_key k).

(** src/raw.rs:182-193, src/v0/bitcoin/raw.rs:143-154 [Encodable for ProprietaryKey]. *)
Definition enc_propkey (k : propkey) : bytes :=
  enc_bytes (pk_prefix k) ++ pk_subtype k :: pk_key k.

(** src/raw.rs:195-210, src/v0/bitcoin/raw.rs:156-171 [Decodable for ProprietaryKey]; at most 1024 bytes of key are read. *)
Definition PROP_KEY_LIMIT : N := 1024.
Definition dec_propkey : reader cerr propkey :=
  fun bs =>
    '(prefix, r1) <- dec_bytes bs ;;
    match r1 with
    | [] => Err CIo
    | t :: r2 =>
        let n := N.min PROP_KEY_LIMIT (blen r2) in
        '(k, r3) <- c_take n r2 ;;
        Ok (PropKey prefix t k, r3)
    end.

(** src/raw.rs:159, src/v0/bitcoin/raw.rs:178 [ProprietaryKey::to_key]. *)
Definition propkey_to_key (k : propkey) : key := Key xfc (enc_propkey k).

(** src/raw.rs:173-179, src/v0/bitcoin/raw.rs:191-197 [TryFrom<Key> for ProprietaryKey]. *)
Definition propkey_try_from (k : key) : res serr propkey :=
  if negb (beq (k_type k) xfc) then Err SInvalidProprietaryKey
  else map_err SConsensusEncoding (c_deserialize dec_propkey (k_data k)).

(** ** Size limits *)

(** What the format can express: key data within [MAX_VEC_SIZE], values within [MAX_VALUE]. *)
Definition wf_key (k : key) : Prop := blen (k_data k) <= MAX_VEC_SIZE.
Definition wf_pair (p : pair) : Prop := wf_key (p_key p) /\ wf_value (p_value p).
Definition wf_propkey (k : propkey) : Prop :=
  blen (enc_propkey k) <= MAX_VEC_SIZE /\ blen (pk_key k) <= PROP_KEY_LIMIT.

(** ** Maps of pairs *)

(** src/v2/map/mod.rs:36-43 [Map::serialize_map], as a function of the pairs. *)
Definition ser_pairs (l : list pair) : bytes := enc_all ser_pair l ++ [x00].

(** The decoding loop shared by src/v2/map/global.rs:342-348,
    src/v2/map/input.rs:401-407, src/v2/map/output.rs:113-119: decode pairs and
    hand them to the insertion function until [NoMorePairs].  The fuel
    [S (length bs)] never runs out since every pair takes at least one byte
    (proved in [RawFacts]). *)
Fixpoint dec_map {S E} (ins : pair -> S -> res E S) (deser_pair : serr -> E)
    (fuel : nat) (acc : S) (bs : bytes) : res E (S * bytes) :=
  match fuel with
  | O => Err (deser_pair (SConsensusEncoding CIo))
  | Datatypes.S f =>
      match dec_pair bs with
      | Ok (p, r) =>
          acc' <- ins p acc ;;
          dec_map ins deser_pair f acc' r
      | Err SNoMorePairs =>
          (* the terminating zero byte has been consumed *)
          Ok (acc, tl bs)
      | Err e => Err (deser_pair e)
      | Panic => Panic
      end
  end.

(** [for pair in pairs { insert(pair)? }]. *)
Fixpoint ins_all {S E} (ins : pair -> S -> res E S) (l : list pair) (acc : S) : res E S :=
  match l with
  | [] => Ok acc
  | p :: l' => acc' <- ins p acc ;; ins_all ins l' acc'
  end.
