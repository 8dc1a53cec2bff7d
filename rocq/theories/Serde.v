(** Model of the serde layer: src/serde_utils.rs, the derived implementations of
    [Serialize] and [Deserialize] of all types of the crate, and the implementation for
    [DleqProof] in src/v2/dleq.rs.

    A format is a faithful carrier of serde's data model: the deserializer is given the tree
    that the serializer produced.  [Option] and newtypes are transparent, as in JSON: [None]
    is [SNull].  Errors of serde carry text only; a failed deserialization is [None]. *)
From Coq Require Import String.
From Verif Require Import Base OMap Consensus Ext Raw TapTree Serialize SighashType V2Global V2Input V2Output V2Psbt V2Roles
  V0Input V0Output V0Psbt.
Local Open Scope N_scope.

(** The data model of serde, as far as the implementations of this crate use it
    (src/serde_utils.rs:11-296). *)
Inductive sval : Type :=
| SNull
| SBool (b : bool)
| SNum (n : N)
| SStr (s : bytes)
| SBytes (b : bytes)
| SSeq (l : list sval)
| SMap (l : list (sval * sval)).

(** What the code asks of a format: [is_human_readable] (src/serde_utils.rs:39, 81, ...), and
    whether a deserializer hands out strings that live in its input, as [&'de str] needs
    (src/serde_utils.rs:74-75).  [serde_json::from_str] does, [from_reader] and [from_value]
    do not. *)
Record fmt := Fmt { f_hr : bool; f_lends : bool }.

(** The implementations of [Serialize] and [Deserialize] for one type
    (called from src/serde_utils.rs). *)
Record codec (A : Type) := Codec { c_ser : fmt -> A -> sval; c_de : fmt -> sval -> option A }.
Arguments Codec {A}.
Arguments c_ser {A}.
Arguments c_de {A}.

(** The operator [?] of Rust on options (src/serde_utils.rs:74). *)
Notation "x <~ a ;; b" := (match a with Some x => b | None => None end)
  (at level 61, a at next level, right associativity).

(** Implementations of serde in rust-bitcoin and rust-secp256k1 that the derived
    implementations call, by type (src/v2/map/*.rs, src/v0/bitcoin/map/*.rs). *)
Class SerdeExt := {
  xc_tx_version : codec N;          (* transaction::Version, src/v2/map/global.rs:47 *)
  xc_lock_time : codec N;           (* absolute::LockTime, src/v2/map/global.rs:50 *)
  xc_xpub : codec xpub;             (* Xpub, src/v2/map/global.rs:62 *)
  xc_fingerprint : codec bytes;     (* Fingerprint, the first of a KeySource *)
  xc_path : codec (list N);         (* DerivationPath, the second of a KeySource *)
  xc_cpk : codec bytes;             (* CompressedPublicKey, src/v2/map/global.rs:67 *)
  xc_txid : codec bytes;            (* Txid, src/v2/map/input.rs:51 *)
  xc_sequence : codec N;            (* Sequence, src/v2/map/input.rs:59 *)
  xc_time : codec N;                (* absolute::Time, src/v2/map/input.rs:62 *)
  xc_height : codec N;              (* absolute::Height, src/v2/map/input.rs:65 *)
  xc_tx : codec tx;                 (* Transaction, src/v2/map/input.rs:70 *)
  xc_txout : codec txout;           (* TxOut, src/v2/map/input.rs:74 *)
  xc_pubkey : codec pubkey;         (* PublicKey, src/v2/map/input.rs:77 *)
  xc_esig : codec esig;             (* ecdsa::Signature, src/v2/map/input.rs:77 *)
  xc_script : codec bytes;          (* ScriptBuf, src/v2/map/input.rs:82 *)
  xc_secp : codec bytes;            (* secp256k1::PublicKey, src/v2/map/input.rs:88 *)
  xc_witness : codec witness;       (* Witness, src/v2/map/input.rs:94 *)
  xc_ripemd160 : codec bytes;       (* ripemd160::Hash, src/v2/map/input.rs:98 *)
  xc_sha256 : codec bytes;          (* sha256::Hash, src/v2/map/input.rs:101 *)
  xc_hash160 : codec bytes;         (* hash160::Hash, src/v2/map/input.rs:104 *)
  xc_sha256d : codec bytes;         (* sha256d::Hash, src/v2/map/input.rs:107 *)
  xc_tsig : codec tsig;             (* taproot::Signature, src/v2/map/input.rs:109 *)
  xc_xonly : codec bytes;           (* XOnlyPublicKey, src/v2/map/input.rs:112 *)
  xc_leaf_hash : codec bytes;       (* TapLeafHash, src/v2/map/input.rs:112 *)
  xc_control_block : codec controlblock; (* ControlBlock, src/v2/map/input.rs:115 *)
  xc_leaf_version : codec N;        (* LeafVersion, src/v2/map/input.rs:115 *)
  xc_node_hash : codec bytes;       (* TapNodeHash, src/v2/map/input.rs:122 *)
  xc_amount : codec N;              (* Amount, src/v2/map/output.rs:31 *)
  xc_tap_tree : codec taptree       (* TapTree, src/v2/map/output.rs:47 *)
}.

(** ** serde's own implementations for standard types, as used by the crate *)

(** [Deserialize] of an unsigned number of a given width (src/raw.rs:80). *)
Definition c_num (bound : N) : codec N := {|
  c_ser := fun _ n => SNum n;
  c_de := fun _ v => match v with SNum n => if n <? bound then Some n else None | _ => None end
|}.
(** [u8] (src/v2/map/global.rs:53). *)
Definition c_u8 : codec N := c_num 256.
(** [u32] (src/v2/map/input.rs:54). *)
Definition c_u32 : codec N := c_num U32.
(** [usize] with 64 bits (src/v2/map/global.rs:56). *)
Definition c_u64 : codec N := c_num U64.
(** [u8], as a byte (src/raw.rs:80). *)
Definition c_byte : codec byte := {|
  c_ser := fun _ b => SNum (b2n b);
  c_de := fun _ v => match v with SNum n => if n <? 256 then Some (n2b n) else None | _ => None end
|}.

(** Elements of a sequence, in order, until one fails (src/serde_utils.rs:136). *)
Fixpoint de_all {A B} (de : A -> option B) (l : list A) : option (list B) :=
  match l with
  | [] => Some []
  | v :: r => a <~ de v ;; t <~ de_all de r ;; Some (a :: t)
  end.
(** [Vec<T>] (src/v2/mod.rs:503): a sequence. *)
Definition c_vec {A} (c : codec A) : codec (list A) := {|
  c_ser := fun f l => SSeq (map (c_ser c f) l);
  c_de := fun f v => match v with SSeq l => de_all (c_de c f) l | _ => None end
|}.
(** [Vec<u8>] (src/v2/map/output.rs:54): a sequence of numbers. *)
Definition c_bytes : codec bytes := c_vec c_byte.
(** [Option<T>] (src/v2/map/input.rs:59). *)
Definition c_opt {A} (c : codec A) : codec (option A) := {|
  c_ser := fun f o => match o with Some a => c_ser c f a | None => SNull end;
  c_de := fun f v => match v with SNull => Some None | _ => a <~ c_de c f v ;; Some (Some a) end
|}.
(** [(A, B)] (src/v2/map/input.rs:112): a sequence of length two. *)
Definition c_pair {A B} (a : codec A) (b : codec B) : codec (A * B) := {|
  c_ser := fun f x => SSeq [c_ser a f (fst x); c_ser b f (snd x)];
  c_de := fun f v =>
    match v with
    | SSeq [x; y] => p <~ c_de a f x ;; q <~ c_de b f y ;; Some (p, q)
    | _ => None
    end
|}.
(** [BTreeMap<K, V>] (src/v2/map/global.rs:62): a map, the entries are inserted in order. *)
Definition c_map {K V} (sk : K -> list N) (k : codec K) (c : codec V) : codec (list (K * V)) := {|
  c_ser := fun f m => SMap (map (fun x => (c_ser k f (fst x), c_ser c f (snd x))) m);
  c_de := fun f v =>
    match v with
    | SMap l =>
        e <~ de_all (fun x => p <~ c_de k f (fst x) ;; q <~ c_de c f (snd x) ;; Some (p, q)) l ;;
        Some (m_extend sk [] e)
    | _ => None
    end
|}.
(** [KeySource], the pair [(Fingerprint, DerivationPath)] (src/v2/map/global.rs:62). *)
Definition c_keysource `{SerdeExt} : codec keysource := {|
  c_ser := fun f k => c_ser (c_pair xc_fingerprint xc_path) f (ks_fp k, ks_path k);
  c_de := fun f v => p <~ c_de (c_pair xc_fingerprint xc_path) f v ;; Some (KeySource (fst p) (snd p))
|}.

(** ** src/serde_utils.rs *)

(** [DisplayHex] in lower case (src/serde_utils.rs:18 and src/v2/dleq.rs:23). *)
Definition to_hex (b : bytes) : bytes :=
  flat_map (fun x => [hex_digit (b2n x / 16); hex_digit (b2n x mod 16)]) b.
(** [Vec::<u8>::from_hex] (src/serde_utils.rs:75, 273, 283 and src/v2/dleq.rs:50); [None] for
    an odd number of characters or a character that is no hex digit. *)
Fixpoint from_hex (s : bytes) : option bytes :=
  match s with
  | [] => Some []
  | [_] => None
  | a :: b :: r =>
      x <~ hex_value a ;; y <~ hex_value b ;; t <~ from_hex r ;; Some (n2b (16 * x + y) :: t)
  end.

(** src/serde_utils.rs:242-296 [hex_bytes], for [Vec<u8>].  In [visit_bytes] bytes that are not
    UTF-8 are no hex digits either. *)
Definition c_hex : codec bytes := {|
  c_ser := fun f b => if f_hr f then SStr (to_hex b) else c_ser c_bytes f b;
  c_de := fun f v =>
    if f_hr f then match v with SStr s | SBytes s => from_hex s | _ => None end
    else c_de c_bytes f v
|}.

(** A value of type [&'de str] (src/serde_utils.rs:74; the type is given by the argument of
    [from_hex] in line 75): the string has to be lent by the deserializer. *)
Definition borrowed_str (f : fmt) (v : sval) : option bytes :=
  if f_lends f then match v with SStr s | SBytes s => Some s | _ => None end else None.

(** src/serde_utils.rs:22-88 [btreemap_byte_values]. *)
Definition c_byte_values {K} (sk : K -> list N) (k : codec K) : codec (list (K * bytes)) := {|
  c_ser := fun f m =>
    if f_hr f then SMap (map (fun x => (c_ser k f (fst x), SStr (to_hex (snd x)))) m)
    else c_ser (c_map sk k c_bytes) f m;
  c_de := fun f v =>
    if f_hr f then
      match v with
      | SMap l =>
          e <~ de_all (fun x => p <~ c_de k f (fst x) ;; s <~ borrowed_str f (snd x) ;;
                                q <~ from_hex s ;; Some (p, q)) l ;;
          Some (m_extend sk [] e)
      | _ => None
      end
    else c_de (c_map sk k c_bytes) f v
|}.

(** src/serde_utils.rs:90-151 [btreemap_as_seq]. *)
Definition c_as_seq {K V} (sk : K -> list N) (k : codec K) (c : codec V) : codec (list (K * V)) := {|
  c_ser := fun f m =>
    if f_hr f then c_ser (c_vec (c_pair k c)) f m else c_ser (c_map sk k c) f m;
  c_de := fun f v =>
    if f_hr f then e <~ c_de (c_vec (c_pair k c)) f v ;; Some (m_extend sk [] e)
    else c_de (c_map sk k c) f v
|}.

(** src/serde_utils.rs:153-240 [btreemap_as_seq_byte_values]; [OwnedPair] and [BorrowedPair]
    (lines 164-177) are tuple structs. *)
Definition c_seq_byte_values {K} (sk : K -> list N) (k : codec K) : codec (list (K * bytes)) := {|
  c_ser := fun f m =>
    if f_hr f then c_ser (c_vec (c_pair k c_hex)) f m else c_ser (c_map sk k c_bytes) f m;
  c_de := fun f v =>
    if f_hr f then e <~ c_de (c_vec (c_pair k c_hex)) f v ;; Some (m_extend sk [] e)
    else c_de (c_map sk k c_bytes) f v
|}.

(** src/v2/dleq.rs:16-78 [DleqProof]. *)
Definition c_dleq : codec bytes := {|
  c_ser := fun f b => if f_hr f then SStr (to_hex b) else SBytes b;
  c_de := fun f v =>
    if f_hr f then
      match v with
      | SStr s => b <~ from_hex s ;; if blen b =? 64 then Some b else None
      | _ => None
      end
    else
      match v with
      | SBytes b => if blen b =? 64 then Some b else None
      | _ => None
      end
|}.

(** ** Derived implementations *)

(** [#[derive(Serialize)]] of a struct with named fields (src/raw.rs:77). *)
Definition ser_struct (l : list (bytes * sval)) : sval := SMap (map (fun x => (SStr (fst x), snd x)) l).

(** Value of a field, by name (src/raw.rs:77). *)
Fixpoint field (n : bytes) (l : list (bytes * sval)) : option sval :=
  match l with
  | [] => None
  | (m, v) :: r => if bytes_eqb n m then Some v else field n r
  end.
(** The derived deserializer of field names (src/raw.rs:77): the name, or the index; other names and
    indices are ignored ([Some None]). *)
Definition field_id (names : list bytes) (k : sval) : option (option bytes) :=
  match k with
  | SStr s | SBytes s => Some (if existsb (bytes_eqb s) names then Some s else None)
  | SNum i => Some (nth_error names (N.to_nat i))
  | _ => None
  end.
(** The loop of the derived [visit_map] (src/raw.rs:77): a repeated field is an error. *)
Fixpoint collect (names : list bytes) (l : list (sval * sval)) (acc : list (bytes * sval)) : option (list (bytes * sval)) :=
  match l with
  | [] => Some acc
  | (k, v) :: r =>
      match field_id names k with
      | None => None
      | Some None => collect names r acc
      | Some (Some n) => match field n acc with Some _ => None | None => collect names r ((n, v) :: acc) end
      end
  end.
(** [#[derive(Deserialize)]] of a struct (src/raw.rs:77): a map, or a sequence with all fields in order. *)
Definition struct_fields (names : list bytes) (v : sval) : option (list (bytes * sval)) :=
  match v with
  | SMap l => collect names l []
  | SSeq l => if Nat.eqb (List.length l) (List.length names) then Some (combine names l) else None
  | _ => None
  end.
(** A field that is no [Option], or one with [#[serde(with)]] (src/raw.rs:37): missing is an error. *)
Definition req_field {A} (c : codec A) (f : fmt) (n : bytes) (l : list (bytes * sval)) : option A :=
  v <~ field n l ;; c_de c f v.
(** A field of type [Option] (src/v2/map/input.rs:59): [None] if it is missing. *)
Definition opt_field {A} (c : codec A) (f : fmt) (n : bytes) (l : list (bytes * sval)) : option (option A) :=
  match field n l with Some v => c_de (c_opt c) f v | None => Some None end.

(** src/version.rs:13-14 [Version], a newtype: the number is not checked. *)
Definition c_version : codec N := c_u32.

(** src/sighash_type.rs:16-19 [PsbtSighashType]. *)
Definition c_sighash_type : codec N := {|
  c_ser := fun f n => ser_struct [(str "inner", c_ser c_u32 f n)];
  c_de := fun f v => l <~ struct_fields [str "inner"] v ;; req_field c_u32 f (str "inner") l
|}.

(** src/raw.rs:77-84 and src/v0/bitcoin/raw.rs:23-31 [raw::Key]. *)
Definition c_key : codec key := {|
  c_ser := fun f k => ser_struct [(str "type_value", c_ser c_byte f (k_type k)); (str "key", c_ser c_hex f (k_data k))];
  c_de := fun f v =>
    l <~ struct_fields [str "type_value"; str "key"] v ;;
    t <~ req_field c_byte f (str "type_value") l ;;
    d <~ req_field c_hex f (str "key") l ;;
    Some (Key t d)
|}.
(** src/raw.rs:30-39 and src/v0/bitcoin/raw.rs:36-44 [raw::Pair]. *)
Definition c_raw_pair : codec pair := {|
  c_ser := fun f p => ser_struct [(str "key", c_ser c_key f (p_key p)); (str "value", c_ser c_hex f (p_value p))];
  c_de := fun f v =>
    l <~ struct_fields [str "key"; str "value"] v ;;
    k <~ req_field c_key f (str "key") l ;;
    d <~ req_field c_hex f (str "value") l ;;
    Some (Pair k d)
|}.
(** src/raw.rs:138-152 and src/v0/bitcoin/raw.rs:52-66 [raw::ProprietaryKey]. *)
Definition c_propkey : codec propkey := {|
  c_ser := fun f k => ser_struct [(str "prefix", c_ser c_hex f (pk_prefix k)); (str "subtype", c_ser c_byte f (pk_subtype k));
                                  (str "key", c_ser c_hex f (pk_key k))];
  c_de := fun f v =>
    l <~ struct_fields [str "prefix"; str "subtype"; str "key"] v ;;
    p <~ req_field c_hex f (str "prefix") l ;;
    t <~ req_field c_byte f (str "subtype") l ;;
    d <~ req_field c_hex f (str "key") l ;;
    Some (PropKey p t d)
|}.

Section Serde.
Context `{X : Ext} `{C : Cfg} `{SX : SerdeExt}.

(** Fields behind [#[cfg(feature = "silent-payments")]] (src/v2/map/global.rs:65): without the
    feature they do not exist. *)
Definition sp_fields {A} (l : list A) : list A := if feat_sp then l else [].
Definition sp_req_field {A} (empty : A) (c : codec A) (f : fmt) (n : bytes) (l : list (bytes * sval)) : option A :=
  if feat_sp then req_field c f n l else Some empty.
Definition sp_opt_field {A} (c : codec A) (f : fmt) (n : bytes) (l : list (bytes * sval)) : option (option A) :=
  if feat_sp then opt_field c f n l else Some None.

(** src/v2/map/global.rs:41-81: the names of the fields of [Global], in order. *)
Definition global_fields : list bytes :=
  [str "version";
   str "tx_version";
   str "fallback_lock_time";
   str "tx_modifiable_flags";
   str "input_count";
   str "output_count";
   str "xpubs"]
  ++ sp_fields [str "sp_ecdh_shares"]
  ++ sp_fields [str "sp_dleq_proofs"]
  ++ [str "proprietaries";
   str "unknowns"].
(** src/v2/map/global.rs:41-81: derived [Serialize] for [Global]. *)
Definition ser_global (f : fmt) (x : global) : sval := ser_struct (
  [(str "version", c_ser c_version f (g_version x));
   (str "tx_version", c_ser xc_tx_version f (g_tx_version x));
   (str "fallback_lock_time", c_ser (c_opt xc_lock_time) f (g_fallback_lock_time x));
   (str "tx_modifiable_flags", c_ser c_u8 f (g_tx_modifiable_flags x));
   (str "input_count", c_ser c_u64 f (g_input_count x));
   (str "output_count", c_ser c_u64 f (g_output_count x));
   (str "xpubs", c_ser (c_map sk_xpub xc_xpub c_keysource) f (g_xpubs x))]
  ++ sp_fields [(str "sp_ecdh_shares", c_ser (c_as_seq bkey xc_cpk xc_cpk) f (g_sp_ecdh_shares x))]
  ++ sp_fields [(str "sp_dleq_proofs", c_ser (c_as_seq bkey xc_cpk c_dleq) f (g_sp_dleq_proofs x))]
  ++ [(str "proprietaries", c_ser (c_seq_byte_values sk_propkey c_propkey) f (g_proprietaries x));
   (str "unknowns", c_ser (c_seq_byte_values sk_key c_key) f (g_unknowns x))]).
(** src/v2/map/global.rs:41-81: derived [Deserialize] for [Global]. *)
Definition de_global (f : fmt) (v : sval) : option global :=
  l <~ struct_fields global_fields v ;;
  a0 <~ req_field c_version f (str "version") l ;;  (* 44 *)
  a1 <~ req_field xc_tx_version f (str "tx_version") l ;;  (* 47 *)
  a2 <~ opt_field xc_lock_time f (str "fallback_lock_time") l ;;  (* 50 *)
  a3 <~ req_field c_u8 f (str "tx_modifiable_flags") l ;;  (* 53 *)
  a4 <~ req_field c_u64 f (str "input_count") l ;;  (* 56 *)
  a5 <~ req_field c_u64 f (str "output_count") l ;;  (* 59 *)
  a6 <~ req_field (c_map sk_xpub xc_xpub c_keysource) f (str "xpubs") l ;;  (* 62 *)
  a7 <~ sp_req_field [] (c_as_seq bkey xc_cpk xc_cpk) f (str "sp_ecdh_shares") l ;;  (* 67 *)
  a8 <~ sp_req_field [] (c_as_seq bkey xc_cpk c_dleq) f (str "sp_dleq_proofs") l ;;  (* 72 *)
  a9 <~ req_field (c_seq_byte_values sk_propkey c_propkey) f (str "proprietaries") l ;;  (* 76 *)
  a10 <~ req_field (c_seq_byte_values sk_key c_key) f (str "unknowns") l ;;  (* 80 *)
  Some (Global a0 a1 a2 a3 a4 a5 a6 a7 a8 a9 a10).
(** src/v2/map/global.rs:41-81: both derived functions. *)
Definition c_global : codec global := {| c_ser := ser_global; c_de := de_global |}.
(** src/v2/map/input.rs:44-140: the names of the fields of [Input], in order. *)
Definition input_fields : list bytes :=
  [str "previous_txid";
   str "spent_output_index";
   str "sequence";
   str "min_time";
   str "min_height";
   str "non_witness_utxo";
   str "witness_utxo";
   str "partial_sigs";
   str "sighash_type";
   str "redeem_script";
   str "witness_script";
   str "bip32_derivations";
   str "final_script_sig";
   str "final_script_witness";
   str "ripemd160_preimages";
   str "sha256_preimages";
   str "hash160_preimages";
   str "hash256_preimages";
   str "tap_key_sig";
   str "tap_script_sigs";
   str "tap_scripts";
   str "tap_key_origins";
   str "tap_internal_key";
   str "tap_merkle_root"]
  ++ sp_fields [str "sp_ecdh_shares"]
  ++ sp_fields [str "sp_dleq_proofs"]
  ++ [str "proprietaries";
   str "unknowns"].
(** src/v2/map/input.rs:44-140: derived [Serialize] for [Input]. *)
Definition ser_input (f : fmt) (x : input) : sval := ser_struct (
  [(str "previous_txid", c_ser xc_txid f (in_previous_txid x));
   (str "spent_output_index", c_ser c_u32 f (in_spent_output_index x));
   (str "sequence", c_ser (c_opt xc_sequence) f (in_sequence x));
   (str "min_time", c_ser (c_opt xc_time) f (in_min_time x));
   (str "min_height", c_ser (c_opt xc_height) f (in_min_height x));
   (str "non_witness_utxo", c_ser (c_opt xc_tx) f (in_non_witness_utxo x));
   (str "witness_utxo", c_ser (c_opt xc_txout) f (in_witness_utxo x));
   (str "partial_sigs", c_ser (c_map sk_pubkey xc_pubkey xc_esig) f (in_partial_sigs x));
   (str "sighash_type", c_ser (c_opt c_sighash_type) f (in_sighash_type x));
   (str "redeem_script", c_ser (c_opt xc_script) f (in_redeem_script x));
   (str "witness_script", c_ser (c_opt xc_script) f (in_witness_script x));
   (str "bip32_derivations", c_ser (c_as_seq bkey xc_secp c_keysource) f (in_bip32_derivations x));
   (str "final_script_sig", c_ser (c_opt xc_script) f (in_final_script_sig x));
   (str "final_script_witness", c_ser (c_opt xc_witness) f (in_final_script_witness x));
   (str "ripemd160_preimages", c_ser (c_byte_values bkey xc_ripemd160) f (in_ripemd160_preimages x));
   (str "sha256_preimages", c_ser (c_byte_values bkey xc_sha256) f (in_sha256_preimages x));
   (str "hash160_preimages", c_ser (c_byte_values bkey xc_hash160) f (in_hash160_preimages x));
   (str "hash256_preimages", c_ser (c_byte_values bkey xc_sha256d) f (in_hash256_preimages x));
   (str "tap_key_sig", c_ser (c_opt xc_tsig) f (in_tap_key_sig x));
   (str "tap_script_sigs", c_ser (c_as_seq sk_xleaf (c_pair xc_xonly xc_leaf_hash) xc_tsig) f (in_tap_script_sigs x));
   (str "tap_scripts", c_ser (c_as_seq sk_controlblock xc_control_block (c_pair xc_script xc_leaf_version)) f (in_tap_scripts x));
   (str "tap_key_origins", c_ser (c_as_seq bkey xc_xonly (c_pair (c_vec xc_leaf_hash) c_keysource)) f (in_tap_key_origins x));
   (str "tap_internal_key", c_ser (c_opt xc_xonly) f (in_tap_internal_key x));
   (str "tap_merkle_root", c_ser (c_opt xc_node_hash) f (in_tap_merkle_root x))]
  ++ sp_fields [(str "sp_ecdh_shares", c_ser (c_as_seq bkey xc_cpk xc_cpk) f (in_sp_ecdh_shares x))]
  ++ sp_fields [(str "sp_dleq_proofs", c_ser (c_as_seq bkey xc_cpk c_dleq) f (in_sp_dleq_proofs x))]
  ++ [(str "proprietaries", c_ser (c_seq_byte_values sk_propkey c_propkey) f (in_proprietaries x));
   (str "unknowns", c_ser (c_seq_byte_values sk_key c_key) f (in_unknowns x))]).
(** src/v2/map/input.rs:44-140: derived [Deserialize] for [Input]. *)
Definition de_input (f : fmt) (v : sval) : option input :=
  l <~ struct_fields input_fields v ;;
  a0 <~ req_field xc_txid f (str "previous_txid") l ;;  (* 51 *)
  a1 <~ req_field c_u32 f (str "spent_output_index") l ;;  (* 54 *)
  a2 <~ opt_field xc_sequence f (str "sequence") l ;;  (* 59 *)
  a3 <~ opt_field xc_time f (str "min_time") l ;;  (* 62 *)
  a4 <~ opt_field xc_height f (str "min_height") l ;;  (* 65 *)
  a5 <~ opt_field xc_tx f (str "non_witness_utxo") l ;;  (* 70 *)
  a6 <~ opt_field xc_txout f (str "witness_utxo") l ;;  (* 74 *)
  a7 <~ req_field (c_map sk_pubkey xc_pubkey xc_esig) f (str "partial_sigs") l ;;  (* 77 *)
  a8 <~ opt_field c_sighash_type f (str "sighash_type") l ;;  (* 80 *)
  a9 <~ opt_field xc_script f (str "redeem_script") l ;;  (* 82 *)
  a10 <~ opt_field xc_script f (str "witness_script") l ;;  (* 84 *)
  a11 <~ req_field (c_as_seq bkey xc_secp c_keysource) f (str "bip32_derivations") l ;;  (* 88 *)
  a12 <~ opt_field xc_script f (str "final_script_sig") l ;;  (* 91 *)
  a13 <~ opt_field xc_witness f (str "final_script_witness") l ;;  (* 94 *)
  a14 <~ req_field (c_byte_values bkey xc_ripemd160) f (str "ripemd160_preimages") l ;;  (* 98 *)
  a15 <~ req_field (c_byte_values bkey xc_sha256) f (str "sha256_preimages") l ;;  (* 101 *)
  a16 <~ req_field (c_byte_values bkey xc_hash160) f (str "hash160_preimages") l ;;  (* 104 *)
  a17 <~ req_field (c_byte_values bkey xc_sha256d) f (str "hash256_preimages") l ;;  (* 107 *)
  a18 <~ opt_field xc_tsig f (str "tap_key_sig") l ;;  (* 109 *)
  a19 <~ req_field (c_as_seq sk_xleaf (c_pair xc_xonly xc_leaf_hash) xc_tsig) f (str "tap_script_sigs") l ;;  (* 112 *)
  a20 <~ req_field (c_as_seq sk_controlblock xc_control_block (c_pair xc_script xc_leaf_version)) f (str "tap_scripts") l ;;  (* 115 *)
  a21 <~ req_field (c_as_seq bkey xc_xonly (c_pair (c_vec xc_leaf_hash) c_keysource)) f (str "tap_key_origins") l ;;  (* 118 *)
  a22 <~ opt_field xc_xonly f (str "tap_internal_key") l ;;  (* 120 *)
  a23 <~ opt_field xc_node_hash f (str "tap_merkle_root") l ;;  (* 122 *)
  a24 <~ sp_req_field [] (c_as_seq bkey xc_cpk xc_cpk) f (str "sp_ecdh_shares") l ;;  (* 127 *)
  a25 <~ sp_req_field [] (c_as_seq bkey xc_cpk c_dleq) f (str "sp_dleq_proofs") l ;;  (* 132 *)
  a26 <~ req_field (c_seq_byte_values sk_propkey c_propkey) f (str "proprietaries") l ;;  (* 136 *)
  a27 <~ req_field (c_seq_byte_values sk_key c_key) f (str "unknowns") l ;;  (* 139 *)
  Some (Input a0 a1 a2 a3 a4 a5 a6 a7 a8 a9 a10 a11 a12 a13 a14 a15 a16 a17 a18 a19 a20 a21 a22 a23 a24 a25 a26 a27).
(** src/v2/map/input.rs:44-140: both derived functions. *)
Definition c_input : codec input := {| c_ser := ser_input; c_de := de_input |}.
(** src/v2/map/output.rs:28-66: the names of the fields of [Output], in order. *)
Definition output_fields : list bytes :=
  [str "amount";
   str "script_pubkey";
   str "redeem_script";
   str "witness_script";
   str "bip32_derivations";
   str "tap_internal_key";
   str "tap_tree";
   str "tap_key_origins"]
  ++ sp_fields [str "sp_v0_info"]
  ++ sp_fields [str "sp_v0_label"]
  ++ [str "proprietaries";
   str "unknowns"].
(** src/v2/map/output.rs:28-66: derived [Serialize] for [Output]. *)
Definition ser_output (f : fmt) (x : output) : sval := ser_struct (
  [(str "amount", c_ser xc_amount f (out_amount x));
   (str "script_pubkey", c_ser xc_script f (out_script_pubkey x));
   (str "redeem_script", c_ser (c_opt xc_script) f (out_redeem_script x));
   (str "witness_script", c_ser (c_opt xc_script) f (out_witness_script x));
   (str "bip32_derivations", c_ser (c_as_seq bkey xc_secp c_keysource) f (out_bip32_derivations x));
   (str "tap_internal_key", c_ser (c_opt xc_xonly) f (out_tap_internal_key x));
   (str "tap_tree", c_ser (c_opt xc_tap_tree) f (out_tap_tree x));
   (str "tap_key_origins", c_ser (c_as_seq bkey xc_xonly (c_pair (c_vec xc_leaf_hash) c_keysource)) f (out_tap_key_origins x))]
  ++ sp_fields [(str "sp_v0_info", c_ser (c_opt c_bytes) f (out_sp_v0_info x))]
  ++ sp_fields [(str "sp_v0_label", c_ser (c_opt c_u32) f (out_sp_v0_label x))]
  ++ [(str "proprietaries", c_ser (c_seq_byte_values sk_propkey c_propkey) f (out_proprietaries x));
   (str "unknowns", c_ser (c_seq_byte_values sk_key c_key) f (out_unknowns x))]).
(** src/v2/map/output.rs:28-66: derived [Deserialize] for [Output]. *)
Definition de_output (f : fmt) (v : sval) : option output :=
  l <~ struct_fields output_fields v ;;
  a0 <~ req_field xc_amount f (str "amount") l ;;  (* 31 *)
  a1 <~ req_field xc_script f (str "script_pubkey") l ;;  (* 34 *)
  a2 <~ opt_field xc_script f (str "redeem_script") l ;;  (* 37 *)
  a3 <~ opt_field xc_script f (str "witness_script") l ;;  (* 39 *)
  a4 <~ req_field (c_as_seq bkey xc_secp c_keysource) f (str "bip32_derivations") l ;;  (* 43 *)
  a5 <~ opt_field xc_xonly f (str "tap_internal_key") l ;;  (* 45 *)
  a6 <~ opt_field xc_tap_tree f (str "tap_tree") l ;;  (* 47 *)
  a7 <~ req_field (c_as_seq bkey xc_xonly (c_pair (c_vec xc_leaf_hash) c_keysource)) f (str "tap_key_origins") l ;;  (* 50 *)
  a8 <~ sp_opt_field c_bytes f (str "sp_v0_info") l ;;  (* 54 *)
  a9 <~ sp_opt_field c_u32 f (str "sp_v0_label") l ;;  (* 58 *)
  a10 <~ req_field (c_seq_byte_values sk_propkey c_propkey) f (str "proprietaries") l ;;  (* 62 *)
  a11 <~ req_field (c_seq_byte_values sk_key c_key) f (str "unknowns") l ;;  (* 65 *)
  Some (Output a0 a1 a2 a3 a4 a5 a6 a7 a8 a9 a10 a11).
(** src/v2/map/output.rs:28-66: both derived functions. *)
Definition c_output : codec output := {| c_ser := ser_output; c_de := de_output |}.
(** src/v2/mod.rs:498-506: the names of the fields of [Psbt], in order. *)
Definition psbt_fields : list bytes :=
  [str "global";
   str "inputs";
   str "outputs"].
(** src/v2/mod.rs:498-506: derived [Serialize] for [Psbt]. *)
Definition ser_psbt (f : fmt) (x : psbt) : sval := ser_struct (
  [(str "global", c_ser c_global f (p_global x));
   (str "inputs", c_ser (c_vec c_input) f (p_inputs x));
   (str "outputs", c_ser (c_vec c_output) f (p_outputs x))]).
(** src/v2/mod.rs:498-506: derived [Deserialize] for [Psbt]. *)
Definition de_psbt (f : fmt) (v : sval) : option psbt :=
  l <~ struct_fields psbt_fields v ;;
  a0 <~ req_field c_global f (str "global") l ;;  (* 501 *)
  a1 <~ req_field (c_vec c_input) f (str "inputs") l ;;  (* 503 *)
  a2 <~ req_field (c_vec c_output) f (str "outputs") l ;;  (* 505 *)
  Some (Psbt a0 a1 a2).
(** src/v2/mod.rs:498-506: both derived functions. *)
Definition c_psbt : codec psbt := {| c_ser := ser_psbt; c_de := de_psbt |}.
(** src/v0/bitcoin/map/input.rs:76-139: the names of the fields of [Input], in order. *)
Definition input0_fields : list bytes :=
  [str "non_witness_utxo";
   str "witness_utxo";
   str "partial_sigs";
   str "sighash_type";
   str "redeem_script";
   str "witness_script";
   str "bip32_derivation";
   str "final_script_sig";
   str "final_script_witness";
   str "ripemd160_preimages";
   str "sha256_preimages";
   str "hash160_preimages";
   str "hash256_preimages";
   str "tap_key_sig";
   str "tap_script_sigs";
   str "tap_scripts";
   str "tap_key_origins";
   str "tap_internal_key";
   str "tap_merkle_root";
   str "proprietary";
   str "unknown"].
(** src/v0/bitcoin/map/input.rs:76-139: derived [Serialize] for [Input]. *)
Definition ser_input0 (f : fmt) (x : input0) : sval := ser_struct (
  [(str "non_witness_utxo", c_ser (c_opt xc_tx) f (i0_non_witness_utxo x));
   (str "witness_utxo", c_ser (c_opt xc_txout) f (i0_witness_utxo x));
   (str "partial_sigs", c_ser (c_map sk_pubkey xc_pubkey xc_esig) f (i0_partial_sigs x));
   (str "sighash_type", c_ser (c_opt c_sighash_type) f (i0_sighash_type x));
   (str "redeem_script", c_ser (c_opt xc_script) f (i0_redeem_script x));
   (str "witness_script", c_ser (c_opt xc_script) f (i0_witness_script x));
   (str "bip32_derivation", c_ser (c_as_seq bkey xc_secp c_keysource) f (i0_bip32_derivation x));
   (str "final_script_sig", c_ser (c_opt xc_script) f (i0_final_script_sig x));
   (str "final_script_witness", c_ser (c_opt xc_witness) f (i0_final_script_witness x));
   (str "ripemd160_preimages", c_ser (c_byte_values bkey xc_ripemd160) f (i0_ripemd160_preimages x));
   (str "sha256_preimages", c_ser (c_byte_values bkey xc_sha256) f (i0_sha256_preimages x));
   (str "hash160_preimages", c_ser (c_byte_values bkey xc_hash160) f (i0_hash160_preimages x));
   (str "hash256_preimages", c_ser (c_byte_values bkey xc_sha256d) f (i0_hash256_preimages x));
   (str "tap_key_sig", c_ser (c_opt xc_tsig) f (i0_tap_key_sig x));
   (str "tap_script_sigs", c_ser (c_as_seq sk_xleaf (c_pair xc_xonly xc_leaf_hash) xc_tsig) f (i0_tap_script_sigs x));
   (str "tap_scripts", c_ser (c_as_seq sk_controlblock xc_control_block (c_pair xc_script xc_leaf_version)) f (i0_tap_scripts x));
   (str "tap_key_origins", c_ser (c_as_seq bkey xc_xonly (c_pair (c_vec xc_leaf_hash) c_keysource)) f (i0_tap_key_origins x));
   (str "tap_internal_key", c_ser (c_opt xc_xonly) f (i0_tap_internal_key x));
   (str "tap_merkle_root", c_ser (c_opt xc_node_hash) f (i0_tap_merkle_root x));
   (str "proprietary", c_ser (c_seq_byte_values sk_propkey c_propkey) f (i0_proprietary x));
   (str "unknown", c_ser (c_seq_byte_values sk_key c_key) f (i0_unknown x))]).
(** src/v0/bitcoin/map/input.rs:76-139: derived [Deserialize] for [Input]. *)
Definition de_input0 (f : fmt) (v : sval) : option input0 :=
  l <~ struct_fields input0_fields v ;;
  a0 <~ opt_field xc_tx f (str "non_witness_utxo") l ;;  (* 81 *)
  a1 <~ opt_field xc_txout f (str "witness_utxo") l ;;  (* 85 *)
  a2 <~ req_field (c_map sk_pubkey xc_pubkey xc_esig) f (str "partial_sigs") l ;;  (* 88 *)
  a3 <~ opt_field c_sighash_type f (str "sighash_type") l ;;  (* 91 *)
  a4 <~ opt_field xc_script f (str "redeem_script") l ;;  (* 93 *)
  a5 <~ opt_field xc_script f (str "witness_script") l ;;  (* 95 *)
  a6 <~ req_field (c_as_seq bkey xc_secp c_keysource) f (str "bip32_derivation") l ;;  (* 99 *)
  a7 <~ opt_field xc_script f (str "final_script_sig") l ;;  (* 102 *)
  a8 <~ opt_field xc_witness f (str "final_script_witness") l ;;  (* 105 *)
  a9 <~ req_field (c_byte_values bkey xc_ripemd160) f (str "ripemd160_preimages") l ;;  (* 108 *)
  a10 <~ req_field (c_byte_values bkey xc_sha256) f (str "sha256_preimages") l ;;  (* 111 *)
  a11 <~ req_field (c_byte_values bkey xc_hash160) f (str "hash160_preimages") l ;;  (* 114 *)
  a12 <~ req_field (c_byte_values bkey xc_sha256d) f (str "hash256_preimages") l ;;  (* 117 *)
  a13 <~ opt_field xc_tsig f (str "tap_key_sig") l ;;  (* 119 *)
  a14 <~ req_field (c_as_seq sk_xleaf (c_pair xc_xonly xc_leaf_hash) xc_tsig) f (str "tap_script_sigs") l ;;  (* 122 *)
  a15 <~ req_field (c_as_seq sk_controlblock xc_control_block (c_pair xc_script xc_leaf_version)) f (str "tap_scripts") l ;;  (* 125 *)
  a16 <~ req_field (c_as_seq bkey xc_xonly (c_pair (c_vec xc_leaf_hash) c_keysource)) f (str "tap_key_origins") l ;;  (* 128 *)
  a17 <~ opt_field xc_xonly f (str "tap_internal_key") l ;;  (* 130 *)
  a18 <~ opt_field xc_node_hash f (str "tap_merkle_root") l ;;  (* 132 *)
  a19 <~ req_field (c_seq_byte_values sk_propkey c_propkey) f (str "proprietary") l ;;  (* 135 *)
  a20 <~ req_field (c_seq_byte_values sk_key c_key) f (str "unknown") l ;;  (* 138 *)
  Some (Input0 a0 a1 a2 a3 a4 a5 a6 a7 a8 a9 a10 a11 a12 a13 a14 a15 a16 a17 a18 a19 a20).
(** src/v0/bitcoin/map/input.rs:76-139: both derived functions. *)
Definition c_input0 : codec input0 := {| c_ser := ser_input0; c_de := de_input0 |}.
(** src/v0/bitcoin/map/output.rs:36-59: the names of the fields of [Output], in order. *)
Definition output0_fields : list bytes :=
  [str "redeem_script";
   str "witness_script";
   str "bip32_derivation";
   str "tap_internal_key";
   str "tap_tree";
   str "tap_key_origins";
   str "proprietary";
   str "unknown"].
(** src/v0/bitcoin/map/output.rs:36-59: derived [Serialize] for [Output]. *)
Definition ser_output0 (f : fmt) (x : output0) : sval := ser_struct (
  [(str "redeem_script", c_ser (c_opt xc_script) f (o0_redeem_script x));
   (str "witness_script", c_ser (c_opt xc_script) f (o0_witness_script x));
   (str "bip32_derivation", c_ser (c_as_seq bkey xc_secp c_keysource) f (o0_bip32_derivation x));
   (str "tap_internal_key", c_ser (c_opt xc_xonly) f (o0_tap_internal_key x));
   (str "tap_tree", c_ser (c_opt xc_tap_tree) f (o0_tap_tree x));
   (str "tap_key_origins", c_ser (c_as_seq bkey xc_xonly (c_pair (c_vec xc_leaf_hash) c_keysource)) f (o0_tap_key_origins x));
   (str "proprietary", c_ser (c_seq_byte_values sk_propkey c_propkey) f (o0_proprietary x));
   (str "unknown", c_ser (c_seq_byte_values sk_key c_key) f (o0_unknown x))]).
(** src/v0/bitcoin/map/output.rs:36-59: derived [Deserialize] for [Output]. *)
Definition de_output0 (f : fmt) (v : sval) : option output0 :=
  l <~ struct_fields output0_fields v ;;
  a0 <~ opt_field xc_script f (str "redeem_script") l ;;  (* 39 *)
  a1 <~ opt_field xc_script f (str "witness_script") l ;;  (* 41 *)
  a2 <~ req_field (c_as_seq bkey xc_secp c_keysource) f (str "bip32_derivation") l ;;  (* 45 *)
  a3 <~ opt_field xc_xonly f (str "tap_internal_key") l ;;  (* 47 *)
  a4 <~ opt_field xc_tap_tree f (str "tap_tree") l ;;  (* 49 *)
  a5 <~ req_field (c_as_seq bkey xc_xonly (c_pair (c_vec xc_leaf_hash) c_keysource)) f (str "tap_key_origins") l ;;  (* 52 *)
  a6 <~ req_field (c_seq_byte_values sk_propkey c_propkey) f (str "proprietary") l ;;  (* 55 *)
  a7 <~ req_field (c_seq_byte_values sk_key c_key) f (str "unknown") l ;;  (* 58 *)
  Some (Output0 a0 a1 a2 a3 a4 a5 a6 a7).
(** src/v0/bitcoin/map/output.rs:36-59: both derived functions. *)
Definition c_output0 : codec output0 := {| c_ser := ser_output0; c_de := de_output0 |}.
(** src/v0/bitcoin/mod.rs:42-62: the names of the fields of [Psbt], in order. *)
Definition psbt0_fields : list bytes :=
  [str "unsigned_tx";
   str "version";
   str "xpub";
   str "proprietary";
   str "unknown";
   str "inputs";
   str "outputs"].
(** src/v0/bitcoin/mod.rs:42-62: derived [Serialize] for [Psbt]. *)
Definition ser_psbt0 (f : fmt) (x : psbt0) : sval := ser_struct (
  [(str "unsigned_tx", c_ser xc_tx f (p0_unsigned_tx x));
   (str "version", c_ser c_u32 f (p0_version x));
   (str "xpub", c_ser (c_map sk_xpub xc_xpub c_keysource) f (p0_xpub x));
   (str "proprietary", c_ser (c_seq_byte_values sk_propkey c_propkey) f (p0_proprietary x));
   (str "unknown", c_ser (c_seq_byte_values sk_key c_key) f (p0_unknown x));
   (str "inputs", c_ser (c_vec c_input0) f (p0_inputs x));
   (str "outputs", c_ser (c_vec c_output0) f (p0_outputs x))]).
(** src/v0/bitcoin/mod.rs:42-62: derived [Deserialize] for [Psbt]. *)
Definition de_psbt0 (f : fmt) (v : sval) : option psbt0 :=
  l <~ struct_fields psbt0_fields v ;;
  a0 <~ req_field xc_tx f (str "unsigned_tx") l ;;  (* 45 *)
  a1 <~ req_field c_u32 f (str "version") l ;;  (* 47 *)
  a2 <~ req_field (c_map sk_xpub xc_xpub c_keysource) f (str "xpub") l ;;  (* 50 *)
  a3 <~ req_field (c_seq_byte_values sk_propkey c_propkey) f (str "proprietary") l ;;  (* 53 *)
  a4 <~ req_field (c_seq_byte_values sk_key c_key) f (str "unknown") l ;;  (* 56 *)
  a5 <~ req_field (c_vec c_input0) f (str "inputs") l ;;  (* 59 *)
  a6 <~ req_field (c_vec c_output0) f (str "outputs") l ;;  (* 61 *)
  Some (Psbt0 a0 a1 a2 a3 a4 a5 a6).
(** src/v0/bitcoin/mod.rs:42-62: both derived functions. *)
Definition c_psbt0 : codec psbt0 := {| c_ser := ser_psbt0; c_de := de_psbt0 |}.

(** ** Role types *)

(** src/v2/mod.rs:94-95, 380-381, 433-434, src/v2/miniscript/finalize.rs:28-29 and
    src/v2/extract.rs:25-26: [Creator], [Updater], [Signer], [Finalizer] and [Extractor] are
    newtypes around the PSBT. *)
Definition c_role : codec psbt := c_psbt.
(** src/v2/mod.rs:257-258 [Constructor<T>]: the PSBT and [PhantomData<T>], a unit; the marker
    leaves no trace. *)
Definition c_constructor (k : ckind) : codec psbt := {|
  c_ser := fun f p => SSeq [c_ser c_psbt f p; SNull];
  c_de := fun f v => match v with SSeq [x; SNull] => c_de c_psbt f x | _ => None end
|}.

End Serde.
