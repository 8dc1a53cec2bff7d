(** Model of the texts of the decoding errors: [Display] and [Error::source] of
    src/serialize.rs:437-507, src/v2/map/global.rs:564-715, src/v2/map/input.rs:879-1022,
    src/v2/map/output.rs:361-437, the names of key types (src/consts.rs:120-196) and
    src/v0/bitcoin/error.rs:113-215.

    Builds with std: [write_err!] (src/error.rs:109-123) leaves out the error that is wrapped. *)
From Coq Require Import Strings.String.
From Verif Require Import Base OMap Consensus Ext Raw TapTree Serialize MapCodec SighashType V2Global V2Input V2Output
  V0Error.
Local Open Scope N_scope.

(** [{}] of an unsigned integer (src/v2/map/global.rs:660): its decimal digits; the fuel is a
    bound for their number. *)
Fixpoint dec_digits (fuel : nat) (n : N) : bytes :=
  match fuel with
  | O => []
  | S f => (if n / 10 =? 0 then [] else dec_digits f (n / 10)) ++ [n2b (48 + n mod 10)]
  end.
(** [{}] of an unsigned integer (src/v2/map/global.rs:660). *)
Definition dec_text (n : N) : bytes := dec_digits (S (N.to_nat (N.log2 n))) n.

(** [{:x}] of [as_hex()] (src/raw.rs:49): two digits for each byte. *)
Definition hex_text (bs : bytes) : bytes :=
  flat_map (fun b => [hex_digit (b2n b / 16); hex_digit (b2n b mod 16)]) bs.

(** src/raw.rs:47-51 [Display for Key]; [{:#x}] writes no leading zeros. *)
Definition key_text (k : key) : bytes :=
  str "type: 0x" ++ hex_digits 2 (b2n (k_type k)) ++ str ", key: " ++ hex_text (k_data k).

(** ** Names of key types *)

Section Names.
Context `{C : Cfg}.

(** src/consts.rs:121-138 [psbt_global_key_type_value_to_str]; lines 130-133 only with
    silent-payments. *)
Definition global_name (t : byte) : bytes :=
  if beq t x00 then str "PSBT_GLOBAL_UNSIGNED_TX"
  else if beq t x01 then str "PSBT_GLOBAL_XPUB"
  else if beq t x02 then str "PSBT_GLOBAL_TX_VERSION"
  else if beq t x03 then str "PSBT_GLOBAL_FALLBACK_LOCKTIME"
  else if beq t x04 then str "PSBT_GLOBAL_INPUT_COUNT"
  else if beq t x05 then str "PSBT_GLOBAL_OUTPUT_COUNT"
  else if beq t x06 then str "PSBT_GLOBAL_TX_MODIFIABLE"
  else if feat_sp && beq t x07 then str "PSBT_GLOBAL_SP_ECDH_SHARE"
  else if feat_sp && beq t x08 then str "PSBT_GLOBAL_SP_DLEQ"
  else if beq t xfb then str "PSBT_GLOBAL_VERSION"
  else if beq t xfc then str "PSBT_GLOBAL_PROPRIETARY"
  else str "unknown PSBT_GLOBAL_ key type value".

(** src/consts.rs:141-175 [psbt_in_key_type_value_to_str]. *)
Definition in_name (t : byte) : bytes :=
  if beq t x00 then str "PSBT_IN_NON_WITNESS_UTXO"
  else if beq t x01 then str "PSBT_IN_WITNESS_UTXO"
  else if beq t x02 then str "PSBT_IN_PARTIAL_SIG"
  else if beq t x03 then str "PSBT_IN_SIGHASH_TYPE"
  else if beq t x04 then str "PSBT_IN_REDEEM_SCRIPT"
  else if beq t x05 then str "PSBT_IN_WITNESS_SCRIPT"
  else if beq t x06 then str "PSBT_IN_BIP32_DERIVATION"
  else if beq t x07 then str "PSBT_IN_FINAL_SCRIPTSIG"
  else if beq t x08 then str "PSBT_IN_FINAL_SCRIPTWITNESS"
  else if beq t x09 then str "PSBT_IN_POR_COMMITMENT"
  else if beq t x0a then str "PSBT_IN_RIPEMD160"
  else if beq t x0b then str "PSBT_IN_SHA256"
  else if beq t x0c then str "PSBT_IN_HASH160"
  else if beq t x0d then str "PSBT_IN_HASH256"
  else if beq t x0e then str "PSBT_IN_PREVIOUS_TXID"
  else if beq t x0f then str "PSBT_IN_OUTPUT_INDEX"
  else if beq t x10 then str "PSBT_IN_SEQUENCE"
  else if beq t x11 then str "PSBT_IN_REQUIRED_TIME_LOCKTIME"
  else if beq t x12 then str "PSBT_IN_REQUIRED_HEIGHT_LOCKTIME"
  else if beq t x13 then str "PSBT_IN_TAP_KEY_SIG"
  else if beq t x14 then str "PSBT_IN_TAP_SCRIPT_SIG"
  else if beq t x15 then str "PSBT_IN_TAP_LEAF_SCRIPT"
  else if beq t x16 then str "PSBT_IN_TAP_BIP32_DERIVATION"
  else if beq t x17 then str "PSBT_IN_TAP_INTERNAL_KEY"
  else if beq t x18 then str "PSBT_IN_TAP_MERKLE_ROOT"
  else if feat_sp && beq t x1d then str "PSBT_IN_SP_ECDH_SHARE"
  else if feat_sp && beq t x1e then str "PSBT_IN_SP_DLEQ"
  else if beq t xfc then str "PSBT_IN_PROPRIETARY"
  else str "unknown PSBT_IN_ key type value".

(** src/consts.rs:178-196 [psbt_out_key_type_value_to_str]. *)
Definition out_name (t : byte) : bytes :=
  if beq t x00 then str "PSBT_OUT_REDEEM_SCRIPT"
  else if beq t x01 then str "PSBT_OUT_WITNESS_SCRIPT"
  else if beq t x02 then str "PSBT_OUT_BIP32_DERIVATION"
  else if beq t x03 then str "PSBT_OUT_AMOUNT"
  else if beq t x04 then str "PSBT_OUT_SCRIPT"
  else if beq t x05 then str "PSBT_OUT_TAP_INTERNAL_KEY"
  else if beq t x06 then str "PSBT_OUT_TAP_TREE"
  else if beq t x07 then str "PSBT_OUT_TAP_BIP32_DERIVATION"
  else if feat_sp && beq t x09 then str "PSBT_OUT_SP_V0_INFO"
  else if feat_sp && beq t x0a then str "PSBT_OUT_SP_V0_LABEL"
  else if beq t xfc then str "PSBT_OUT_PROPRIETARY"
  else str "unknown PSBT_OUT_ key type value".

End Names.

(** ** src/serialize.rs *)

(** src/serialize.rs:437-474 [Display for serialize::Error].  The string of [Taproot] (line 456)
    is not part of the model's error. *)
Definition serr_text (e : serr) : bytes :=
  match e with
  | SNotEnoughData => str "not enough data to deserialize object"
  | SInvalidProprietaryKey => str "non-proprietary key type found when proprietary key was expected"
  | SNoMorePairs => str "no more key-value pairs for this psbt map"
  | SNonStandardSighashType n => str "non-standard sighash type: " ++ dec_text n
  | SInvalidHash => str "invalid hash when parsing slice"
  | SConsensusEncoding _ => str "bitcoin consensus encoding error"
  | SInvalidPublicKey => str "invalid public key"
  | SInvalidSecp256k1PublicKey => str "invalid secp256k1 public key"
  | SInvalidXOnlyPublicKey => str "invalid xonly public key"
  | SInvalidEcdsaSignature => str "invalid ECDSA signature"
  | SInvalidTaprootSignature => str "invalid taproot signature"
  | SInvalidControlBlock => str "invalid control block"
  | SInvalidLeafVersion => str "invalid leaf version"
  | STaproot => str "taproot error -  "
  | STapTree => str "taproot tree error"
  | SPartialDataConsumption => str "data not consumed entirely when explicitly deserializing"
  | SLockTime => str "parsed locktime invalid"
  | SUnsupportedVersion _ => str "unsupported version"
  | SInvalidScanKey got expected =>
      str "invalid scan key: got " ++ dec_text got ++ str " bytes, expected " ++ dec_text expected
  | SInvalidEcdhShare got expected =>
      str "invalid ECDH share: got " ++ dec_text got ++ str " bytes, expected " ++ dec_text expected
  | SInvalidDleqProof got expected =>
      str "invalid DLEQ proof: got " ++ dec_text got ++ str " bytes, expected " ++ dec_text expected
  end.

(** ** src/v2/map *)

(** [Display for ChildNumber] (src/v2/map/global.rs:677, in rust-bitcoin). *)
Definition child_text (n : N) : bytes :=
  if n <? 2147483648 then dec_text n else dec_text (n - 2147483648) ++ [x27].
(** [Display for DerivationPath] (src/v2/map/global.rs:677, in rust-bitcoin). *)
Fixpoint path_text (l : list N) : bytes :=
  match l with
  | [] => []
  | [n] => child_text n
  | n :: l' => child_text n ++ [x2f] ++ path_text l'
  end.

Section Maps.
Context `{C : Cfg}.

(** src/v2/map/global.rs:651-690 [Display for InsertPairError].  The last three errors of [ierr]
    do not exist there. *)
Definition global_ierr_text (e : ierr) : bytes :=
  match e with
  | IDuplicateKey k => str "duplicate key: " ++ key_text k
  | IInvalidKeyDataEmpty k => str "key should contain data: " ++ key_text k
  | IInvalidKeyDataNotEmpty k => str "key should not contain data: " ++ key_text k
  | IDeser _ => str "error deserializing raw value"
  | IConsensus _ => str "error consensus deserializing type"
  | IValueWrongLength got want =>
      str "value (keyvalue pair) wrong length (got, want) " ++ dec_text got ++ str " " ++ dec_text want
  | IWrongVersion v => str "PSBT_GLOBAL_VERSION: PSBT v2 expects the version to be 2, found: " ++ dec_text v
  | IXpubInvalidFingerprint => str "PSBT_GLOBAL_XPUB: derivation path must be a list of 32 byte varints"
  | IXpubInvalidPath len =>
      str "PSBT_GLOBAL_XPUB: derivation path must be a list of 32 byte varints: " ++ dec_text len
  | IBip32 => str "PSBT_GLOBAL_XPUB: Failed to decode a BIP-32 type"
  | IDuplicateXpub ks =>
      str "PSBT_GLOBAL_XPUB: xpubs must be unique (" ++ hex_text (ks_fp ks) ++ str ", " ++ path_text (ks_path ks) ++ str ")"
  | IInvalidProprietaryKey => str "PSBT_GLOBAL_PROPRIETARY: Invalid proprietary key"
  | IExcludedKey t => str "found a keypair type that is explicitly excluded: " ++ global_name t
  | IKeyWrongLength got expected =>
      str "key wrong length (got: " ++ dec_text got ++ str ", expected: " ++ dec_text expected ++ str ")"
  | IHashPreimage _ _ _ | IXPubKey0 _ | IVersion0 _ => []
  end.

(** src/v2/map/global.rs:564-590 [Display for DecodeError]. *)
Definition gderr_text (e : gderr) : bytes :=
  match e with
  | GDInsertPair _ => str "error inserting a pair"
  | GDDeserPair _ => str "error deserializing a pair"
  | GDMissingVersion => str "serialized PSBT is missing the version number"
  | GDMissingTxVersion => str "serialized PSBT is missing the transaction version number"
  | GDMissingInputCount => str "serialized PSBT is missing the input count"
  | GDInputCountOverflow n => str "input count overflows word size for current architecture: " ++ dec_text n
  | GDMissingOutputCount => str "serialized PSBT is missing the output count"
  | GDOutputCountOverflow n => str "output count overflows word size for current architecture: " ++ dec_text n
  | GDFieldMismatch => str "ECDH shares and DLEQ proofs must both be present or both absent"
  end.

End Maps.

(** src/v2/map/input.rs:932-955 [Display for InsertPairError]; other errors of [ierr] do not exist
    there. *)
Definition input_ierr_text (e : ierr) : bytes :=
  match e with
  | IDuplicateKey k => str "duplicate key: " ++ key_text k
  | IDeser _ => str "error deserializing raw value"
  | IInvalidKeyDataEmpty k => str "key should contain data: " ++ key_text k
  | IInvalidKeyDataNotEmpty k => str "key should not contain data: " ++ key_text k
  | IHashPreimage _ _ _ => str "invalid hash preimage"
  | IKeyWrongLength got expected =>
      str "key wrong length (got: " ++ dec_text got ++ str ", expected: " ++ dec_text expected ++ str ")"
  | IValueWrongLength got expected =>
      str "value wrong length (got: " ++ dec_text got ++ str ", expected: " ++ dec_text expected ++ str ")"
  | _ => []
  end.

(** src/v2/map/input.rs:879-893 [Display for DecodeError]. *)
Definition iderr_text (e : iderr) : bytes :=
  match e with
  | IDInsertPair _ => str "error inserting a key-value pair"
  | IDDeserPair _ => str "error decoding pair"
  | IDMissingPreviousTxid => str "input must contain a previous txid"
  | IDMissingSpentOutputIndex => str "input must contain a spent output index"
  | IDFieldMismatch => str "ECDH shares and DLEQ proofs must both be present or both absent"
  end.

(** src/v2/map/input.rs:1019-1021 [Display for HashType]: [stringify!(self)] is the word itself. *)
Definition hash_type_text (h : hash_type) : bytes := str "self".
(** src/v2/map/input.rs:988-998 [Display for HashPreimageError]. *)
Definition preimage_text (h : hash_type) (preimage hash : bytes) : bytes :=
  str "invalid hash preimage " ++ hash_type_text h ++ str " " ++ hex_text preimage ++ str " " ++ hex_text hash.

(** src/v2/map/output.rs:408-424 [Display for InsertPairError]; other errors of [ierr] do not exist
    there. *)
Definition output_ierr_text (e : ierr) : bytes :=
  match e with
  | IDuplicateKey k => str "duplicate key: " ++ key_text k
  | IDeser _ => str "error deserializing raw value"
  | IInvalidKeyDataEmpty k => str "key should contain data: " ++ key_text k
  | IInvalidKeyDataNotEmpty k => str "key should not contain data: " ++ key_text k
  | IValueWrongLength got expected =>
      str "value wrong length (got: " ++ dec_text got ++ str ", expected: " ++ dec_text expected ++ str ")"
  | _ => []
  end.

(** src/v2/map/output.rs:361-373 [Display for DecodeError]. *)
Definition oderr_text (e : oderr) : bytes :=
  match e with
  | ODInsertPair _ => str "error inserting a pair"
  | ODDeserPair _ => str "error deserializing a pair"
  | ODMissingValue => str "encoded output is missing a value"
  | ODMissingScriptPubkey => str "encoded output is missing a script pubkey"
  | ODLabelWithoutInfo => str "output has a sp_v0_label without a sp_v0_info"
  end.

(** ** Causes *)

(** The errors that [Error::source] gives.  The errors of other crates, and the unit-like ones of
    src/version.rs:62-77, are ends of the chain. *)
Inductive cause : Type :=
| CGlobalPair (e : ierr)
| CInputPair (e : ierr)
| COutputPair (e : ierr)
| CValue (e : serr)
| CPreimage (ht : hash_type) (preimage hash : bytes)
| CVersion (n : N)
| CForeign.

(** src/serialize.rs:477-507 [Error::source]. *)
Definition serr_source (e : serr) : option cause :=
  match e with
  | SInvalidHash | SConsensusEncoding _ | SLockTime => Some CForeign
  | SUnsupportedVersion n => Some (CVersion n)
  | _ => None
  end.
(** src/serialize.rs:379-434: the variants that hold an error of another type.  [InvalidDleqProof]
    (line 434) holds one too, but its text shows all of it. *)
Definition serr_holds (e : serr) : option cause :=
  match e with
  | SInvalidHash | SConsensusEncoding _ | SInvalidPublicKey | SInvalidSecp256k1PublicKey
  | SInvalidEcdsaSignature | SInvalidTaprootSignature | STapTree | SLockTime => Some CForeign
  | SUnsupportedVersion n => Some (CVersion n)
  | _ => None
  end.

(** src/v2/map/global.rs:693-715 [Error::source]. *)
Definition global_ierr_source (e : ierr) : option cause :=
  match e with IDeser s => Some (CValue s) | IConsensus _ | IBip32 => Some CForeign | _ => None end.
(** src/v2/map/input.rs:953-967 [Error::source]. *)
Definition input_ierr_source (e : ierr) : option cause :=
  match e with
  | IDeser s => Some (CValue s)
  | IHashPreimage ht preimage hash => Some (CPreimage ht preimage hash)
  | _ => None
  end.
(** src/v2/map/output.rs:426-437 [Error::source]. *)
Definition output_ierr_source (e : ierr) : option cause :=
  match e with IDeser s => Some (CValue s) | _ => None end.

(** src/v2/map/global.rs:591-608 [Error::source]. *)
Definition gderr_source (e : gderr) : option cause :=
  match e with GDInsertPair e => Some (CGlobalPair e) | GDDeserPair s => Some (CValue s) | _ => None end.
(** src/v2/map/input.rs:895-908 [Error::source]. *)
Definition iderr_source (e : iderr) : option cause :=
  match e with IDInsertPair e => Some (CInputPair e) | IDDeserPair s => Some (CValue s) | _ => None end.
(** src/v2/map/output.rs:376-388 [Error::source]. *)
Definition oderr_source (e : oderr) : option cause :=
  match e with ODInsertPair e => Some (COutputPair e) | ODDeserPair s => Some (CValue s) | _ => None end.

(** [Display] of a cause; src/version.rs:66-70 for [CVersion].  The texts of other crates are not
    modelled. *)
Definition cause_text `{C : Cfg} (c : cause) : bytes :=
  match c with
  | CGlobalPair e => global_ierr_text e
  | CInputPair e => input_ierr_text e
  | COutputPair e => output_ierr_text e
  | CValue e => serr_text e
  | CPreimage ht preimage hash => preimage_text ht preimage hash
  | CVersion n => str "unsupported version, we only support v0 and v2: " ++ dec_text n
  | CForeign => []
  end.
(** [Error::source] of a cause (also src/version.rs:73-76, src/v2/map/input.rs:1000-1003). *)
Definition cause_source (c : cause) : option cause :=
  match c with
  | CGlobalPair e => global_ierr_source e
  | CInputPair e => input_ierr_source e
  | COutputPair e => output_ierr_source e
  | CValue e => serr_source e
  | CPreimage _ _ _ | CVersion _ | CForeign => None
  end.

(** ** src/v0/bitcoin/error.rs *)

(** [{:?}] of a slice of bytes (src/v0/bitcoin/error.rs:145): the numbers, separated by ", ". *)
Fixpoint debug_items (bs : bytes) : bytes :=
  match bs with
  | [] => []
  | [b] => dec_text (b2n b)
  | b :: bs' => dec_text (b2n b) ++ str ", " ++ debug_items bs'
  end.
(** [{:?}] of a slice of bytes (src/v0/bitcoin/error.rs:145). *)
Definition debug_bytes (bs : bytes) : bytes := str "[" ++ debug_items bs ++ str "]".

(** src/v0/bitcoin/error.rs:15-22: [Debug for PsbtHash] is derived. *)
Definition hash_name (ht : hash_type) : bytes :=
  match ht with HRipemd => str "Ripemd" | HSha256 => str "Sha256" | HHash160 => str "Hash160" | HHash256 => str "Hash256" end.

(** The strings of [XPubKey] (src/v0/bitcoin/map/global.rs:129-160). *)
Definition xpub0_text (n : N) : bytes :=
  match n with
  | 0 => str "Can't deserialize ExtendedPublicKey from global XPUB key data"
  | 1 => str "Incorrect length of global xpub derivation data"
  | 2 => str "Can't read global xpub fingerprint"
  | 3 => str "Repeated global xpub key"
  | _ => str "Xpub global key must contain serialized Xpub data"
  end.
(** The strings of [Version] (src/v0/bitcoin/map/global.rs:171-181). *)
Definition version0_text (n : N) : bytes :=
  match n with
  | 0 => str "invalid global version value length (must be 4 bytes)"
  | _ => str "PSBT versions greater than 0 are not supported"
  end.

(** src/v0/bitcoin/error.rs:113-172 [Display for Error], with the text of a transaction id and of an
    extended public key, which are those of rust-bitcoin, as parameters.  The string of [Taproot] is
    not part of the model's error. *)
Definition err0_text `{C : Cfg} (txid_text : tx -> bytes) (xpub_text : xpub -> bytes) (e : err0) : bytes :=
  match e with
  | E0InvalidMagic => str "invalid magic"
  | E0MissingUtxo => str "UTXO information is not present in PSBT"
  | E0InvalidSeparator => str "invalid separator"
  | E0PsbtUtxoOutOfbounds => str "output index is out of bounds of non witness script output array"
  | E0InvalidKey k => str "invalid key: " ++ key_text k
  | E0InvalidProprietaryKey => str "non-proprietary key type found when proprietary key was expected"
  | E0DuplicateKey k => str "duplicate key: " ++ key_text k
  | E0UnsignedTxHasScriptSigs => str "the unsigned transaction has script sigs"
  | E0UnsignedTxHasScriptWitnesses => str "the unsigned transaction has script witnesses"
  | E0MustHaveUnsignedTx => str "partially signed transactions must have an unsigned transaction"
  | E0NoMorePairs => str "no more key-value pairs for this psbt map"
  | E0UnexpectedUnsignedTx expected actual =>
      str "different unsigned transaction: expected " ++ txid_text expected ++ str ", actual " ++ txid_text actual
  | E0NonStandardSighashType n => str "non-standard sighash type: " ++ dec_text n
  | E0InvalidHash => str "invalid hash when parsing slice"
  | E0InvalidPreimageHashPair ht preimage hash =>
      str "Preimage " ++ debug_bytes preimage ++ str " does not match " ++ hash_name ht ++ str " hash " ++ debug_bytes hash
  | E0CombineInconsistentKeySources x => str "combine conflict: " ++ xpub_text x
  | E0ConsensusEncoding _ => str "bitcoin consensus encoding error"
  | E0NegativeFee => str "PSBT has a negative fee which is not allowed"
  | E0FeeOverflow => str "integer overflow in fee calculation"
  | E0InvalidPublicKey => str "invalid public key"
  | E0InvalidSecp256k1PublicKey => str "invalid secp256k1 public key"
  | E0InvalidXOnlyPublicKey => str "invalid xonly public key"
  | E0InvalidEcdsaSignature => str "invalid ECDSA signature"
  | E0InvalidTaprootSignature => str "invalid taproot signature"
  | E0InvalidControlBlock => str "invalid control block"
  | E0InvalidLeafVersion => str "invalid leaf version"
  | E0Taproot => str "taproot error -  "
  | E0TapTree => str "taproot tree error"
  | E0XPubKey n => str "xpub key error -  " ++ xpub0_text n
  | E0Version n => str "version error " ++ version0_text n
  | E0PartialDataConsumption => str "data not consumed entirely when explicitly deserializing"
  | E0Io => str "I/O error"
  | E0ExcludedKey t => str "found a keypair type that is explicitly excluded: " ++ in_name t
  end.

(** src/v0/bitcoin/error.rs:174-215 [Error::source]: whether there is one. *)
Definition err0_source (e : err0) : bool :=
  match e with E0InvalidHash | E0ConsensusEncoding _ | E0Io => true | _ => false end.
(** src/v0/bitcoin/error.rs:26-112: the variants that hold an error of another type. *)
Definition err0_holds (e : err0) : bool :=
  match e with
  | E0InvalidHash | E0ConsensusEncoding _ | E0InvalidPublicKey | E0InvalidSecp256k1PublicKey
  | E0InvalidEcdsaSignature | E0InvalidTaprootSignature | E0TapTree | E0Io => true
  | _ => false
  end.
