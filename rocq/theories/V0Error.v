(** Model of src/v0/bitcoin/error.rs. *)
From Verif Require Import Base Consensus Ext Raw Serialize MapCodec.
Local Open Scope N_scope.

(** src/v0/bitcoin/error.rs:26-112 [Error].  Payloads of external error types are dropped;
    the strings of [XPubKey] and [Version] are numbered in the order of
    src/v0/bitcoin/map/global.rs. *)
Inductive err0 : Type :=
| E0InvalidMagic
| E0MissingUtxo
| E0InvalidSeparator
| E0PsbtUtxoOutOfbounds
| E0InvalidKey (k : key)
| E0InvalidProprietaryKey
| E0DuplicateKey (k : key)
| E0UnsignedTxHasScriptSigs
| E0UnsignedTxHasScriptWitnesses
| E0MustHaveUnsignedTx
| E0NoMorePairs
| E0UnexpectedUnsignedTx (expected actual : tx)
| E0NonStandardSighashType (n : N)
| E0InvalidHash
| E0InvalidPreimageHashPair (ht : hash_type) (preimage hash : bytes)
| E0CombineInconsistentKeySources (x : xpub)
| E0ConsensusEncoding (e : cerr)
| E0NegativeFee
| E0FeeOverflow
| E0InvalidPublicKey
| E0InvalidSecp256k1PublicKey
| E0InvalidXOnlyPublicKey
| E0InvalidEcdsaSignature
| E0InvalidTaprootSignature
| E0InvalidControlBlock
| E0InvalidLeafVersion
| E0Taproot
| E0TapTree
| E0XPubKey (message : N)
| E0Version (message : N)
| E0PartialDataConsumption
| E0Io
| E0ExcludedKey (t : byte).

(** The errors of the value codecs (src/v0/bitcoin/serialize.rs:115-388,
    src/v0/bitcoin/raw.rs, src/v0/bitcoin/error.rs:217-227), which Serialize.v and Raw.v
    name after those of src/serialize.rs.  The last five do not occur in v0. *)
Definition err0_of_serr (e : serr) : err0 :=
  match e with
  | SNotEnoughData => E0Io
  | SInvalidProprietaryKey => E0InvalidProprietaryKey
  | SNoMorePairs => E0NoMorePairs
  | SNonStandardSighashType n => E0NonStandardSighashType n
  | SInvalidHash => E0InvalidHash
  | SConsensusEncoding e => E0ConsensusEncoding e
  | SInvalidPublicKey => E0InvalidPublicKey
  | SInvalidSecp256k1PublicKey => E0InvalidSecp256k1PublicKey
  | SInvalidXOnlyPublicKey => E0InvalidXOnlyPublicKey
  | SInvalidEcdsaSignature => E0InvalidEcdsaSignature
  | SInvalidTaprootSignature => E0InvalidTaprootSignature
  | SInvalidControlBlock => E0InvalidControlBlock
  | SInvalidLeafVersion => E0InvalidLeafVersion
  | STaproot => E0Taproot
  | STapTree => E0TapTree
  | SPartialDataConsumption => E0PartialDataConsumption
  | SLockTime | SUnsupportedVersion _ | SInvalidScanKey _ _ | SInvalidEcdhShare _ _ | SInvalidDleqProof _ _ => E0Io
  end.

(** The errors of the insertion macros (src/v0/bitcoin/macros.rs:88-116) and of the arms of
    the [match]es on the key type, which MapCodec.v names after those of src/v2.  The last
    eight do not occur in v0. *)
Definition err0_of_ierr (e : ierr) : err0 :=
  match e with
  | IDuplicateKey k => E0DuplicateKey k
  | IInvalidKeyDataEmpty k => E0InvalidKey k
  | IInvalidKeyDataNotEmpty k => E0InvalidKey k
  | IDeser e => err0_of_serr e
  | IConsensus e => E0ConsensusEncoding e
  | IExcludedKey t => E0ExcludedKey t
  | IHashPreimage t p h => E0InvalidPreimageHashPair t p h
  | IXPubKey0 n => E0XPubKey n
  | IVersion0 n => E0Version n
  | IValueWrongLength _ _ | IKeyWrongLength _ _ | IWrongVersion _ | IXpubInvalidFingerprint
  | IXpubInvalidPath _ | IBip32 | IDuplicateXpub _ | IInvalidProprietaryKey => E0Io
  end.
