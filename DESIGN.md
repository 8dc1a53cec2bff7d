# Formal model of rust-psbt in Rocq (Coq 8.16.1)

The development lives in `rocq/theories` (logical name `Verif`).  It uses the
Coq standard library only.  The properties are in `properties.jsonl`, the
theorem names per property in `MANIFEST.json`, the attempts to break the
theorems with wrong programs in `seeded/LOG.jsonl`.

## 1. Method

* Every Rust function in scope becomes a total Gallina function with a comment
  citing file and lines.  `Result` is data, a panic is the explicit value
  `Panic` of the result type `res`, `&mut self` becomes "returns the new value".
* Bytes are `Coq.Init.Byte.byte`, so every `list byte` is a legal `Vec<u8>` /
  `&[u8]` and nothing has to be assumed about byte ranges.
* `u32`, `u64`, `usize` values are `N`; a well-formedness predicate (`wf_…`)
  says that a field fits its Rust type.  `usize` is 64 bits.  The transaction
  version (`i32`) is the `u32` with the same bytes.
* `BTreeMap<K, V>` is a list of entries sorted by an injective *sort key*
  `K -> list N` whose lexicographic order is Rust's `Ord` on `K` (file `OMap.v`).
  Sorted lists make map equality Leibniz equality.
* Readers are functions `bytes -> res E (A * bytes)`.
* Compile time features: the `silent-payments` feature and debug assertions are
  booleans of a configuration record; theorems quantify over both values.
* External code (hash functions, elliptic curve membership, DER parsing,
  signing, signature digests, BIP-32 derivation, miniscript) enters through
  classes of functions over which all theorems quantify.  Where a
  theorem needs a law about them (for example "the canonical form of a parsed
  key parses to itself") the law is a hypothesis of the theorem (class of laws)
  and an instance satisfying all laws is constructed, so that no theorem is
  vacuous.  Nothing is an `Axiom`.
* rust-bitcoin's consensus encoding (compact size, byte vectors, `TxOut`,
  `TxIn`, `Witness`, `Transaction`, weight) is modelled concretely in
  `Consensus.v`, because the properties talk about bytes and weights.
* Specifications (`Spec*.v`) are written from the BIPs and the documentation,
  mostly as inductive relations, and do not use the functions of the model
  except for the data types and (where a value is quoted) the encoders proved
  correct elsewhere.
* A property that is false of the code is kept with its statement, refuted by a
  concrete witness (`…_refuted`), and the strongest weakening found is proved
  (`…_partial`, or an exact characterization).

## 2. Files

| file | content |
| --- | --- |
| `Base.v` | results with panic, bytes, little endian integers, lexicographic order |
| `OMap.v` | `BTreeMap` |
| `Consensus.v` | rust-bitcoin consensus encoding used by this crate |
| `Ext.v`, `ExtInstance.v` | hash functions, keys, DER, configuration; their laws; a concrete instance |
| `Raw.v` | `src/raw.rs`, `src/v0/bitcoin/raw.rs` |
| `TapTree.v` | `TaprootBuilder`, `TapTree` of rust-bitcoin as `src/serialize.rs` uses them |
| `Serialize.v` | `src/serialize.rs`, `src/v0/bitcoin/serialize.rs`, `src/version.rs`, `src/v2/dleq.rs`, `src/consts.rs` |
| `MapCodec.v` | `src/macros.rs`, `src/v0/bitcoin/macros.rs`: the table driven part of the maps |
| `Script.v`, `SighashType.v` | script templates, `src/sighash_type.rs` |
| `V2Global.v`, `V2Input.v`, `V2Output.v` | `src/v2/map/*.rs` |
| `V2Psbt.v` | `src/v2/mod.rs` (serialization, lock time, id), `src/v2/extract.rs` |
| `V2Roles.v` | `src/v2/mod.rs`: Creator, Constructor, Updater, Signer, Extractor types |
| `V2Sign.v` | `src/v2/mod.rs`: signing, key providers, sighash |
| `V2Finalize.v` | `src/v2/miniscript/*.rs` |
| `V0Error.v`, `V0Input.v`, `V0Output.v`, `V0Psbt.v` | `src/v0/bitcoin/map/*.rs`, `src/v0/bitcoin/mod.rs` (codec, combine, fee, extraction) |
| `V0Sign.v` | `src/v0/bitcoin/mod.rs` (signing), `src/v0/mod.rs` (`signer_checks`, roles) |
| `V0Finalize.v` | `src/v0/miniscript/finalizer.rs`, finalizing and extraction in `src/v0/miniscript/mod.rs`, its satisfier |
| `V0Update.v` | updates with descriptors and `sighash_msg` in `src/v0/miniscript/mod.rs` |
| `Text.v` | `FromStr`/`Display` of PSBTs (base64), `Display` and `source` of errors |
| `CombineMut.v` | `src/v0/bitcoin/mod.rs` and `src/v2/map/global.rs`: what combining in place leaves behind when it fails |
| `ErrorText.v` | `Display` and `source` of the decoding errors, `src/consts.rs` (names) |
| `RoleErrorText.v` | `Display` and `source` of the errors of the roles |
| `Serde.v` | `src/serde_utils.rs`, the derived `Serialize`/`Deserialize` of all types, `src/v2/dleq.rs` (serde) |
| `Sample*.v`, `*Instance*.v` | concrete PSBTs and instances of the classes for the examples |
| `RealExt.v`, `RealSign.v`, `RealTaproot.v` | SHA-256, RIPEMD-160, secp256k1, DER, RFC 6979 signatures as functions that can be evaluated; used by the vectors and by examples; the laws of `Ext` are proved of `real_root` (`RealLaws.v`, C149), which differs from `real` only in deciding by a square root instead of a Jacobi symbol whether x is on the curve; of the laws of signing only the lengths of digests (C71_digest) |
| `Vectors.v`, `VectorsSign.v`, `VectorsV0.v` | the test vectors of the repository (BIP-174, BIP-370, BIP-371, BIP-375, signing and finalizing), evaluated in the model (the signing workflow at compile time by `Check`, the others as proofs) |
| `Spec*.v` | specifications |
| `*Facts.v` | proofs |
| `Properties*.v` | the property theorems only, each with an example and `Print Assumptions` |

## 3. Properties: method of proof

Round-trip and codec properties (C01–C03, C10, C14, C15, C43, C45, C54): each
reader has a lemma `dec (enc a ++ rest) = Ok (a, rest)` for well-formed `a`, the
canonical ones also the converse; map decoding is shown equivalent to "parse the
pair list, then fold the insertion function", which gives a grammar of accepted
byte strings from which C04–C07, C09, C11–C13, C46, C56, C73–C77 follow by
induction on the list of pairs.

* C16–C25, C29, C44: operational model of the role types, induction over call
  sequences; declarative BIP-370 lock time specification; exact arithmetic in `N`.
* C30–C34, C60–C65, C81–C87: signing with abstract key provider, digest and
  signature functions; the result is given per input by an inductive
  specification that is shown to be functional.
* C35–C40, C57, C58: combining, per key type.
* C114, C115: combining three and more; commutativity and associativity on
  compatible PSBTs give every order and grouping.
* C41, C42: character level model of `Display` / `from_str_radix`.
* C47–C49, C79, C80: v0 fee, extraction, signer checks.
* C27, C28, C50–C53, C66–C72, C78, C88–C93: finalizers, miniscript as a parameter.
* C94, C95: base64, specified bit by bit.
* C96–C104: updater, and what the signer makes of updated inputs.
* C116: well-formedness, which is what the round trip needs, after an update.
* C117: updater, signer, finalizer and extractor after one another, for outputs
  of single keys, from the theorems about each of them.
* C118: any tree of signing and combining v0 PSBTs; the result is shown to be
  the first PSBT with the signatures that each signer makes alone.
* C119: the same for v2, with the flags; copies that nobody has signed are
  treated apart, because combining keeps the flags of the first copy.
* C120: C117 with C118: several signers of whom each has some of the keys.
* C121–C123, C59: formats written out from the BIPs (`SpecTx.v`, `SpecFields.v`,
  `SpecFields0.v`, `SpecTapTree.v`), shown equivalent to the encoders and readers;
  they rule out codecs whose two halves are wrong in the same way.
* C124, C125: what becomes of each pair that is read and written again
  (`SpecKept.v`: the forms in which a value may come back), field by field.
* C126: any sequence of calls on the v2 creator, a constructor and the builders gives the PSBT
  asked for (SpecBuild.v reads the answer off the list of calls; PropertiesBuild.v)
* C127, C128: histories (SpecHistory.v, SpecHistory0.v): where a PSBT comes from and any number of
  role steps in any order; well-formedness and the transaction are invariants of the steps.
* C129, C130: for each key type the ways in which a pair is refused and the error for each
  (`SpecErrors.v`); the decoders only ever return such an error, about a pair that is there.
* C131–C134: texts and causes of these errors (`ErrorText.v`); texts are read back: a word
  over an alphabet followed by something outside of it ends where it must.
* C135, C136: the errors of combining, both directions (`SpecCombineErr.v`), and the value left by
  a failure (`CombineMut.v`), which is the merge of a prefix of the xpubs.
* C137: the problems an input can have (`SpecFinalizeErr.v`), stated about the script and the fields,
  for both finalizers at once; both are shown to walk through the same decision.
* C138: the words of the texts, with numbers and hex read by separate relations
  (`SpecErrorQuote.v`); the pair is the one of C129.
* C139: the faults of a value (`SpecValueErrors.v`), one relation per kind of value; every parser
  is shown to fail with an end of input on each proper prefix of what it reads (`cuts`).
* C140, C141: the texts of the errors of the roles (`RoleErrorText.v`: `Display` and `source`) and,
  in `SpecRoleErrors.v` and `SpecDigestErrors.v`, the words beside the facts about the PSBT that they tell; printing of
  rust-bitcoin types and texts of other crates are parameters (`printers`).
* C142–C144: functions for callers that the roles do not use (`Conversions.v`), with the words of
  the signer checks beside what they claim (`SpecConversions.v`).
* C145: the v0 form of a v2 PSBT and the errors that name the same problem (`SpecTwoVersions.v`); for the finalizer, satisfiers with the same answers and the locks that both versions see (`SpecTwoFinalize.v`); for the combiner, the same transaction and the same ends, and the key types of version 2 only (`SpecTwoCombine.v`); for the readers, the pairs of the other types (`SpecTwoRead.v`).
* C146: the decoders of both versions accept exactly the byte strings of a format written from the BIPs (`SpecAccept.v`), with the deviations of the code marked.
* C147: what the public `interpreter_check` answers for every PSBT; it panics for PSBTs that are not finalized or that have no utxos.
* C148: PSBTs with silent payment data pass through builds without the feature as unknown pairs (`SpecBuilds.v`); outputs without script and disagreeing outputs are the exceptions.
* C149: the laws assumed of hashes, keys and DER signatures (`ExtLaws`) hold of functions written from the standards (`RealLaws.v`, `SpecReal.v`); the field is proved prime (`NumTheory.v`).
* C150: equal messages mean equal content, up to a SHA-256 collision, for the digests of BIP-341 (`RealTaproot.v`) and BIP-143 (`DigestFacts.v`, `SpecCommit.v`); the law `AnyoneLaws` is proved of the former.
* C151: the same for version 2 (`SpecCommit2.v`): messages and ids, with the lock time of BIP-370; the sequence number that is signed is not the one that is extracted.
* C152: what `signer_checks` adds to C150: the transaction ids fix the amounts, but only of inputs without witness utxo.
* `SpecPush.v` reads pushes from scripts as the script interpreter does; used to state C68 without `push_slice`.
* Collisions: `collision_found` (C150 to C152) is true by counting, so those theorems alone say little as propositions. `PropertiesCollision.v` proves each with the colliding strings named (`SpecCollision.v`: the strings that BIP-143, BIP-341, legacy digests and ids hash); `PropertiesMerkleDamgard.v` leads a collision of SHA-256 back to its compression function.
* C105–C113: serde; a deserializer of a struct is shown to depend only on the
  lookup of its members, a map on the last value of each key.

The manifest says which properties are false of the code as stated
(`partial`), with the reason.

## 4. Trusted base

* The Coq kernel (8.16.1).
* Axioms: **none**.  `Print Assumptions` answers "Closed under the global
  context" for every theorem listed in the manifest; the command is repeated
  under each theorem in the `Properties*.v` files.
* The reading of the Rust source: the model is hand written, function by
  function, with citations.  The test vectors of the repository are evaluated in
  the model (`Vectors*.v`).
* The reading of rust-bitcoin 0.32, miniscript 12 and base64 0.21 where they are
  modelled concretely: consensus encoding, `TaprootBuilder`, script templates,
  `Vec::with_capacity`, the engine of base64.

### 4.1 Parameters of the theorems

No theorem assumes a law that does not appear among its hypotheses.

| class | stands for | laws |
| --- | --- | --- |
| `Ext` | SHA-256, RIPEMD-160, public key and x-only key parsing, DER parsing, tap leaf and node hashes | `ExtLaws`: lengths, canonical forms parse to themselves; proved of real functions by C149 |
| `Cfg` | feature `silent-payments`, debug assertions, sizes of `Input` and `Output` in memory | `CfgLaws`: the sizes are positive |
| `SignExt` | legacy and segwit digests, ECDSA, public key of a secret key, extended private keys | `SignLaws`: public keys are points, signatures are DER and verify |
| `SchnorrExt` | taproot digest, tweaks, Schnorr signatures without auxiliary randomness | `SchnorrLaws`: signatures have 64 bytes and verify, tweaked keys match; `AnyoneLaws`: with ANYONECANPAY the digest uses one of the outputs spent; proved of the digest of BIP-341 by C150 |
| `MsExt` | rust-miniscript: parsing, substitution, encoding, satisfaction (malleable), interpreter | `MsLaws`: parsing and encoding are inverse, pushes of a scriptSig |
| `MsExt` with `SignExt` and `SchnorrExt` | (C117, C120 only) | `KeySpendLaws`: the interpreter accepts spends of single keys whose signature verifies; no DER signature is as short as a number |
| `MsNmExt` | satisfaction that is not malleable | `MsNmLaws`: bare scripts that need a signature |
| `SerdeExt` | serde implementations of rust-bitcoin's types | `SerdeLaws`: what is written is read back, only values of the type are read, never written as null, JSON in human readable formats |
| `DescExt` | parity of taproot output keys | `DescLaws`: output keys have 32 bytes |

Instances with all laws: `ExtInstance.v`, `SignInstance.v`, `SchnorrInstance.v`,
`MsInstance.v`, `MsInstance0.v`, `KeyInstance.v`, `DescInstance.v`, `SerdeInstance.v`.  They are simple functions
chosen for examples, not the real ones.

### 4.2 Simplifications

* External functions do not panic: the functions of rust-miniscript (satisfier,
  interpreter, descriptors), `tap_tweak`, the signing functions.  Key providers
  are functions without state.
* `SighashCache` is its result; caching cannot be observed.
* Descriptors (`V0Update.v`) are given by their derived keys, scripts and trees.
* `Vec::with_capacity` panics exactly beyond `isize::MAX` bytes; running out of
  memory below that is not modelled.
* The limit of `Decodable::consensus_decode` on a whole value (`Take`) is the
  4,000,000 bytes of `MAX_VEC_SIZE`.
* Which `DecodeError` of base64 is returned is not modelled.
* Texts of errors: those of the decoders and of the roles in builds with std (`ErrorText.v`,
  `RoleErrorText.v`), without the string of `Taproot` and the texts of other crates.
* Two tap trees are equal for `==` if their root hashes are; the model keeps the
  trees and states where the difference matters.

* A serde format is a faithful carrier of serde's data model: the deserializer
  is given the tree of the serializer.  `Option` and newtypes are transparent as
  in JSON, errors of serde are `None`.  What the code asks of a format is
  whether it is human readable and whether it lends strings.

### 4.3 Not modelled

* `src/v2/error.rs`, `src/v0/bitcoin/error.rs`: the conversions between error
  types that only wrap.
* `v2::DecodeError` (`src/v2/mod.rs:1195-1256`): no function of the crate
  returns it, decoding returns `DeserializeError`.
* Re-exports (`src/lib.rs`, `src/prelude`), `Debug`, `Hash`, `Clone`.
* The examples and tests, except for the vectors evaluated in `Vectors*.v`.
* Timing, memory exhaustion, thread safety.
