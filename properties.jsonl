{"id": "C01", "title": "v2 PSBT serialization round trip", "statement": "For every v2 Psbt value whose counts equal the numbers of its inputs and outputs, whose inputs name a real outpoint, whose outputs have a non-zero amount and a non-empty script, and whose keys and values respect the size limits of the format, Psbt::deserialize(psbt.serialize()) returns Ok of exactly that value.", "quantifier": "all v2 Psbt values (any number of inputs, outputs, map entries, any byte contents, with and without the silent-payments feature)", "why_tests_cant": "the space of values is infinite in four nested dimensions; unit tests fix a handful of hex vectors and never combine fields", "anchors": ["src/v2/mod.rs: Psbt::serialize, Psbt::deserialize", "src/v2/map/global.rs", "src/v2/map/input.rs", "src/v2/map/output.rs"]}
{"id": "C02", "title": "Decoded v2 PSBTs are stable", "statement": "Whenever Psbt::deserialize(bytes) is Ok(p), p.serialize() deserializes to Ok(p) again, so storing and forwarding a received PSBT never changes its meaning and never makes it unreadable.", "quantifier": "all byte strings", "why_tests_cant": "needs every accepted byte string, including non canonical ones (uncompressed keys, 65 byte taproot signatures, trailing bytes in counts)", "anchors": ["src/v2/mod.rs: Psbt::deserialize, Psbt::serialize"]}
{"id": "C03", "title": "Serialized maps never contain a duplicate key", "statement": "In the byte string produced by Psbt::serialize for a well-formed PSBT, each of the global, input and output maps is a sequence of key-value pairs with pairwise distinct keys followed by the 0x00 terminator, in the order magic, global, inputs, outputs.", "quantifier": "all well-formed v2 Psbt values", "why_tests_cant": "quantifies over all values and all pairs of positions inside each map", "anchors": ["src/v2/map/mod.rs: Map::serialize_map", "src/v2/map/*.rs: get_pairs"]}
{"id": "C04", "title": "Duplicate keys are rejected on decoding", "statement": "If two key-value pairs inside one map of a byte string carry the same key (type and key data), Psbt::deserialize does not return Ok.", "quantifier": "all byte strings, all maps, all pairs of positions", "why_tests_cant": "a test can only try some key types and some relative positions; the input-count check depends on the order of other pairs", "anchors": ["src/v2/map/global.rs: Global::decode (line 217-231)", "src/v2/map/input.rs: insert_pair", "src/v2/map/output.rs: insert_pair"]}
{"id": "C05", "title": "Unknown and proprietary pairs survive a decode/encode cycle", "statement": "For every byte string accepted by Psbt::deserialize, each pair whose key type the crate does not interpret, and each proprietary pair, is present with identical key and value bytes in the matching map of the re-serialized PSBT, and no other such pair is invented.", "quantifier": "all accepted byte strings, all pairs", "why_tests_cant": "unknown keys are by definition the ones tests do not know", "anchors": ["src/v2/map/*.rs: unknowns, proprietaries", "src/raw.rs: ProprietaryKey"]}
{"id": "C06", "title": "Magic and separator gate", "statement": "Psbt::deserialize returns Ok only for byte strings starting with the five bytes 70 73 62 74 ff; a wrong first four bytes gives InvalidMagic and a wrong or missing fifth byte gives InvalidSeparator; both for v2 and v0.", "quantifier": "all byte strings of any length including shorter than five bytes", "why_tests_cant": "all byte strings", "anchors": ["src/v2/mod.rs: Psbt::deserialize 614-629", "src/v0/bitcoin/serialize.rs: Psbt::deserialize 70-80"]}
{"id": "C07", "title": "No byte string is both a v0 and a v2 PSBT", "statement": "There is no byte string for which both v0::Psbt::deserialize and v2::Psbt::deserialize return Ok.", "quantifier": "all byte strings", "why_tests_cant": "a universally quantified exclusion between two independent parsers", "anchors": ["src/v0/bitcoin/map/global.rs: decode_global", "src/v2/map/global.rs: Global::decode"]}
{"id": "C08", "title": "v2 decoding never panics", "statement": "Psbt::deserialize(bytes) returns Ok or Err for every byte string; it never panics or aborts.", "quantifier": "all byte strings", "why_tests_cant": "panics hide on adversarial inputs, e.g. attacker chosen input counts used as a Vec capacity", "anchors": ["src/v2/mod.rs: Psbt::deserialize 631-651"]}
{"id": "C09", "title": "Decoding is local: bytes after a PSBT do not influence it, and what happens to them", "statement": "If Psbt::deserialize(b) is Ok(p) then Psbt::deserialize(b ++ t) is Ok(p) for every t (the decoder stops at the end of the last output map); in particular trailing garbage is not detected.", "quantifier": "all byte strings b and t", "why_tests_cant": "all pairs of byte strings", "anchors": ["src/v2/mod.rs: Psbt::deserialize"]}
{"id": "C10", "title": "Truncated PSBTs are rejected", "statement": "No proper prefix of the serialization of a well-formed v2 PSBT is accepted by Psbt::deserialize.", "quantifier": "all well-formed v2 Psbt values and all truncation points", "why_tests_cant": "every cut point of every value", "anchors": ["src/v2/mod.rs: Psbt::serialize, Psbt::deserialize"]}
{"id": "C11", "title": "Counts agree with contents after decoding", "statement": "If Psbt::deserialize returns Ok(p) then p.global.input_count = p.inputs.len(), p.global.output_count = p.outputs.len(), the PSBT version is 2, and every input has a non-zero previous txid and an output index other than 0xffffffff, and every output has a non-zero amount.", "quantifier": "all byte strings", "why_tests_cant": "all byte strings", "anchors": ["src/v2/mod.rs: Psbt::deserialize", "src/v2/map/input.rs: Input::decode", "src/v2/map/output.rs: Output::decode"]}
{"id": "C12", "title": "Hash preimages are checked", "statement": "In every PSBT (v0 or v2) obtained by deserialization, every RIPEMD160/SHA256/HASH160/HASH256 preimage stored in an input hashes to the key it is stored under.", "quantifier": "all byte strings, all inputs, all stored preimages, any hash functions", "why_tests_cant": "all byte strings", "anchors": ["src/v2/map/input.rs: psbt_insert_hash_pair 791-822", "src/v0/bitcoin/map/input.rs: psbt_insert_hash_pair 429-457"]}
{"id": "C13", "title": "Pair order inside a map is irrelevant", "statement": "Permuting the key-value pairs of any map of an accepted v2 byte string leaves the decoded PSBT unchanged.", "quantifier": "all accepted byte strings and all permutations of the pairs of each map", "why_tests_cant": "factorially many permutations of unboundedly many pairs", "anchors": ["src/v2/map/global.rs: Global::decode", "src/v2/map/input.rs: insert_pair", "src/v2/map/output.rs: insert_pair"]}
{"id": "C14", "title": "Compact sizes are canonical", "statement": "The compact-size integer codec used for every length and count is a bijection between u64 and accepted encodings: encoding then decoding returns the number and leaves the rest of the input untouched, and every accepted encoding is the one the encoder produces.", "quantifier": "all u64 values and all byte strings", "why_tests_cant": "2^64 values and all byte strings", "anchors": ["src/raw.rs: Key::decode, Key::serialize", "src/serialize.rs: v2_impl_psbt_de_serialize!(VarInt)"]}
{"id": "C15", "title": "Key-value pairs and proprietary keys round trip", "statement": "For every raw pair whose key data is at most MAX_VEC_SIZE bytes, decoding its serialization returns the pair and consumes exactly its bytes; distinct pairs have distinct serializations and no serialization is a prefix of another; for every proprietary key with at most 1024 key bytes ProprietaryKey::try_from(k.to_key()) is k.", "quantifier": "all pairs, all proprietary keys", "why_tests_cant": "all byte strings as keys and values", "anchors": ["src/raw.rs: Pair, Key, ProprietaryKey"]}
{"id": "C16", "title": "Counts always match what was constructed", "statement": "For every sequence of Creator and Constructor calls starting from Creator::new(), the PSBT returned by psbt() or updater() has input_count and output_count equal to the numbers of inputs and outputs, which are exactly the ones added, in order.", "quantifier": "all sequences of builder calls, for the three kinds of Constructor, including handing the PSBT to another Constructor", "why_tests_cant": "unbounded call sequences", "anchors": ["src/v2/mod.rs: Creator, Constructor"]}
{"id": "C17", "title": "The modifiable flags are respected", "statement": "A Constructor can be created from a PSBT only if the flags it needs are set, updater() yields a PSBT with both modifiable flags clear; and after no_more_inputs() (no_more_outputs()) no further input (output) can be added.", "quantifier": "all PSBTs and all call sequences", "why_tests_cant": "typestate property over all call sequences", "anchors": ["src/v2/mod.rs: Constructor::new, no_more_inputs, no_more_outputs, input, output, updater"]}
{"id": "C18", "title": "Lock time determination follows BIP-370", "statement": "Psbt::determine_lock_time agrees with BIP-370 for every PSBT: an error exactly when one input requires a time and another a height; otherwise the fallback (or 0) if no input requires anything; otherwise the maximum of the required heights if every input with a requirement has a height, else the maximum of the required times. It never panics.", "quantifier": "all PSBTs with any number of inputs and any combination of required lock times", "why_tests_cant": "4^n combinations of inputs and all values", "anchors": ["src/v2/mod.rs: Psbt::determine_lock_time 538-583", "src/v2/map/input.rs: 286-302"]}
{"id": "C19", "title": "The determined lock time satisfies every input and has the right unit", "statement": "If determine_lock_time succeeds then every input with a required lock time of the chosen kind is satisfied by it, every input with a requirement has a requirement of the chosen kind, and the result is a block height below 500000000 in the height case and at least 500000000 in the time case.", "quantifier": "all PSBTs obtained by decoding or by the builders", "why_tests_cant": "all combinations", "anchors": ["src/v2/mod.rs: Psbt::determine_lock_time", "src/serialize.rs: absolute::Height, absolute::Time"]}
{"id": "C20", "title": "The PSBT id is stable under updating and signing", "statement": "Updater::set_sequence, adding signatures, and clearing modifiable flags never change the PSBT's id; the id is determined by transaction version, determined lock time, outpoints, amounts and scripts only, and two PSBTs with different such data have different id preimages.", "quantifier": "all PSBTs, all sequences of updates", "why_tests_cant": "unbounded update histories", "anchors": ["src/v2/mod.rs: Psbt::id 512, Updater::set_sequence 398"]}
{"id": "C21", "title": "Role constructors make id() and unsigned_tx() infallible", "statement": "Updater::id, Signer::id, Signer::unsigned_tx and Extractor::id never panic and never fail for any value of these types obtainable through the public API.", "quantifier": "all PSBTs accepted by the role constructors and all sequences of role operations", "why_tests_cant": "unbounded histories", "anchors": ["src/v2/mod.rs: Updater, Signer", "src/v2/extract.rs: Extractor"]}
{"id": "C22", "title": "Modifiable flags after signing follow BIP-370", "statement": "After signing with sighash type t: the inputs-modifiable flag is cleared unless t has ANYONECANPAY, the outputs-modifiable flag is cleared unless t is NONE, the has-SIGHASH_SINGLE flag is set if t is SINGLE, every other bit is unchanged, and no modifiable flag is ever set by signing.", "quantifier": "all 256 flag bytes, all sighash bytes, all sequences of signings", "why_tests_cant": "all histories of signings", "anchors": ["src/v2/mod.rs: Psbt::clear_tx_modifiable 691-710"]}
{"id": "C23", "title": "Fee computation is exact", "statement": "Psbt::fee (v2) returns Ok(f) exactly when every input has a funding utxo, both sums fit in u64 and the outputs do not exceed the inputs, and then f is the mathematical difference of the sums; otherwise it returns the error naming the first cause; it never wraps or panics.", "quantifier": "all PSBTs, all amounts", "why_tests_cant": "sums over unboundedly many 64-bit values", "anchors": ["src/v2/mod.rs: Psbt::fee 951-967"]}
{"id": "C24", "title": "Fee rate limit is enforced on extraction", "statement": "extract_tx, extract_tx_fee_rate_limit and extract_tx_with_fee_rate_limit return a transaction only if the PSBT's fee, divided by the weight of that transaction, is at most the limit (25000 sat/vB by default); FeeTooHigh is returned exactly when the rounded-down rate exceeds the limit.", "quantifier": "all finalized PSBTs and all limits, for fees up to 2^64/1000 satoshi", "why_tests_cant": "all amounts and sizes", "anchors": ["src/v2/extract.rs: 52-103"]}
{"id": "C25", "title": "Extraction copies exactly what the PSBT says", "statement": "For every Extractor the extracted transaction has the PSBT's transaction version and determined lock time, one input per PSBT input in order with its outpoint, final scriptSig, final witness and sequence (0xffffffff if absent), and one output per PSBT output in order; extraction neither fails nor panics apart from the fee checks; Extractor::new accepts exactly the finalized PSBTs with a determinable lock time.", "quantifier": "all PSBTs", "why_tests_cant": "all PSBTs", "anchors": ["src/v2/extract.rs", "src/v2/map/input.rs: signed_tx_in 318-331"]}
{"id": "C26", "title": "The extracted transaction is the one that was signed", "statement": "For every finalized PSBT the extracted transaction, stripped of scriptSigs and witnesses, equals the unsigned transaction that Signer::unsigned_tx hands to signers (otherwise the signatures are void).", "quantifier": "all finalized PSBTs", "why_tests_cant": "all values of the optional sequence field", "anchors": ["src/v2/map/input.rs: unsigned_tx_in 305-313, signed_tx_in 318-331"]}
{"id": "C27", "title": "Finalizing keeps the transaction", "statement": "Finalizing an input keeps everything that determines the transaction: the id of the PSBT and the unsigned transaction (lock time, sequences) are the same before and after finalization.", "quantifier": "all PSBTs, all final scripts and witnesses", "why_tests_cant": "all combinations of sequence and lock time requirements", "anchors": ["src/v2/map/input.rs: Input::finalize 213-271", "src/v2/miniscript/finalize.rs: Finalizer::finalize 57-72"]}
{"id": "C28", "title": "A finalized PSBT is recognized as finalized", "statement": "If every input was finalized successfully by the Finalizer then is_finalized() holds and Extractor::new accepts the PSBT, for segwit as well as legacy inputs.", "quantifier": "all PSBTs and all finalization results", "why_tests_cant": "all mixtures of legacy and segwit inputs", "anchors": ["src/v2/map/input.rs: Input::finalize, is_finalized"]}
{"id": "C29", "title": "Index-based updates are safe and precise", "statement": "Updater::set_sequence(n, i) returns an IndexOutOfBounds error for every i not smaller than both the number of inputs and input_count, never panics, and otherwise changes only the sequence of input i.", "quantifier": "all PSBTs (including inconsistent counts) and all indices", "why_tests_cant": "all indices", "anchors": ["src/v2/mod.rs: Updater::set_sequence, check_input_index"]}
{"id": "C30", "title": "Signing only adds signatures", "statement": "Signer::sign changes nothing but the partial signatures of inputs and the modifiable flags; every signature added is stored under the public key of the private key used, carries the input's sighash type and signs the digest for that input; existing signatures under other keys are kept; the reported keys are exactly the ones signed with.", "quantifier": "all PSBTs, all key providers, any digest and signature functions", "why_tests_cant": "all PSBTs and key sources", "anchors": ["src/v2/mod.rs: Signer::sign, Psbt::sign, bip32_sign_ecdsa"]}
{"id": "C31", "title": "Signing never panics", "statement": "Signer::sign returns Ok or Err for every PSBT accepted by Signer::new and every key provider.", "quantifier": "all PSBTs and key providers", "why_tests_cant": "panics on unusual inputs (non standard sighash type, missing scripts) while holding no key", "anchors": ["src/v2/mod.rs: bip32_sign_ecdsa 769-817"]}
{"id": "C32", "title": "Output type classification is exact", "statement": "For every script pubkey and redeem script, the output type used for signing is the one given by the script templates (P2WPKH, P2WSH, P2SH and its nested forms, P2TR, everything else that is not a witness program is Bare) and an unknown witness program is an error; the signing algorithm is Schnorr exactly for P2TR.", "quantifier": "all scripts", "why_tests_cant": "all byte strings as scripts", "anchors": ["src/v2/mod.rs: output_type 910-945, signing_algorithm", "src/v0/bitcoin/mod.rs: output_type 668-703"]}
{"id": "C33", "title": "The signature digest commits to the right script, amount and type", "statement": "When sighash_ecdsa succeeds for an input it signs, for each output type, the digest of the transaction with exactly the script code prescribed (script pubkey, redeem script, P2WPKH script code of the right hash, witness script), the amount of the funding output for segwit, and the input's own sighash type (ALL if absent); it fails if that data is missing.", "quantifier": "all PSBTs, all digest functions", "why_tests_cant": "all PSBTs", "anchors": ["src/v2/mod.rs: sighash_ecdsa 824-879"]}
{"id": "C34", "title": "Key sets find the keys their members would find", "statement": "Looking up a key by BIP-32 origin in a set of extended private keys returns a key whenever one of the members returns one on its own.", "quantifier": "all sets of extended private keys and all key requests", "why_tests_cant": "all sets", "anchors": ["src/v2/mod.rs: impl_get_key_for_set 1060-1089", "src/v0/bitcoin/mod.rs: 790-815"]}
{"id": "C35", "title": "Combining is commutative", "statement": "combine(a, b) = combine(b, a) for all PSBTs, as the documentation of combine, combine_with and Global::combine states.", "quantifier": "all pairs of PSBTs (v2 and v0)", "why_tests_cant": "all pairs", "anchors": ["src/v2/mod.rs: combine, combine_with", "src/v2/map/*.rs: combine", "src/v0/bitcoin/mod.rs: combine"]}
{"id": "C36", "title": "Combining is idempotent", "statement": "combine(p, p) = Ok(p) for every PSBT p (v2 and v0).", "quantifier": "all PSBTs", "why_tests_cant": "all PSBTs", "anchors": ["src/v2/mod.rs: combine_with", "src/v0/bitcoin/mod.rs: combine"]}
{"id": "C37", "title": "Combining loses no information", "statement": "When combine(a, b) succeeds, every key-value pair of a map of a or of b has its key in the corresponding map of the result, and every value of the result comes from a or from b.", "quantifier": "all pairs of PSBTs for the same transaction", "why_tests_cant": "all pairs", "anchors": ["src/v2/map/input.rs: combine 604-656", "src/v2/map/output.rs: combine 239-265", "src/v2/map/global.rs: combine 394-454", "src/macros.rs: v2_combine_option, v2_combine_map"]}
{"id": "C38", "title": "Combining never panics", "statement": "combine returns Ok or Err for every pair of PSBTs (v2 and v0).", "quantifier": "all pairs of PSBTs, in particular all pairs of key sources for one xpub", "why_tests_cant": "needs derivation paths where neither is a suffix of the other and the incoming one is shorter", "anchors": ["src/v2/map/global.rs: combine 411-444", "src/v0/bitcoin/mod.rs: combine 240-275"]}
{"id": "C39", "title": "Only PSBTs for the same transaction are combined", "statement": "combine(a, b) returns Ok only if a and b have the same id; the result has that id too.", "quantifier": "all pairs of PSBTs", "why_tests_cant": "all pairs with different numbers of inputs/outputs, fallback lock times", "anchors": ["src/v2/mod.rs: combine_with 675-687", "src/v0/bitcoin/mod.rs: combine 224-285"]}
{"id": "C40", "title": "Xpub key sources are merged as documented", "statement": "When both PSBTs have an entry for an xpub: equal entries are kept; if one derivation path is a proper suffix of the other the longer wins; an error is reported if paths are equal and fingerprints differ, if they have equal length and differ, or if the shorter is not a suffix of the longer.", "quantifier": "all pairs of key sources", "why_tests_cant": "all derivation paths of all lengths", "anchors": ["src/v2/map/global.rs: combine 418-441"]}
{"id": "C41", "title": "Sighash types print and parse", "statement": "For every u32 value n, PsbtSighashType::from_str(PsbtSighashType::from_u32(n).to_string()) is Ok(from_u32(n)).", "quantifier": "all 2^32 values", "why_tests_cant": "2^32 values; the tests try 14", "anchors": ["src/sighash_type.rs: Display, FromStr"]}
{"id": "C42", "title": "Sighash type conversions", "statement": "ecdsa_hash_ty succeeds exactly on 1,2,3,0x81,0x82,0x83 and taproot_hash_ty exactly on these and 0, each returning the type with that number; converting a standard type to PsbtSighashType and back is the identity.", "quantifier": "all u32 values", "why_tests_cant": "2^32 values", "anchors": ["src/sighash_type.rs: 52-92"]}
{"id": "C43", "title": "Field value codecs round trip", "statement": "For key sources, sequences, lock times, amounts, leaf scripts with version, (x-only key, leaf hash) pairs, taproot key origins, ECDSA and taproot signatures, DLEQ proofs, transactions, transaction outputs and witnesses: deserialize(serialize(v)) = Ok(v), and deserialize rejects leftover bytes.", "quantifier": "all values of each type", "why_tests_cant": "unbounded values", "anchors": ["src/serialize.rs", "src/v2/dleq.rs"]}
{"id": "C44", "title": "Funding utxo selection", "statement": "Input::funding_utxo returns the witness utxo if present, otherwise the output of the non-witness utxo at the spent output index, otherwise an error, and never panics for any index (v2).", "quantifier": "all inputs and indices", "why_tests_cant": "all inputs", "anchors": ["src/v2/map/input.rs: funding_utxo 337-346"]}
{"id": "C45", "title": "v0 PSBT serialization round trip", "statement": "For every v0 Psbt value with version 0 obtained from an unsigned transaction with empty scriptSigs and witnesses and with one map per input and output, within the size limits, v0::Psbt::deserialize(p.serialize()) = Ok(p).", "quantifier": "all v0 Psbt values", "why_tests_cant": "infinite value space", "anchors": ["src/v0/bitcoin/serialize.rs: Psbt::serialize, Psbt::deserialize", "src/v0/bitcoin/map/*.rs"]}
{"id": "C46", "title": "Decoded v0 PSBTs are stable and unsigned", "statement": "Whenever v0::Psbt::deserialize(bytes) = Ok(p): p's unsigned transaction has only empty scriptSigs and witnesses, p has one input map per transaction input and one output map per transaction output, and p.serialize() deserializes to Ok(p).", "quantifier": "all byte strings", "why_tests_cant": "all byte strings", "anchors": ["src/v0/bitcoin/serialize.rs: Psbt::deserialize", "src/v0/bitcoin/mod.rs: unsigned_tx_checks"]}
{"id": "C47", "title": "v0 extraction keeps the unsigned transaction", "statement": "v0 extract_tx_unchecked_fee_rate returns the unsigned transaction with each input's scriptSig and witness replaced by the PSBT's final ones (empty if absent) and nothing else changed; the fee-checked variants return that same transaction or an error.", "quantifier": "all v0 PSBTs", "why_tests_cant": "all PSBTs", "anchors": ["src/v0/bitcoin/mod.rs: internal_extract_tx 177-186, internal_extract_tx_with_fee_rate_limit 190-219"]}
{"id": "C48", "title": "v0 operations never panic", "statement": "fee, extract_tx, sign, sighash_ecdsa and combine on a v0 PSBT obtained by deserialization return Ok or Err, never panic.", "quantifier": "all byte strings, then all operations", "why_tests_cant": "needs out-of-range prevout indices combined with particular call paths", "anchors": ["src/v0/bitcoin/mod.rs: spend_utxo 619-630, internal_extract_tx_with_fee_rate_limit 190-219, combine"]}
{"id": "C49", "title": "signer_checks accepts correct inputs", "statement": "v0 signer_checks accepts every PSBT whose inputs are consistent in the sense of BIP-174 (matching txids, redeem and witness scripts hashing to the script pubkey), including P2SH-P2WSH and legacy P2SH, and rejects inconsistent ones.", "quantifier": "all v0 PSBTs, any hash functions", "why_tests_cant": "all scripts", "anchors": ["src/v0/mod.rs: signer_checks 57-118"]}
{"id": "C50", "title": "Partial signature sighash check", "statement": "The check performed before finalizing succeeds exactly when each input's sighash type is standard (or absent) and every ECDSA partial signature of the input carries that type (ALL if absent); the error names the first offending input.", "quantifier": "all PSBTs", "why_tests_cant": "all PSBTs", "anchors": ["src/v2/mod.rs: check_partial_sigs_sighash_type 973-1000"]}
{"id": "C51", "title": "Time lock satisfaction is sound", "statement": "If the satisfier reports that an absolute lock time n is satisfied for an input then the determined lock time of the transaction satisfies n.", "quantifier": "all PSBTs, inputs and lock times", "why_tests_cant": "depends on the lock times of all other inputs", "anchors": ["src/v2/miniscript/satisfy.rs: check_after 71-85", "src/v2/mod.rs: determine_lock_time"]}
{"id": "C52", "title": "Finalizer is all-or-nothing and touches only inputs", "statement": "Finalizer::finalize returns a PSBT only if every input could be finalized; the returned PSBT has the same global and outputs, and each input keeps its outpoint and utxo information and carries the scriptSig and witness computed for it, all other fields cleared; otherwise the first failing input index is reported.", "quantifier": "all PSBTs and all satisfaction results", "why_tests_cant": "all mixtures of inputs", "anchors": ["src/v2/miniscript/finalize.rs: Finalizer::new 35-44, finalize 57-80"]}
{"id": "C53", "title": "Smallest taproot script witness is chosen", "statement": "When no key-path signature is available the finalizer picks, among the satisfiable tapscript leaves, a witness of minimal serialized size.", "quantifier": "all sets of leaves and candidate witnesses", "why_tests_cant": "all leaf sets", "anchors": ["src/v2/miniscript/finalize.rs: construct_tap_witness 301-373", "src/v2/miniscript/mod.rs: witness_size"]}
{"id": "C54", "title": "Taproot tree codec", "statement": "Deserializing the serialization of any taproot tree obtained from the builder or by deserialization yields the same tree.", "quantifier": "all trees, any hash functions", "why_tests_cant": "all binary trees up to depth 128", "anchors": ["src/serialize.rs: TapTree 327-370"]}
{"id": "C55", "title": "Errors can be displayed", "statement": "Formatting any error returned by v2 deserialization or extraction yields a message (does not panic).", "quantifier": "all errors", "why_tests_cant": "all error values", "anchors": ["src/v2/error.rs: DeserializeError 36-43", "src/v2/extract.rs: ExtractTxError 225-232"]}
{"id": "C56", "title": "Silent payment consistency after decoding", "statement": "With the silent-payments feature every decoded global and input map has ECDH shares exactly when it has DLEQ proofs, every output with a label has silent payment info, info is 66 bytes and proofs are 64 bytes.", "quantifier": "all byte strings", "why_tests_cant": "all byte strings", "anchors": ["src/v2/map/global.rs: 365-372", "src/v2/map/input.rs: 415-422", "src/v2/map/output.rs: 130-133, 197-224", "src/macros.rs: 134-169"]}
{"id": "C57", "title": "Combining yields a serializable PSBT", "statement": "If a and b were decoded (or are otherwise well-formed) and combine(a, b) succeeds, the result is well-formed: it can be serialized and decodes to the same PSBT.", "quantifier": "all pairs of PSBTs", "why_tests_cant": "all pairs of PSBTs with any sets of fields", "anchors": ["src/v2/mod.rs: combine_with 675-687", "src/v2/map/*.rs: combine"]}
{"id": "C58", "title": "Conflicts are resolved field by field in a fixed way", "statement": "When combine(a, b) succeeds, a field with a single value set in a keeps a's value and a map entry of b keeps b's value.", "quantifier": "all pairs of PSBTs, all fields", "why_tests_cant": "all pairs, all fields of all three maps", "anchors": ["src/macros.rs: v2_combine_option, v2_combine_map", "src/v2/map/input.rs: 604-656", "src/v2/map/output.rs: 239-265", "src/v2/map/global.rs: 394-454"]}
{"id": "C59", "title": "Every field is written under the key type and in the format of its BIP", "statement": "The key-value pairs of the global, input and output maps that serialize writes are exactly, without repetition, one pair for each field present, whose key type, key data and value have the format that BIP-174, BIP-370, BIP-371 and BIP-375 give for that field.", "quantifier": "all global, input and output maps, any field contents, with and without the silent-payments feature", "why_tests_cant": "a codec that writes and reads a field under the same wrong key type passes every round-trip test", "anchors": ["src/consts.rs", "src/v2/map/global.rs: get_pairs", "src/v2/map/input.rs: get_pairs", "src/v2/map/output.rs: get_pairs"]}
{"id": "C60", "title": "Signing keeps a PSBT well-formed", "statement": "If a well-formed PSBT is signed, the result is well-formed, so that it serializes and deserializes to itself.", "quantifier": "all PSBTs and key providers, any signature function that returns DER and any public keys that are points", "why_tests_cant": "A malformed result shows only when another program reads it.", "anchors": ["src/v2/mod.rs: Psbt::bip32_sign_ecdsa", "src/v2/mod.rs: Psbt::clear_tx_modifiable"]}
{"id": "C61", "title": "Signing twice is signing once", "statement": "Signing a signed PSBT again with the same keys returns the same PSBT and reports the same keys.", "quantifier": "all PSBTs and key providers", "why_tests_cant": "The documentation says that it is safe to retry; tests retry once on one PSBT.", "anchors": ["src/v2/mod.rs: Psbt::sign"]}
{"id": "C62", "title": "Signing in parallel and combining equals signing in sequence", "statement": "Two signers that sign copies of a PSBT and combine them get the PSBT that results when the second signs after the first (if the first signer's keys have no other old signature); the order of two signers does not matter.", "quantifier": "all PSBTs and pairs of key providers", "why_tests_cant": "Quantifies over all pairs of key sets, including overlapping ones.", "anchors": ["src/v2/mod.rs: Psbt::sign", "src/v2/mod.rs: Psbt::combine_with", "src/v2/map/input.rs: combine"]}
{"id": "C63", "title": "The signer checks the data that it signs", "statement": "Before signing, the txid of a non-witness utxo is compared with the outpoint and redeem and witness scripts are compared with the hashes in the script pubkey (BIP-174, signer).", "quantifier": "all PSBTs", "why_tests_cant": "Tests use consistent PSBTs; the check matters for hostile ones.", "anchors": ["src/v2/mod.rs: Psbt::sighash_ecdsa", "src/v2/map/input.rs: Input::funding_utxo"]}
{"id": "C64", "title": "A signer that has no key changes nothing", "statement": "If the key provider has no key for any input then signing leaves the PSBT unchanged.", "quantifier": "all PSBTs", "why_tests_cant": "Tests look at signatures, not at the flags.", "anchors": ["src/v2/mod.rs: Psbt::bip32_sign_ecdsa"]}
{"id": "C65", "title": "Signatures are added for the listed keys only", "statement": "A signature is added to an input only under a public key for which the input has a BIP-32 derivation.", "quantifier": "all PSBTs and key providers", "why_tests_cant": "Tests use derivations that belong to the keys.", "anchors": ["src/v2/mod.rs: Psbt::bip32_sign_ecdsa", "src/v2/mod.rs: GetKey"]}
{"id": "C66", "title": "Relative lock satisfaction is sound", "statement": "If the satisfier reports that a relative lock is satisfied for an input then the transaction satisfies it as BIP-68 and BIP-112 define: version at least 2, and the sequence of the input in the transaction has the unit of the lock and a value that is not less.", "quantifier": "all PSBTs, inputs and relative locks", "why_tests_cant": "all sequence numbers and locks; what becomes of the sequence after finalizing is not looked at by tests", "anchors": ["src/v2/miniscript/satisfy.rs: check_older 88-96", "src/v2/map/input.rs: Input::finalize 213-271"]}
{"id": "C67", "title": "Single key outputs are spent in the standard form", "statement": "For an output that pays to a public key, to its hash, to its witness hash or to the latter nested in a script hash the finalizer builds a scriptSig and witness exactly as BIP-141 describes, from a signature of the input under that key; and it builds one whenever the input has such a signature.", "quantifier": "all inputs, keys and signatures", "why_tests_cant": "all keys, all orders of several signatures", "anchors": ["src/v2/miniscript/finalize.rs: get_descriptor 140-295, final_script_sig_and_witness 101-132"]}
{"id": "C68", "title": "Revealed scripts match what they must hash to", "statement": "The final scriptSig and witness reveal the redeem and witness script of the input, in the last places, and these hash to the script hash or witness program that is spent; for taproot the witness ends with a leaf script of the input and its control block, or is the key signature.", "quantifier": "all inputs with scripts", "why_tests_cant": "all scripts and all nestings", "anchors": ["src/v2/miniscript/finalize.rs: get_descriptor 140-295, construct_tap_witness 301-373"]}
{"id": "C69", "title": "Finalizing keeps unknown fields", "statement": "As BIP-174 demands, finalizing keeps the utxos and the unknown fields of each input, and leaves the global map and the outputs unchanged.", "quantifier": "all PSBTs", "why_tests_cant": "tests have no unknown fields", "anchors": ["src/v2/map/input.rs: Input::finalize 213-271"]}
{"id": "C70", "title": "A finalized PSBT can be stored", "statement": "A finalized PSBT is well-formed: serializing and deserializing gives it back, if the scripts and witnesses that were found are not too large.", "quantifier": "all well-formed PSBTs", "why_tests_cant": "all PSBTs", "anchors": ["src/v2/miniscript/finalize.rs: Finalizer::finalize 57-72", "src/v2/map/input.rs: Input::finalize 213-271"]}
{"id": "C71", "title": "Finalizing and extracting gives the transaction that was checked", "statement": "The transaction extracted after finalizing carries the scriptSigs and witnesses that were found and apart from them is the transaction for which the interpreter accepted them.", "quantifier": "all PSBTs that finalize", "why_tests_cant": "all combinations of sequences and lock times", "anchors": ["src/v2/miniscript/finalize.rs: Finalizer::finalize 57-72", "src/v2/miniscript/mod.rs: interpreter_check 48-106", "src/v2/map/input.rs: signed_tx_in 318-331"]}
{"id": "C72", "title": "The interpreter check uses the transaction of the PSBT", "statement": "Finalizing succeeds exactly when every input can be finalized and the interpreter accepts the result for the transaction of the PSBT, with its sequences and lock time.", "quantifier": "all PSBTs, all interpreters", "why_tests_cant": "all combinations of sequences, lock times and scripts", "anchors": ["src/v2/miniscript/mod.rs: interpreter_check 48-73, interpreter_check_input 77-106"]}
{"id": "C73", "title": "v0: no repeated keys, read or written", "statement": "A byte string with a repeated key in one of its maps is never accepted by v0::Psbt::deserialize, and v0 serialize never writes one.", "quantifier": "all byte strings, all well-formed v0 PSBTs", "why_tests_cant": "Key repetition can involve any of 30 key types with any key data and any values; tests pick a few.", "anchors": ["src/v0/bitcoin/macros.rs:79-116", "src/v0/bitcoin/map/global.rs:86-242", "src/v0/bitcoin/map/input.rs", "src/v0/bitcoin/map/output.rs"]}
{"id": "C74", "title": "v0: the order of pairs does not matter", "statement": "If v0::Psbt::deserialize accepts a byte string, it accepts every byte string whose maps are permutations of the same pairs, with the same result.", "quantifier": "all byte strings and all permutations of the pairs of their maps", "why_tests_cant": "The number of permutations is factorial in the number of pairs.", "anchors": ["src/v0/bitcoin/map/global.rs:94-228", "src/v0/bitcoin/macros.rs:58-77"]}
{"id": "C75", "title": "v0: pairs that are not interpreted survive", "statement": "Decoding and encoding a v0 PSBT keeps every pair of the global map except a version pair (which can only say 0), and every proprietary or unknown pair of every input and output map.", "quantifier": "all accepted byte strings", "why_tests_cant": "Unknown key types, key data and values are arbitrary.", "anchors": ["src/v0/bitcoin/map/global.rs:36-82", "src/v0/bitcoin/map/global.rs:196-221", "src/v0/bitcoin/map/input.rs", "src/v0/bitcoin/map/output.rs"]}
{"id": "C76", "title": "v0: truncated PSBTs are rejected, trailing bytes are ignored", "statement": "No proper prefix of a serialized v0 PSBT is accepted; bytes appended to an accepted v0 PSBT do not change the result.", "quantifier": "all well-formed v0 PSBTs, all prefixes, all suffixes", "why_tests_cant": "All cut points of all PSBTs.", "anchors": ["src/v0/bitcoin/serialize.rs:70-112"]}
{"id": "C77", "title": "v0: one unsigned transaction and no v2 pairs", "statement": "An accepted v0 PSBT has exactly one pair of type 0x00 in its global map, holding the serialized unsigned transaction without witnesses, and no pair of a type that BIP-370 adds for version 2 in any map.", "quantifier": "all accepted byte strings", "why_tests_cant": "All key types in all maps, in all positions.", "anchors": ["src/v0/bitcoin/map/global.rs:98-129", "src/v0/bitcoin/map/global.rs:205-211", "src/v0/bitcoin/map/input.rs", "src/v0/bitcoin/map/output.rs"]}
{"id": "C78", "title": "The satisfier offers exactly what the input contains", "statement": "The signatures, keys and preimages that the finalizer hands to miniscript come from the input: a signature for a key (and leaf) exactly if the input has it, a key or signature for a key hash only if its key hashes to it and none only if there is no such entry, and a preimage exactly if the input has it and it is 32 bytes long; for well-formed inputs the preimages hash to the requested value.", "quantifier": "all inputs, all keys, leaves and hashes", "why_tests_cant": "all inputs and hash functions", "anchors": ["src/v2/miniscript/satisfy.rs: 21-127"]}
{"id": "C79", "title": "v0 fee computation is exact", "statement": "Psbt::fee (v0) returns Ok(f) exactly when every input has a funding utxo (the witness utxo, else the output of the non-witness utxo that the input spends), both sums fit in u64 and the outputs do not exceed the inputs, and then f is the mathematical difference of the sums; otherwise the error names the first cause; it panics only if the number of input maps differs from the number of inputs.", "quantifier": "all v0 PSBTs, all amounts", "why_tests_cant": "sums over unboundedly many 64-bit values", "anchors": ["src/v0/bitcoin/mod.rs: iter_funding_utxos 77-89, fee 715-725"]}
{"id": "C80", "title": "v0 extraction enforces the fee rate limit", "statement": "extract_tx, extract_tx_fee_rate_limit and extract_tx_with_fee_rate_limit (v0) return a transaction only if the fee divided by the weight of that transaction is at most the limit (25000 sat/vB by default); AbsurdFeeRate is returned exactly when the rounded-down rate exceeds the limit or a sum overflows, MissingInputValue exactly when a utxo is missing and SendingTooMuch exactly when the fee is negative.", "quantifier": "all v0 PSBTs and all limits, for fees up to 2^64/1000 satoshi", "why_tests_cant": "all amounts and sizes", "anchors": ["src/v0/bitcoin/mod.rs: internal_extract_tx_with_fee_rate_limit 190-219"]}
{"id": "C81", "title": "v0 signing makes exactly the signatures that its keys can make", "statement": "Psbt::sign (v0) adds, for every input, exactly these signatures: for ECDSA outputs one per BIP-32 derivation whose key the provider has, of the digest for that input under the input's sighash type; for P2TR outputs the key path signature with the tweaked internal key when it is listed and missing, and one per listed and still unsigned leaf; nothing else of the PSBT changes and the keys reported are those signed with; an input with an error is left as it was.", "quantifier": "all v0 PSBTs (with key origins in order) and key providers", "why_tests_cant": "all combinations of output types, derivations, leaves and existing signatures", "anchors": ["src/v0/bitcoin/mod.rs: sign 298-344, bip32_sign_ecdsa 353-398, bip32_sign_schnorr 408-494"]}
{"id": "C82", "title": "v0 signing reports exactly the right errors", "statement": "The error map of Psbt::sign (v0) has an entry for an input exactly when its utxo is missing, its output type is unknown, or some key is available and the sighash type is invalid, a script is missing, an output spent by another input is unknown for taproot, or SINGLE has no output; the entry names the reason.", "quantifier": "all v0 PSBTs with one map per input and key providers", "why_tests_cant": "every combination of missing data", "anchors": ["src/v0/bitcoin/mod.rs: sign 298-344, sighash_ecdsa 501-556, sighash_taproot 562-616"]}
{"id": "C83", "title": "Taproot signatures verify", "statement": "Every taproot signature that Psbt::sign (v0) adds is a valid BIP-340 signature: for the key path under the output key of the script pubkey, for a leaf under the listed key, of the BIP-341 digest.", "quantifier": "all v0 PSBTs, key providers and signature schemes that satisfy the laws", "why_tests_cant": "all keys, merkle roots and leaves", "anchors": ["src/v0/bitcoin/mod.rs: bip32_sign_schnorr 408-494"]}
{"id": "C84", "title": "v0 signing keeps existing signatures", "statement": "Taproot signatures that an input has already are never replaced; an ECDSA partial signature is replaced only by a new signature made with the key it is stored under, and that key is reported.", "quantifier": "all v0 PSBTs and key providers", "why_tests_cant": "all sets of existing signatures", "anchors": ["src/v0/bitcoin/mod.rs: bip32_sign_ecdsa 353-398, bip32_sign_schnorr 408-494"]}
{"id": "C85", "title": "v0 signing reports every input exactly once", "statement": "After Psbt::sign (v0) every input index is in exactly one of the map of used keys and the map of errors, and both contain no other index.", "quantifier": "all v0 PSBTs and key providers", "why_tests_cant": "all numbers of inputs", "anchors": ["src/v0/bitcoin/mod.rs: sign 298-344"]}
{"id": "C86", "title": "A map of keys signs every input it has keys for", "statement": "With a map from public keys to private keys as provider, every input for which the map has a listed key is signed with it (v0), taproot inputs included.", "quantifier": "all maps and v0 PSBTs", "why_tests_cant": "all key sets", "anchors": ["src/v0/bitcoin/mod.rs: impl_get_key_for_map 826-847, bip32_sign_schnorr 430-437"]}
{"id": "C87", "title": "The taproot digest commits to the right data", "statement": "sighash_taproot succeeds for an input exactly when it spends P2TR, its sighash type is a taproot type (DEFAULT if absent), SINGLE has an output, and the outputs spent are known (its own with ANYONECANPAY, else all); it then signs the BIP-341 digest with those outputs, in the order of the inputs, and the given leaf.", "quantifier": "all v0 PSBTs without out-of-bounds output indices, inputs and leaves", "why_tests_cant": "all sighash types and numbers of inputs", "anchors": ["src/v0/bitcoin/mod.rs: sighash_taproot 562-616, spend_utxo 619-630"]}
{"id": "C88", "title": "finalize_inp_mall may use malleable satisfactions", "statement": "finalize_inp_mall and finalize_inp_mall_mut finalize one input with a satisfaction that may be malleable, as finalize_mall does for all inputs, so they succeed whenever finalize_mall finalizes that input.", "quantifier": "all v0 PSBTs and input indices", "why_tests_cant": "the difference shows only for scripts whose satisfactions are all malleable", "anchors": ["src/v0/miniscript/mod.rs: finalize_inp_mall_mut 675-684, finalize_inp_mall 686-695"]}
{"id": "C89", "title": "Finalizing an input depends on that input only", "statement": "Whether and how an input of a v0 PSBT is finalized depends on its own map, the transaction and the outputs that are spent, and not on other fields of the other inputs or on the order in which inputs are finalized.", "quantifier": "all v0 PSBTs and pairs of inputs", "why_tests_cant": "needs all combinations of fields of other inputs", "anchors": ["src/v0/miniscript/finalizer.rs: construct_tap_witness 34-105, prevouts 127-134, get_descriptor 144-297"]}
{"id": "C90", "title": "Finalizer errors name the input that failed", "statement": "An error of a v0 finalizer function that carries an input index carries the index of the input that could not be finalized.", "quantifier": "all v0 PSBTs and inputs", "why_tests_cant": "needs failures in every position", "anchors": ["src/v0/miniscript/finalizer.rs: prevouts 127-134, finalize_input_helper 395-431"]}
{"id": "C91", "title": "Finalizing again changes nothing", "statement": "Finalizing leaves an input that is already finalized unchanged and reports an error for it; after a successful finalization a second one leaves the whole PSBT unchanged and reports one error for each input, in order.", "quantifier": "all v0 PSBTs", "why_tests_cant": "all scripts and satisfactions", "anchors": ["src/v0/miniscript/mod.rs: finalize_mut 592-611, finalize_mall_mut 623-641", "src/v0/miniscript/finalizer.rs: finalize_input 433-461"]}
{"id": "C92", "title": "Checked extraction accepts exactly the complete and valid PSBTs", "statement": "PsbtExt::extract (v0) succeeds exactly when there is a map for each input, remaining ECDSA signatures have the sighash type of their input, each input has a final scriptSig or witness and the interpreter accepts it with the outputs that are spent; the result is the unsigned transaction with the final fields. It fails with the error of the first check that does not hold.", "quantifier": "all v0 PSBTs", "why_tests_cant": "the interpreter must be run on every input with all combinations of final fields", "anchors": ["src/v0/miniscript/mod.rs: sanity_check 381-423, extract 697-718", "src/v0/miniscript/finalizer.rs: interpreter_check 304-323, interpreter_inp_check 326-351"]}
{"id": "C93", "title": "The functions of the module finalizer agree with the methods", "statement": "finalizer::finalize and finalizer::finalize_mall do the same as finalize_mut and finalize_mall_mut: they succeed for the same PSBTs, with the same result.", "quantifier": "all v0 PSBTs", "why_tests_cant": "needs inputs of every type, with every sighash type", "anchors": ["src/v0/miniscript/finalizer.rs: finalize 363-368, finalize_mall 371-376, finalize_helper 378-391", "src/v0/miniscript/mod.rs: sanity_check 381-423, finalize_mut 592-611"]}
{"id": "C94", "title": "The text of a PSBT round trips", "statement": "Parsing the text that a PSBT prints gives the PSBT back, for v2 and for v0 (up to the order of equal taproot leaves).", "quantifier": "all well-formed PSBTs of either version", "why_tests_cant": "the tests parse a few fixed base64 strings", "anchors": ["src/v2/mod.rs: display_from_str 1257-1314", "src/v0/bitcoin/mod.rs: display_from_str 1154-1215"]}
{"id": "C95", "title": "The text of a PSBT is base64 and nothing else is accepted", "statement": "A PSBT prints the RFC 4648 base64 form of its bytes; a string is parsed exactly when it is the (padded, canonical) base64 form of bytes that deserialize; all accepted strings begin with the characters of the magic bytes and no string is both a v0 and a v2 PSBT.", "quantifier": "all strings and all PSBTs", "why_tests_cant": "all strings, including non-canonical padding and trailing bits", "anchors": ["src/v2/mod.rs: display_from_str 1257-1314", "src/v0/bitcoin/mod.rs: display_from_str 1154-1215"]}
{"id": "C96", "title": "When an update with a descriptor succeeds", "statement": "update_input_with_descriptor succeeds exactly when the input exists, the utxo given for it is the output that the transaction spends (matching txid, existing output, the same output if given twice, the whole transaction for a legacy descriptor), no key of the descriptor has a hardened step below its xpub, and the descriptor has the script of that output; otherwise the error says which of these fails and the PSBT is not changed. It panics exactly when a taproot tree is deeper than 128. The same for outputs.", "quantifier": "all PSBTs, indices and descriptors", "why_tests_cant": "needs every way in which utxo, transaction and descriptor can disagree", "anchors": ["src/v0/miniscript/mod.rs: update_input_with_descriptor 720-784, update_output_with_descriptor 786-811, update_item_with_descriptor_helper 1077-1214"]}
{"id": "C97", "title": "An update sets exactly the fields of the descriptor", "statement": "A successful update changes one input (output) only, and there only: the derivations of all keys of the descriptor with their sources, redeem and witness script of the descriptor; for taproot the internal key, the merkle root (tree), the scripts by control block and the key origins. Fields that the descriptor does not have are removed.", "quantifier": "all PSBTs and descriptors", "why_tests_cant": "all field combinations, including fields left by an earlier update", "anchors": ["src/v0/miniscript/mod.rs: 720-811, 926-968, 1077-1214"]}
{"id": "C98", "title": "Every leaf of a taproot descriptor gets a control block that proves it", "statement": "After an update with a taproot descriptor the spent output has the key tweaked with the merkle root, and for every leaf there is a control block with the internal key, the parity and a path of at most 128 hashes that goes up from the leaf to the root (BIP-341); all scripts in the map belong to the descriptor.", "quantifier": "all taproot trees", "why_tests_cant": "trees of any shape, also with repeated scripts", "anchors": ["src/v0/miniscript/mod.rs: 1097-1176"]}
{"id": "C99", "title": "Taproot keys are listed with their leaves", "statement": "After an update with a taproot descriptor every key of a leaf is listed with the hash of the leaf, in ascending order without repetition; the internal key is listed with its source; no other key and no other leaf is added; the sources are those of the descriptor.", "quantifier": "all taproot descriptors", "why_tests_cant": "keys that occur in several leaves or also as internal key", "anchors": ["src/v0/miniscript/mod.rs: 1108-1166"]}
{"id": "C100", "title": "Updates are idempotent", "statement": "An update that is repeated succeeds and changes nothing.", "quantifier": "all PSBTs and descriptors", "why_tests_cant": "all descriptors and field contents", "anchors": ["src/v0/miniscript/mod.rs: 720-811, 1077-1214"]}
{"id": "C101", "title": "An updated input passes the checks of a signer", "statement": "After a successful update_input_with_descriptor the input is consistent in the sense of BIP-174: the txid matches, redeem and witness script belong to the output that is spent, and a witness utxo is given only if the signature is in the witness; signer_checks accepts it.", "quantifier": "all PSBTs and descriptors", "why_tests_cant": "needs every combination of descriptor, utxo fields and fields left by earlier updates", "anchors": ["src/v0/miniscript/mod.rs: update_input_with_descriptor 720-784", "src/v0/mod.rs: signer_checks 57-118"]}
{"id": "C102", "title": "An updated input is signed with the digest of its descriptor", "statement": "After an update with a descriptor that is not taproot, a signer that has the key for the source of a key of the descriptor adds a signature of the digest that belongs to the descriptor, script and amount of the spent output (BIP-143 for segwit), which is valid for the signer's key, and reports the key and no error.", "quantifier": "all PSBTs, descriptors, key providers and sighash types", "why_tests_cant": "connects updater and signer over all descriptor types and keys", "anchors": ["src/v0/miniscript/mod.rs: 720-784, 1077-1214", "src/v0/bitcoin/mod.rs: sign 298-350, bip32_sign_ecdsa 353-398, sighash_ecdsa 501-556"]}
{"id": "C103", "title": "An updated taproot input is signed", "statement": "After an update with a taproot descriptor, a signer that has the internal key makes a key path signature that is valid for the key of the spent output, and a signer that has a key of a leaf makes a valid signature for that leaf.", "quantifier": "all PSBTs, taproot descriptors and key providers", "why_tests_cant": "trees of any shape, keys in several leaves or also internal", "anchors": ["src/v0/miniscript/mod.rs: 1097-1176", "src/v0/bitcoin/mod.rs: bip32_sign_schnorr 401-498, sighash_taproot 562-616"]}
{"id": "C104", "title": "sighash_msg returns the message that the signer signs", "statement": "If all outputs that are spent are known, sighash_msg returns exactly the message that the signer signs, marked as legacy, segwit v0 or taproot, and fails where the signer fails; otherwise the error says what is missing. It does not panic.", "quantifier": "all PSBTs, inputs and leaves", "why_tests_cant": "two independent implementations have to agree on every kind of output, script and sighash type", "anchors": ["src/v0/miniscript/mod.rs: sighash_msg 813-899", "src/v0/miniscript/finalizer.rs: 108-134", "src/v0/bitcoin/mod.rs: sighash_ecdsa 501-556, sighash_taproot 562-616"]}
{"id": "C105", "title": "Serde round trip of v2 PSBTs", "statement": "A v2 PSBT that is serialized with serde and deserialized with the same format is equal to the original, whatever the format: human readable or binary, reading from a slice or from a reader.", "quantifier": "all PSBTs and formats", "why_tests_cant": "28 fields of an input with four different encodings of maps, each for human readable and binary formats; the repository has one serde test, of a v0 PSBT as JSON read from a string", "anchors": ["src/serde_utils.rs: 1-296", "src/v2/map/global.rs: 41-81", "src/v2/map/input.rs: 44-140", "src/v2/map/output.rs: 28-66", "src/v2/mod.rs: Psbt 498-506"]}
{"id": "C106", "title": "Serde round trip of v0 PSBTs", "statement": "A v0 PSBT that is serialized with serde and deserialized with the same format is equal to the original, whatever the format.", "quantifier": "all PSBTs and formats", "why_tests_cant": "as for C105", "anchors": ["src/serde_utils.rs: 1-296", "src/v0/bitcoin/map/input.rs: 76-139", "src/v0/bitcoin/map/output.rs: 36-59", "src/v0/bitcoin/mod.rs: Psbt 42-62"]}
{"id": "C107", "title": "JSON can express every PSBT", "statement": "What is serialized to a human readable format is a JSON document: the keys of all objects are strings and there are no byte strings, for every PSBT of either version.", "quantifier": "all PSBTs", "why_tests_cant": "serde_json fails at run time for keys that are not strings; whether a key type is one depends on its own implementation", "anchors": ["src/serde_utils.rs: btreemap_as_seq 90-151, btreemap_as_seq_byte_values 153-240, btreemap_byte_values 22-88", "src/v2/map/input.rs: 44-140"]}
{"id": "C108", "title": "Repeated keys are rejected by serde as by the decoder", "statement": "A map with a repeated key is rejected when it is deserialized, as the decoder of bytes rejects it; in all other cases each key has the value it was given.", "quantifier": "all maps of all types, all formats", "why_tests_cant": "needs documents that no serializer writes", "anchors": ["src/serde_utils.rs: visit_map 70-79, visit_seq 131-140 and 218-228"]}
{"id": "C109", "title": "Members of structs", "statement": "In a struct the order of the members is irrelevant, members with other names are ignored, a repeated member is an error, a member is required unless it is an option, for which absent means none, and a sequence gives all members in order.", "quantifier": "all structs of the crate and all trees", "why_tests_cant": "documents from other programs; there are 11 structs with up to 28 members", "anchors": ["src/raw.rs: 30-39, 77-84, 138-152", "src/sighash_type.rs: 16-19", "src/v2/map/input.rs: 44-140", "src/v2/mod.rs: 498-506"]}
{"id": "C110", "title": "Serde between builds with and without silent-payments", "statement": "A PSBT serialized by a build without the feature silent-payments is read by a build with it; a PSBT serialized by a build with the feature is read by a build without it and nothing is lost.", "quantifier": "all PSBTs and formats", "why_tests_cant": "needs two builds of the crate", "anchors": ["src/v2/map/global.rs: 65-73", "src/v2/map/input.rs: 125-133", "src/v2/map/output.rs: 52-58"]}
{"id": "C111", "title": "Deserialized PSBTs satisfy the conditions of the decoder", "statement": "Exactly the values of the Rust types are deserialized, and these satisfy what the decoder of bytes guarantees: supported version, right counts, preimages that match their hashes, and for v0 an unsigned transaction with one map for each input and output.", "quantifier": "all trees and formats", "why_tests_cant": "the conditions concern documents that no serializer writes", "anchors": ["src/v2/mod.rs: 498-506", "src/version.rs: 13-14", "src/v0/bitcoin/mod.rs: 42-62"]}
{"id": "C112", "title": "Role types through serde", "statement": "Creator, Constructor, Updater, Signer, Finalizer and Extractor that are read again are what they were, and only values that their constructor functions accept are read.", "quantifier": "all roles, PSBTs and formats", "why_tests_cant": "a type state is a compile time notion that tests of one program cannot get around", "anchors": ["src/v2/mod.rs: Constructor 257-258, Updater 380-381, Signer 433-434", "src/v2/miniscript/finalize.rs: 28-29", "src/v2/extract.rs: 25-26"]}
{"id": "C113", "title": "Hex text", "statement": "DLEQ proofs are read from exactly the texts of 128 hex digits of either case and written in lower case, and as 64 bytes in binary formats; other bytes are read from exactly the texts with two hex digits for each byte.", "quantifier": "all trees and formats", "why_tests_cant": "all wrong lengths and characters", "anchors": ["src/v2/dleq.rs: 16-78", "src/serde_utils.rs: hex_bytes 242-296"]}
{"id": "C114", "title": "Combining is associative", "statement": "Combining three PSBTs gives the same result, success or failure, whichever two are combined first.", "quantifier": "all triples of v2 PSBTs and of v0 PSBTs with the same numbers of inputs and outputs", "why_tests_cant": "the combiner tests combine two PSBTs; the losses depend on which of three inputs has which utxo", "anchors": ["src/v2/mod.rs: combine_with 675-687", "src/v2/map/input.rs: combine 604-656", "src/v2/map/global.rs: combine 394-459", "src/v0/bitcoin/mod.rs: combine 224-287", "src/v0/bitcoin/map/input.rs: combine 306-333"]}
{"id": "C115", "title": "Combining many PSBTs", "statement": "Any number of PSBTs without conflicting values can be combined in any order and any grouping; the results are equal and contain exactly the key-value pairs of the PSBTs.", "quantifier": "all finite families of well-formed pairwise compatible PSBTs, all orders and groupings", "why_tests_cant": "unboundedly many PSBTs and orders", "anchors": ["src/v2/mod.rs: combine_with 675-687", "src/v2/map/input.rs: combine 604-656", "src/v0/bitcoin/mod.rs: combine 224-287", "src/v0/bitcoin/map/input.rs: combine 306-333"]}
{"id": "C116", "title": "Updated PSBTs can be stored", "statement": "A PSBT that can be written and read back can still be after an input or output was updated with a descriptor of points, key sources and scripts that each fit into a value.", "quantifier": "all well-formed v0 PSBTs, indices and sound descriptors", "why_tests_cant": "values at the size limit are megabytes long; all descriptors and previous contents of the maps", "anchors": ["src/v0/miniscript/mod.rs: update_input_with_descriptor, update_output_with_descriptor", "src/v0/miniscript/mod.rs: update_item_with_descriptor_helper 1077-1214", "src/v0/bitcoin/map/input.rs: get_pairs, insert_pair", "src/v0/bitcoin/raw.rs: MAX_VEC_SIZE 84"]}
{"id": "C117", "title": "The whole way to a signed transaction", "statement": "Let every input of a well-formed, untouched v0 PSBT be updated, in any order, with the descriptor of the output that it spends: pkh, wpkh, sh(wpkh) or tr of a single key that the signer has. Then signing reports no error, the finalizer, malleable or not, finalizes every input, and the extractor returns the unsigned transaction of the PSBT in which every input has a script sig and witness with a signature of the right key and sighash type that verifies for the message of that input. The PSBT can be written and read back after every step.", "quantifier": "all well-formed v0 PSBTs, orders of updates, descriptors of single keys, sighash types, key providers and both finalizers", "why_tests_cant": "a test runs one transaction through the roles; here all numbers and mixtures of inputs, contents of the other fields and sighash types are covered, and no later role undoes what an earlier one did", "anchors": ["src/v0/miniscript/mod.rs: update_input_with_descriptor", "src/v0/bitcoin/mod.rs: sign", "src/v0/miniscript/mod.rs: finalize_mut, finalize_mall_mut", "src/v0/miniscript/finalizer.rs: finalize_input, interpreter_check", "src/v0/miniscript/mod.rs: extract"]}
{"id": "C118", "title": "Only who signed matters, not how the PSBT went round", "statement": "Let several signers work on copies of one well-formed v0 PSBT, signing what others have signed or signing apart, with combiners putting copies together, in any order and any number of times. If no two signers use different keys for one public key or taproot key, and the PSBT has no older signature under their keys, then two PSBTs made in this way by the same signers are equal; no signer or combiner fails that would not have failed on the first PSBT, and the signer reports the same errors; the signatures are those of the first PSBT and those that the signers make alone.", "quantifier": "all well-formed v0 PSBTs, numbers of signers, and ways of signing and combining", "why_tests_cant": "the ways of passing a PSBT around are unbounded trees of signing and combining; a test takes one of them with fixed keys", "anchors": ["src/v0/bitcoin/mod.rs: sign", "src/v0/bitcoin/mod.rs: bip32_sign_ecdsa, bip32_sign_schnorr", "src/v0/bitcoin/mod.rs: combine", "src/v0/bitcoin/map/input.rs: combine"]}
{"id": "C119", "title": "Only who signed matters for v2 too, but for copies that nobody signed", "statement": "Let several signers work on copies of one v2 PSBT with sorted maps, signing what others have signed or signing apart, with combiners putting signed copies together, in any order and any number of times. If no two signers use different keys for one public key, and the PSBT has no older signature under their keys, then two PSBTs made in this way by the same signers are equal, tx_modifiable flags included; each signer does what it would have done with the first PSBT (same keys reported, same errors); signed copies can be combined. Combining with an unsigned copy keeps everything only if the unsigned copy comes second.", "quantifier": "all v2 PSBTs with sorted maps, numbers of signers, and ways of signing and combining", "why_tests_cant": "the ways of passing a PSBT around are unbounded trees of signing and combining; a test takes one of them with fixed keys", "anchors": ["src/v2/mod.rs: Signer::sign, ecdsa_clear_tx_modifiable", "src/v2/mod.rs: combine, combine_with", "src/v2/map/global.rs: combine", "src/v2/map/input.rs: combine"]}
{"id": "C120", "title": "The whole way to a signed transaction with several signers", "statement": "Let every input of a well-formed, untouched v0 PSBT be updated with the descriptor of the output that it spends: pkh, wpkh, sh(wpkh) or tr of a single key. Let several signers who do not contradict each other, each with some of the keys and all keys among them, sign copies in turn or apart, with combiners putting copies together, in any order and any number of times. Then no signer panics and no combiner fails, the finalizer, malleable or not, finalizes every input of the result, and the extractor returns the unsigned transaction of the PSBT with a valid signature of the right key in every input. If a key is held by more than one signer it does not matter which of them sign.", "quantifier": "all well-formed v0 PSBTs, orders of updates, descriptors of single keys, sighash types, numbers of signers, distributions of the keys, ways of signing and combining, and both finalizers", "why_tests_cant": "the ways of passing a PSBT around and the distributions of keys are unbounded; a test takes one of them", "anchors": ["src/v0/miniscript/mod.rs: update_input_with_descriptor", "src/v0/bitcoin/mod.rs: sign, combine", "src/v0/bitcoin/map/input.rs: combine", "src/v0/miniscript/mod.rs: finalize_mut, finalize_mall_mut, extract"]}
{"id": "C121", "title": "Transactions are written and read in the format of BIP-144", "statement": "The bytes written for a transaction are those of the Bitcoin format: version, inputs, outputs, lock time, with marker, flag and the witnesses only if some input has a witness or there is no input. The reader accepts exactly the byte strings in that format whose witnesses keep to the size limit, and no byte string stands for two transactions; the same for a single output and a single witness. The transaction id is the double SHA-256 of the form without witnesses, and the weight is three times the size of that form plus the size of the form that is written.", "quantifier": "all transactions, outputs and witnesses, and all byte strings", "why_tests_cant": "an encoder and a decoder that are wrong in the same way pass every round-trip test; the accepted byte strings cannot be enumerated", "anchors": ["src/serialize.rs:47-63", "src/serialize.rs: Transaction, TxOut, Witness impls", "src/v0/bitcoin/map/global.rs:98-129"]}
{"id": "C122", "title": "v0: every field is written under the key type and in the format of its BIP", "statement": "The key-value pairs of the global, input and output maps that the serialization of a v0 PSBT holds are exactly, without repetition, one pair for each field present, whose key type, key data and value have the format that BIP-174 and BIP-371 give for that field.", "quantifier": "all well-formed v0 PSBTs, any field contents", "why_tests_cant": "a codec that writes and reads a field under the same wrong key type passes every round-trip test", "anchors": ["src/consts.rs", "src/v0/bitcoin/map/global.rs: get_pairs", "src/v0/bitcoin/map/input.rs: get_pairs", "src/v0/bitcoin/map/output.rs: get_pairs"]}
{"id": "C123", "title": "Listings of tap trees stand for exactly one tree", "statement": "The reader of tap trees accepts exactly the byte strings that list, depth first, the depth, version and script of each leaf of a binary tree of height at most 128 with allowed leaf versions. A listing stands for one tree only. The result has the Merkle root of that tree as BIP-341 defines it and exactly its leaves, each with a Merkle path that proves it against the root. What is written afterwards lists the same tree up to the order of children, which does not change the root.", "quantifier": "all byte strings and all tap trees", "why_tests_cant": "the trees and the malformed listings are unbounded; a test takes a few shapes", "anchors": ["src/serialize.rs:327-370"]}
{"id": "C124", "title": "v0: reading and writing keeps every key-value pair", "statement": "When an accepted byte string is decoded and written again, every map holds the same key-value pairs up to order, none lost and none added, except the version pair of the global map, which is not written. A pair is the same byte for byte, or it differs only in the form of its value or key: another DER encoding of the same ECDSA signature, a Schnorr signature without the byte of the default sighash type, the compressed form of the public key of a derivation, or the same tap tree with children swapped.", "quantifier": "all byte strings accepted by Psbt::deserialize (v0), all maps", "why_tests_cant": "a pair lost for one field in a combination of fields shows only in PSBTs that hold it; a round trip of values built by the library does not see other forms on the wire", "anchors": ["src/v0/bitcoin/serialize.rs:41-112", "src/v0/bitcoin/map/input.rs: insert_pair, get_pairs", "src/v0/bitcoin/map/output.rs: insert_pair, get_pairs"]}
{"id": "C125", "title": "v2: reading and writing keeps every key-value pair", "statement": "When an accepted byte string is decoded and written again, every map holds the same key-value pairs up to order and up to the form of key and value (as for v0; also bytes behind a count and key data behind the type of a required field are dropped, silent-payment keys are compressed), and nothing is added but the flags byte 0 if the flags were missing and an empty script if an output had none.", "quantifier": "all byte strings accepted by Psbt::deserialize (v2), all maps, both feature settings", "why_tests_cant": "a pair lost for one field in a combination of fields shows only in PSBTs that hold it", "anchors": ["src/v2/mod.rs:560-654", "src/v2/map/global.rs: decode, get_pairs", "src/v2/map/input.rs: insert_pair, get_pairs", "src/v2/map/output.rs: insert_pair, get_pairs"]}
{"id": "C126", "title": "v2: what the creator, the constructors and the builders make is what was asked for", "statement": "An input of InputBuilder spends the given outpoint and has the lock times and funding data of the last call of each kind and nothing else; likewise OutputBuilder. Any calls on Creator followed by any allowed calls on any of the three constructors never fail and give a PSBT with the inputs and outputs in the order of the calls, the counts, the last version and fallback lock time, exactly the modifiable flags that still hold, version 2, and nothing else. The updater is refused exactly if one input needs a time and another a height; otherwise its transaction has that version, those outpoints and payments in that order, no scripts or witnesses, and the lock time of BIP-370. If the data is in the ranges of its types the PSBT is read back unchanged by others. The flag functions act on exactly bits 0, 1 and 2.", "quantifier": "all sequences of calls on Creator, all three constructors and the builders, with any data", "why_tests_cant": "the order and the repetition of calls give endless combinations; tests build one or two PSBTs", "anchors": ["src/v2/mod.rs:97-380", "src/v2/map/input.rs:825-880", "src/v2/map/output.rs:335-350", "src/v2/map/global.rs: set_/clear_ flags"]}
{"id": "C127", "title": "whatever the roles make of a PSBT can be stored and read again", "statement": "Every v2 PSBT that is constructed or read and then handled by constructors, the updater, an application that fills in fields, signers, combiners, the finalizer and storage, in any order and any number of times, is well formed: it can be serialized and read back as an equal PSBT. The same holds for v0 PSBTs that start from an unsigned transaction or are read and are then filled in, updated with descriptors, signed, combined on either side, finalized and stored.", "quantifier": "all PSBTs, all finite sequences of role steps with any arguments in the ranges of their types, all results of the external functions", "why_tests_cant": "tests run a few fixed sequences of roles; the claim is about all sequences", "anchors": ["src/v2/mod.rs:97-494", "src/v2/mod.rs:553-587", "src/v2/miniscript/finalize.rs:40-115", "src/v0/bitcoin/mod.rs:111-360", "src/v0/miniscript/mod.rs:590-718"]}
{"id": "C128", "title": "what was agreed on stays until extraction", "statement": "No sequence of role steps on a v2 PSBT changes its transaction version, an outpoint or a payment, or sets a modifiable flag; inputs and outputs are only added behind the others and only while the flag allows it. The transaction extracted at the end of any such sequence after the constructor handed over to the updater has the version, outpoints and payments that were asked for. For v0 no step changes the unsigned transaction, and the extracted transaction without its signatures is the one the PSBT was made from. (Refuted for v2 PSBTs that are combined into another one.)", "quantifier": "all PSBTs, all finite sequences of role steps with any arguments in the ranges of their types", "why_tests_cant": "an invariant of all sequences of calls of several roles", "anchors": ["src/v2/mod.rs:97-494", "src/v2/mod.rs:553-587", "src/v2/extract.rs:20-140", "src/v0/bitcoin/mod.rs:111-360"]}
{"id": "C129", "title": "an error of the v2 decoder tells the truth", "statement": "Whenever deserializing a v2 PSBT fails, the error describes the bytes: the magic or the separator is wrong; or the named map (global, or one of the input or output maps that the counts announce) starts with pairs that are fine followed by bytes that are no pair, or by a pair for which the reported reason holds (its key has data or lacks it, the same key was there before, key or value do not parse, a length or version is the reported wrong one, the preimage does not hash to the key), or the map is complete and really lacks the field that is called missing.", "quantifier": "all byte strings, both settings of the silent-payments feature", "why_tests_cant": "tests see the error of a few malformed PSBTs and never compare its content with the bytes", "anchors": ["src/v2/mod.rs:614-654", "src/v2/map/global.rs:143-389", "src/v2/map/global.rs:540-690", "src/v2/map/input.rs:395-600", "src/v2/map/input.rs:862-955", "src/v2/map/output.rs:108-236", "src/v2/map/output.rs:345-424", "src/macros.rs:45-170"]}
{"id": "C130", "title": "an error of the v0 decoder tells the truth", "statement": "Whenever deserializing a v0 PSBT fails, the error describes the bytes: magic, separator, a missing transaction, an input of the transaction with a scriptSig, bytes that are no pair, or a pair of the global map or of one of the input and output maps that the transaction announces for which the reported reason holds; a key that is called a duplicate follows a pair of the same type.", "quantifier": "all byte strings", "why_tests_cant": "tests see the error of a few malformed PSBTs and never compare its content with the bytes", "anchors": ["src/v0/bitcoin/serialize.rs:70-112", "src/v0/bitcoin/map/global.rs:84-215", "src/v0/bitcoin/map/input.rs", "src/v0/bitcoin/map/output.rs", "src/v0/bitcoin/error.rs:26-112"]}
{"id": "C131", "title": "key types are called by the names of the BIPs", "statement": "The name that an error message gives to a key type of the global, input or output map is the one of the tables of BIP-174, BIP-370, BIP-371 and (with the silent-payments feature) BIP-375; a key type is called unknown exactly if it is not in the table, and no key type that the decoders handle is.", "quantifier": "all 256 key types of each kind of map, both settings of the feature", "why_tests_cant": "no test prints the names, and a table has 256 entries per map and feature", "anchors": ["src/consts.rs:120-196"]}
{"id": "C132", "title": "the message about an excluded field names that field", "statement": "Whenever decoding fails because a field must not be in this version of PSBT, the text of the error names the field of the refused pair.", "quantifier": "all byte strings", "why_tests_cant": "tests check that such PSBTs are refused, not what the message says for which map", "anchors": ["src/v2/map/global.rs:680-684", "src/v0/bitcoin/error.rs:165-169", "src/v0/bitcoin/map/global.rs", "src/v0/bitcoin/map/input.rs", "src/v0/bitcoin/map/output.rs"]}
{"id": "C133", "title": "errors that look the same are the same", "statement": "If two decodings of a map of a v2 PSBT, or of v0 PSBTs, fail and the texts of the two errors and of their causes (as far as `source` gives them) are equal, then the errors are equal, with all lengths, numbers, keys, paths and preimages they hold; errors of other crates excepted.", "quantifier": "all pairs of byte strings, both settings of the silent-payments feature, builds with std", "why_tests_cant": "a pair of inputs with different errors and equal texts has to be found first; numbers and keys are unbounded", "anchors": ["src/serialize.rs:437-507", "src/raw.rs:47-51", "src/v2/map/global.rs:564-715", "src/v2/map/input.rs:879-1022", "src/v2/map/output.rs:361-437", "src/v0/bitcoin/error.rs:113-172", "src/version.rs:66-70"]}
{"id": "C134", "title": "the cause of an error can be reached", "statement": "Every error that holds another error, whose text it leaves out, returns it from `source`.", "quantifier": "all errors of the map decoders, of serialize::Error and of the v0 Error", "why_tests_cant": "tests match on variants and never follow `source`", "anchors": ["src/error.rs:104-125", "src/serialize.rs:477-507", "src/v2/map/global.rs:591-608", "src/v2/map/global.rs:693-715", "src/v2/map/input.rs:895-908", "src/v2/map/input.rs:953-967", "src/v2/map/output.rs:376-388", "src/v2/map/output.rs:426-437", "src/v0/bitcoin/error.rs:174-215"]}
{"id": "C135", "title": "a combination fails with the first disagreement", "statement": "Combining two PSBTs fails with an error exactly when they disagree, and the error names the first disagreement (PSBT version, transaction version, key source of an xpub, then outpoint of an input, then amount or script of an output) with the value of the receiver first and that of the argument second; the other order of the arguments gives the same error with the values exchanged.", "quantifier": "all pairs of PSBTs, v2 and v0, any number of maps", "why_tests_cant": "which of several disagreements is reported, and the order of the values, needs all combinations of disagreements", "anchors": ["src/v2/mod.rs:675-687", "src/v2/map/global.rs:394-454", "src/v2/map/input.rs:604-660", "src/v2/map/output.rs:239-275", "src/v0/bitcoin/mod.rs:224-287"]}
{"id": "C136", "title": "a failed combination leaves the PSBT as it was", "statement": "When combining in place (v0 `Psbt::combine`, v2 `Global::combine`) returns an error, the receiver is unchanged.", "quantifier": "all pairs of PSBTs", "why_tests_cant": "tests look at the returned error only; the changes depend on the order of the xpubs", "anchors": ["src/v0/bitcoin/mod.rs:224-287", "src/v2/map/global.rs:394-454"]}
{"id": "C137", "title": "why an input cannot be finalized", "statement": "An input is refused by the finalizer exactly when it has one of ten problems, judged from the script it spends (BIP-16, BIP-141, BIP-341) and the fields of its map (no signature by the key that is paid, missing, wrong or superfluous redeem or witness script, a script or leaf that cannot be satisfied, bytes that are no key), and the error names that problem, of which there is at most one, with the scripts concerned; a v2 PSBT fails at the first input with a problem, or whose output has no witness although it is given as a witness utxo; a v0 input moreover fails when nothing is known of an output that is spent or when the interpreter refuses the result.", "quantifier": "all PSBTs, v2 and v0, all inputs, any miniscript library", "why_tests_cant": "the errors depend on every combination of script type, redeem script, witness script and signatures", "anchors": ["src/v2/miniscript/finalize.rs:57-373", "src/v0/miniscript/finalizer.rs:34-461", "src/v2/map/input.rs:213-271"]}
{"id": "C138", "title": "error texts show the pair that was refused", "statement": "When a map decoder refuses a pair, the text of the error shows that pair: the key that is printed is its key (type without leading zeros, data in hex), the first length is the length of its value or key data and the second the size of its field, the version, path length and origin of an xpub are those in the bytes, and a preimage error prints the value as preimage and the key data as hash; numbers and hex digits can be read in one way only. The texts about missing fields of a map, about the version and the extended keys of version 0, and about whole version 0 PSBTs are true of the bytes too.", "quantifier": "all byte strings, all maps of v2, all v0 PSBTs", "why_tests_cant": "texts are hardly tested, and exchanged numbers are seen only when they differ", "anchors": ["src/raw.rs:47-51", "src/v2/map/global.rs:651-690", "src/v2/map/input.rs:932-998", "src/v2/map/output.rs:408-424", "src/v0/bitcoin/error.rs:113-172"]}
{"id": "C139", "title": "the error for a value says what is wrong with the value", "statement": "For every kind of value a PSBT map holds (32-bit numbers and versions, sizes, strings, outputs, public keys, x-only keys, ECDSA and taproot signatures, key sources, leaf scripts, leaf hashes with origins, control blocks) decoding fails with a given error exactly when the bytes have the fault which that error names: too short is reported as an end of input, too long as data left over, a size that is not in its shortest form as such, a bad length, sighash byte or leaf version as that; a tap tree is refused only for the fault named; transactions, witnesses and outputs that are cut short or continued are reported as cut short or as continued; version 0 keeps the fault apart in its own errors.", "quantifier": "all byte strings; all values and all cuts and continuations of their encodings", "why_tests_cant": "tests check that a value is refused, not for which of many faults, and there are unboundedly many faulty byte strings for each", "anchors": ["src/serialize.rs:30-435", "src/version.rs:36-58", "src/v0/bitcoin/error.rs:26-172"]}
{"id": "C140", "title": "the report of a failed operation says what is true", "statement": "When combining, computing a fee, extracting, constructing, updating, signing, computing a digest for any transaction, finalizing or the checked extraction fails, the error can be printed with all its sources, and the texts are true of the PSBT: the two values named are those of this and of the other PSBT and differ, at the first input or output that differs; the index, the length and the input named are the right ones; what is said to be missing is missing, what is said to be wrong is wrong, the rate named is above the limit and is that of the transaction.", "quantifier": "all PSBTs, all providers of keys, all descriptors, all miniscript libraries within their laws, all printers of rust-bitcoin types", "why_tests_cant": "texts are hardly tested, and exchanged or stale values are seen only when the PSBT fails in that particular way", "anchors": ["src/error.rs:10-123", "src/v2/error.rs:70-386", "src/v2/extract.rs:131-236", "src/v2/miniscript/finalize.rs:374-661", "src/v2/map/global.rs:733-779", "src/v2/map/input.rs:1034-1095", "src/v2/map/output.rs:446-487", "src/v0/bitcoin/mod.rs:860-1150", "src/v0/miniscript/mod.rs:38-231", "src/v0/miniscript/mod.rs:1218-1380", "src/v2/mod.rs:824-879", "src/v0/bitcoin/mod.rs:501-556", "src/v0/miniscript/mod.rs:697-718"]}
{"id": "C141", "title": "an error about something missing says that it is missing", "statement": "When an input cannot be finalized because something is missing in it (the output that it spends, the redeem script, the witness script, a signature by the key), the report says that something is missing.", "quantifier": "all PSBTs and inputs", "why_tests_cant": "the texts of errors are not compared in tests", "anchors": ["src/v2/miniscript/finalize.rs:598-641", "src/v0/miniscript/mod.rs:177-220"]}
{"id": "C142", "title": "the hex text of a PSBT stands for that PSBT", "statement": "serialize_hex writes two lower case digits for each byte of the serialization; whoever reads the digits and decodes the bytes gets an equal PSBT; two PSBTs have the same hex text exactly if they have the same base64 text.", "quantifier": "all well-formed v0 and v2 PSBTs", "why_tests_cant": "a test compares single texts", "anchors": ["src/v2/mod.rs:588-589", "src/v0/bitcoin/serialize.rs:44-45"]}
{"id": "C143", "title": "the message of a failed signer check is true", "statement": "When signer_checks fails, some input of the PSBT is as the text of the error says: it has a witness utxo and a non-witness output, or a previous transaction with another txid, or lacks a witness utxo, or its redeem script or witness script does not have the hash in the script pubkey. Different errors have different texts.", "quantifier": "all v0 PSBTs with one map per input", "why_tests_cant": "texts are not compared in tests, and the nested case is not tested with a correct input", "anchors": ["src/v0/mod.rs:57-118", "src/v0/mod.rs:141-160"]}
{"id": "C144", "title": "conversions offered to callers lose nothing", "statement": "taproot_hash_ty returns the type in the field, or DEFAULT if there is none, and otherwise the refused number; to_secp_msg returns the message that the signer signs for this input; DleqProof accepts exactly 64 bytes and returns them, and its error shows both lengths; Version accepts exactly 0 and 2 and returns them, and its error shows the number; out_point returns the outpoint that the input was made for and that the transactions spend.", "quantifier": "all inputs, numbers, byte strings, and v0 PSBTs of which all spent outputs are known", "why_tests_cant": "the functions are not called by the crate itself, and tests call them with few values", "anchors": ["src/v2/map/input.rs:367-393", "src/v0/bitcoin/map/input.rs:154-164", "src/v0/miniscript/mod.rs:1390-1402", "src/v2/dleq.rs:80-136", "src/version.rs:28-70"]}
{"id": "C145", "title": "the two versions agree", "statement": "A v2 PSBT and the v0 PSBT with the same content (BIP-370: transaction from version, lock time, outpoints, sequences and outputs; an absent sequence is the final one) are treated alike: the unsigned transaction is the same, the fee is the same or missing for the same reason, the ECDSA digest of every input is the same or missing for the same reason, signing adds the same signatures and reports the same keys and problems, the finalizer computes the same scriptSig and witness for every input or reports the same problem, and the extractor returns the same transaction with the same limit. Two PSBTs are combined to the same content or refused for the same reason, and the fields that both versions have are written as the same key-value pairs and read alike from them: into the same field, or both refuse the pair.", "quantifier": "all v2 PSBTs that have a lock time; all key providers, limits, indices", "why_tests_cant": "the two implementations are tested apart, each with its own vectors", "anchors": ["src/v2/mod.rs:524-533", "src/v2/mod.rs:728-879", "src/v2/mod.rs:951-967", "src/v2/extract.rs:73-125", "src/v0/bitcoin/mod.rs:77-89", "src/v0/bitcoin/mod.rs:161-219", "src/v0/bitcoin/mod.rs:298-398", "src/v0/bitcoin/mod.rs:501-556", "src/v0/bitcoin/mod.rs:715-725", "src/v2/miniscript/finalize.rs:101-373", "src/v0/miniscript/finalizer.rs:34-105", "src/v0/miniscript/finalizer.rs:144-297", "src/v0/miniscript/finalizer.rs:395-431", "src/v2/mod.rs:675-687", "src/v2/map/global.rs:394-454", "src/v2/map/input.rs:604-656", "src/v0/bitcoin/mod.rs:224-287", "src/v0/bitcoin/map/input.rs:306-333", "src/v2/map/input.rs:660-787", "src/v0/bitcoin/map/input.rs:336-424", "src/v2/map/input.rs:427-602", "src/v0/bitcoin/map/input.rs:166-303", "src/v2/map/output.rs:138-236", "src/v0/bitcoin/map/output.rs:62-117", "src/v2/map/global.rs:161-340", "src/v0/bitcoin/map/global.rs:86-234"]}
{"id": "C146", "title": "The decoders accept exactly the format", "statement": "A byte string decodes as a version 2 (version 0) PSBT if and only if it consists of the magic bytes, a global map, as many input and output maps as the counts (the unsigned transaction) say and arbitrary trailing bytes, where every pair has the format of its key type, no two pairs of a map clash, and every map has the pairs it needs. Where the code accepts more or less than the BIPs allow, the format says so.", "quantifier": "for all byte strings, all feature settings and all behaviours of the external codecs that satisfy their laws", "why_tests_cant": "Tests try a list of valid and a list of invalid byte strings; they cannot show that no other string is accepted and that no valid one is refused.", "anchors": ["src/v2/mod.rs:614-654", "src/v2/map/global.rs:143-389", "src/v2/map/input.rs:395-616", "src/v2/map/output.rs:108-235", "src/v0/bitcoin/serialize.rs:70-112", "src/v0/bitcoin/map/global.rs:86-242", "src/v0/bitcoin/map/input.rs:166-303", "src/v0/bitcoin/map/output.rs:62-117"]}
{"id": "C147", "title": "The interpreter check says what it found", "statement": "Psbt::interpreter_check succeeds exactly when every input is finalized and the interpreter accepts every input with the script it spends and its final fields; otherwise it returns an error that names the first input that was refused. It does not panic, and what the finalizer returned passes it again, also after it was stored and read.", "quantifier": "all PSBTs, all interpreters, with and without debug assertions", "why_tests_cant": "all combinations of missing fields, lock times and positions of the first refused input", "anchors": ["src/v2/miniscript/mod.rs: interpreter_check 48-73, interpreter_check_input 77-106", "src/v2/mod.rs: is_finalized 586"]}
{"id": "C148", "title": "Silent payment data passes through builds without the feature", "statement": "The bytes of a PSBT written by a build with the feature silent-payments are read by a build without it; the shares, proofs, addresses and labels are unknown pairs there, nothing else differs, and the first build finds all of them again in what the second writes. Both builds compute the same transaction, fee and id, and combining two PSBTs in the one or the other build gives the same data.", "quantifier": "all well-formed PSBTs, all pairs of builds with and without the feature, all orders of the unknown pairs", "why_tests_cant": "needs two differently compiled crates and every combination of silent payment fields and other unknown pairs", "anchors": ["src/v2/map/global.rs: insert_pair 162-340, combine 394-454, get_pairs 462-537", "src/v2/map/input.rs: insert_pair 427-600, combine 604-656, get_pairs 660-787", "src/v2/map/output.rs: decode 108-136, combine 239-265, get_pairs 269-331"]}
{"id": "C149", "title": "The assumptions about hashes, keys and signatures hold", "statement": "What the other properties assume of the functions the crate takes from its dependencies is true of them: hashes have their lengths, a string is a public key exactly when it is the compressed, uncompressed or hybrid form of a point of secp256k1, the compressed form kept of it parses to itself, the uncompressed form is the only one starting with 04, an x-only key is the x coordinate of a point, and a parsed DER signature is written in at most 72 bytes that parse to themselves. A signature that is made is the distinguished encoding of two numbers with the smaller s, of at most 72 bytes that parse to themselves. So the round trips of both versions hold with nothing assumed. The hashes iterate over the blocks of 64 bytes of the padded message, and different messages are padded differently.", "quantifier": "all byte strings; all well-formed PSBTs of both versions; all messages and secret keys", "why_tests_cant": "the key laws need that the square root formula is right for every x and that roots are unique up to sign, that is the primality of a 256 bit number", "anchors": ["src/serialize.rs: bitcoin::PublicKey 73-95, ecdsa::Signature 97-130, TapTree 364-368", "src/v2/map/input.rs: preimage checks 789-830"]}
{"id": "C150", "title": "What a signature of a version 0 PSBT covers", "statement": "If the messages that are signed for two inputs, of the same or of different PSBTs, are equal, then either a SHA-256 collision is known or all is equal that the sighash type promises. Taproot: type, leaf, version, lock time, the input and the output it spends; without ANYONECANPAY the index, all inputs and all outputs spent; for ALL the outputs, for SINGLE the output with the index. So a taproot signature of type DEFAULT or ALL covers the fee. Segwit version 0: the same but for the index and the outputs that other inputs spend, of its own only amount and script code. Legacy: no amounts at all. A signature of type ALL covers the fee whatever is spent (refuted for segwit version 0 and legacy), and every signature covers some output of type SINGLE (refuted for legacy inputs without one). The collision can be named: it is between two strings that the digests or ids at hand hash.", "quantifier": "all pairs of well-formed version 0 PSBTs, inputs, leaf hashes and sighash types", "why_tests_cant": "injectivity of the digest over all pairs of PSBTs, up to a collision", "anchors": ["src/v0/bitcoin/mod.rs: sighash_ecdsa 500-560, sighash_taproot 562-617"]}
{"id": "C151", "title": "What a signature of a version 2 PSBT covers", "statement": "If sighash_ecdsa of the version 2 PSBT gives the same message for two inputs (of the same or of two PSBTs, each with its own unsigned transaction), then up to a SHA-256 collision the type, the transaction version, the lock time of BIP-370, the outpoint and sequence number of the input and its script are the same, for segwit version 0 also the amount it spends, and, as the type says, the outpoints and sequence numbers of all inputs and the amounts and scripts of the outputs; equal ids imply the same transaction data but for sequence numbers. The fee and the sequence numbers of the extracted transaction should be covered too. The collision can be named: it is between two strings that the digests or ids at hand hash.", "quantifier": "all pairs of well-formed version 2 PSBTs, all inputs, all six ECDSA types, with the real SHA-256 and the real digests of BIP-143 and before segwit", "why_tests_cant": "Tests compare digests with vectors; that no field is left out of a digest needs all pairs of PSBTs.", "anchors": ["src/v2/mod.rs: id 512-522, unsigned_tx 524-536, determine_lock_time 538-, sighash_ecdsa 824-", "src/v2/map/input.rs: unsigned_tx_in 305-315, signed_tx_in 318-331"]}
{"id": "C152", "title": "The signer checks and the fee", "statement": "If signer_checks accepts two version 0 PSBTs, every input comes with the whole previous transaction, and the same message is signed with type ALL (segwit version 0 or legacy), then the two PSBTs have the same fee unless a SHA-256 collision is known: the checked transaction ids fix the amounts that the digests leave out. This should hold whether or not an input has a witness utxo as well. The collision can be named: it is between two strings that the digests or ids at hand hash.", "quantifier": "all pairs of well-formed version 0 PSBTs, all inputs, with the real SHA-256 and the real digests", "why_tests_cant": "that no amount can be lied about is a claim about all pairs of PSBTs, up to a collision", "anchors": ["src/v0/mod.rs: signer_checks 57-118", "src/v0/bitcoin/mod.rs: sighash_ecdsa 500-560, fee 715-725"]}
