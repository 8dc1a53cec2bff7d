{
 "claims": [
  {
   "property": "C01",
   "status": "proved",
   "theorems": [
    "C01_roundtrip",
    "C01_roundtrip_exact",
    "C01_zero_amount_refuted"
   ],
   "note": "Round trip up to the crate's own equality (tap trees compared by root hash); exact, with the well-formedness conditions shown necessary, when no two tap tree siblings hash equal. C01_zero_amount_refuted shows that the condition on amounts is needed."
  },
  {
   "property": "C02",
   "status": "proved",
   "theorems": [
    "C02_stable",
    "C02_stable_exact"
   ],
   "note": "Every decoded PSBT is well-formed, so it round trips; exact unless tap tree siblings hash equal."
  },
  {
   "property": "C03",
   "status": "proved",
   "theorems": [
    "C03_serialized_maps"
   ],
   "note": "Wire grammar of the whole serialization with pairwise distinct keys per map."
  },
  {
   "property": "C04",
   "status": "partial",
   "theorems": [
    "C04_no_duplicates_partial",
    "C04_maps_exist",
    "C04_input_count_refuted",
    "C04_outpoint_refuted",
    "C04_amount_refuted"
   ],
   "note": "False as stated. Three witnesses: repeated input count, repeated outpoint fields and repeated amount are accepted. Proved: these are the only repetitions accepted, and only after the placeholder value (all-zero txid, 0xffffffff, amount 0, empty script)."
  },
  {
   "property": "C05",
   "status": "proved",
   "theorems": [
    "C05_raw_pairs_survive"
   ],
   "note": "Permutation of the uninterpreted and proprietary pairs of every map."
  },
  {
   "property": "C06",
   "status": "proved",
   "theorems": [
    "C06_v0_magic",
    "C06_v0_separator",
    "C06_v0_accepted",
    "C06_v2_magic",
    "C06_v2_separator",
    "C06_v2_accepted"
   ],
   "note": "Both versions."
  },
  {
   "property": "C07",
   "status": "proved",
   "theorems": [
    "C07_one_version",
    "C07_one_version_conv"
   ],
   "note": "Both readings; the configuration of v2 is arbitrary."
  },
  {
   "property": "C08",
   "status": "partial",
   "theorems": [
    "C08_panic_iff",
    "C08_capacity_refuted",
    "C08_only_capacity_partial"
   ],
   "note": "False as stated: a declared count of 2^64-1 panics with capacity overflow. Proved: this is the only panic, and exactly which byte strings cause it (C08_panic_iff)."
  },
  {
   "property": "C09",
   "status": "proved",
   "theorems": [
    "C09_trailing_bytes_ignored"
   ],
   "note": "Trailing bytes never change the result."
  },
  {
   "property": "C10",
   "status": "proved",
   "theorems": [
    "C10_prefix_rejected"
   ],
   "note": "No proper prefix of a serialization is accepted."
  },
  {
   "property": "C11",
   "status": "proved",
   "theorems": [
    "C11_counts_and_fields"
   ],
   "note": "Counts, version, outpoint and amount of every decoded PSBT."
  },
  {
   "property": "C12",
   "status": "proved",
   "theorems": [
    "C12_v0_preimages",
    "C12_v2_preimages"
   ],
   "note": "Both versions; the hash functions are arbitrary functions."
  },
  {
   "property": "C13",
   "status": "partial",
   "theorems": [
    "C13_count_order_refuted",
    "C13_pair_order_partial"
   ],
   "note": "False as stated: output count before input count is rejected. Proved for all reorderings that keep the order of the two counts and of repeated placeholder pairs."
  },
  {
   "property": "C14",
   "status": "proved",
   "theorems": [
    "C14_varint_decodes_exactly",
    "C14_varint_bijection",
    "C14_varint_range"
   ],
   "note": "Bijection between u64 and the minimal compact size encodings, given as a separate inductive specification."
  },
  {
   "property": "C15",
   "status": "partial",
   "theorems": [
    "C15_pair_wire_format",
    "C15_pair_roundtrip",
    "C15_pair_long_value_not_read",
    "C15_pair_roundtrip_refuted",
    "C15_pair_prefix_free",
    "C15_pair_decodes_only_pairs",
    "C15_proprietary_roundtrip",
    "C15_proprietary_wire_format",
    "C15_proprietary_long_key_refuted"
   ],
   "note": "False as stated: values longer than MAX_VALUE (MAX_VEC_SIZE minus a five byte length prefix) are written but not read back (C15_pair_roundtrip_refuted, C15_pair_long_value_not_read), because Vec<u8>::consensus_decode reads from a reader limited to MAX_VEC_SIZE bytes. Proved: the round trip up to exactly that bound; wire format; prefix-freeness for all pairs with 64 bit lengths; round trip of proprietary keys of at most 1024 key bytes, where the long-key theorem shows that the bound is needed."
  },
  {
   "property": "C16",
   "status": "proved",
   "theorems": [
    "C16_counts",
    "C16_adding_succeeds"
   ],
   "note": "Inductive description of all builder call sequences; adding never fails below 2^64 elements."
  },
  {
   "property": "C17",
   "status": "partial",
   "theorems": [
    "C17_new_needs_flags",
    "C17_creator",
    "C17_setters",
    "C17_updater_clears_flags",
    "C17_no_more_refuted",
    "C17_no_more_new"
   ],
   "note": "The last part is false: input() is still accepted after no_more_inputs() (C17_no_more_refuted). Proved instead: no new constructor for inputs (outputs) can be made afterwards, updater() clears both flags, and what each creator function does to the flags."
  },
  {
   "property": "C18",
   "status": "proved",
   "theorems": [
    "C18_lock_time",
    "C18_lock_time_functional"
   ],
   "note": "Equivalence with an inductive specification of the BIP-370 rule, which is shown to be functional."
  },
  {
   "property": "C19",
   "status": "proved",
   "theorems": [
    "C19_lock_time_satisfies",
    "C19_decoded"
   ],
   "note": "For PSBTs whose times and heights are in range, which holds for all decoded ones."
  },
  {
   "property": "C20",
   "status": "proved",
   "theorems": [
    "C20_id_preimage",
    "C20_preimage_injective",
    "C20_id_depends_only",
    "C20_id_updates"
   ],
   "note": "The id is the double hash of an injective wire format of version, lock time, outpoints and payments; it is unchanged by set_sequence, flag clearing and partial signatures."
  },
  {
   "property": "C21",
   "status": "proved",
   "theorems": [
    "C21_roles_infallible"
   ],
   "note": "For values made by the public constructors and methods; serde's Deserialize bypasses them, see C112."
  },
  {
   "property": "C22",
   "status": "proved",
   "theorems": [
    "C22_flags",
    "C22_sign"
   ],
   "note": "C22_flags: the flags byte for the six standard types. C22_sign: the flags after Signer::sign, by the types of all ECDSA inputs."
  },
  {
   "property": "C23",
   "status": "proved",
   "theorems": [
    "C23_fee_ok",
    "C23_fee_error"
   ],
   "note": "Equivalence for success, and for each error its first cause."
  },
  {
   "property": "C24",
   "status": "proved",
   "theorems": [
    "C24_limit",
    "C24_default_limit",
    "C24_saturation_refuted"
   ],
   "note": "Under the stated bound on the fee; C24_saturation_refuted shows that the bound is needed."
  },
  {
   "property": "C25",
   "status": "proved",
   "theorems": [
    "C25_extractor_new",
    "C25_extracts"
   ],
   "note": "Acceptance by Extractor::new and the extracted transaction, no other failures."
  },
  {
   "property": "C26",
   "status": "partial",
   "theorems": [
    "C26_signed_is_extracted_iff",
    "C26_signed_is_extracted_refuted"
   ],
   "note": "False as stated: an absent sequence is signed as 0 and extracted as 0xffffffff. Proved: it holds exactly when all inputs have a sequence."
  },
  {
   "property": "C27",
   "status": "partial",
   "theorems": [
    "C27_v0",
    "C27_v0_single",
    "C27_tx",
    "C27_same_tx_partial",
    "C27_same_id_partial",
    "C27_keeps_transaction_refuted"
   ],
   "note": "False of the code (C27_keeps_transaction_refuted): Input::finalize clears sequence, min_time and min_height, so the lock time falls back and the sequences become the default. C27_tx gives the transaction after finalizing, C27_same_tx_partial says exactly when it is the one before, C27_same_id_partial when the id is kept. v0: true, C27_v0 and C27_v0_single."
  },
  {
   "property": "C28",
   "status": "partial",
   "theorems": [
    "C28_v0",
    "C28_accepted",
    "C28_legacy_refuted",
    "C28_panics"
   ],
   "note": "Holds whenever the finalizer returns (C28_accepted). False for legacy inputs (C28_legacy_refuted): no final witness is set without witness_utxo and the finalizer panics, in debug and release builds; C28_panics says exactly when. v0: true, the result passes the checked extraction (C28_v0)."
  },
  {
   "property": "C29",
   "status": "proved",
   "theorems": [
    "C29_set_sequence"
   ],
   "note": "All outcomes of set_sequence for all indices, including inconsistent counts."
  },
  {
   "property": "C30",
   "status": "proved",
   "theorems": [
    "C30_sign",
    "C30_verifies",
    "C30_succeeds",
    "C30_errors"
   ],
   "note": "Exact result of Signer::sign: which inputs, which keys, which signatures, which errors; new signatures verify (SignLaws)."
  },
  {
   "property": "C31",
   "status": "partial",
   "theorems": [
    "C31_panics_exactly",
    "C31_refuted"
   ],
   "note": "False: Signer::sign panics exactly when the digest of an ECDSA input cannot be computed and no key is found for it (C31_panics_exactly); witness C31_refuted."
  },
  {
   "property": "C32",
   "status": "proved",
   "theorems": [
    "C32_v0_output_type",
    "C32_v0_algorithm",
    "C32_output_type",
    "C32_unknown",
    "C32_algorithm"
   ],
   "note": "Templates stated on bytes; classification is total except for unassigned witness programs, which are errors. C32_v0_*: the same for v0, where an output index out of range panics."
  },
  {
   "property": "C33",
   "status": "proved",
   "theorems": [
    "C33_v0_digest",
    "C33_v0_missing",
    "C33_v0_other_transaction",
    "C33_digest",
    "C33_missing",
    "C33_other_transaction"
   ],
   "note": "Digest functions are parameters. C33_other_transaction: sighash_ecdsa panics for legacy inputs when the transaction given has too few inputs. C33_v0_*: the same for v0."
  },
  {
   "property": "C34",
   "status": "partial",
   "theorems": [
    "C34_exact",
    "C34_refuted",
    "C34_masters",
    "C34_single",
    "C34_map"
   ],
   "note": "False: sets compare the fingerprint of the parent (C34_refuted); C34_exact says what is found, C34_masters that a set of master keys finds nothing."
  },
  {
   "property": "C35",
   "status": "partial",
   "theorems": [
    "C35_v0_commutative_refuted",
    "C35_v0_no_conflict_refuted",
    "C35_v0_commutes_if_compatible",
    "C35_commutative_refuted",
    "C35_no_conflict_refuted",
    "C35_commutes_if_compatible"
   ],
   "note": "False as stated (v2): maps keep the second value, options the first, and the sighash type of the second is dropped. Proved: combining commutes for compatible PSBTs, i.e. the same key never has two values and the dropped fields agree. v0: likewise (C35_v0_*)."
  },
  {
   "property": "C36",
   "status": "proved",
   "theorems": [
    "C36_v0_idempotent",
    "C36_v0_decoded",
    "C36_idempotent",
    "C36_decoded"
   ],
   "note": "Exact equality for every v2 PSBT whose maps are sorted, in particular every decoded one. v0: likewise."
  },
  {
   "property": "C37",
   "status": "partial",
   "theorems": [
    "C37_v0_values_come_from_arguments",
    "C37_v0_keys_kept_partial",
    "C37_v0_sighash_refuted",
    "C37_v0_utxo_refuted",
    "C37_values_come_from_arguments",
    "C37_keys_kept_partial",
    "C37_fallback_refuted",
    "C37_sighash_refuted",
    "C37_utxo_refuted"
   ],
   "note": "False as stated: a fallback lock time or sighash type only the second has is dropped, and a witness utxo of the second removes non-witness utxos of both. Proved: values come from the arguments, and these are the only keys lost. v0: likewise, only the sighash type of the second and the non-witness utxos can be lost."
  },
  {
   "property": "C38",
   "status": "partial",
   "theorems": [
    "C38_v0_panic_refuted",
    "C38_v0_panic_iff",
    "C38_v0_no_panic",
    "C38_panic_refuted",
    "C38_panic_iff",
    "C38_no_panic"
   ],
   "note": "False as stated: PSBTs with the same id panic when the second has a shorter derivation path that is not a suffix. Proved: exact characterization of the panics. v0: likewise."
  },
  {
   "property": "C39",
   "status": "partial",
   "theorems": [
    "C39_v0_same_transaction",
    "C39_v0_other_transaction_iff",
    "C39_v0_combined",
    "C39_different_id_refuted",
    "C39_result_id_refuted",
    "C39_checked",
    "C39_same_fields"
   ],
   "note": "False as stated: fallback lock times are not compared and required lock times of the second are taken over. Proved: what is checked, and that PSBTs agreeing on the transaction fields combine to a PSBT with their common id. v0: holds in full (C39_v0_same_transaction, C39_v0_other_transaction_iff)."
  },
  {
   "property": "C40",
   "status": "partial",
   "theorems": [
    "C40_v0_merged_partial",
    "C40_v0_clash_rejected",
    "C40_v0_error_justified",
    "C40_v0_fingerprint_refuted",
    "C40_documentation_complete",
    "C40_documentation_functional",
    "C40_merged_partial",
    "C40_clash_rejected",
    "C40_error_justified",
    "C40_fingerprint_refuted"
   ],
   "note": "Documentation as an inductive relation, shown total and functional. Followed except for equal paths with different fingerprints (accepted) and shorter non-suffix paths in the second PSBT (panic). v0: likewise."
  },
  {
   "property": "C41",
   "status": "proved",
   "theorems": [
    "C41_roundtrip",
    "C41_accepted",
    "C41_printed"
   ],
   "note": "Text form of sighash types: round trip, exactly the accepted strings, the printed strings."
  },
  {
   "property": "C42",
   "status": "proved",
   "theorems": [
    "C42_conversions",
    "C42_codec_tests"
   ],
   "note": "All 2^32 values: conversions to and from ECDSA and taproot types."
  },
  {
   "property": "C43",
   "status": "proved",
   "theorems": [
    "C43_keysource",
    "C43_u32",
    "C43_locktimes",
    "C43_amount",
    "C43_leafscript",
    "C43_xonly_leafhash",
    "C43_taporigin",
    "C43_controlblock",
    "C43_pubkey",
    "C43_ecdsa_sig",
    "C43_taproot_sig",
    "C43_dleq",
    "C43_transaction",
    "C43_txout",
    "C43_witness",
    "C43_no_leftover"
   ],
   "note": "Round trip and accepted strings per codec. Canonical codecs accept only what they write. ECDSA signatures keep the parsed DER form, and a 65 byte taproot signature with type byte zero is accepted as well."
  },
  {
   "property": "C44",
   "status": "proved",
   "theorems": [
    "C44_funding_utxo"
   ],
   "note": "Equivalences for all outcomes."
  },
  {
   "property": "C45",
   "status": "proved",
   "theorems": [
    "C45_roundtrip",
    "C45_roundtrip_exact",
    "C45_from_unsigned_tx",
    "C45_version_refuted"
   ],
   "note": "Equality is Rust's == (tap trees by root hash); the exact version says when it is Leibniz equality and that the well-formedness conditions (among them the 4,000,000 byte limit of the global map and version 0) are necessary. C45_version_refuted: a value with version 1 is written and not read back."
  },
  {
   "property": "C46",
   "status": "proved",
   "theorems": [
    "C46_unsigned",
    "C46_stable",
    "C46_stable_exact"
   ],
   "note": "Stability up to Rust's == for tap trees; exact when no two sibling subtrees hash alike."
  },
  {
   "property": "C47",
   "status": "proved",
   "theorems": [
    "C47_extracted",
    "C47_extracted_only",
    "C47_unsigned_kept",
    "C47_limit_same"
   ],
   "note": "In full; the specification determines the transaction (C47_extracted_only)."
  },
  {
   "property": "C48",
   "status": "partial",
   "theorems": [
    "C48_deserialize",
    "C48_fee",
    "C48_extract_refuted",
    "C48_extract_panic_iff",
    "C48_combine_refuted",
    "C48_finalize_panic_iff",
    "C48_finalize_refuted",
    "C48_sign_panic_iff",
    "C48_sign_refuted",
    "C48_sighash_panic_iff"
   ],
   "note": "False as stated: extraction (unreachable!), sign, sighash_ecdsa and signing_algorithm (indexing) panic when the transaction of a non-witness utxo has too few outputs, combining can panic, and so can finalizing (C48_finalize_refuted). Proved: decoding and fee never panic; exact panic conditions of extraction (C48_extract_panic_iff), signing (C48_sign_panic_iff), sighash_ecdsa (C48_sighash_panic_iff), finalizing (C48_finalize_panic_iff) and combining (C38_v0_panic_iff)."
  },
  {
   "property": "C49",
   "status": "partial",
   "theorems": [
    "C49_accepts_iff",
    "C49_error_iff",
    "C49_sound_partial",
    "C49_sound_refuted",
    "C49_complete_partial",
    "C49_both_scripts",
    "C49_no_witness_utxo",
    "C49_complete_refuted",
    "C49_sighash_refuted"
   ],
   "note": "False as stated, in both directions: correct P2SH-P2WSH and legacy P2SH inputs are rejected (C49_complete_refuted, C49_both_scripts, C49_no_witness_utxo) and some inconsistent ones are accepted (C49_sound_refuted, C49_sighash_refuted). Proved: exactly what is accepted and which error is returned (C49_accepts_iff, C49_error_iff), and completeness and soundness with the restrictions stated in C49_complete_partial and C49_sound_partial."
  },
  {
   "property": "C50",
   "status": "proved",
   "theorems": [
    "C50_check",
    "C50_first",
    "C50_signed"
   ],
   "note": "Success exactly when all match; the error names the first offending input and says what is wrong; signing keeps the property."
  },
  {
   "property": "C51",
   "status": "partial",
   "theorems": [
    "C51_v0",
    "C51_same_unit_partial",
    "C51_one_kind_partial",
    "C51_exact",
    "C51_refuted"
   ],
   "note": "False of the code (C51_refuted): an input with both kinds of lock time accepts heights although the transaction is locked by time. C51_exact says what is accepted; it is right for inputs with one kind (C51_one_kind_partial) and when the units agree (C51_same_unit_partial). v0: true, C51_v0."
  },
  {
   "property": "C52",
   "status": "proved",
   "theorems": [
    "C52_v0_result",
    "C52_v0_single",
    "C52_v0_single_error",
    "C52_new",
    "C52_new_errors",
    "C52_finalize",
    "C52_error",
    "C52_id"
   ],
   "note": "C52_new, C52_new_errors: when Finalizer::new succeeds, why it fails; C52_finalize: the result; C52_error: the first input that fails; C52_id: Finalizer::id does not panic. External: MsExt stands for rust-miniscript. v0: C52_v0_result (all inputs), C52_v0_single and C52_v0_single_error (one input)."
  },
  {
   "property": "C53",
   "status": "partial",
   "theorems": [
    "C53_v0_key_path",
    "C53_v0_found_iff",
    "C53_v0_chosen_partial",
    "C53_v0_smallest_refuted",
    "C53_key_path",
    "C53_found_iff",
    "C53_chosen_partial",
    "C53_smallest_partial",
    "C53_smallest_refuted"
   ],
   "note": "False of the code (C53_smallest_refuted): witness_size omits the length prefixes of the items. C53_chosen_partial: minimal without the prefixes; C53_smallest_partial: hence minimal among those whose prefixes take no less; C53_key_path, C53_found_iff: the key path is preferred, a witness is found iff a leaf can be satisfied. The v0 finalizer the same: C53_v0_*."
  },
  {
   "property": "C54",
   "status": "proved",
   "theorems": [
    "C54_taptree_roundtrip",
    "C54_taptree_roundtrip_exact",
    "C54_deserialized_is_built"
   ],
   "note": "Root hash (the crate's equality) and leaves are preserved for every tree the builder can make; exact equality unless two siblings hash equal."
  },
  {
   "property": "C55",
   "status": "partial",
   "theorems": [
    "C55_deserialize_refuted",
    "C55_deserialize_never",
    "C55_text",
    "C55_extractor",
    "C55_extract",
    "C55_extract_refuted"
   ],
   "note": "False of the code: Display and source of DeserializeError and ExtractTxError are todo!() (C55_deserialize_refuted, C55_extract_refuted); no error of deserialize can be printed (C55_deserialize_never). C55_text: errors of from_str print with std only, and never with their sources. C55_extractor, C55_extract: an Extractor made by new never returns the error that cannot be printed. Only whether fmt returns is modelled, not the text; the errors of the maps and of the external crates are taken to print."
  },
  {
   "property": "C56",
   "status": "proved",
   "theorems": [
    "C56_silent_payments"
   ],
   "note": "Follows for both feature settings; without the feature the fields are empty."
  },
  {
   "property": "C57",
   "status": "partial",
   "theorems": [
    "C57_v0_roundtrips_iff",
    "C57_v0_size_refuted",
    "C57_result_wellformed",
    "C57_result_roundtrips"
   ],
   "note": "Well-formedness is closed under combining, hence the result can be written and read back. v2 holds in full. v0: false as stated, because the decoder limits the global map to 4,000,000 bytes and two PSBTs within the limit can combine to one beyond it (C57_v0_size_refuted); proved that this is the only way it fails (C57_v0_roundtrips_iff)."
  },
  {
   "property": "C58",
   "status": "proved",
   "theorems": [
    "C58_v0_first_wins_single",
    "C58_v0_second_wins_maps",
    "C58_first_wins_single",
    "C58_second_wins_maps"
   ],
   "note": "Per key type: single fields keep the first value (but for a dropped non-witness utxo), map entries take the second. v0: likewise."
  },
  {
   "property": "C59",
   "status": "proved",
   "theorems": [
    "C59_fields"
   ],
   "note": "The tables of key types and formats are written out in SpecFields.v from the BIPs, without the constants of the model; transactions, outputs and witnesses in the format of SpecTx.v."
  },
  {
   "property": "C60",
   "status": "proved",
   "theorems": [
    "C60_v0_wf",
    "C60_wf"
   ],
   "note": "Uses SignLaws: public keys are points, signatures are DER. C60_v0_wf also uses SchnorrLaws: Schnorr signatures have 64 bytes."
  },
  {
   "property": "C61",
   "status": "partial",
   "theorems": [
    "C61_v0_again_partial",
    "C61_v0_refuted",
    "C61_again"
   ],
   "note": "For PSBTs whose maps are sorted (all real ones). For v0 the PSBT, the ECDSA keys and the errors are the same, but taproot keys are not reported again (C61_v0_refuted, C61_v0_again_partial)."
  },
  {
   "property": "C62",
   "status": "proved",
   "theorems": [
    "C62_parallel",
    "C62_old_signature_refuted",
    "C62_order"
   ],
   "note": "C62_order needs that public keys determine secret keys. C62_old_signature_refuted: the hypothesis on old signatures is needed."
  },
  {
   "property": "C63",
   "status": "partial",
   "theorems": [
    "C63_v0_refuted",
    "C63_unchecked",
    "C63_refuted"
   ],
   "note": "False: no such check exists (C63_refuted); C63_unchecked: the digest is computed for every txid and every hash. The same holds for v0 (C63_v0_refuted): sign does not call signer_checks."
  },
  {
   "property": "C64",
   "status": "partial",
   "theorems": [
    "C64_v0_no_key",
    "C64_refuted",
    "C64_only_flags"
   ],
   "note": "False: the modifiable flags are cleared (C64_refuted); nothing else changes (C64_only_flags). For v0 the property holds (C64_v0_no_key)."
  },
  {
   "property": "C65",
   "status": "partial",
   "theorems": [
    "C65_v0_refuted",
    "C65_v0_listed",
    "C65_refuted",
    "C65_listed"
   ],
   "note": "False: the derived key is not compared with the listed one (C65_refuted); true for providers that return the key asked for (C65_listed). The same for v0 (C65_v0_refuted, C65_v0_listed)."
  },
  {
   "property": "C66",
   "status": "partial",
   "theorems": [
    "C66_v0",
    "C66_exact",
    "C66_signed_partial",
    "C66_version_refuted",
    "C66_lost",
    "C66_extracted_refuted"
   ],
   "note": "C66_exact: check_older accepts exactly what the sequence of the input satisfies; C66_signed_partial: so does the transaction that is signed. False of the whole claim: the version is not looked at (C66_version_refuted), and finalizing drops the sequence (C66_lost, C66_extracted_refuted). v0: true, version included, C66_v0."
  },
  {
   "property": "C67",
   "status": "proved",
   "theorems": [
    "C67_v0_sound",
    "C67_v0_complete",
    "C67_sound",
    "C67_complete"
   ],
   "note": "C67_sound and C67_complete, under MsLaws (a single item of a scriptSig is pushed). Signatures of 4 bytes or less are excluded, they could be numbers. The v0 finalizer: C67_v0_sound, C67_v0_complete."
  },
  {
   "property": "C68",
   "status": "proved",
   "theorems": [
    "C68_push",
    "C68_sh_push",
    "C68_v0_sh_push",
    "C68_v0_wsh",
    "C68_v0_sh",
    "C68_v0_taproot",
    "C68_wsh",
    "C68_sh",
    "C68_taproot"
   ],
   "note": "C68_wsh, C68_sh, C68_taproot, under MsLaws (parsing and encoding a script are inverse). The tweak of the taproot output key is not part of the model, nor checked by the code. The v0 finalizer: C68_v0_*. C68_push, C68_sh_push and C68_v0_sh_push say with a reader of scripts (SpecPush.v) that the script sig ends with a push of the redeem script, for scripts of 5 to 520 bytes."
  },
  {
   "property": "C69",
   "status": "partial",
   "theorems": [
    "C69_v0_partial",
    "C69_v0_refuted",
    "C69_partial",
    "C69_unknowns_refuted"
   ],
   "note": "False of the code (C69_unknowns_refuted): unknown and proprietary fields of inputs are cleared. C69_partial: all else that BIP-174 demands is kept. v0: the same, C69_v0_refuted and C69_v0_partial."
  },
  {
   "property": "C70",
   "status": "proved",
   "theorems": [
    "C70_v0_wf",
    "C70_v0_roundtrip",
    "C70_wf",
    "C70_roundtrip"
   ],
   "note": "C70_wf, C70_roundtrip; the hypothesis on the found scripts and witnesses is that they fit the size limits of the decoder. v0: C70_v0_wf, C70_v0_roundtrip."
  },
  {
   "property": "C71",
   "status": "partial",
   "theorems": [
    "C71_v0",
    "C71_digest",
    "C71_extracted",
    "C71_never_checked",
    "C71_valid_refuted"
   ],
   "note": "C71_extracted says exactly what is extracted. False of the second half: the extracted transaction is never the one checked (C71_never_checked, sequences 2^32-1 against 0), and a signed input is not valid in it (C71_valid_refuted); with the real hash functions no segwit digest of the two agrees unless double SHA-256 has a collision (C71_digest). v0: true, C71_v0."
  },
  {
   "property": "C72",
   "status": "partial",
   "theorems": [
    "C72_v0",
    "C72_exact",
    "C72_own_transaction_refuted",
    "C72_own_transaction_partial"
   ],
   "note": "C72_exact: an exact condition with what the interpreter is really given. False of the code (C72_own_transaction_refuted): sequences and lock time were cleared before. C72_own_transaction_partial: right without lock times and sequences. v0: true, C72_v0."
  },
  {
   "property": "C73",
   "status": "proved",
   "theorems": [
    "C73_no_duplicates",
    "C73_maps_exist",
    "C73_written"
   ],
   "note": "For all key types (v0 has none of the exceptions of v2, C04)."
  },
  {
   "property": "C74",
   "status": "proved",
   "theorems": [
    "C74_pair_order"
   ],
   "note": "All permutations (v0 has none of the exceptions of v2, C13)."
  },
  {
   "property": "C75",
   "status": "proved",
   "theorems": [
    "C75_raw_pairs_survive",
    "C75_version_pair"
   ],
   "note": "Global map: every pair but a version pair; C75_version_pair: such a pair is [fb] -> 00000000."
  },
  {
   "property": "C76",
   "status": "proved",
   "theorems": [
    "C76_prefix_rejected",
    "C76_trailing_bytes_ignored"
   ],
   "note": "Trailing bytes are ignored, as in v2 (C09)."
  },
  {
   "property": "C77",
   "status": "proved",
   "theorems": [
    "C77_key_types"
   ],
   "note": "All three kinds of maps; the unsigned transaction in the format of SpecTx.v."
  },
  {
   "property": "C78",
   "status": "proved",
   "theorems": [
    "C78_v0_signatures",
    "C78_v0_by_hash",
    "C78_v0_preimages",
    "C78_signatures",
    "C78_by_hash",
    "C78_preimages"
   ],
   "note": "In full, for the twelve methods of the satisfier but the two lock time checks, which are C51 and C66. The v0 satisfier: C78_v0_*."
  },
  {
   "property": "C79",
   "status": "proved",
   "theorems": [
    "C79_fee_ok",
    "C79_fee_error"
   ],
   "note": "In full."
  },
  {
   "property": "C80",
   "status": "proved",
   "theorems": [
    "C80_limit",
    "C80_default_limit",
    "C80_errors",
    "C80_saturation_refuted"
   ],
   "note": "In full for fees up to 2^64/1000; beyond that the rate saturates (C80_saturation_refuted)."
  },
  {
   "property": "C81",
   "status": "proved",
   "theorems": [
    "C81_signed",
    "C81_unique"
   ],
   "note": "C81_signed gives the result per input against signed0; C81_unique: the specification determines the signatures and the report."
  },
  {
   "property": "C82",
   "status": "proved",
   "theorems": [
    "C82_errors"
   ],
   "note": "For PSBTs with one map per input, as decoding returns them."
  },
  {
   "property": "C83",
   "status": "partial",
   "theorems": [
    "C83_verifies",
    "C83_valid_partial",
    "C83_output_key_refuted",
    "C83_listed_key_refuted"
   ],
   "note": "False without conditions: neither the output key (C83_output_key_refuted) nor the key of the provider (C83_listed_key_refuted) is compared. C83_verifies: valid for the signer's own key; C83_valid_partial: valid for the output if the provider returns the keys asked for and the output key is that of internal key and merkle root."
  },
  {
   "property": "C84",
   "status": "proved",
   "theorems": [
    "C84_kept"
   ],
   "note": "Proved for all v0 PSBTs with sorted key origins."
  },
  {
   "property": "C85",
   "status": "proved",
   "theorems": [
    "C85_partition"
   ],
   "note": "Proved for all v0 PSBTs."
  },
  {
   "property": "C86",
   "status": "partial",
   "theorems": [
    "C86_map_ecdsa_partial",
    "C86_map_taproot",
    "C86_refuted"
   ],
   "note": "False for taproot: the signer asks by derivation path only, which maps do not support, and reports no error (C86_refuted, C86_map_taproot). True for ECDSA (C86_map_ecdsa_partial)."
  },
  {
   "property": "C87",
   "status": "proved",
   "theorems": [
    "C87_panic_iff",
    "C87_digest",
    "C87_error",
    "C87_panic"
   ],
   "note": "Success, errors and panics; the digest function itself is a parameter."
  },
  {
   "property": "C88",
   "status": "partial",
   "theorems": [
    "C88_inp_mall_refuted",
    "C88_inp_mall_partial"
   ],
   "note": "False of the code (C88_inp_mall_refuted): line 683 passes false, so only satisfactions that are not malleable are looked for. C88_inp_mall_partial: what is finalized could also be finalized by finalize_mall."
  },
  {
   "property": "C89",
   "status": "partial",
   "theorems": [
    "C89_order_refuted",
    "C89_utxo_refuted",
    "C89_origins_partial",
    "C89_single_key_partial"
   ],
   "note": "False of the code: keys are collected from all inputs, and inputs finalized before have lost theirs (C89_order_refuted); an input with unknown output makes all others fail (C89_utxo_refuted). C89_origins_partial: only the key origins and utxos of other inputs matter; C89_single_key_partial: for single keys the origins do not matter either."
  },
  {
   "property": "C90",
   "status": "partial",
   "theorems": [
    "C90_refuted",
    "C90_partial",
    "C90_all_partial"
   ],
   "note": "False of the code (C90_refuted): with an unknown output the index is that of the first such input, whatever input is finalized. C90_partial and C90_all_partial: that is the only exception."
  },
  {
   "property": "C91",
   "status": "proved",
   "theorems": [
    "C91_inputs",
    "C91_again"
   ],
   "note": "C91_inputs, C91_again, under MsNmLaws (scripts that may be bare need a signature)."
  },
  {
   "property": "C92",
   "status": "proved",
   "theorems": [
    "C92_exact",
    "C92_errors",
    "C92_panic"
   ],
   "note": "C92_exact, C92_errors, C92_panic (exactly when it panics). The hypothesis is that the transaction is unsigned, which decoding guarantees. Rust-miniscript's interpreter is a parameter."
  },
  {
   "property": "C93",
   "status": "partial",
   "theorems": [
    "C93_agrees_partial",
    "C93_rejects",
    "C93_refuted"
   ],
   "note": "False of the code (C93_refuted): the sanity check takes the sighash type of every input as an ECDSA type and rejects a taproot input with SIGHASH_DEFAULT. C93_agrees_partial: with types that pass, the functions stop at the first error of finalize_mut and leave earlier inputs finalized; C93_rejects: else they fail at once."
  },
  {
   "property": "C94",
   "status": "proved",
   "theorems": [
    "C94_v2",
    "C94_v2_exact",
    "C94_v0",
    "C94_v0_exact",
    "C94_stable",
    "C94_stable_v0"
   ],
   "note": "For v2 and v0; the base64 coding of the crate base64 is modelled in full except for which DecodeError is returned. Assumptions as for C01 and C45."
  },
  {
   "property": "C95",
   "status": "proved",
   "theorems": [
    "C95_panic_iff",
    "C95_printed",
    "C95_printed_v0",
    "C95_accepted",
    "C95_accepted_v0",
    "C95_canonical",
    "C95_errors",
    "C95_errors_v0",
    "C95_prefix",
    "C95_prefix_v0",
    "C95_one_version",
    "C95_nopanic_v0"
   ],
   "note": "base64 is specified bit by bit after RFC 4648 (SpecText.v), independently of the encoder and decoder."
  },
  {
   "property": "C96",
   "status": "proved",
   "theorems": [
    "C96_input",
    "C96_input_error",
    "C96_input_panic",
    "C96_output",
    "C96_output_error",
    "C96_output_panic",
    "C96_derives"
   ],
   "note": "Descriptors are given by their keys, scripts and tree (SpecUpdate0.v); rust-miniscript derives and encodes them and is external."
  },
  {
   "property": "C97",
   "status": "partial",
   "theorems": [
    "C97_input",
    "C97_output",
    "C97_unchecked_input",
    "C97_unchecked_output",
    "C97_scripts_refuted",
    "C97_tree_refuted"
   ],
   "note": "Refuted: redeem and witness scripts (C97_scripts_refuted) and the tree of an output (C97_tree_refuted) that the descriptor does not have are kept. Proved instead: exactly which fields are set (input_updated, output_updated), all others are unchanged."
  },
  {
   "property": "C98",
   "status": "partial",
   "theorems": [
    "C98_control_blocks",
    "C98_scripts",
    "C98_stale_refuted"
   ],
   "note": "Refuted: scripts of another tree that were in the map stay (C98_stale_refuted). The rest is proved; that each script itself is in the map needs that different scripts do not have the same path (C98_scripts)."
  },
  {
   "property": "C99",
   "status": "partial",
   "theorems": [
    "C99_keys",
    "C99_source_refuted"
   ],
   "note": "Refuted: a key that was listed before keeps its old source (C99_source_refuted). The rest is proved."
  },
  {
   "property": "C100",
   "status": "proved",
   "theorems": [
    "C100_input",
    "C100_output"
   ],
   "note": "For inputs and outputs with sorted maps, as BTreeMaps are."
  },
  {
   "property": "C101",
   "status": "partial",
   "theorems": [
    "C101_consistent_partial",
    "C101_consistent_refuted",
    "C101_checks",
    "C101_checks_refuted"
   ],
   "note": "C101_consistent_partial needs that the input has no redeem or witness script of another descriptor (updates keep them, C97) and no witness utxo for a legacy descriptor; C101_consistent_refuted: an update for a legacy descriptor accepts an input with both utxos, against BIP-174. C101_checks says exactly which updated inputs signer_checks accepts: no sh or sh-wsh input ever, sh-wpkh and wsh only with a witness utxo (C101_checks_refuted)."
  },
  {
   "property": "C102",
   "status": "proved",
   "theorems": [
    "C102_signed"
   ],
   "note": "The key of the descriptor is compared by its source or public key, as the provider does; the signature is valid for the public key of the private key that the provider returned."
  },
  {
   "property": "C103",
   "status": "partial",
   "theorems": [
    "C103_key_path_partial",
    "C103_internal_leaf",
    "C103_key_path_refuted",
    "C103_leaves"
   ],
   "note": "C103_key_path_partial needs that the internal key is in no leaf; otherwise no key path signature is ever made (C103_internal_leaf, with the witness C103_key_path_refuted). C103_leaves is complete; the source is the listed one, which after an earlier update can be an old one (C99)."
  },
  {
   "property": "C104",
   "status": "partial",
   "theorems": [
    "C104_ecdsa",
    "C104_taproot",
    "C104_unknown",
    "C104_signer_refuted",
    "C104_error",
    "C104_panic"
   ],
   "note": "C104_ecdsa and C104_taproot: the messages agree (for ANYONECANPAY with the BIP-341 fact AnyoneLaws). Refuted in two points: for witness programs of unknown version or length a legacy digest is returned where the signer refuses (C104_unknown, C104_signer_refuted), and it panics when a previous transaction given for any input has too few outputs (C104_panic). C104_error lists all errors."
  },
  {
   "property": "C105",
   "status": "partial",
   "theorems": [
    "C105_roundtrip",
    "C105_roundtrip_iff",
    "C105_decoded",
    "C105_owned_refuted"
   ],
   "note": "Refuted for human readable formats whose deserializer does not lend strings (serde_json::from_reader, from_value): the values of the four preimage maps are asked for as &str (C105_owned_refuted). C105_roundtrip_iff: it holds in exactly the other cases. Equality is Rust's ==; rust-bitcoin's own implementations are assumed to be faithful (SerdeLaws)."
  },
  {
   "property": "C106",
   "status": "partial",
   "theorems": [
    "C106_roundtrip",
    "C106_roundtrip_iff",
    "C106_decoded",
    "C106_owned_refuted"
   ],
   "note": "As for C105: C106_roundtrip_iff, C106_owned_refuted."
  },
  {
   "property": "C107",
   "status": "proved",
   "theorems": [
    "C107_json",
    "C107_json_v0"
   ],
   "note": "The key types that are used as keys of JSON objects (Xpub, PublicKey, hashes) write strings: a law of SerdeLaws."
  },
  {
   "property": "C108",
   "status": "partial",
   "theorems": [
    "C108_map",
    "C108_as_seq",
    "C108_seq_byte_values",
    "C108_byte_values",
    "C108_rejected_refuted"
   ],
   "note": "Refuted (C108_rejected_refuted): a repeated key is accepted and the last value is kept, in all four encodings of maps (C108_map, C108_as_seq, C108_seq_byte_values, C108_byte_values give exactly what is accepted)."
  },
  {
   "property": "C109",
   "status": "proved",
   "theorems": [
    "C109_order",
    "C109_unknown",
    "C109_twice",
    "C109_required",
    "C109_optional",
    "C109_positions"
   ],
   "note": "For all 11 structs with named fields (struct_type). Index keys are covered by names_member; C109_unknown is about names."
  },
  {
   "property": "C110",
   "status": "partial",
   "theorems": [
    "C110_added",
    "C110_removed",
    "C110_kept_refuted"
   ],
   "note": "Both halves are false: without the feature the required members are missing, so nothing is read (C110_added); with it the members are ignored as unknown and lost silently (C110_removed, C110_kept_refuted), while bytes keep them as unknown pairs."
  },
  {
   "property": "C111",
   "status": "partial",
   "theorems": [
    "C111_typed",
    "C111_all",
    "C111_typed_v0",
    "C111_all_v0",
    "C111_checked_refuted",
    "C111_checked_v0_refuted"
   ],
   "note": "C111_typed, C111_all and the v0 versions: exactly the values of the types, up to ==. The second half is refuted (C111_checked_refuted, C111_checked_v0_refuted); a function that never panics for decoded PSBTs panics for one read with serde."
  },
  {
   "property": "C112",
   "status": "partial",
   "theorems": [
    "C112_kept",
    "C112_kind_lost",
    "C112_constructor_refuted",
    "C112_checked_refuted"
   ],
   "note": "C112_kept: the first half. The second half is refuted: the kind of a Constructor is not written (C112_kind_lost, C112_constructor_refuted), and signers, updaters and extractors without lock time are read, whose methods panic (C112_checked_refuted)."
  },
  {
   "property": "C113",
   "status": "proved",
   "theorems": [
    "C113_read",
    "C113_written",
    "C113_hex",
    "C113_hex_written"
   ],
   "note": "For hex bytes some deserializers give text as bytes, which is accepted too."
  },
  {
   "property": "C114",
   "status": "partial",
   "theorems": [
    "C114_refuted",
    "C114_both_succeed",
    "C114_grouping_partial",
    "C114_equal_iff",
    "C114_no_utxo",
    "C114_v0_refuted",
    "C114_v0_both_succeed",
    "C114_v0_grouping_partial",
    "C114_v0_equal_iff"
   ],
   "note": "Refuted for v2 and v0 (C114_refuted, C114_v0_refuted): the non-witness utxo of the third PSBT may survive in one grouping only. Proved: both groupings succeed for the same triples, the results differ at most in the non-witness utxos of inputs, and are equal exactly when the utxos meet the condition regroupable."
  },
  {
   "property": "C115",
   "status": "proved",
   "theorems": [
    "C115_any_plan",
    "C115_union",
    "C115_v0_any_plan",
    "C115_v0_union"
   ],
   "note": "For v2 and v0. Compatible: no key has two values, sighash type and fallback lock time are present in both or in none, and no non-witness utxo is lost to a witness utxo. Equality is Rust's (tap trees by root hash)."
  },
  {
   "property": "C116",
   "status": "partial",
   "theorems": [
    "C116_input",
    "C116_output",
    "C116_plain",
    "C116_refuted"
   ],
   "note": "Refuted at the size limit (C116_refuted): a taproot key source that fits into a value may no longer fit together with its leaf hashes, and the trees of outputs may be too long; the update succeeds and what is written cannot be read. Proved: an updated PSBT round-trips exactly when each taproot origin of the item, and for outputs the tree, fits into a value (C116_input, C116_output), so without taproot always (C116_plain)."
  },
  {
   "property": "C117",
   "status": "proved",
   "theorems": [
    "C117_workflow"
   ],
   "note": "C117_workflow, for single keys with ECDSA (BIP-44, BIP-49, BIP-84) and with taproot without scripts (BIP-86), any mixture of inputs. That the interpreter of rust-miniscript accepts a spend of a single key whose signature verifies is the law class KeySpendLaws (instance: KeyInstance.v). Descriptors with scripts are not covered: their satisfaction is a parameter of the model."
  },
  {
   "property": "C118",
   "status": "proved",
   "theorems": [
    "C118_who_signed",
    "C118_goes_on",
    "C118_signatures",
    "C118_two",
    "C118_old_signature_refuted",
    "C118_disagree_refuted"
   ],
   "note": "C118_who_signed, C118_goes_on, C118_signatures; C118_two for two signers. C118_old_signature_refuted and C118_disagree_refuted: both hypotheses are needed. The taproot keys that are reported can differ (C61_v0_again_partial)."
  },
  {
   "property": "C119",
   "status": "proved",
   "theorems": [
    "C119_who_signed",
    "C119_goes_on",
    "C119_signatures",
    "C119_unsigned_copy",
    "C119_unsigned_first_refuted"
   ],
   "note": "C119_who_signed, C119_goes_on, C119_signatures; C119_unsigned_copy says what combining with the unsigned PSBT gives. C119_unsigned_first_refuted: an unsigned copy that comes first loses the flags. C62_old_signature_refuted: the hypothesis about older signatures is needed."
  },
  {
   "property": "C120",
   "status": "proved",
   "theorems": [
    "C120_workflow",
    "C120_goes_on",
    "C120_enough"
   ],
   "note": "C120_workflow for everything that can be made by signing and combining; C120_goes_on says that nobody is stopped; C120_enough: which of several holders of a key sign does not matter. Single keys only, as C117; the hypothesis about contradicting signers is needed (C118_disagree_refuted)."
  },
  {
   "property": "C121",
   "status": "proved",
   "theorems": [
    "C121_written",
    "C121_read",
    "C121_txout",
    "C121_witness",
    "C121_unambiguous",
    "C121_txid",
    "C121_weight"
   ],
   "note": "The format is written out in SpecTx.v with little-endian numbers and minimal compact sizes, without the encoder of the model."
  },
  {
   "property": "C122",
   "status": "proved",
   "theorems": [
    "C122_fields"
   ],
   "note": "The tables of key types and formats are written out in SpecFields0.v from the BIPs."
  },
  {
   "property": "C123",
   "status": "proved",
   "theorems": [
    "C123_read",
    "C123_accepted",
    "C123_written",
    "C123_order",
    "C123_refused"
   ],
   "note": "C123_read, C123_accepted and C123_refused characterise what is accepted; C123_written: the order of children may change, as NodeInfo::combine sorts by hash."
  },
  {
   "property": "C124",
   "status": "proved",
   "theorems": [
    "C124_kept"
   ],
   "note": "C124_kept. That an optional or repeated key can stand for at most one pair is C04/C57."
  },
  {
   "property": "C125",
   "status": "partial",
   "theorems": [
    "C125_kept_partial",
    "C125_complete",
    "C125_dropped_refuted"
   ],
   "note": "As stated false: of repeated pairs of a required field (INPUT_COUNT, previous txid, output index, amount, script) all but the last are lost (C125_dropped_refuted, cf. C04). C125_kept_partial says exactly what is kept; C125_complete: without such repetition every pair is kept."
  },
  {
   "property": "C126",
   "status": "proved",
   "theorems": [
    "C126_input",
    "C126_output",
    "C126_sig_data",
    "C126_asked",
    "C126_transaction",
    "C126_conflict",
    "C126_read",
    "C126_flags"
   ],
   "note": "C126_asked: construction never fails and gives exactly what was asked (record as_asked); C126_input, C126_output: the builders; C126_sig_data: what counts as signature data; C126_transaction, C126_conflict: the updater's transaction, or the refusal exactly on a lock time conflict; C126_read: what was built in range is well formed and read back by others; C126_flags: the flag functions by bits. The preconditions 'fewer than 2^64 inputs and outputs' hold of any list in memory."
  },
  {
   "property": "C127",
   "status": "proved",
   "theorems": [
    "C127_stored",
    "C127_v0_stored"
   ],
   "note": "C127_stored (v2) and C127_v0_stored: invariants over inductively defined histories (SpecHistory.v, SpecHistory0.v). The steps carry the conditions under which Rust values are in the ranges of their types, that vectors fit in memory, that satisfactions found by miniscript fit into a value, and (v0) that the combined global map is at most 4 MB and that descriptors are sound; C57_v0, C70 and C104 show that the size limits cannot be dropped."
  },
  {
   "property": "C128",
   "status": "partial",
   "theorems": [
    "C128_kept",
    "C128_extracted",
    "C128_refuted",
    "C128_v0_kept",
    "C128_v0_extracted"
   ],
   "note": "Proved for a PSBT that is the first argument of combine (C128_kept, C128_extracted) and for v0 on either side (C128_v0_kept, C128_v0_extracted). False for the second argument of the v2 combine: C128_refuted gives a signed, frozen PSBT that becomes modifiable again with its signatures when combined into a modifiable one, and then gets another output."
  },
  {
   "property": "C129",
   "status": "partial",
   "theorems": [
    "C129_global",
    "C129_input",
    "C129_output",
    "C129_psbt",
    "C129_count_refuted",
    "C129_xpub_refuted",
    "C129_share_refuted",
    "C129_index_refuted",
    "C129_key",
    "C129_duplicate_input",
    "C129_duplicate_output"
   ],
   "note": "C129_psbt (with C129_global, C129_input, C129_output) relates every error to the bytes for all inputs; the exceptions are part of the specification (marked lines of SpecErrors.v) because the code refutes the claim there: the only input count behind the output count is a duplicate (C129_count_refuted), an xpub with an empty value is told that its key must have no data (C129_xpub_refuted), a scan key, share or proof of the right length that does not parse has a wrong length (C129_share_refuted), and fields that hold the value of a placeholder are missing (C129_index_refuted). C129_key and C129_duplicate_input/output: named keys are right."
  },
  {
   "property": "C130",
   "status": "proved",
   "theorems": [
    "C130_input",
    "C130_output",
    "C130_psbt",
    "C130_duplicate"
   ],
   "note": "C130_psbt for whole PSBTs, C130_input and C130_output for single maps; the global map is read from the first 4,000,000 bytes, so what is broken there may be broken by that limit. C130_duplicate: duplicates are duplicates. The text of ExcludedKey is not part of this claim."
  },
  {
   "property": "C131",
   "status": "proved",
   "theorems": [
    "C131_global",
    "C131_input",
    "C131_output",
    "C131_handled"
   ],
   "note": "C131_global, C131_input, C131_output against the tables of SpecErrorText.v; C131_handled: what the decoders handle has a name."
  },
  {
   "property": "C132",
   "status": "partial",
   "theorems": [
    "C132_global",
    "C132_input_v0",
    "C132_global_v0_refuted",
    "C132_output_v0_refuted"
   ],
   "note": "True for the global map of version 2 (C132_global) and the input maps of version 0 (C132_input_v0). The code refutes it for the global and output maps of version 0, whose fields are given the name of the input field of the same number (C132_global_v0_refuted, C132_output_v0_refuted)."
  },
  {
   "property": "C133",
   "status": "partial",
   "theorems": [
    "C133_value",
    "C133_global",
    "C133_input",
    "C133_output",
    "C133_v0",
    "C133_hash_refuted",
    "C133_fingerprint_refuted"
   ],
   "note": "C133_value for all errors of src/serialize.rs, C133_global, C133_input, C133_output and C133_v0 for the errors that decoding gives. In version 2 the name of the hash function of a wrong preimage is printed as the word self, so it is excepted (C133_hash_refuted); the text for a short fingerprint speaks of the derivation path (C133_fingerprint_refuted). The string of Taproot errors and errors of other crates are not modelled."
  },
  {
   "property": "C134",
   "status": "partial",
   "theorems": [
    "C134_maps",
    "C134_value",
    "C134_lost_refuted",
    "C134_v0"
   ],
   "note": "True for the map errors (C134_maps). The code refutes it for serialize::Error and the v0 Error (C134_lost_refuted); exactly five variants of each lose the error they hold (C134_value, C134_v0)."
  },
  {
   "property": "C135",
   "status": "proved",
   "theorems": [
    "C135_error",
    "C135_ok",
    "C135_v0",
    "C135_exchanged"
   ],
   "note": "C135_error (iff, v2), C135_ok, C135_v0 (iff), C135_exchanged: the last for all errors but conflicting key sources, for which the other order may panic (C38)."
  },
  {
   "property": "C136",
   "status": "partial",
   "theorems": [
    "C136_results",
    "C136_results_global",
    "C136_unchanged_refuted",
    "C136_global_unchanged_refuted",
    "C136_left_partial",
    "C136_global_left_partial",
    "C136_again",
    "C136_global_again",
    "C136_recovers"
   ],
   "note": "Refuted by the code: xpubs that come before the conflicting one have been merged (C136_unchanged_refuted, C136_global_unchanged_refuted). True: everything else but the v0 version number is unchanged, other errors change nothing (C136_left_partial, C136_global_left_partial), a second try gives the same error and changes no more (C136_again), and combining with other PSBTs stays possible (C136_recovers)."
  },
  {
   "property": "C137",
   "status": "proved",
   "theorems": [
    "C137_unique",
    "C137_input",
    "C137_finalize",
    "C137_v0_input",
    "C137_v0_finalize"
   ],
   "note": "C137_input and C137_v0_input are equivalences with the problems of SpecFinalizeErr.v; C137_finalize and C137_v0_finalize lift them to the calls. Which scripts can be satisfied is left to the miniscript library (a parameter). The lists of signatures are sorted, which BTreeMap guarantees."
  },
  {
   "property": "C138",
   "status": "proved",
   "theorems": [
    "C138_decimal",
    "C138_hex",
    "C138_global",
    "C138_input",
    "C138_output",
    "C138_missing_global",
    "C138_missing_input",
    "C138_missing_output",
    "C138_v0",
    "C138_v0_global",
    "C138_v0_whole",
    "C138_combine"
   ],
   "note": "The words of each text are in SpecErrorQuote.v. Two texts mislead and are marked there: an empty xpub value is called key data, and a short fingerprint a wrong path. Errors of other crates are not modelled."
  },
  {
   "property": "C139",
   "status": "proved",
   "theorems": [
    "C139_numbers",
    "C139_keys",
    "C139_signatures",
    "C139_sources",
    "C139_taproot",
    "C139_taptree",
    "C139_txout",
    "C139_truncated",
    "C139_trailing",
    "C139_v0"
   ],
   "note": "Equivalences error <-> fault, stated on the bytes (SpecValueErrors.v). Tap trees: error implies fault only, because the tree builder reports an over-full tree at its end with the same error. Transactions and witnesses: cut short gives the end of input, continued gives data left over. Which byte strings are points or signatures is left to the external library (class Ext)."
  },
  {
   "property": "C140",
   "status": "proved",
   "theorems": [
    "C140_sighash",
    "C140_v0_sighash",
    "C140_v0_finalize_index",
    "C140_v0_checked",
    "C140_combine",
    "C140_fee",
    "C140_extractor",
    "C140_extract",
    "C140_constructor",
    "C140_updater",
    "C140_sign",
    "C140_finalizer",
    "C140_finalize",
    "C140_v0_extract",
    "C140_v0_sign",
    "C140_v0_finalize",
    "C140_v0_update_input",
    "C140_v0_update_output",
    "C140_v0_message"
   ],
   "note": "The words are written down beside the facts they tell (SpecRoleErrors.v). How rust-bitcoin prints keys, amounts, scripts, rates, xpubs and sighash types is a parameter (printers), as are the texts of errors of other crates, of which the model has no data. The rate is that of the transaction for fees below 2^64/1000."
  },
  {
   "property": "C141",
   "status": "partial",
   "theorems": [
    "C141_says_missing_partial",
    "C141_says_missing_refuted",
    "C141_v0_says_missing_partial",
    "C141_v0_says_missing_refuted"
   ],
   "note": "False of the code for a missing redeem script: the text is \"PSBT is Redeem script\" (C141_says_missing_refuted, C141_v0_says_missing_refuted). Proved for a missing utxo, witness script and signing key."
  },
  {
   "property": "C142",
   "status": "proved",
   "theorems": [
    "C142_v2",
    "C142_v0",
    "C142_base64"
   ],
   "note": "Equality up to the order of leaves of tap trees with equal scripts, as in C01."
  },
  {
   "property": "C143",
   "status": "partial",
   "theorems": [
    "C143_says_truth_partial",
    "C143_nested",
    "C143_says_truth_refuted",
    "C143_distinct"
   ],
   "note": "False of the code for P2SH-P2WSH: the text says that the script pubkey does not match the redeem script, although this was checked before and holds (C143_nested: whenever it is shown; C143_says_truth_refuted: also for consistent PSBTs). Proved for all other errors."
  },
  {
   "property": "C144",
   "status": "proved",
   "theorems": [
    "C144_taproot_type",
    "C144_taproot_type_v0",
    "C144_message",
    "C144_proof",
    "C144_version",
    "C144_out_point"
   ],
   "note": "C144_message is about inputs spending ECDSA or taproot outputs, as C104."
  },
  {
   "property": "C145",
   "status": "partial",
   "theorems": [
    "C145_combine",
    "C145_combine_different",
    "C145_combine_refuted",
    "C145_pairs_input",
    "C145_pairs_output",
    "C145_pairs_global",
    "C145_finalize",
    "C145_finalize_refuted",
    "C145_read_input",
    "C145_read_output",
    "C145_read_global",
    "C145_transaction",
    "C145_transaction_refuted",
    "C145_fee",
    "C145_extract",
    "C145_digest",
    "C145_sign",
    "C145_sign_refuted"
   ],
   "note": "False of the code without a sequence: v2 takes 0 for an absent sequence in the unsigned transaction, so that another transaction is signed (C145_transaction_refuted), and for taproot outputs, which v2 does not sign (C145_sign_refuted). Proved for PSBTs that give all sequences and, for signing, spend outputs signed with ECDSA; the fee and the extraction agree always. In C145_digest, v0 panics where v2 reports that the spent output is not in the transaction given. The v2 finalizer does not look at the lock time of the transaction (C145_finalize_refuted); C145_finalize is proved for inputs whose named locks are the lock time of the transaction and that do not need the taproot keys of other inputs, given that a miniscript asks its satisfier only (asks_only). PSBTs for different transactions are always refused by v0 (C145_combine_different) but not by v2 (C145_combine_refuted); C145_combine is proved for the same transaction. The pairs agree always (C145_pairs_global, C145_pairs_input, C145_pairs_output). So do the readers on pairs of the types that both have (C145_read_input, C145_read_output with the same error; C145_read_global with errors of different names)."
  },
  {
   "property": "C146",
   "status": "proved",
   "theorems": [
    "C146_v2",
    "C146_v0",
    "C146_input",
    "C146_output",
    "C146_input_v0",
    "C146_output_v0"
   ],
   "note": "Both directions, whole PSBTs of both versions and the single maps. The format is written from the BIPs; the lines where the code is wider (key data behind required types, bytes behind counts, repeated placeholders, repeated input counts) or narrower (amount 0, index 0xffffffff, zero txid, key limit of proprietary pairs, sizes) are marked in SpecAccept.v, and C146_lax_* show members that the BIPs do not allow. External codecs (transactions, keys, hashes) appear through their decode functions."
  },
  {
   "property": "C147",
   "status": "partial",
   "theorems": [
    "C147_outcome",
    "C147_finalized",
    "C147_stored",
    "C147_panic_refuted",
    "C147_partial"
   ],
   "note": "False as stated: the check panics for a PSBT that is not finalized, in every build, and for a finalized one without utxos, which the decoder accepts. Proved: the answer for every PSBT (C147_outcome), that only these two panic, and that what the finalizer returned passes again."
  },
  {
   "property": "C148",
   "status": "partial",
   "theorems": [
    "C148_read",
    "C148_some",
    "C148_back",
    "C148_accepted",
    "C148_same_tx",
    "C148_combine_partial",
    "C148_read_refuted",
    "C148_combine_refuted"
   ],
   "note": "False as stated in two points: an output whose script is still to be computed is refused by the build without the feature (C148_read_refuted), and where two outputs disagree about the data the one build keeps the first value and the other the second (C148_combine_refuted). Proved: exactly the PSBTs whose outputs have scripts pass (C148_accepted), nothing is lost on the way there and back (C148_read, C148_back), and combining agrees when the outputs do not disagree (C148_combine_partial). The theorems about reading exclude tap trees with ties, see C41."
  },
  {
   "property": "C149",
   "status": "proved",
   "theorems": [
    "C149_sha256_collision",
    "C149_sha256_blocks",
    "C149_ripemd160_blocks",
    "C149_padding_inj",
    "C149_field",
    "C149_keys",
    "C149_xonly",
    "C149_laws",
    "C149_signatures",
    "C149_roundtrip",
    "C149_v0_roundtrip"
   ],
   "note": "Proved of the instance real_root (RealLaws.v), an independent implementation of SHA-256, RIPEMD-160, secp256k1 key parsing and DER from their standards; that the Rust and C code of the dependencies computes these functions is trusted. Primality of the field by Pocklington's test (NumTheory.v). Of the laws of signing the form of signatures is proved (C149_signatures); that they verify, and the laws of miniscript, stay assumptions. C149_sha256_blocks, C149_ripemd160_blocks and C149_padding_inj: the hashes iterate over the blocks of the padded message, and padding is injective; the compression functions themselves are checked by test vectors only. C149_sha256_collision: a collision of SHA-256 is one of two steps of its compression."
  },
  {
   "property": "C150",
   "status": "partial",
   "theorems": [
    "C150_segwit_explicit",
    "C150_legacy_explicit",
    "C150_taproot_explicit",
    "C150_taproot",
    "C150_taproot_fee",
    "C150_anyone",
    "C150_segwit",
    "C150_segwit_fee_refuted",
    "C150_legacy",
    "C150_legacy_amount_refuted",
    "C150_legacy_single_refuted"
   ],
   "note": "Refuted as stated: with segwit version 0 the amounts of other inputs can be changed and with them the fee, under the same message (C150_segwit_fee_refuted); with legacy inputs even the amount of the input (C150_legacy_amount_refuted); and for SINGLE without an output of the index the code signs the number 1 for legacy inputs (C150_legacy_single_refuted). Proved: all the rest, of the digests of BIP-143 and before (RealSign.v) and BIP-341 (RealTaproot.v, checked against the vectors of the BIP in VectorsTaproot.v); that the dependency computes these is trusted. For SINGLE of segwit version 0 both transactions must have an output with the index, else the digest has zeros; an empty legacy script does not say which input it belongs to. That some two strings collide is true by counting, so a theorem saying only 'or a collision exists' claims little; the theorems named _explicit say which strings collide: two that the digests or ids at hand hash."
  },
  {
   "property": "C151",
   "status": "partial",
   "theorems": [
    "C151_segwit_explicit",
    "C151_legacy_explicit",
    "C151_id_explicit",
    "C151_segwit",
    "C151_legacy",
    "C151_id",
    "C151_fee_refuted",
    "C151_sequence_refuted"
   ],
   "note": "Holds for everything but the amounts of the other inputs (C151_fee_refuted) and the sequence numbers of the extracted transaction (C151_sequence_refuted: an input without sequence number is signed with 0, like one with sequence number 0, and extracted with 0xffffffff). Legacy: SINGLE needs an output with the index of the input, and an empty script is not told apart by its place. All of them up to a SHA-256 collision, with the real functions. That some two strings collide is true by counting, so a theorem saying only 'or a collision exists' claims little; the theorems named _explicit say which strings collide: two that the digests or ids at hand hash."
  },
  {
   "property": "C152",
   "status": "partial",
   "theorems": [
    "C152_output_explicit",
    "C152_fee_explicit",
    "C152_segwit_explicit",
    "C152_legacy_explicit",
    "C152_output",
    "C152_fee",
    "C152_segwit",
    "C152_legacy",
    "C152_witness_utxo_refuted"
   ],
   "note": "Proved for inputs that have only the previous transaction (C152_output, C152_fee, C152_segwit, C152_legacy). Refuted when an input has a witness utxo as well: signer_checks does not compare it with the output of the previous transaction, and its amount is the one that counts, so the fee can be lied about (C152_witness_utxo_refuted). That some two strings collide is true by counting, so a theorem saying only 'or a collision exists' claims little; the theorems named _explicit say which strings collide: two that the digests or ids at hand hash."
  }
 ]
}