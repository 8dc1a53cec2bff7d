(** Model of src/v2/map/input.rs. *)
From Verif Require Import Base OMap Consensus Ext Raw TapTree Serialize MapCodec.
Local Open Scope N_scope.

(** src/v2/map/input.rs:45-140, [Input]. *)
Record input : Type := Input {
  in_previous_txid : bytes;  (* 51 *)
  in_spent_output_index : N;  (* 54 *)
  in_sequence : option N;  (* 59 *)
  in_min_time : option N;  (* 62 *)
  in_min_height : option N;  (* 65 *)
  in_non_witness_utxo : option tx;  (* 70 *)
  in_witness_utxo : option txout;  (* 74 *)
  in_partial_sigs : list (pubkey * esig);  (* 77 *)
  in_sighash_type : option N;  (* 80 *)
  in_redeem_script : option bytes;  (* 82 *)
  in_witness_script : option bytes;  (* 84 *)
  in_bip32_derivations : list (bytes * keysource);  (* 88 *)
  in_final_script_sig : option bytes;  (* 91 *)
  in_final_script_witness : option witness;  (* 94 *)
  in_ripemd160_preimages : list (bytes * bytes);  (* 98 *)
  in_sha256_preimages : list (bytes * bytes);  (* 101 *)
  in_hash160_preimages : list (bytes * bytes);  (* 104 *)
  in_hash256_preimages : list (bytes * bytes);  (* 107 *)
  in_tap_key_sig : option tsig;  (* 109 *)
  in_tap_script_sigs : list (xleaf * tsig);  (* 112 *)
  in_tap_scripts : list (controlblock * leafscript);  (* 115 *)
  in_tap_key_origins : list (bytes * taporigin);  (* 118 *)
  in_tap_internal_key : option bytes;  (* 120 *)
  in_tap_merkle_root : option bytes;  (* 122 *)
  in_sp_ecdh_shares : list (bytes * bytes);  (* 127 *)
  in_sp_dleq_proofs : list (bytes * bytes);  (* 132 *)
  in_proprietaries : list (propkey * bytes);  (* 136 *)
  in_unknowns : list (key * bytes)  (* 139 *)
}.

(** Field assignments [self.field = value] on input (Rust's field update, src/v2/map/input.rs:45-140). *)
(** src/v2/map/input.rs:51, assignment to the field. *)
Definition set_in_previous_txid (v : bytes) (s : input) : input :=
  Input v (in_spent_output_index s) (in_sequence s) (in_min_time s) (in_min_height s)
    (in_non_witness_utxo s) (in_witness_utxo s) (in_partial_sigs s) (in_sighash_type s)
    (in_redeem_script s) (in_witness_script s) (in_bip32_derivations s) (in_final_script_sig s)
    (in_final_script_witness s) (in_ripemd160_preimages s) (in_sha256_preimages s)
    (in_hash160_preimages s) (in_hash256_preimages s) (in_tap_key_sig s) (in_tap_script_sigs s)
    (in_tap_scripts s) (in_tap_key_origins s) (in_tap_internal_key s) (in_tap_merkle_root s)
    (in_sp_ecdh_shares s) (in_sp_dleq_proofs s) (in_proprietaries s) (in_unknowns s).
(** src/v2/map/input.rs:54, assignment to the field. *)
Definition set_in_spent_output_index (v : N) (s : input) : input :=
  Input (in_previous_txid s) v (in_sequence s) (in_min_time s) (in_min_height s)
    (in_non_witness_utxo s) (in_witness_utxo s) (in_partial_sigs s) (in_sighash_type s)
    (in_redeem_script s) (in_witness_script s) (in_bip32_derivations s) (in_final_script_sig s)
    (in_final_script_witness s) (in_ripemd160_preimages s) (in_sha256_preimages s)
    (in_hash160_preimages s) (in_hash256_preimages s) (in_tap_key_sig s) (in_tap_script_sigs s)
    (in_tap_scripts s) (in_tap_key_origins s) (in_tap_internal_key s) (in_tap_merkle_root s)
    (in_sp_ecdh_shares s) (in_sp_dleq_proofs s) (in_proprietaries s) (in_unknowns s).
(** src/v2/map/input.rs:59, assignment to the field. *)
Definition set_in_sequence (v : option N) (s : input) : input :=
  Input (in_previous_txid s) (in_spent_output_index s) v (in_min_time s) (in_min_height s)
    (in_non_witness_utxo s) (in_witness_utxo s) (in_partial_sigs s) (in_sighash_type s)
    (in_redeem_script s) (in_witness_script s) (in_bip32_derivations s) (in_final_script_sig s)
    (in_final_script_witness s) (in_ripemd160_preimages s) (in_sha256_preimages s)
    (in_hash160_preimages s) (in_hash256_preimages s) (in_tap_key_sig s) (in_tap_script_sigs s)
    (in_tap_scripts s) (in_tap_key_origins s) (in_tap_internal_key s) (in_tap_merkle_root s)
    (in_sp_ecdh_shares s) (in_sp_dleq_proofs s) (in_proprietaries s) (in_unknowns s).
(** src/v2/map/input.rs:62, assignment to the field. *)
Definition set_in_min_time (v : option N) (s : input) : input :=
  Input (in_previous_txid s) (in_spent_output_index s) (in_sequence s) v (in_min_height s)
    (in_non_witness_utxo s) (in_witness_utxo s) (in_partial_sigs s) (in_sighash_type s)
    (in_redeem_script s) (in_witness_script s) (in_bip32_derivations s) (in_final_script_sig s)
    (in_final_script_witness s) (in_ripemd160_preimages s) (in_sha256_preimages s)
    (in_hash160_preimages s) (in_hash256_preimages s) (in_tap_key_sig s) (in_tap_script_sigs s)
    (in_tap_scripts s) (in_tap_key_origins s) (in_tap_internal_key s) (in_tap_merkle_root s)
    (in_sp_ecdh_shares s) (in_sp_dleq_proofs s) (in_proprietaries s) (in_unknowns s).
(** src/v2/map/input.rs:65, assignment to the field. *)
Definition set_in_min_height (v : option N) (s : input) : input :=
  Input (in_previous_txid s) (in_spent_output_index s) (in_sequence s) (in_min_time s) v
    (in_non_witness_utxo s) (in_witness_utxo s) (in_partial_sigs s) (in_sighash_type s)
    (in_redeem_script s) (in_witness_script s) (in_bip32_derivations s) (in_final_script_sig s)
    (in_final_script_witness s) (in_ripemd160_preimages s) (in_sha256_preimages s)
    (in_hash160_preimages s) (in_hash256_preimages s) (in_tap_key_sig s) (in_tap_script_sigs s)
    (in_tap_scripts s) (in_tap_key_origins s) (in_tap_internal_key s) (in_tap_merkle_root s)
    (in_sp_ecdh_shares s) (in_sp_dleq_proofs s) (in_proprietaries s) (in_unknowns s).
(** src/v2/map/input.rs:70, assignment to the field. *)
Definition set_in_non_witness_utxo (v : option tx) (s : input) : input :=
  Input (in_previous_txid s) (in_spent_output_index s) (in_sequence s) (in_min_time s)
    (in_min_height s) v (in_witness_utxo s) (in_partial_sigs s) (in_sighash_type s)
    (in_redeem_script s) (in_witness_script s) (in_bip32_derivations s) (in_final_script_sig s)
    (in_final_script_witness s) (in_ripemd160_preimages s) (in_sha256_preimages s)
    (in_hash160_preimages s) (in_hash256_preimages s) (in_tap_key_sig s) (in_tap_script_sigs s)
    (in_tap_scripts s) (in_tap_key_origins s) (in_tap_internal_key s) (in_tap_merkle_root s)
    (in_sp_ecdh_shares s) (in_sp_dleq_proofs s) (in_proprietaries s) (in_unknowns s).
(** src/v2/map/input.rs:74, assignment to the field. *)
Definition set_in_witness_utxo (v : option txout) (s : input) : input :=
  Input (in_previous_txid s) (in_spent_output_index s) (in_sequence s) (in_min_time s)
    (in_min_height s) (in_non_witness_utxo s) v (in_partial_sigs s) (in_sighash_type s)
    (in_redeem_script s) (in_witness_script s) (in_bip32_derivations s) (in_final_script_sig s)
    (in_final_script_witness s) (in_ripemd160_preimages s) (in_sha256_preimages s)
    (in_hash160_preimages s) (in_hash256_preimages s) (in_tap_key_sig s) (in_tap_script_sigs s)
    (in_tap_scripts s) (in_tap_key_origins s) (in_tap_internal_key s) (in_tap_merkle_root s)
    (in_sp_ecdh_shares s) (in_sp_dleq_proofs s) (in_proprietaries s) (in_unknowns s).
(** src/v2/map/input.rs:77, assignment to the field. *)
Definition set_in_partial_sigs (v : list (pubkey * esig)) (s : input) : input :=
  Input (in_previous_txid s) (in_spent_output_index s) (in_sequence s) (in_min_time s)
    (in_min_height s) (in_non_witness_utxo s) (in_witness_utxo s) v (in_sighash_type s)
    (in_redeem_script s) (in_witness_script s) (in_bip32_derivations s) (in_final_script_sig s)
    (in_final_script_witness s) (in_ripemd160_preimages s) (in_sha256_preimages s)
    (in_hash160_preimages s) (in_hash256_preimages s) (in_tap_key_sig s) (in_tap_script_sigs s)
    (in_tap_scripts s) (in_tap_key_origins s) (in_tap_internal_key s) (in_tap_merkle_root s)
    (in_sp_ecdh_shares s) (in_sp_dleq_proofs s) (in_proprietaries s) (in_unknowns s).
(** src/v2/map/input.rs:80, assignment to the field. *)
Definition set_in_sighash_type (v : option N) (s : input) : input :=
  Input (in_previous_txid s) (in_spent_output_index s) (in_sequence s) (in_min_time s)
    (in_min_height s) (in_non_witness_utxo s) (in_witness_utxo s) (in_partial_sigs s) v
    (in_redeem_script s) (in_witness_script s) (in_bip32_derivations s) (in_final_script_sig s)
    (in_final_script_witness s) (in_ripemd160_preimages s) (in_sha256_preimages s)
    (in_hash160_preimages s) (in_hash256_preimages s) (in_tap_key_sig s) (in_tap_script_sigs s)
    (in_tap_scripts s) (in_tap_key_origins s) (in_tap_internal_key s) (in_tap_merkle_root s)
    (in_sp_ecdh_shares s) (in_sp_dleq_proofs s) (in_proprietaries s) (in_unknowns s).
(** src/v2/map/input.rs:82, assignment to the field. *)
Definition set_in_redeem_script (v : option bytes) (s : input) : input :=
  Input (in_previous_txid s) (in_spent_output_index s) (in_sequence s) (in_min_time s)
    (in_min_height s) (in_non_witness_utxo s) (in_witness_utxo s) (in_partial_sigs s)
    (in_sighash_type s) v (in_witness_script s) (in_bip32_derivations s) (in_final_script_sig s)
    (in_final_script_witness s) (in_ripemd160_preimages s) (in_sha256_preimages s)
    (in_hash160_preimages s) (in_hash256_preimages s) (in_tap_key_sig s) (in_tap_script_sigs s)
    (in_tap_scripts s) (in_tap_key_origins s) (in_tap_internal_key s) (in_tap_merkle_root s)
    (in_sp_ecdh_shares s) (in_sp_dleq_proofs s) (in_proprietaries s) (in_unknowns s).
(** src/v2/map/input.rs:84, assignment to the field. *)
Definition set_in_witness_script (v : option bytes) (s : input) : input :=
  Input (in_previous_txid s) (in_spent_output_index s) (in_sequence s) (in_min_time s)
    (in_min_height s) (in_non_witness_utxo s) (in_witness_utxo s) (in_partial_sigs s)
    (in_sighash_type s) (in_redeem_script s) v (in_bip32_derivations s) (in_final_script_sig s)
    (in_final_script_witness s) (in_ripemd160_preimages s) (in_sha256_preimages s)
    (in_hash160_preimages s) (in_hash256_preimages s) (in_tap_key_sig s) (in_tap_script_sigs s)
    (in_tap_scripts s) (in_tap_key_origins s) (in_tap_internal_key s) (in_tap_merkle_root s)
    (in_sp_ecdh_shares s) (in_sp_dleq_proofs s) (in_proprietaries s) (in_unknowns s).
(** src/v2/map/input.rs:88, assignment to the field. *)
Definition set_in_bip32_derivations (v : list (bytes * keysource)) (s : input) : input :=
  Input (in_previous_txid s) (in_spent_output_index s) (in_sequence s) (in_min_time s)
    (in_min_height s) (in_non_witness_utxo s) (in_witness_utxo s) (in_partial_sigs s)
    (in_sighash_type s) (in_redeem_script s) (in_witness_script s) v (in_final_script_sig s)
    (in_final_script_witness s) (in_ripemd160_preimages s) (in_sha256_preimages s)
    (in_hash160_preimages s) (in_hash256_preimages s) (in_tap_key_sig s) (in_tap_script_sigs s)
    (in_tap_scripts s) (in_tap_key_origins s) (in_tap_internal_key s) (in_tap_merkle_root s)
    (in_sp_ecdh_shares s) (in_sp_dleq_proofs s) (in_proprietaries s) (in_unknowns s).
(** src/v2/map/input.rs:91, assignment to the field. *)
Definition set_in_final_script_sig (v : option bytes) (s : input) : input :=
  Input (in_previous_txid s) (in_spent_output_index s) (in_sequence s) (in_min_time s)
    (in_min_height s) (in_non_witness_utxo s) (in_witness_utxo s) (in_partial_sigs s)
    (in_sighash_type s) (in_redeem_script s) (in_witness_script s) (in_bip32_derivations s) v
    (in_final_script_witness s) (in_ripemd160_preimages s) (in_sha256_preimages s)
    (in_hash160_preimages s) (in_hash256_preimages s) (in_tap_key_sig s) (in_tap_script_sigs s)
    (in_tap_scripts s) (in_tap_key_origins s) (in_tap_internal_key s) (in_tap_merkle_root s)
    (in_sp_ecdh_shares s) (in_sp_dleq_proofs s) (in_proprietaries s) (in_unknowns s).
(** src/v2/map/input.rs:94, assignment to the field. *)
Definition set_in_final_script_witness (v : option witness) (s : input) : input :=
  Input (in_previous_txid s) (in_spent_output_index s) (in_sequence s) (in_min_time s)
    (in_min_height s) (in_non_witness_utxo s) (in_witness_utxo s) (in_partial_sigs s)
    (in_sighash_type s) (in_redeem_script s) (in_witness_script s) (in_bip32_derivations s)
    (in_final_script_sig s) v (in_ripemd160_preimages s) (in_sha256_preimages s)
    (in_hash160_preimages s) (in_hash256_preimages s) (in_tap_key_sig s) (in_tap_script_sigs s)
    (in_tap_scripts s) (in_tap_key_origins s) (in_tap_internal_key s) (in_tap_merkle_root s)
    (in_sp_ecdh_shares s) (in_sp_dleq_proofs s) (in_proprietaries s) (in_unknowns s).
(** src/v2/map/input.rs:98, assignment to the field. *)
Definition set_in_ripemd160_preimages (v : list (bytes * bytes)) (s : input) : input :=
  Input (in_previous_txid s) (in_spent_output_index s) (in_sequence s) (in_min_time s)
    (in_min_height s) (in_non_witness_utxo s) (in_witness_utxo s) (in_partial_sigs s)
    (in_sighash_type s) (in_redeem_script s) (in_witness_script s) (in_bip32_derivations s)
    (in_final_script_sig s) (in_final_script_witness s) v (in_sha256_preimages s)
    (in_hash160_preimages s) (in_hash256_preimages s) (in_tap_key_sig s) (in_tap_script_sigs s)
    (in_tap_scripts s) (in_tap_key_origins s) (in_tap_internal_key s) (in_tap_merkle_root s)
    (in_sp_ecdh_shares s) (in_sp_dleq_proofs s) (in_proprietaries s) (in_unknowns s).
(** src/v2/map/input.rs:101, assignment to the field. *)
Definition set_in_sha256_preimages (v : list (bytes * bytes)) (s : input) : input :=
  Input (in_previous_txid s) (in_spent_output_index s) (in_sequence s) (in_min_time s)
    (in_min_height s) (in_non_witness_utxo s) (in_witness_utxo s) (in_partial_sigs s)
    (in_sighash_type s) (in_redeem_script s) (in_witness_script s) (in_bip32_derivations s)
    (in_final_script_sig s) (in_final_script_witness s) (in_ripemd160_preimages s) v
    (in_hash160_preimages s) (in_hash256_preimages s) (in_tap_key_sig s) (in_tap_script_sigs s)
    (in_tap_scripts s) (in_tap_key_origins s) (in_tap_internal_key s) (in_tap_merkle_root s)
    (in_sp_ecdh_shares s) (in_sp_dleq_proofs s) (in_proprietaries s) (in_unknowns s).
(** src/v2/map/input.rs:104, assignment to the field. *)
Definition set_in_hash160_preimages (v : list (bytes * bytes)) (s : input) : input :=
  Input (in_previous_txid s) (in_spent_output_index s) (in_sequence s) (in_min_time s)
    (in_min_height s) (in_non_witness_utxo s) (in_witness_utxo s) (in_partial_sigs s)
    (in_sighash_type s) (in_redeem_script s) (in_witness_script s) (in_bip32_derivations s)
    (in_final_script_sig s) (in_final_script_witness s) (in_ripemd160_preimages s)
    (in_sha256_preimages s) v (in_hash256_preimages s) (in_tap_key_sig s) (in_tap_script_sigs s)
    (in_tap_scripts s) (in_tap_key_origins s) (in_tap_internal_key s) (in_tap_merkle_root s)
    (in_sp_ecdh_shares s) (in_sp_dleq_proofs s) (in_proprietaries s) (in_unknowns s).
(** src/v2/map/input.rs:107, assignment to the field. *)
Definition set_in_hash256_preimages (v : list (bytes * bytes)) (s : input) : input :=
  Input (in_previous_txid s) (in_spent_output_index s) (in_sequence s) (in_min_time s)
    (in_min_height s) (in_non_witness_utxo s) (in_witness_utxo s) (in_partial_sigs s)
    (in_sighash_type s) (in_redeem_script s) (in_witness_script s) (in_bip32_derivations s)
    (in_final_script_sig s) (in_final_script_witness s) (in_ripemd160_preimages s)
    (in_sha256_preimages s) (in_hash160_preimages s) v (in_tap_key_sig s) (in_tap_script_sigs s)
    (in_tap_scripts s) (in_tap_key_origins s) (in_tap_internal_key s) (in_tap_merkle_root s)
    (in_sp_ecdh_shares s) (in_sp_dleq_proofs s) (in_proprietaries s) (in_unknowns s).
(** src/v2/map/input.rs:109, assignment to the field. *)
Definition set_in_tap_key_sig (v : option tsig) (s : input) : input :=
  Input (in_previous_txid s) (in_spent_output_index s) (in_sequence s) (in_min_time s)
    (in_min_height s) (in_non_witness_utxo s) (in_witness_utxo s) (in_partial_sigs s)
    (in_sighash_type s) (in_redeem_script s) (in_witness_script s) (in_bip32_derivations s)
    (in_final_script_sig s) (in_final_script_witness s) (in_ripemd160_preimages s)
    (in_sha256_preimages s) (in_hash160_preimages s) (in_hash256_preimages s) v
    (in_tap_script_sigs s) (in_tap_scripts s) (in_tap_key_origins s) (in_tap_internal_key s)
    (in_tap_merkle_root s) (in_sp_ecdh_shares s) (in_sp_dleq_proofs s) (in_proprietaries s)
    (in_unknowns s).
(** src/v2/map/input.rs:112, assignment to the field. *)
Definition set_in_tap_script_sigs (v : list (xleaf * tsig)) (s : input) : input :=
  Input (in_previous_txid s) (in_spent_output_index s) (in_sequence s) (in_min_time s)
    (in_min_height s) (in_non_witness_utxo s) (in_witness_utxo s) (in_partial_sigs s)
    (in_sighash_type s) (in_redeem_script s) (in_witness_script s) (in_bip32_derivations s)
    (in_final_script_sig s) (in_final_script_witness s) (in_ripemd160_preimages s)
    (in_sha256_preimages s) (in_hash160_preimages s) (in_hash256_preimages s) (in_tap_key_sig s)
    v (in_tap_scripts s) (in_tap_key_origins s) (in_tap_internal_key s) (in_tap_merkle_root s)
    (in_sp_ecdh_shares s) (in_sp_dleq_proofs s) (in_proprietaries s) (in_unknowns s).
(** src/v2/map/input.rs:115, assignment to the field. *)
Definition set_in_tap_scripts (v : list (controlblock * leafscript)) (s : input) : input :=
  Input (in_previous_txid s) (in_spent_output_index s) (in_sequence s) (in_min_time s)
    (in_min_height s) (in_non_witness_utxo s) (in_witness_utxo s) (in_partial_sigs s)
    (in_sighash_type s) (in_redeem_script s) (in_witness_script s) (in_bip32_derivations s)
    (in_final_script_sig s) (in_final_script_witness s) (in_ripemd160_preimages s)
    (in_sha256_preimages s) (in_hash160_preimages s) (in_hash256_preimages s) (in_tap_key_sig s)
    (in_tap_script_sigs s) v (in_tap_key_origins s) (in_tap_internal_key s) (in_tap_merkle_root
    s) (in_sp_ecdh_shares s) (in_sp_dleq_proofs s) (in_proprietaries s) (in_unknowns s).
(** src/v2/map/input.rs:118, assignment to the field. *)
Definition set_in_tap_key_origins (v : list (bytes * taporigin)) (s : input) : input :=
  Input (in_previous_txid s) (in_spent_output_index s) (in_sequence s) (in_min_time s)
    (in_min_height s) (in_non_witness_utxo s) (in_witness_utxo s) (in_partial_sigs s)
    (in_sighash_type s) (in_redeem_script s) (in_witness_script s) (in_bip32_derivations s)
    (in_final_script_sig s) (in_final_script_witness s) (in_ripemd160_preimages s)
    (in_sha256_preimages s) (in_hash160_preimages s) (in_hash256_preimages s) (in_tap_key_sig s)
    (in_tap_script_sigs s) (in_tap_scripts s) v (in_tap_internal_key s) (in_tap_merkle_root s)
    (in_sp_ecdh_shares s) (in_sp_dleq_proofs s) (in_proprietaries s) (in_unknowns s).
(** src/v2/map/input.rs:120, assignment to the field. *)
Definition set_in_tap_internal_key (v : option bytes) (s : input) : input :=
  Input (in_previous_txid s) (in_spent_output_index s) (in_sequence s) (in_min_time s)
    (in_min_height s) (in_non_witness_utxo s) (in_witness_utxo s) (in_partial_sigs s)
    (in_sighash_type s) (in_redeem_script s) (in_witness_script s) (in_bip32_derivations s)
    (in_final_script_sig s) (in_final_script_witness s) (in_ripemd160_preimages s)
    (in_sha256_preimages s) (in_hash160_preimages s) (in_hash256_preimages s) (in_tap_key_sig s)
    (in_tap_script_sigs s) (in_tap_scripts s) (in_tap_key_origins s) v (in_tap_merkle_root s)
    (in_sp_ecdh_shares s) (in_sp_dleq_proofs s) (in_proprietaries s) (in_unknowns s).
(** src/v2/map/input.rs:122, assignment to the field. *)
Definition set_in_tap_merkle_root (v : option bytes) (s : input) : input :=
  Input (in_previous_txid s) (in_spent_output_index s) (in_sequence s) (in_min_time s)
    (in_min_height s) (in_non_witness_utxo s) (in_witness_utxo s) (in_partial_sigs s)
    (in_sighash_type s) (in_redeem_script s) (in_witness_script s) (in_bip32_derivations s)
    (in_final_script_sig s) (in_final_script_witness s) (in_ripemd160_preimages s)
    (in_sha256_preimages s) (in_hash160_preimages s) (in_hash256_preimages s) (in_tap_key_sig s)
    (in_tap_script_sigs s) (in_tap_scripts s) (in_tap_key_origins s) (in_tap_internal_key s) v
    (in_sp_ecdh_shares s) (in_sp_dleq_proofs s) (in_proprietaries s) (in_unknowns s).
(** src/v2/map/input.rs:127, assignment to the field. *)
Definition set_in_sp_ecdh_shares (v : list (bytes * bytes)) (s : input) : input :=
  Input (in_previous_txid s) (in_spent_output_index s) (in_sequence s) (in_min_time s)
    (in_min_height s) (in_non_witness_utxo s) (in_witness_utxo s) (in_partial_sigs s)
    (in_sighash_type s) (in_redeem_script s) (in_witness_script s) (in_bip32_derivations s)
    (in_final_script_sig s) (in_final_script_witness s) (in_ripemd160_preimages s)
    (in_sha256_preimages s) (in_hash160_preimages s) (in_hash256_preimages s) (in_tap_key_sig s)
    (in_tap_script_sigs s) (in_tap_scripts s) (in_tap_key_origins s) (in_tap_internal_key s)
    (in_tap_merkle_root s) v (in_sp_dleq_proofs s) (in_proprietaries s) (in_unknowns s).
(** src/v2/map/input.rs:132, assignment to the field. *)
Definition set_in_sp_dleq_proofs (v : list (bytes * bytes)) (s : input) : input :=
  Input (in_previous_txid s) (in_spent_output_index s) (in_sequence s) (in_min_time s)
    (in_min_height s) (in_non_witness_utxo s) (in_witness_utxo s) (in_partial_sigs s)
    (in_sighash_type s) (in_redeem_script s) (in_witness_script s) (in_bip32_derivations s)
    (in_final_script_sig s) (in_final_script_witness s) (in_ripemd160_preimages s)
    (in_sha256_preimages s) (in_hash160_preimages s) (in_hash256_preimages s) (in_tap_key_sig s)
    (in_tap_script_sigs s) (in_tap_scripts s) (in_tap_key_origins s) (in_tap_internal_key s)
    (in_tap_merkle_root s) (in_sp_ecdh_shares s) v (in_proprietaries s) (in_unknowns s).
(** src/v2/map/input.rs:136, assignment to the field. *)
Definition set_in_proprietaries (v : list (propkey * bytes)) (s : input) : input :=
  Input (in_previous_txid s) (in_spent_output_index s) (in_sequence s) (in_min_time s)
    (in_min_height s) (in_non_witness_utxo s) (in_witness_utxo s) (in_partial_sigs s)
    (in_sighash_type s) (in_redeem_script s) (in_witness_script s) (in_bip32_derivations s)
    (in_final_script_sig s) (in_final_script_witness s) (in_ripemd160_preimages s)
    (in_sha256_preimages s) (in_hash160_preimages s) (in_hash256_preimages s) (in_tap_key_sig s)
    (in_tap_script_sigs s) (in_tap_scripts s) (in_tap_key_origins s) (in_tap_internal_key s)
    (in_tap_merkle_root s) (in_sp_ecdh_shares s) (in_sp_dleq_proofs s) v (in_unknowns s).
(** src/v2/map/input.rs:139, assignment to the field. *)
Definition set_in_unknowns (v : list (key * bytes)) (s : input) : input :=
  Input (in_previous_txid s) (in_spent_output_index s) (in_sequence s) (in_min_time s)
    (in_min_height s) (in_non_witness_utxo s) (in_witness_utxo s) (in_partial_sigs s)
    (in_sighash_type s) (in_redeem_script s) (in_witness_script s) (in_bip32_derivations s)
    (in_final_script_sig s) (in_final_script_witness s) (in_ripemd160_preimages s)
    (in_sha256_preimages s) (in_hash160_preimages s) (in_hash256_preimages s) (in_tap_key_sig s)
    (in_tap_script_sigs s) (in_tap_scripts s) (in_tap_key_origins s) (in_tap_internal_key s)
    (in_tap_merkle_root s) (in_sp_ecdh_shares s) (in_sp_dleq_proofs s) (in_proprietaries s) v.

(** src/v2/map/input.rs:866-877 [DecodeError]. *)
Inductive iderr : Type :=
| IDInsertPair (e : ierr)
| IDDeserPair (e : serr)
| IDMissingPreviousTxid
| IDMissingSpentOutputIndex
| IDFieldMismatch.

(** src/v2/map/input.rs:1053-1068 [CombineError]. *)
Inductive icerr : Type :=
| ICPreviousTxidMismatch (this that : bytes)
| ICSpentOutputIndexMismatch (this that : N).

(** src/v2/map/input.rs:1026-1031 [FinalizeError]. *)
Inductive ifinerr : Type := FinEmptyWitness | FinUnexpectedWitness.

(** src/error.rs [FundingUtxoError]. *)
Inductive fundingerr : Type :=
| FOutOfBounds (vout len : N)
| FMissingUtxo.

(** [bitcoin::OutPoint]: txid and output index. *)
Definition outpoint := (bytes * N)%type.

(** [Sequence::MAX] and [Sequence::ZERO] of rust-bitcoin. *)
Definition SEQ_MAX : N := 4294967295.
Definition SEQ_ZERO : N := 0.

Section Input.
Context `{X : Ext} `{C : Cfg}.

(** src/v2/map/input.rs:144-177 [Input::new]. *)
Definition input_new (op : outpoint) : input :=
  Input (fst op) (snd op) None None None None None [] None None None [] None None [] [] [] []
        None [] [] [] None None [] [] [] [].

(** src/v2/map/input.rs:829 [InputBuilder::new]. *)
Definition input_builder_new (op : outpoint) : input := input_new op.
(** src/v2/map/input.rs:832-835. *)
Definition input_builder_min_time (t : N) (i : input) : input := set_in_min_time (Some t) i.
(** src/v2/map/input.rs:838-841. *)
Definition input_builder_min_height (h : N) (i : input) : input := set_in_min_height (Some h) i.
(** src/v2/map/input.rs:844-847. *)
Definition input_builder_segwit_fund (u : txout) (i : input) : input := set_in_witness_utxo (Some u) i.
(** src/v2/map/input.rs:854-857. *)
Definition input_builder_legacy_fund (t : tx) (i : input) : input := set_in_non_witness_utxo (Some t) i.
(** src/v2/map/input.rs:860. *)
Definition input_builder_build (i : input) : input := i.

(** src/v2/map/input.rs:337-346 [Input::funding_utxo]. *)
Definition input_funding_utxo (i : input) : res fundingerr txout :=
  match in_witness_utxo i with
  | Some u => Ok u
  | None =>
      match in_non_witness_utxo i with
      | Some t =>
          ok_or (nth_N (tx_output t) (in_spent_output_index i))
                (FOutOfBounds (in_spent_output_index i) (blen (tx_output t)))
      | None => Err FMissingUtxo
      end
  end.

(** src/v2/map/input.rs:334 [Input::has_funding_utxo]. *)
Definition input_has_funding_utxo (i : input) : bool := is_ok (input_funding_utxo i).

(** src/v2/map/input.rs:213-271 [Input::finalize]. *)
Definition input_finalize (i : input) (script_sig : bytes) (wit : witness) : res ifinerr input :=
  _ <- panic_unless (negb debug_assertions || input_has_funding_utxo i) ;;
  let ret :=
    Input (in_previous_txid i) (in_spent_output_index i) None None None
          (in_non_witness_utxo i) (in_witness_utxo i) [] None None None [] None None [] [] [] []
          None [] [] [] None None [] [] [] [] in
  if is_some (in_witness_utxo i) then
    _ <- fail_if (is_empty wit) FinEmptyWitness ;;
    Ok (set_in_final_script_witness (Some wit) (set_in_final_script_sig (Some script_sig) ret))
  else Ok (set_in_final_script_sig (Some script_sig) ret).

(** src/v2/map/input.rs:275-284 [Input::lock_time]. *)
Definition input_lock_time (i : input) : N :=
  match in_min_height i, in_min_time i with
  | Some h, _ => h
  | None, Some t => t
  | None, None => 0
  end.

(** src/v2/map/input.rs:286-288 [Input::has_lock_time]. *)
Definition input_has_lock_time (i : input) : bool :=
  is_some (in_min_time i) || is_some (in_min_height i).
(** src/v2/map/input.rs:296-298. *)
Definition input_requires_time (i : input) : bool :=
  is_some (in_min_time i) && is_none (in_min_height i).
(** src/v2/map/input.rs:300-302. *)
Definition input_requires_height (i : input) : bool :=
  is_some (in_min_height i) && is_none (in_min_time i).
(** src/v2/map/input.rs:290-294 [is_satisfied_with_height_based_lock_time]. *)
Definition input_satisfied_height (i : input) : bool :=
  input_requires_height i
  || (is_some (in_min_time i) && is_some (in_min_height i))
  || (is_none (in_min_time i) && is_none (in_min_height i)).

(** src/v2/map/input.rs:305-313 [Input::unsigned_tx_in]. *)
Definition input_unsigned_tx_in (i : input) : txin :=
  TxIn (in_previous_txid i) (in_spent_output_index i) [] (opt_default SEQ_ZERO (in_sequence i)) [].

(** src/v2/map/input.rs:355-357 [Input::is_finalized]. *)
Definition input_is_finalized (i : input) : bool :=
  is_some (in_final_script_sig i) && is_some (in_final_script_witness i).

(** src/v2/map/input.rs:318-331 [Input::signed_tx_in]. *)
Definition input_signed_tx_in {E} (i : input) : res E txin :=
  _ <- panic_unless (negb debug_assertions || input_is_finalized i) ;;
  ss <- expect (in_final_script_sig i) ;;
  w <- expect (in_final_script_witness i) ;;
  Ok (TxIn (in_previous_txid i) (in_spent_output_index i) ss (opt_default SEQ_MAX (in_sequence i)) w).

(** src/v2/map/input.rs:361-365 [Input::has_sig_data]. *)
Definition input_has_sig_data (i : input) : bool :=
  negb (is_empty (in_partial_sigs i) && is_none (in_tap_key_sig i) && is_empty (in_tap_script_sigs i)).

(** src/v2/map/input.rs:367-369 [Input::out_point]. *)
Definition input_out_point (i : input) : outpoint := (in_previous_txid i, in_spent_output_index i).

(** [Txid::all_zeros()] and [u32::MAX], the placeholders of src/v2/map/input.rs:397. *)
Definition TXID_ZERO : bytes := zeros 32.
Definition U32_MAX : N := 4294967295.

(** src/v2/map/input.rs:427-601 [Input::insert_pair]; key types from src/consts.rs. *)
Definition input_insert_pair (p : pair) (i : input) : res ierr input :=
  let t := k_type (p_key p) in
  if beq t x0e then
    v <- ins_placeholder (bytes_eqb TXID_ZERO) (de_hash 32) p (in_previous_txid i) ;; Ok (set_in_previous_txid v i)
  else if beq t x0f then
    v <- ins_placeholder (N.eqb U32_MAX) de_u32 p (in_spent_output_index i) ;; Ok (set_in_spent_output_index v i)
  else if beq t x10 then
    v <- ins_opt de_u32 p (in_sequence i) ;; Ok (set_in_sequence v i)
  else if beq t x11 then
    v <- ins_opt de_time p (in_min_time i) ;; Ok (set_in_min_time v i)
  else if beq t x12 then
    v <- ins_opt de_height p (in_min_height i) ;; Ok (set_in_min_height v i)
  else if beq t x00 then
    v <- ins_opt de_tx p (in_non_witness_utxo i) ;; Ok (set_in_non_witness_utxo v i)
  else if beq t x01 then
    v <- ins_opt de_txout p (in_witness_utxo i) ;; Ok (set_in_witness_utxo v i)
  else if beq t x02 then
    v <- ins_map sk_pubkey de_pubkey de_esig p (in_partial_sigs i) ;; Ok (set_in_partial_sigs v i)
  else if beq t x03 then
    v <- ins_opt de_u32 p (in_sighash_type i) ;; Ok (set_in_sighash_type v i)
  else if beq t x04 then
    v <- ins_opt de_script p (in_redeem_script i) ;; Ok (set_in_redeem_script v i)
  else if beq t x05 then
    v <- ins_opt de_script p (in_witness_script i) ;; Ok (set_in_witness_script v i)
  else if beq t x06 then
    v <- ins_map bkey de_secp de_keysource p (in_bip32_derivations i) ;; Ok (set_in_bip32_derivations v i)
  else if beq t x07 then
    v <- ins_opt de_script p (in_final_script_sig i) ;; Ok (set_in_final_script_sig v i)
  else if beq t x08 then
    v <- ins_opt de_witness p (in_final_script_witness i) ;; Ok (set_in_final_script_witness v i)
  else if beq t x0a then
    v <- ins_hash 20 ripemd160 HRipemd p (in_ripemd160_preimages i) ;; Ok (set_in_ripemd160_preimages v i)
  else if beq t x0b then
    v <- ins_hash 32 sha256 HSha256 p (in_sha256_preimages i) ;; Ok (set_in_sha256_preimages v i)
  else if beq t x0c then
    v <- ins_hash 20 hash160 HHash160 p (in_hash160_preimages i) ;; Ok (set_in_hash160_preimages v i)
  else if beq t x0d then
    v <- ins_hash 32 sha256d HHash256 p (in_hash256_preimages i) ;; Ok (set_in_hash256_preimages v i)
  else if beq t x13 then
    v <- ins_opt de_tsig p (in_tap_key_sig i) ;; Ok (set_in_tap_key_sig v i)
  else if beq t x14 then
    v <- ins_map sk_xleaf de_xleaf de_tsig p (in_tap_script_sigs i) ;; Ok (set_in_tap_script_sigs v i)
  else if beq t x15 then
    v <- ins_map sk_controlblock de_controlblock de_leafscript p (in_tap_scripts i) ;; Ok (set_in_tap_scripts v i)
  else if beq t x16 then
    v <- ins_map bkey de_xonly de_taporigin p (in_tap_key_origins i) ;; Ok (set_in_tap_key_origins v i)
  else if beq t x17 then
    v <- ins_opt de_xonly p (in_tap_internal_key i) ;; Ok (set_in_tap_internal_key v i)
  else if beq t x18 then
    v <- ins_opt (de_hash 32) p (in_tap_merkle_root i) ;; Ok (set_in_tap_merkle_root v i)
  else if feat_sp && beq t x1d then
    v <- ins_sp de_cpk 33 p (in_sp_ecdh_shares i) ;; Ok (set_in_sp_ecdh_shares v i)
  else if feat_sp && beq t x1e then
    v <- ins_sp dleq_try_from 64 p (in_sp_dleq_proofs i) ;; Ok (set_in_sp_dleq_proofs v i)
  else if beq t xfc then
    v <- ins_prop IDeser p (in_proprietaries i) ;; Ok (set_in_proprietaries v i)
  else
    v <- ins_unknown p (in_unknowns i) ;; Ok (set_in_unknowns v i).

(** src/v2/map/input.rs:397-398: the placeholder a decoder starts from. *)
Definition input_invalid : input := input_new (TXID_ZERO, U32_MAX).

(** src/v2/map/input.rs:408-424: the checks after the last pair. *)
Definition input_check (i : input) : res iderr input :=
  _ <- fail_if (bytes_eqb (in_previous_txid i) TXID_ZERO) IDMissingPreviousTxid ;;
  _ <- fail_if (in_spent_output_index i =? U32_MAX) IDMissingSpentOutputIndex ;;
  _ <- fail_if (feat_sp && negb (Bool.eqb (is_empty (in_sp_ecdh_shares i)) (is_empty (in_sp_dleq_proofs i))))
               IDFieldMismatch ;;
  Ok i.

(** src/v2/map/input.rs:395-425 [Input::decode]. *)
Definition input_decode : reader iderr input :=
  fun bs =>
    '(i, r) <- dec_map (fun p i => map_err IDInsertPair (input_insert_pair p i)) IDDeserPair
                       (S (length bs)) input_invalid bs ;;
    i' <- input_check i ;;
    Ok (i', r).

(** src/v2/map/input.rs:626-629: what [combine] does to the two utxo fields, after
    line 623 has combined [non_witness_utxo]. *)
Definition input_combine_utxo (self other : input) : option tx * option txout :=
  let nwu := comb_opt (in_non_witness_utxo self) (in_non_witness_utxo other) in
  match in_witness_utxo self, in_witness_utxo other with
  | None, Some u => (None, Some u)
  | w, _ => (nwu, w)
  end.

(** src/v2/map/input.rs:604-656 [Input::combine].  ([sighash_type] is not combined.) *)
Definition input_combine (self other : input) : res icerr input :=
  _ <- fail_if (negb (bytes_eqb (in_previous_txid self) (in_previous_txid other)))
               (ICPreviousTxidMismatch (in_previous_txid self) (in_previous_txid other)) ;;
  _ <- fail_if (negb (in_spent_output_index self =? in_spent_output_index other))
               (ICSpentOutputIndexMismatch (in_spent_output_index self) (in_spent_output_index other)) ;;
  Ok (Input (in_previous_txid self) (in_spent_output_index self)
        (comb_opt (in_sequence self) (in_sequence other))
        (comb_opt (in_min_time self) (in_min_time other))
        (comb_opt (in_min_height self) (in_min_height other))
        (fst (input_combine_utxo self other))
        (snd (input_combine_utxo self other))
        (comb_map sk_pubkey (in_partial_sigs self) (in_partial_sigs other))
        (in_sighash_type self)
        (comb_opt (in_redeem_script self) (in_redeem_script other))
        (comb_opt (in_witness_script self) (in_witness_script other))
        (comb_map bkey (in_bip32_derivations self) (in_bip32_derivations other))
        (comb_opt (in_final_script_sig self) (in_final_script_sig other))
        (comb_opt (in_final_script_witness self) (in_final_script_witness other))
        (comb_map bkey (in_ripemd160_preimages self) (in_ripemd160_preimages other))
        (comb_map bkey (in_sha256_preimages self) (in_sha256_preimages other))
        (comb_map bkey (in_hash160_preimages self) (in_hash160_preimages other))
        (comb_map bkey (in_hash256_preimages self) (in_hash256_preimages other))
        (comb_opt (in_tap_key_sig self) (in_tap_key_sig other))
        (comb_map sk_xleaf (in_tap_script_sigs self) (in_tap_script_sigs other))
        (comb_map sk_controlblock (in_tap_scripts self) (in_tap_scripts other))
        (comb_map bkey (in_tap_key_origins self) (in_tap_key_origins other))
        (comb_opt (in_tap_internal_key self) (in_tap_internal_key other))
        (comb_opt (in_tap_merkle_root self) (in_tap_merkle_root other))
        (comb_map bkey (in_sp_ecdh_shares self) (in_sp_ecdh_shares other))
        (comb_map bkey (in_sp_dleq_proofs self) (in_sp_dleq_proofs other))
        (comb_map sk_propkey (in_proprietaries self) (in_proprietaries other))
        (comb_map sk_key (in_unknowns self) (in_unknowns other))).

(** src/v2/map/input.rs:660-787 [Map::get_pairs] for [Input]. *)
Definition input_pairs (i : input) : list pair :=
  [Pair (Key x0e []) (ser_hash (in_previous_txid i))]
  ++ [Pair (Key x0f []) (ser_u32 (in_spent_output_index i))]
  ++ opt_pairs x10 ser_u32 (in_sequence i)
  ++ opt_pairs x11 ser_time (in_min_time i)
  ++ opt_pairs x12 ser_height (in_min_height i)
  ++ opt_pairs x00 ser_tx (in_non_witness_utxo i)
  ++ opt_pairs x01 ser_txout (in_witness_utxo i)
  ++ map_pairs x02 ser_pubkey ser_esig (in_partial_sigs i)
  ++ opt_pairs x03 ser_u32 (in_sighash_type i)
  ++ opt_pairs x04 ser_script (in_redeem_script i)
  ++ opt_pairs x05 ser_script (in_witness_script i)
  ++ map_pairs x06 ser_secp ser_keysource (in_bip32_derivations i)
  ++ opt_pairs x07 ser_script (in_final_script_sig i)
  ++ opt_pairs x08 ser_witness (in_final_script_witness i)
  ++ map_pairs x0a ser_hash ser_vec (in_ripemd160_preimages i)
  ++ map_pairs x0b ser_hash ser_vec (in_sha256_preimages i)
  ++ map_pairs x0c ser_hash ser_vec (in_hash160_preimages i)
  ++ map_pairs x0d ser_hash ser_vec (in_hash256_preimages i)
  ++ opt_pairs x13 ser_tsig (in_tap_key_sig i)
  ++ map_pairs x14 ser_xleaf ser_tsig (in_tap_script_sigs i)
  ++ map_pairs x15 ser_controlblock ser_leafscript (in_tap_scripts i)
  ++ map_pairs x16 ser_xonly ser_taporigin (in_tap_key_origins i)
  ++ opt_pairs x17 ser_xonly (in_tap_internal_key i)
  ++ opt_pairs x18 ser_hash (in_tap_merkle_root i)
  ++ (if feat_sp then map_pairs x1d ser_secp ser_secp (in_sp_ecdh_shares i) else [])
  ++ (if feat_sp then map_pairs x1e ser_secp ser_dleq (in_sp_dleq_proofs i) else [])
  ++ prop_pairs (in_proprietaries i)
  ++ unknown_pairs (in_unknowns i).

(** src/v2/map/mod.rs:36-43 [Map::serialize_map] for [Input]. *)
Definition input_serialize (i : input) : bytes := ser_pairs (input_pairs i).

End Input.
