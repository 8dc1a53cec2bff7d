(** Model of src/v0/bitcoin/map/input.rs.  The macros of src/v0/bitcoin/macros.rs:88-116
    ([impl_psbt_insert_pair]) and 118-143 ([impl_psbt_get_pair]) and the value codecs of
    src/v0/bitcoin/serialize.rs:115-388 accept and produce what those of src/macros.rs
    and src/serialize.rs do, so the definitions of MapCodec.v and Serialize.v are used;
    their errors are renamed in V0Error.v. *)
From Verif Require Import Base OMap Consensus Ext Raw TapTree Serialize MapCodec.
Local Open Scope N_scope.

(** src/v0/bitcoin/map/input.rs:77-139, [Input]. *)
Record input0 : Type := Input0 {
  i0_non_witness_utxo : option tx;  (* 81 *)
  i0_witness_utxo : option txout;  (* 85 *)
  i0_partial_sigs : list (pubkey * esig);  (* 88 *)
  i0_sighash_type : option N;  (* 91 *)
  i0_redeem_script : option bytes;  (* 93 *)
  i0_witness_script : option bytes;  (* 95 *)
  i0_bip32_derivation : list (bytes * keysource);  (* 99 *)
  i0_final_script_sig : option bytes;  (* 102 *)
  i0_final_script_witness : option witness;  (* 105 *)
  i0_ripemd160_preimages : list (bytes * bytes);  (* 108 *)
  i0_sha256_preimages : list (bytes * bytes);  (* 111 *)
  i0_hash160_preimages : list (bytes * bytes);  (* 114 *)
  i0_hash256_preimages : list (bytes * bytes);  (* 117 *)
  i0_tap_key_sig : option tsig;  (* 119 *)
  i0_tap_script_sigs : list (xleaf * tsig);  (* 122 *)
  i0_tap_scripts : list (controlblock * leafscript);  (* 125 *)
  i0_tap_key_origins : list (bytes * taporigin);  (* 128 *)
  i0_tap_internal_key : option bytes;  (* 130 *)
  i0_tap_merkle_root : option bytes;  (* 132 *)
  i0_proprietary : list (propkey * bytes);  (* 135 *)
  i0_unknown : list (key * bytes)  (* 138 *)
}.

(** Field assignments [self.field = value] on input0 (Rust's field update, src/v0/bitcoin/map/input.rs:77-139). *)
(** src/v0/bitcoin/map/input.rs:81, assignment to the field. *)
Definition set_i0_non_witness_utxo (v : option tx) (s : input0) : input0 :=
  Input0 v (i0_witness_utxo s) (i0_partial_sigs s) (i0_sighash_type s) (i0_redeem_script s)
    (i0_witness_script s) (i0_bip32_derivation s) (i0_final_script_sig s)
    (i0_final_script_witness s) (i0_ripemd160_preimages s) (i0_sha256_preimages s)
    (i0_hash160_preimages s) (i0_hash256_preimages s) (i0_tap_key_sig s) (i0_tap_script_sigs s)
    (i0_tap_scripts s) (i0_tap_key_origins s) (i0_tap_internal_key s) (i0_tap_merkle_root s)
    (i0_proprietary s) (i0_unknown s).
(** src/v0/bitcoin/map/input.rs:85, assignment to the field. *)
Definition set_i0_witness_utxo (v : option txout) (s : input0) : input0 :=
  Input0 (i0_non_witness_utxo s) v (i0_partial_sigs s) (i0_sighash_type s) (i0_redeem_script
    s) (i0_witness_script s) (i0_bip32_derivation s) (i0_final_script_sig s)
    (i0_final_script_witness s) (i0_ripemd160_preimages s) (i0_sha256_preimages s)
    (i0_hash160_preimages s) (i0_hash256_preimages s) (i0_tap_key_sig s) (i0_tap_script_sigs s)
    (i0_tap_scripts s) (i0_tap_key_origins s) (i0_tap_internal_key s) (i0_tap_merkle_root s)
    (i0_proprietary s) (i0_unknown s).
(** src/v0/bitcoin/map/input.rs:88, assignment to the field. *)
Definition set_i0_partial_sigs (v : list (pubkey * esig)) (s : input0) : input0 :=
  Input0 (i0_non_witness_utxo s) (i0_witness_utxo s) v (i0_sighash_type s) (i0_redeem_script
    s) (i0_witness_script s) (i0_bip32_derivation s) (i0_final_script_sig s)
    (i0_final_script_witness s) (i0_ripemd160_preimages s) (i0_sha256_preimages s)
    (i0_hash160_preimages s) (i0_hash256_preimages s) (i0_tap_key_sig s) (i0_tap_script_sigs s)
    (i0_tap_scripts s) (i0_tap_key_origins s) (i0_tap_internal_key s) (i0_tap_merkle_root s)
    (i0_proprietary s) (i0_unknown s).
(** src/v0/bitcoin/map/input.rs:91, assignment to the field. *)
Definition set_i0_sighash_type (v : option N) (s : input0) : input0 :=
  Input0 (i0_non_witness_utxo s) (i0_witness_utxo s) (i0_partial_sigs s) v (i0_redeem_script
    s) (i0_witness_script s) (i0_bip32_derivation s) (i0_final_script_sig s)
    (i0_final_script_witness s) (i0_ripemd160_preimages s) (i0_sha256_preimages s)
    (i0_hash160_preimages s) (i0_hash256_preimages s) (i0_tap_key_sig s) (i0_tap_script_sigs s)
    (i0_tap_scripts s) (i0_tap_key_origins s) (i0_tap_internal_key s) (i0_tap_merkle_root s)
    (i0_proprietary s) (i0_unknown s).
(** src/v0/bitcoin/map/input.rs:93, assignment to the field. *)
Definition set_i0_redeem_script (v : option bytes) (s : input0) : input0 :=
  Input0 (i0_non_witness_utxo s) (i0_witness_utxo s) (i0_partial_sigs s) (i0_sighash_type s) v
    (i0_witness_script s) (i0_bip32_derivation s) (i0_final_script_sig s)
    (i0_final_script_witness s) (i0_ripemd160_preimages s) (i0_sha256_preimages s)
    (i0_hash160_preimages s) (i0_hash256_preimages s) (i0_tap_key_sig s) (i0_tap_script_sigs s)
    (i0_tap_scripts s) (i0_tap_key_origins s) (i0_tap_internal_key s) (i0_tap_merkle_root s)
    (i0_proprietary s) (i0_unknown s).
(** src/v0/bitcoin/map/input.rs:95, assignment to the field. *)
Definition set_i0_witness_script (v : option bytes) (s : input0) : input0 :=
  Input0 (i0_non_witness_utxo s) (i0_witness_utxo s) (i0_partial_sigs s) (i0_sighash_type s)
    (i0_redeem_script s) v (i0_bip32_derivation s) (i0_final_script_sig s)
    (i0_final_script_witness s) (i0_ripemd160_preimages s) (i0_sha256_preimages s)
    (i0_hash160_preimages s) (i0_hash256_preimages s) (i0_tap_key_sig s) (i0_tap_script_sigs s)
    (i0_tap_scripts s) (i0_tap_key_origins s) (i0_tap_internal_key s) (i0_tap_merkle_root s)
    (i0_proprietary s) (i0_unknown s).
(** src/v0/bitcoin/map/input.rs:99, assignment to the field. *)
Definition set_i0_bip32_derivation (v : list (bytes * keysource)) (s : input0) : input0 :=
  Input0 (i0_non_witness_utxo s) (i0_witness_utxo s) (i0_partial_sigs s) (i0_sighash_type s)
    (i0_redeem_script s) (i0_witness_script s) v (i0_final_script_sig s)
    (i0_final_script_witness s) (i0_ripemd160_preimages s) (i0_sha256_preimages s)
    (i0_hash160_preimages s) (i0_hash256_preimages s) (i0_tap_key_sig s) (i0_tap_script_sigs s)
    (i0_tap_scripts s) (i0_tap_key_origins s) (i0_tap_internal_key s) (i0_tap_merkle_root s)
    (i0_proprietary s) (i0_unknown s).
(** src/v0/bitcoin/map/input.rs:102, assignment to the field. *)
Definition set_i0_final_script_sig (v : option bytes) (s : input0) : input0 :=
  Input0 (i0_non_witness_utxo s) (i0_witness_utxo s) (i0_partial_sigs s) (i0_sighash_type s)
    (i0_redeem_script s) (i0_witness_script s) (i0_bip32_derivation s) v
    (i0_final_script_witness s) (i0_ripemd160_preimages s) (i0_sha256_preimages s)
    (i0_hash160_preimages s) (i0_hash256_preimages s) (i0_tap_key_sig s) (i0_tap_script_sigs s)
    (i0_tap_scripts s) (i0_tap_key_origins s) (i0_tap_internal_key s) (i0_tap_merkle_root s)
    (i0_proprietary s) (i0_unknown s).
(** src/v0/bitcoin/map/input.rs:105, assignment to the field. *)
Definition set_i0_final_script_witness (v : option witness) (s : input0) : input0 :=
  Input0 (i0_non_witness_utxo s) (i0_witness_utxo s) (i0_partial_sigs s) (i0_sighash_type s)
    (i0_redeem_script s) (i0_witness_script s) (i0_bip32_derivation s) (i0_final_script_sig s) v
    (i0_ripemd160_preimages s) (i0_sha256_preimages s) (i0_hash160_preimages s)
    (i0_hash256_preimages s) (i0_tap_key_sig s) (i0_tap_script_sigs s) (i0_tap_scripts s)
    (i0_tap_key_origins s) (i0_tap_internal_key s) (i0_tap_merkle_root s) (i0_proprietary s)
    (i0_unknown s).
(** src/v0/bitcoin/map/input.rs:108, assignment to the field. *)
Definition set_i0_ripemd160_preimages (v : list (bytes * bytes)) (s : input0) : input0 :=
  Input0 (i0_non_witness_utxo s) (i0_witness_utxo s) (i0_partial_sigs s) (i0_sighash_type s)
    (i0_redeem_script s) (i0_witness_script s) (i0_bip32_derivation s) (i0_final_script_sig s)
    (i0_final_script_witness s) v (i0_sha256_preimages s) (i0_hash160_preimages s)
    (i0_hash256_preimages s) (i0_tap_key_sig s) (i0_tap_script_sigs s) (i0_tap_scripts s)
    (i0_tap_key_origins s) (i0_tap_internal_key s) (i0_tap_merkle_root s) (i0_proprietary s)
    (i0_unknown s).
(** src/v0/bitcoin/map/input.rs:111, assignment to the field. *)
Definition set_i0_sha256_preimages (v : list (bytes * bytes)) (s : input0) : input0 :=
  Input0 (i0_non_witness_utxo s) (i0_witness_utxo s) (i0_partial_sigs s) (i0_sighash_type s)
    (i0_redeem_script s) (i0_witness_script s) (i0_bip32_derivation s) (i0_final_script_sig s)
    (i0_final_script_witness s) (i0_ripemd160_preimages s) v (i0_hash160_preimages s)
    (i0_hash256_preimages s) (i0_tap_key_sig s) (i0_tap_script_sigs s) (i0_tap_scripts s)
    (i0_tap_key_origins s) (i0_tap_internal_key s) (i0_tap_merkle_root s) (i0_proprietary s)
    (i0_unknown s).
(** src/v0/bitcoin/map/input.rs:114, assignment to the field. *)
Definition set_i0_hash160_preimages (v : list (bytes * bytes)) (s : input0) : input0 :=
  Input0 (i0_non_witness_utxo s) (i0_witness_utxo s) (i0_partial_sigs s) (i0_sighash_type s)
    (i0_redeem_script s) (i0_witness_script s) (i0_bip32_derivation s) (i0_final_script_sig s)
    (i0_final_script_witness s) (i0_ripemd160_preimages s) (i0_sha256_preimages s) v
    (i0_hash256_preimages s) (i0_tap_key_sig s) (i0_tap_script_sigs s) (i0_tap_scripts s)
    (i0_tap_key_origins s) (i0_tap_internal_key s) (i0_tap_merkle_root s) (i0_proprietary s)
    (i0_unknown s).
(** src/v0/bitcoin/map/input.rs:117, assignment to the field. *)
Definition set_i0_hash256_preimages (v : list (bytes * bytes)) (s : input0) : input0 :=
  Input0 (i0_non_witness_utxo s) (i0_witness_utxo s) (i0_partial_sigs s) (i0_sighash_type s)
    (i0_redeem_script s) (i0_witness_script s) (i0_bip32_derivation s) (i0_final_script_sig s)
    (i0_final_script_witness s) (i0_ripemd160_preimages s) (i0_sha256_preimages s)
    (i0_hash160_preimages s) v (i0_tap_key_sig s) (i0_tap_script_sigs s) (i0_tap_scripts s)
    (i0_tap_key_origins s) (i0_tap_internal_key s) (i0_tap_merkle_root s) (i0_proprietary s)
    (i0_unknown s).
(** src/v0/bitcoin/map/input.rs:119, assignment to the field. *)
Definition set_i0_tap_key_sig (v : option tsig) (s : input0) : input0 :=
  Input0 (i0_non_witness_utxo s) (i0_witness_utxo s) (i0_partial_sigs s) (i0_sighash_type s)
    (i0_redeem_script s) (i0_witness_script s) (i0_bip32_derivation s) (i0_final_script_sig s)
    (i0_final_script_witness s) (i0_ripemd160_preimages s) (i0_sha256_preimages s)
    (i0_hash160_preimages s) (i0_hash256_preimages s) v (i0_tap_script_sigs s) (i0_tap_scripts
    s) (i0_tap_key_origins s) (i0_tap_internal_key s) (i0_tap_merkle_root s) (i0_proprietary s)
    (i0_unknown s).
(** src/v0/bitcoin/map/input.rs:122, assignment to the field. *)
Definition set_i0_tap_script_sigs (v : list (xleaf * tsig)) (s : input0) : input0 :=
  Input0 (i0_non_witness_utxo s) (i0_witness_utxo s) (i0_partial_sigs s) (i0_sighash_type s)
    (i0_redeem_script s) (i0_witness_script s) (i0_bip32_derivation s) (i0_final_script_sig s)
    (i0_final_script_witness s) (i0_ripemd160_preimages s) (i0_sha256_preimages s)
    (i0_hash160_preimages s) (i0_hash256_preimages s) (i0_tap_key_sig s) v (i0_tap_scripts s)
    (i0_tap_key_origins s) (i0_tap_internal_key s) (i0_tap_merkle_root s) (i0_proprietary s)
    (i0_unknown s).
(** src/v0/bitcoin/map/input.rs:125, assignment to the field. *)
Definition set_i0_tap_scripts (v : list (controlblock * leafscript)) (s : input0) : input0 :=
  Input0 (i0_non_witness_utxo s) (i0_witness_utxo s) (i0_partial_sigs s) (i0_sighash_type s)
    (i0_redeem_script s) (i0_witness_script s) (i0_bip32_derivation s) (i0_final_script_sig s)
    (i0_final_script_witness s) (i0_ripemd160_preimages s) (i0_sha256_preimages s)
    (i0_hash160_preimages s) (i0_hash256_preimages s) (i0_tap_key_sig s) (i0_tap_script_sigs s)
    v (i0_tap_key_origins s) (i0_tap_internal_key s) (i0_tap_merkle_root s) (i0_proprietary s)
    (i0_unknown s).
(** src/v0/bitcoin/map/input.rs:128, assignment to the field. *)
Definition set_i0_tap_key_origins (v : list (bytes * taporigin)) (s : input0) : input0 :=
  Input0 (i0_non_witness_utxo s) (i0_witness_utxo s) (i0_partial_sigs s) (i0_sighash_type s)
    (i0_redeem_script s) (i0_witness_script s) (i0_bip32_derivation s) (i0_final_script_sig s)
    (i0_final_script_witness s) (i0_ripemd160_preimages s) (i0_sha256_preimages s)
    (i0_hash160_preimages s) (i0_hash256_preimages s) (i0_tap_key_sig s) (i0_tap_script_sigs s)
    (i0_tap_scripts s) v (i0_tap_internal_key s) (i0_tap_merkle_root s) (i0_proprietary s)
    (i0_unknown s).
(** src/v0/bitcoin/map/input.rs:130, assignment to the field. *)
Definition set_i0_tap_internal_key (v : option bytes) (s : input0) : input0 :=
  Input0 (i0_non_witness_utxo s) (i0_witness_utxo s) (i0_partial_sigs s) (i0_sighash_type s)
    (i0_redeem_script s) (i0_witness_script s) (i0_bip32_derivation s) (i0_final_script_sig s)
    (i0_final_script_witness s) (i0_ripemd160_preimages s) (i0_sha256_preimages s)
    (i0_hash160_preimages s) (i0_hash256_preimages s) (i0_tap_key_sig s) (i0_tap_script_sigs s)
    (i0_tap_scripts s) (i0_tap_key_origins s) v (i0_tap_merkle_root s) (i0_proprietary s)
    (i0_unknown s).
(** src/v0/bitcoin/map/input.rs:132, assignment to the field. *)
Definition set_i0_tap_merkle_root (v : option bytes) (s : input0) : input0 :=
  Input0 (i0_non_witness_utxo s) (i0_witness_utxo s) (i0_partial_sigs s) (i0_sighash_type s)
    (i0_redeem_script s) (i0_witness_script s) (i0_bip32_derivation s) (i0_final_script_sig s)
    (i0_final_script_witness s) (i0_ripemd160_preimages s) (i0_sha256_preimages s)
    (i0_hash160_preimages s) (i0_hash256_preimages s) (i0_tap_key_sig s) (i0_tap_script_sigs s)
    (i0_tap_scripts s) (i0_tap_key_origins s) (i0_tap_internal_key s) v (i0_proprietary s)
    (i0_unknown s).
(** src/v0/bitcoin/map/input.rs:135, assignment to the field. *)
Definition set_i0_proprietary (v : list (propkey * bytes)) (s : input0) : input0 :=
  Input0 (i0_non_witness_utxo s) (i0_witness_utxo s) (i0_partial_sigs s) (i0_sighash_type s)
    (i0_redeem_script s) (i0_witness_script s) (i0_bip32_derivation s) (i0_final_script_sig s)
    (i0_final_script_witness s) (i0_ripemd160_preimages s) (i0_sha256_preimages s)
    (i0_hash160_preimages s) (i0_hash256_preimages s) (i0_tap_key_sig s) (i0_tap_script_sigs s)
    (i0_tap_scripts s) (i0_tap_key_origins s) (i0_tap_internal_key s) (i0_tap_merkle_root s) v
    (i0_unknown s).
(** src/v0/bitcoin/map/input.rs:138, assignment to the field. *)
Definition set_i0_unknown (v : list (key * bytes)) (s : input0) : input0 :=
  Input0 (i0_non_witness_utxo s) (i0_witness_utxo s) (i0_partial_sigs s) (i0_sighash_type s)
    (i0_redeem_script s) (i0_witness_script s) (i0_bip32_derivation s) (i0_final_script_sig s)
    (i0_final_script_witness s) (i0_ripemd160_preimages s) (i0_sha256_preimages s)
    (i0_hash160_preimages s) (i0_hash256_preimages s) (i0_tap_key_sig s) (i0_tap_script_sigs s)
    (i0_tap_scripts s) (i0_tap_key_origins s) (i0_tap_internal_key s) (i0_tap_merkle_root s)
    (i0_proprietary s) v.

Section Input.
Context `{X : Ext}.

(** src/v0/bitcoin/map/input.rs:76 derived [Default]. *)
Definition input0_default : input0 :=
  Input0 None None [] None None None [] None None [] [] [] [] None [] [] [] None None [] [].

(** src/v0/bitcoin/map/input.rs:285-292: types that BIP-370 keeps out of version 0. *)
Definition input0_excluded (t : byte) : bool :=
  beq t x0e || beq t x0f || beq t x10 || beq t x11 || beq t x12.

(** src/v0/bitcoin/map/input.rs:166-303 [Input::insert_pair]; key types from lines 20-74. *)
Definition input0_insert_pair (p : pair) (i : input0) : res ierr input0 :=
  let t := k_type (p_key p) in
  if beq t x00 then v <- ins_opt de_tx p (i0_non_witness_utxo i) ;; Ok (set_i0_non_witness_utxo v i)
  else if beq t x01 then v <- ins_opt de_txout p (i0_witness_utxo i) ;; Ok (set_i0_witness_utxo v i)
  else if beq t x02 then v <- ins_map sk_pubkey de_pubkey de_esig p (i0_partial_sigs i) ;; Ok (set_i0_partial_sigs v i)
  else if beq t x03 then v <- ins_opt de_u32 p (i0_sighash_type i) ;; Ok (set_i0_sighash_type v i)
  else if beq t x04 then v <- ins_opt de_script p (i0_redeem_script i) ;; Ok (set_i0_redeem_script v i)
  else if beq t x05 then v <- ins_opt de_script p (i0_witness_script i) ;; Ok (set_i0_witness_script v i)
  else if beq t x06 then v <- ins_map bkey de_secp de_keysource p (i0_bip32_derivation i) ;; Ok (set_i0_bip32_derivation v i)
  else if beq t x07 then v <- ins_opt de_script p (i0_final_script_sig i) ;; Ok (set_i0_final_script_sig v i)
  else if beq t x08 then v <- ins_opt de_witness p (i0_final_script_witness i) ;; Ok (set_i0_final_script_witness v i)
  else if beq t x0a then v <- ins_hash 20 ripemd160 HRipemd p (i0_ripemd160_preimages i) ;; Ok (set_i0_ripemd160_preimages v i)
  else if beq t x0b then v <- ins_hash 32 sha256 HSha256 p (i0_sha256_preimages i) ;; Ok (set_i0_sha256_preimages v i)
  else if beq t x0c then v <- ins_hash 20 hash160 HHash160 p (i0_hash160_preimages i) ;; Ok (set_i0_hash160_preimages v i)
  else if beq t x0d then v <- ins_hash 32 sha256d HHash256 p (i0_hash256_preimages i) ;; Ok (set_i0_hash256_preimages v i)
  else if beq t x13 then v <- ins_opt de_tsig p (i0_tap_key_sig i) ;; Ok (set_i0_tap_key_sig v i)
  else if beq t x14 then v <- ins_map sk_xleaf de_xleaf de_tsig p (i0_tap_script_sigs i) ;; Ok (set_i0_tap_script_sigs v i)
  else if beq t x15 then v <- ins_map sk_controlblock de_controlblock de_leafscript p (i0_tap_scripts i) ;; Ok (set_i0_tap_scripts v i)
  else if beq t x16 then v <- ins_map bkey de_xonly de_taporigin p (i0_tap_key_origins i) ;; Ok (set_i0_tap_key_origins v i)
  else if beq t x17 then v <- ins_opt de_xonly p (i0_tap_internal_key i) ;; Ok (set_i0_tap_internal_key v i)
  else if beq t x18 then v <- ins_opt (de_hash 32) p (i0_tap_merkle_root i) ;; Ok (set_i0_tap_merkle_root v i)
  else if beq t xfc then v <- ins_prop IDeser p (i0_proprietary i) ;; Ok (set_i0_proprietary v i)
  else if input0_excluded t then Err (IExcludedKey t)
  else v <- ins_unknown p (i0_unknown i) ;; Ok (set_i0_unknown v i).

(** src/v0/bitcoin/map/input.rs:309-312: what [combine] does to the two utxo fields, after
    line 307 has combined [non_witness_utxo]. *)
Definition input0_combine_utxo (self other : input0) : option tx * option txout :=
  let nwu := comb_opt (i0_non_witness_utxo self) (i0_non_witness_utxo other) in
  match i0_witness_utxo self, i0_witness_utxo other with
  | None, Some u => (None, Some u)
  | w, _ => (nwu, w)
  end.

(** src/v0/bitcoin/map/input.rs:306-333 [Input::combine].  ([sighash_type] is not combined.) *)
Definition input0_combine (self other : input0) : input0 :=
  Input0
    (fst (input0_combine_utxo self other))
    (snd (input0_combine_utxo self other))
    (comb_map sk_pubkey (i0_partial_sigs self) (i0_partial_sigs other))
    (i0_sighash_type self)
    (comb_opt (i0_redeem_script self) (i0_redeem_script other))
    (comb_opt (i0_witness_script self) (i0_witness_script other))
    (comb_map bkey (i0_bip32_derivation self) (i0_bip32_derivation other))
    (comb_opt (i0_final_script_sig self) (i0_final_script_sig other))
    (comb_opt (i0_final_script_witness self) (i0_final_script_witness other))
    (comb_map bkey (i0_ripemd160_preimages self) (i0_ripemd160_preimages other))
    (comb_map bkey (i0_sha256_preimages self) (i0_sha256_preimages other))
    (comb_map bkey (i0_hash160_preimages self) (i0_hash160_preimages other))
    (comb_map bkey (i0_hash256_preimages self) (i0_hash256_preimages other))
    (comb_opt (i0_tap_key_sig self) (i0_tap_key_sig other))
    (comb_map sk_xleaf (i0_tap_script_sigs self) (i0_tap_script_sigs other))
    (comb_map sk_controlblock (i0_tap_scripts self) (i0_tap_scripts other))
    (comb_map bkey (i0_tap_key_origins self) (i0_tap_key_origins other))
    (comb_opt (i0_tap_internal_key self) (i0_tap_internal_key other))
    (comb_opt (i0_tap_merkle_root self) (i0_tap_merkle_root other))
    (comb_map sk_propkey (i0_proprietary self) (i0_proprietary other))
    (comb_map sk_key (i0_unknown self) (i0_unknown other)).

(** src/v0/bitcoin/map/input.rs:336-424 [Map::get_pairs] for [Input]. *)
Definition input0_pairs (i : input0) : list pair :=
  opt_pairs x00 ser_tx (i0_non_witness_utxo i)
  ++ opt_pairs x01 ser_txout (i0_witness_utxo i)
  ++ map_pairs x02 ser_pubkey ser_esig (i0_partial_sigs i)
  ++ opt_pairs x03 ser_u32 (i0_sighash_type i)
  ++ opt_pairs x04 ser_script (i0_redeem_script i)
  ++ opt_pairs x05 ser_script (i0_witness_script i)
  ++ map_pairs x06 ser_secp ser_keysource (i0_bip32_derivation i)
  ++ opt_pairs x07 ser_script (i0_final_script_sig i)
  ++ opt_pairs x08 ser_witness (i0_final_script_witness i)
  ++ map_pairs x0a ser_hash ser_vec (i0_ripemd160_preimages i)
  ++ map_pairs x0b ser_hash ser_vec (i0_sha256_preimages i)
  ++ map_pairs x0c ser_hash ser_vec (i0_hash160_preimages i)
  ++ map_pairs x0d ser_hash ser_vec (i0_hash256_preimages i)
  ++ opt_pairs x13 ser_tsig (i0_tap_key_sig i)
  ++ map_pairs x14 ser_xleaf ser_tsig (i0_tap_script_sigs i)
  ++ map_pairs x15 ser_controlblock ser_leafscript (i0_tap_scripts i)
  ++ map_pairs x16 ser_xonly ser_taporigin (i0_tap_key_origins i)
  ++ opt_pairs x17 ser_xonly (i0_tap_internal_key i)
  ++ opt_pairs x18 ser_hash (i0_tap_merkle_root i)
  ++ prop_pairs (i0_proprietary i)
  ++ unknown_pairs (i0_unknown i).

End Input.
