(** Model of the conversions that are offered to callers and not used by the roles: the hex text of
    a PSBT, the message of a sighash, [DleqProof], [Version], the sighash type of a taproot input and
    the texts of the signer checks. *)
From Coq Require Import Strings.String.
From Verif Require Import Base OMap Consensus Ext Raw TapTree Serialize MapCodec SighashType V2Global V2Input V2Output V2Psbt
  V2Roles Script V2Sign V0Error V0Input V0Output V0Psbt V0Sign V0Finalize V0Update ErrorText.
Local Open Scope N_scope.

Section Conversions.
Context `{X : Ext} `{C : Cfg}.

(** src/v2/mod.rs:589 [Psbt::serialize_hex]. *)
Definition psbt_serialize_hex (p : psbt) : bytes := hex_text (psbt_serialize p).
(** src/v0/bitcoin/serialize.rs:45 [Psbt::serialize_hex]. *)
Definition psbt0_serialize_hex (p : psbt0) : bytes := hex_text (psbt0_serialize p).

(** src/v2/map/input.rs:389-393 [Input::taproot_hash_ty]; the error carries the number. *)
Definition input_taproot_hash_ty (i : input) : res N tap_ty :=
  match in_sighash_type i with
  | Some n => ok_or (sighash_tap_ty n) n
  | None => Ok TDefault
  end.
(** src/v0/bitcoin/map/input.rs:160-164 [Input::taproot_hash_ty], with the number in the error. *)
Definition input0_taproot_hash_ty_or (i : input0) : res N tap_ty :=
  match i0_sighash_type i with
  | Some n => ok_or (sighash_tap_ty n) n
  | None => Ok TDefault
  end.

(** src/v0/miniscript/mod.rs:1392-1402 [PsbtSighashMsg::to_secp_msg]. *)
Definition to_secp_msg (m : sighashmsg) : bytes :=
  match m with
  | TapSighash m => m
  | LegacySighash m => m
  | SegwitV0Sighash m => m
  end.

(** src/v2/dleq.rs:82, 90 [DleqProof::as_bytes], [as_ref]. *)
Definition dleq_as_bytes (d : bytes) : bytes := d.
(** src/v2/dleq.rs:93-107 [DleqProof::try_from] of a slice and of a vector; the error has the length
    and the expected one. *)
Definition dleq_from_slice (bs : bytes) : res (N * N) bytes := ok_or (dleq_try_from bs) (blen bs, 64).
(** src/v2/dleq.rs:134-136 [Display for InvalidLengthError]. *)
Definition dleq_length_text (e : N * N) : bytes :=
  str "invalid length for BIP-375 type: got " ++ dec_text (fst e) ++ str ", expected " ++ dec_text (snd e).

(** src/version.rs:28-34 [Version::to_u32], [From<Version> for u32]. *)
Definition version_to_u32 (v : N) : N := v.
(** src/version.rs:66-70 [Display for UnsupportedVersionError]. *)
Definition unsupported_version_text (n : N) : bytes :=
  str "unsupported version, we only support v0 and v2: " ++ dec_text n.

(** src/v0/mod.rs:141-160 [Display for SignerChecksError], the variants that occur. *)
Definition checks_text (e : checkserr) : bytes :=
  match e with
  | SCNonWitnessSig => str "witness input will produce a non-witness signature"
  | SCNonWitnessUtxoTxidMismatch => str "non-witness input has a mismatch between the txid and prevout txid"
  | SCRedeemScriptMismatch => str "redeem script hash did not match the hash in the script_pubkey"
  | SCMissingTxOut => str "missing witness_utxo"
  | SCWitnessScriptMismatchWsh => str "native segwit p2wsh script_pubkey did not match witness script hash"
  | SCWitnessScriptMismatchShWsh => str "nested segwit p2wsh script_pubkey did not match redeem script hash"
  end.

End Conversions.
