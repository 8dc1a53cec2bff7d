(** The version 0 form of a version 2 PSBT (BIP-370 gives the same fields another place), and which
    errors of the two implementations name the same problem. *)
From Verif Require Import Base OMap Consensus Ext Raw TapTree Serialize V2Global V2Input V2Output V2Psbt V2Roles V2Sign
  V0Error V0Input V0Output V0Psbt V0Sign SpecRoles.
Local Open Scope N_scope.

(** The fields that both versions have. *)
Definition v0_input (i : input) : input0 := {|
  i0_non_witness_utxo := in_non_witness_utxo i;
  i0_witness_utxo := in_witness_utxo i;
  i0_partial_sigs := in_partial_sigs i;
  i0_sighash_type := in_sighash_type i;
  i0_redeem_script := in_redeem_script i;
  i0_witness_script := in_witness_script i;
  i0_bip32_derivation := in_bip32_derivations i;
  i0_final_script_sig := in_final_script_sig i;
  i0_final_script_witness := in_final_script_witness i;
  i0_ripemd160_preimages := in_ripemd160_preimages i;
  i0_sha256_preimages := in_sha256_preimages i;
  i0_hash160_preimages := in_hash160_preimages i;
  i0_hash256_preimages := in_hash256_preimages i;
  i0_tap_key_sig := in_tap_key_sig i;
  i0_tap_script_sigs := in_tap_script_sigs i;
  i0_tap_scripts := in_tap_scripts i;
  i0_tap_key_origins := in_tap_key_origins i;
  i0_tap_internal_key := in_tap_internal_key i;
  i0_tap_merkle_root := in_tap_merkle_root i;
  i0_proprietary := in_proprietaries i;
  i0_unknown := in_unknowns i
|}.
Definition v0_output (o : output) : output0 := {|
  o0_redeem_script := out_redeem_script o;
  o0_witness_script := out_witness_script o;
  o0_bip32_derivation := out_bip32_derivations o;
  o0_tap_internal_key := out_tap_internal_key o;
  o0_tap_tree := out_tap_tree o;
  o0_tap_key_origins := out_tap_key_origins o;
  o0_proprietary := out_proprietaries o;
  o0_unknown := out_unknowns o
|}.
(** An input of the transaction; BIP-370: "If omitted, the sequence number is assumed to be the final
    sequence number (0xffffffff)". *)
Definition v0_txin (i : input) : txin := {|
  ti_txid := in_previous_txid i;
  ti_vout := in_spent_output_index i;
  ti_script_sig := [];
  ti_sequence := match in_sequence i with Some s => s | None => 2 ^ 32 - 1 end;
  ti_witness := []
|}.
(** The v0 PSBT with the same content, for the lock time of the transaction. *)
Definition v0_form (lock : N) (p : psbt) : psbt0 := {|
  p0_unsigned_tx := {|
    tx_version := g_tx_version (p_global p);
    tx_lock_time := lock;
    tx_input := map v0_txin (p_inputs p);
    tx_output := map (fun o => TxOut (out_amount o) (out_script_pubkey o)) (p_outputs p)
  |};
  p0_version := 0;
  p0_xpub := g_xpubs (p_global p);
  p0_proprietary := g_proprietaries (p_global p);
  p0_unknown := g_unknowns (p_global p);
  p0_inputs := map v0_input (p_inputs p);
  p0_outputs := map v0_output (p_outputs p)
|}.

(** Every input names its sequence. *)
Definition sequences_given (p : psbt) : Prop := Forall (fun i => in_sequence i <> None) (p_inputs p).
(** The input count is the number of inputs. *)
Definition inputs_counted (p : psbt) : Prop := g_input_count (p_global p) = blen (p_inputs p).

(** The errors of signing that name the same problem. *)
Inductive same_sign_problem : signerr -> signerr0 -> Prop :=
| SPIndex n len : same_sign_problem (SEIndexOutOfBounds (IdxInputs n len)) (S0IndexOutOfBounds (Idx0Inputs n len))
| SPType : same_sign_problem SEInvalidSighashType S0InvalidSighashType
| SPUtxo : same_sign_problem (SEFundingUtxo FMissingUtxo) S0MissingSpendUtxo
| SPRedeem : same_sign_problem SEMissingRedeemScript S0MissingRedeemScript
| SPWitness : same_sign_problem SEMissingWitnessScript S0MissingWitnessScript
| SPSegwit : same_sign_problem SESegwitV0Sighash S0SegwitV0Sighash
| SPNotWpkh : same_sign_problem SENotP2wpkhScript S0NotP2wpkhScript
| SPWpkhIndex : same_sign_problem SEP2wpkhIndex S0P2wpkhIndex
| SPKind : same_sign_problem SEUnknownOutputType S0UnknownOutputType
| SPAlgorithm : same_sign_problem SEWrongSigningAlgorithm S0WrongSigningAlgorithm.
(** The errors of the fee that name the same problem. *)
Inductive same_fee_problem : feeerr -> err0 -> Prop :=
| FPMissing : same_fee_problem (FeeFundingUtxo FMissingUtxo) E0MissingUtxo
| FPBounds v n : same_fee_problem (FeeFundingUtxo (FOutOfBounds v n)) E0PsbtUtxoOutOfbounds
| FPInput : same_fee_problem FeeInputOverflow E0FeeOverflow
| FPOutput : same_fee_problem FeeOutputOverflow E0FeeOverflow
| FPNegative : same_fee_problem FeeNegative E0NegativeFee.

(** The same problem with the same input; the keys of ECDSA as version 0 reports them. *)
Definition same_problem_at (a : N * signerr) (b : N * signerr0) : Prop := fst a = fst b /\ same_sign_problem (snd a) (snd b).
Definition keys0 (e : N * list pubkey) : N * signkeys := (fst e, KeysEcdsa (snd e)).
