(** What the texts of the signer checks say, and the taproot sighash type of a v2 input. *)
From Coq Require Import Strings.String.
From Verif Require Import Base OMap Consensus Ext Raw TapTree Serialize MapCodec SighashType V2Global V2Input V2Psbt V2Roles Script V2Sign
  SpecSign V0Error V0Input V0Output V0Psbt SpecPsbt0 SpecExtract0 V0Sign SpecSign0.
Local Open Scope N_scope.

(** The type of BIP-341 for an input: the one in the field, or DEFAULT if there is none. *)
Definition taproot_type_of (field : option N) (ty : N) : Prop :=
  In ty [0x00; 0x01; 0x02; 0x03; 0x81; 0x82; 0x83] /\ (field = Some ty \/ field = None /\ ty = 0x00).

Section Checks.
Context `{X : Ext}.

(** What each text says about the input [snd s] that spends [fst s]. *)
Inductive check_words (s : txin * input0) : bytes -> Prop :=
| WBare : i0_witness_utxo (snd s) <> None -> spends_kind s Bare ->
    check_words s (str "witness input will produce a non-witness signature")
| WTxid t : i0_non_witness_utxo (snd s) = Some t -> sha256d (enc_tx_nowit t) <> ti_txid (fst s) ->
    check_words s (str "non-witness input has a mismatch between the txid and prevout txid")
| WNoUtxo : i0_witness_utxo (snd s) = None -> check_words s (str "missing witness_utxo")
| WRedeem u r : i0_witness_utxo (snd s) = Some u -> i0_redeem_script (snd s) = Some r ->
    to_script u <> p2sh_script (hash160 r) ->
    check_words s (str "redeem script hash did not match the hash in the script_pubkey")
| WWitness u h w : i0_witness_utxo (snd s) = Some u -> p2wsh_hash (to_script u) h ->
    i0_witness_script (snd s) = Some w -> h <> sha256 w ->
    check_words s (str "native segwit p2wsh script_pubkey did not match witness script hash")
| WNested u r : i0_witness_utxo (snd s) = Some u -> spends_kind s ShWsh -> i0_redeem_script (snd s) = Some r ->
    to_script u <> p2sh_script (hash160 r) ->
    check_words s (str "nested segwit p2wsh script_pubkey did not match redeem script hash").

End Checks.
