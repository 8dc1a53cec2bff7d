(** The message of BIP-341 computed for real, for [SighashCache::taproot_key_spend_signature_hash]
    and [taproot_script_spend_signature_hash] at src/v0/bitcoin/mod.rs:602-611. *)
From Verif Require Import Base Ext RealExt Consensus Serialize V0Sign.
Local Open Scope N_scope.

(** "TapSighash". *)
Definition TAG_SIGHASH : bytes := [x54; x61; x70; x53; x69; x67; x68; x61; x73; x68].
(** The outpoint of an input (BIP-341, src/v0/bitcoin/mod.rs:602-611). *)
Definition enc_outpoint (i : txin) : bytes := ti_txid i ++ le_enc 4 (ti_vout i).
(** The outputs spent that are given ([Prevouts::get_all], called from src/v0/bitcoin/mod.rs:602-611). *)
Definition all_prevouts (prev : prevouts) : list txout :=
  match prev with PrevoutsAll l => l | PrevoutsOne _ u => [u] end.
(** The output spent by input [n] ([Prevouts::get], called from src/v0/bitcoin/mod.rs:602-611). *)
Definition one_prevout (n : N) (prev : prevouts) : option txout :=
  match prev with PrevoutsAll l => nth_error l (N.to_nat n) | PrevoutsOne _ u => Some u end.
(** The epoch, "Common signature message" and the extension of BIP-342 without annex and with no
    OP_CODESEPARATOR ([SighashCache::taproot_encode_signing_data_to], reached from
    src/v0/bitcoin/mod.rs:602-611). *)
Definition tap_message (t : tx) (n : N) (prev : prevouts) (leaf : option bytes) (ty : N) : bytes :=
  let anyone := N.testbit ty 7 in
  let none := N.land ty 3 =? 2 in
  let single := N.land ty 3 =? 3 in
  [x00; n2b ty] ++ le_enc 4 (tx_version t) ++ le_enc 4 (tx_lock_time t)
  ++ (if anyone then []
      else real_sha256 (flat_map enc_outpoint (tx_input t))
           ++ real_sha256 (flat_map (fun u => le_enc 8 (to_value u)) (all_prevouts prev))
           ++ real_sha256 (flat_map (fun u => enc_bytes (to_script u)) (all_prevouts prev))
           ++ real_sha256 (flat_map (fun i => le_enc 4 (ti_sequence i)) (tx_input t)))
  ++ (if none || single then [] else real_sha256 (flat_map enc_txout (tx_output t)))
  ++ [match leaf with Some _ => x02 | None => x00 end]
  ++ (if anyone then
        match nth_error (tx_input t) (N.to_nat n), one_prevout n prev with
        | Some i, Some u => enc_outpoint i ++ enc_txout u ++ le_enc 4 (ti_sequence i)
        | _, _ => []
        end
      else le_enc 4 n)
  ++ (if single then
        match nth_error (tx_output t) (N.to_nat n) with Some o => real_sha256 (enc_txout o) | None => [] end
      else [])
  ++ match leaf with Some h => h ++ [x00; xff; xff; xff; xff] | None => [] end.
(** [TapSighash] (src/v0/bitcoin/mod.rs:602-611). *)
Definition real_taproot (t : tx) (n : N) (prev : prevouts) (leaf : option bytes) (ty : N) : bytes :=
  tagged TAG_SIGHASH (tap_message t n prev leaf ty).
(** The functions [T] (fields cited in V0Sign.v) with this digest. *)
Definition with_bip341 (T : SchnorrExt) : SchnorrExt := {|
  taproot_digest := real_taproot;
  tweak_secret := @tweak_secret T;
  sign_schnorr := @sign_schnorr T;
  verify_schnorr := @verify_schnorr T;
  output_key := @output_key T
|}.
