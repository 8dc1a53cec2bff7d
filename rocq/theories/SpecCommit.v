(** Specification of what a signature covers (BIP-143, BIP-341), independent of the digests. *)
From Verif Require Import Base Consensus Ext RealExt V2Sign SpecSign V0Input V0Psbt SpecExtract0 SpecSign0.
Local Open Scope N_scope.

(** Two strings with the same SHA-256 hash: no one has ever found such. *)
Definition collision_found : Prop := exists a b, a <> b /\ real_sha256 a = real_sha256 b.

(** The outputs that a transaction spends, by transaction and index, and its sequence numbers. *)
Definition outpoints (p : psbt0) : list (bytes * N) := map (fun i => (ti_txid i, ti_vout i)) (tx_input (p0_unsigned_tx p)).
Definition sequences (p : psbt0) : list N := map ti_sequence (tx_input (p0_unsigned_tx p)).
Definition outputs (p : psbt0) : list txout := tx_output (p0_unsigned_tx p).
(** The parts of a type: with ANYONECANPAY the other inputs are left out; ALL (or DEFAULT) covers
    all outputs, SINGLE the one with the index of the input. *)
Definition all_inputs (ty : N) : Prop := In ty [0x00; 0x01; 0x02; 0x03].
Definition one_input (ty : N) : Prop := In ty [0x81; 0x82; 0x83].
Definition all_outputs (ty : N) : Prop := In ty [0x00; 0x01; 0x81].
Definition one_output (ty : N) : Prop := In ty [0x03; 0x83].

(** The same input of two transactions, without scripts. *)
Definition same_input (i j : txin) : Prop := ti_txid i = ti_txid j /\ ti_vout i = ti_vout j /\ ti_sequence i = ti_sequence j.

(** What an input that spends output [u] of segwit version 0 runs: the script that the signature covers. *)
Inductive script_code (s : txin * input0) (u : txout) : bytes -> Prop :=
| CodeWpkh h : p2wpkh_hash (to_script u) h -> script_code s u (p2pkh_script h)
| CodeShWpkh c h : p2sh (to_script u) -> i0_redeem_script (snd s) = Some c -> p2wpkh_hash c h -> script_code s u (p2pkh_script h)
| CodeWsh h c : p2wsh_hash (to_script u) h -> i0_witness_script (snd s) = Some c -> script_code s u c
| CodeShWsh q h c : p2sh (to_script u) -> i0_redeem_script (snd s) = Some q -> p2wsh_hash q h ->
    i0_witness_script (snd s) = Some c -> script_code s u c.
(** The same for an input before segwit. *)
Inductive legacy_code (s : txin * input0) (u : txout) : bytes -> Prop :=
| CodeBare : output_kind (to_script u) (i0_redeem_script (snd s)) Bare -> legacy_code s u (to_script u)
| CodeSh c : output_kind (to_script u) (i0_redeem_script (snd s)) Sh -> i0_redeem_script (snd s) = Some c -> legacy_code s u c.
