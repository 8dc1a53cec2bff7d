(** The strings that the digests of BIP-143 and of legacy inputs hash, for naming collisions among
    them (src/v0/bitcoin/mod.rs:500-560 calls these digests). *)
From Verif Require Import Base Consensus RealExt RealSign V0Sign RealTaproot DigestFacts.
Local Open Scope N_scope.

(** Two different strings with the same hash, and with the same double hash. *)
Definition collide (a b : bytes) : Prop := a <> b /\ real_sha256 a = real_sha256 b.
Definition dsha_collision (a b : bytes) : Prop := collide a b \/ collide (real_sha256 a) (real_sha256 b).
(** A collision of two strings in the same place of two lists. *)
Definition same_place (l l' : list bytes) : Prop :=
  exists k a b, nth_error l k = Some a /\ nth_error l' k = Some b /\ dsha_collision a b.

(** BIP-143: the string that is signed, and those whose double hashes are in it: the outpoints, the
    sequence numbers, all outputs and the output with the index of the input. *)
Definition bip143_strings (t : tx) (n : N) (i : txin) (code : bytes) (value ty : N) : list bytes :=
  let dsha b := real_sha256 (real_sha256 b) in
  let single := base_type ty =? 3 in
  let none := base_type ty =? 2 in
  let outpoints := flat_map (fun i => ti_txid i ++ le_enc 4 (ti_vout i)) (tx_input t) in
  let sequences := flat_map (fun i => le_enc 4 (ti_sequence i)) (tx_input t) in
  let outputs := flat_map enc_txout (tx_output t) in
  let output := flat_map enc_txout (firstn 1 (skipn (N.to_nat n) (tx_output t))) in
  [le_enc 4 (tx_version t) ++ (if anyone ty then zeros 32 else dsha outpoints)
     ++ (if anyone ty || single || none then zeros 32 else dsha sequences)
     ++ (ti_txid i ++ le_enc 4 (ti_vout i)) ++ enc_bytes code ++ le_enc 8 value ++ le_enc 4 (ti_sequence i)
     ++ (if negb single && negb none then dsha outputs else if single && (n <? blen (tx_output t)) then dsha output else zeros 32)
     ++ le_enc 4 (tx_lock_time t) ++ le_enc 4 ty;
   outpoints; sequences; outputs; output].
(** The transaction that a legacy input signs, and the type. *)
Definition legacy_string (t : tx) (n : N) (code : bytes) (ty : N) : bytes :=
  enc_tx_nowit (Tx (tx_version t) (tx_lock_time t) (leg_ins t n code ty) (leg_outs t n ty)) ++ le_enc 4 ty.
(** BIP-341: the string that is hashed for the message, after the hashes of the tag, and those whose
    hashes are in it: the outpoints, the amounts and scripts that are spent, the sequence numbers,
    all outputs and the output with the index of the input. *)
Definition bip341_strings (t : tx) (n : N) (prev : prevouts) (leaf : option bytes) (ty : N) : list bytes :=
  [real_sha256 TAG_SIGHASH ++ real_sha256 TAG_SIGHASH ++ tap_message t n prev leaf ty;
   flat_map (fun i => ti_txid i ++ le_enc 4 (ti_vout i)) (tx_input t);
   flat_map (fun u => le_enc 8 (to_value u)) (all_prevouts prev);
   flat_map (fun u => enc_bytes (to_script u)) (all_prevouts prev);
   flat_map (fun i => le_enc 4 (ti_sequence i)) (tx_input t);
   flat_map enc_txout (tx_output t);
   match nth_error (tx_output t) (N.to_nat n) with Some o => enc_txout o | None => [] end].
Definition same_place1 (l l' : list bytes) : Prop :=
  exists k a b, nth_error l k = Some a /\ nth_error l' k = Some b /\ collide a b.
