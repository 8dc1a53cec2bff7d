(** Specification of fee and extraction for v0 PSBTs, independent of the code's helpers. *)
From Verif Require Import Base Consensus SpecRoles V0Input V0Psbt.
Local Open Scope N_scope.

(** The inputs of the transaction with their maps. *)
Definition spends (p : psbt0) : list (txin * input0) := combine (tx_input (p0_unsigned_tx p)) (p0_inputs p).
(** The output spent by an input with the given map. *)
Definition funds0 (s : txin * input0) (u : txout) : Prop :=
  i0_witness_utxo (snd s) = Some u
  \/ i0_witness_utxo (snd s) = None
     /\ exists t, i0_non_witness_utxo (snd s) = Some t /\ nth_error (tx_output t) (N.to_nat (ti_vout (fst s))) = Some u.
Definition funded0 (l : list (txin * input0)) (vs : list N) : Prop :=
  Forall2 (fun s v => exists u, funds0 s u /\ to_value u = v) l vs.
(** Nothing is known about the output, respectively the known transaction has too few outputs. *)
Definition no_utxo (s : txin * input0) : Prop :=
  i0_witness_utxo (snd s) = None /\ i0_non_witness_utxo (snd s) = None.
Definition vout_out_of_bounds (s : txin * input0) : Prop :=
  i0_witness_utxo (snd s) = None
  /\ exists t, i0_non_witness_utxo (snd s) = Some t /\ N.of_nat (length (tx_output t)) <= ti_vout (fst s).

(** What the outputs of the transaction pay. *)
Definition pays0 (p : psbt0) : list N := map to_value (tx_output (p0_unsigned_tx p)).
Definition one_map_per_input (p : psbt0) : Prop := length (p0_inputs p) = length (tx_input (p0_unsigned_tx p)).

(** The first input with some property, when the inputs before it have utxos the sum of
    which, [n], is no overflow. *)
Definition first_input0 (P : N -> txin * input0 -> Prop) (p : psbt0) : Prop :=
  exists l1 s l2 vs, spends p = l1 ++ s :: l2 /\ funded0 l1 vs /\ total vs < 2 ^ 64 /\ P (total vs) s.

(** The transaction to extract. *)
Record extracted0 (p : psbt0) (t : tx) : Prop := {
  ex0_version : tx_version t = tx_version (p0_unsigned_tx p);
  ex0_lock : tx_lock_time t = tx_lock_time (p0_unsigned_tx p);
  ex0_outputs : tx_output t = tx_output (p0_unsigned_tx p);
  ex0_count : length (tx_input t) = length (tx_input (p0_unsigned_tx p));
  ex0_inputs : forall n ti ui i, nth_error (tx_input t) n = Some ti ->
    nth_error (tx_input (p0_unsigned_tx p)) n = Some ui -> nth_error (p0_inputs p) n = Some i ->
    ti_txid ti = ti_txid ui /\ ti_vout ti = ti_vout ui /\ ti_sequence ti = ti_sequence ui
    /\ ti_script_sig ti = match i0_final_script_sig i with Some s => s | None => [] end
    /\ ti_witness ti = match i0_final_script_witness i with Some w => w | None => [] end
}.
