(** The serialization of transactions, written from the Bitcoin protocol documentation and
    BIP-144, without reference to the model of the code. *)
From Verif Require Import Base Consensus SpecCodec.
Local Open Scope N_scope.

(** A number as [k] bytes, little endian. *)
Definition int_wire (k : nat) (n : N) (b : bytes) : Prop := length b = k /\ le_value b = n.

(** A byte string after its length. *)
Definition string_wire (s b : bytes) : Prop := exists l, compact_size (blen s) l /\ b = l ++ s.

(** The items after their number. *)
Definition list_wire {A} (w : A -> bytes -> Prop) (l : list A) (b : bytes) : Prop :=
  exists n bs, compact_size (blen l) n /\ Forall2 w l bs /\ b = n ++ concat bs.

(** Value and script of an output. *)
Definition txout_wire (o : txout) (b : bytes) : Prop :=
  exists v s, int_wire 8 (to_value o) v /\ string_wire (to_script o) s /\ b = v ++ s.

(** Transaction id and index of the outpoint, script, sequence of an input. *)
Definition txin_wire (i : txin) (b : bytes) : Prop :=
  exists n s q, length (ti_txid i) = 32%nat /\ int_wire 4 (ti_vout i) n /\ string_wire (ti_script_sig i) s
    /\ int_wire 4 (ti_sequence i) q /\ b = ti_txid i ++ n ++ s ++ q.

(** A stack of witness elements. *)
Definition witness_wire : witness -> bytes -> Prop := list_wire string_wire.

(** Version, inputs, outputs, lock time; a transaction id is the hash of this form. *)
Definition legacy_wire (t : tx) (b : bytes) : Prop :=
  exists v ins outs l, int_wire 4 (tx_version t) v /\ list_wire txin_wire (tx_input t) ins
    /\ list_wire txout_wire (tx_output t) outs /\ int_wire 4 (tx_lock_time t) l /\ b = v ++ ins ++ outs ++ l.

(** BIP-144: marker 0 and flag 1 after the version, one witness for every input before
    the lock time. *)
Definition segwit_wire (t : tx) (b : bytes) : Prop :=
  exists v ins outs ws l, int_wire 4 (tx_version t) v /\ list_wire txin_wire (tx_input t) ins
    /\ list_wire txout_wire (tx_output t) outs /\ Forall2 (fun i => witness_wire (ti_witness i)) (tx_input t) ws
    /\ int_wire 4 (tx_lock_time t) l /\ b = v ++ [x00; x01] ++ ins ++ outs ++ concat ws ++ l.

(** BIP-144: the old form if all witnesses are empty, the new one otherwise.  A transaction
    without inputs, whose old form would be taken for a new one, has the new form. *)
Inductive tx_wire (t : tx) (b : bytes) : Prop :=
| TWLegacy : tx_input t <> [] -> Forall (fun i => ti_witness i = []) (tx_input t) -> legacy_wire t b -> tx_wire t b
| TWSegwit : tx_input t = [] \/ Exists (fun i => ti_witness i <> []) (tx_input t) -> segwit_wire t b -> tx_wire t b.

(** The elements of a witness, as they are written, have up to four million bytes. *)
Definition witness_fits (w : witness) : Prop :=
  exists bs, Forall2 string_wire w bs /\ blen (concat bs) <= 4000000.
