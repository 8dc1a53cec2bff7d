(** C121: transactions are written and read in the format of the Bitcoin protocol. *)
From Verif Require Import Base Consensus ConsensusFacts Ext ExtInstance Raw Serialize SerializeFacts V2Roles SpecCodec SpecCodecFacts
  SpecTx TxWireFacts.
Local Open Scope N_scope.

(** Used by the examples only; the theorems bind their own. *)
#[local] Existing Instance toy | 100.

(** What is written is the one form that BIP-144 gives the transaction. *)
Theorem C121_written : forall t, wf_tx t ->
  forall b, tx_wire t b <-> b = ser_tx t.
Proof.
  intros t W b. rewrite tx_wire_iff by now apply wf_tx_fits. unfold ser_tx. tauto.
Qed.
Print Assumptions C121_written.

(** What is read are exactly the transactions in that form, with witnesses of bounded size. *)
Theorem C121_read : forall b t,
  de_tx b = Ok t <-> tx_wire t b /\ Forall (fun i => witness_fits (ti_witness i)) (tx_input t).
Proof.
  intros b t. unfold de_tx, de_consensus, c_deserialize. split.
  - intros H. apply map_err_ok in H. binds H. destruct b0; [|discriminate]. inj H.
    apply dec_tx_iff in Hx as [F (c & H & ->)]. now rewrite app_nil_r.
  - intros [H F]. assert (E : dec_tx b = Ok (t, [])).
    { apply dec_tx_iff. split; [exact F|]. exists b. now rewrite app_nil_r. }
    now rewrite E.
Qed.
Print Assumptions C121_read.

(** Outputs and witnesses by themselves, as the two fields of an input hold them. *)
Theorem C121_txout : forall b o, de_txout b = Ok o <-> txout_wire o b.
Proof.
  intros b o. unfold de_txout, de_consensus, c_deserialize. rewrite txout_wire_iff. split.
  - intros H. apply map_err_ok in H. binds H. destruct b0; [|discriminate]. inj H.
    apply dec_txout_canon in Hx as [-> W]. now rewrite app_nil_r.
  - intros [W ->]. assert (E : dec_txout (enc_txout o) = Ok (o, [])).
    { rewrite <- (app_nil_r (enc_txout o)). now apply dec_txout_rt. }
    now rewrite E.
Qed.
Print Assumptions C121_txout.
Theorem C121_witness : forall b w, de_witness b = Ok w <-> witness_wire w b /\ witness_fits w.
Proof.
  intros b w. unfold de_witness, de_consensus, c_deserialize. split.
  - intros H. apply map_err_ok in H. binds H. destruct b0; [|discriminate]. inj H.
    apply dec_witness_canon in Hx as [-> W]. rewrite app_nil_r. apply fits_iff in W. split; [now apply witness_wire_iff|exact W].
  - intros [H F]. apply witness_wire_iff in H as ->; [|exact F]. apply fits_iff in F.
    assert (E : dec_witness (enc_witness w) = Ok (w, [])).
    { rewrite <- (app_nil_r (enc_witness w)). now apply dec_witness_rt. }
    now rewrite E.
Qed.
Print Assumptions C121_witness.

(** The format is unambiguous. *)
Theorem C121_unambiguous : forall t t' b,
  Forall (fun i => witness_fits (ti_witness i)) (tx_input t) -> Forall (fun i => witness_fits (ti_witness i)) (tx_input t') ->
  tx_wire t b -> tx_wire t' b -> t = t'.
Proof.
  intros t t' b F F' H H'. assert (de_tx b = Ok t) by now apply C121_read. assert (de_tx b = Ok t') by now apply C121_read. congruence.
Qed.
Print Assumptions C121_unambiguous.

(** The transaction id is the double hash of the form without witnesses. *)
Theorem C121_txid : forall (X : Ext) t b, legacy_wire t b -> compute_txid t = sha256 (sha256 b).
Proof. intros X t b H. apply legacy_wire_iff in H as [_ ->]. reflexivity. Qed.
Print Assumptions C121_txid.

(** BIP-141: the weight is three times the size without witnesses plus the size with them. *)
Theorem C121_weight : forall t a b,
  Forall (fun i => witness_fits (ti_witness i)) (tx_input t) -> legacy_wire t a -> tx_wire t b ->
  tx_weight t = 3 * blen a + blen b.
Proof.
  intros t a b F H H'. apply legacy_wire_iff in H as [_ ->]. apply tx_wire_iff in H' as [_ ->]; [|exact F]. reflexivity.
Qed.
Print Assumptions C121_weight.

Example C121_example :
  let i := TxIn (repeat x05 32) 1 [x51] 4294967293 [[x01]; []] in
  let t := Tx 2 17 [i; TxIn (repeat x06 32) 0 [] 7 []] [TxOut 1000 [x52; x53]] in
  let u := Tx 2 17 [TxIn (repeat x06 32) 0 [] 7 []] [TxOut 1000 [x52; x53]] in
  wf_tx t /\ wf_tx u
  /\ tx_wire t ([x02; x00; x00; x00; x00; x01; x02] ++ repeat x05 32 ++ [x01; x00; x00; x00; x01; x51; xfd; xff; xff; xff]
       ++ repeat x06 32 ++ [x00; x00; x00; x00; x00; x07; x00; x00; x00]
       ++ [x01; xe8; x03; x00; x00; x00; x00; x00; x00; x02; x52; x53] ++ [x02; x01; x01; x00] ++ [x00] ++ [x11; x00; x00; x00])
  /\ tx_wire u ([x02; x00; x00; x00; x01] ++ repeat x06 32 ++ [x00; x00; x00; x00; x00; x07; x00; x00; x00]
       ++ [x01; xe8; x03; x00; x00; x00; x00; x00; x00; x02; x52; x53] ++ [x11; x00; x00; x00]).
Proof.
  assert (Ht : wf_tx (Tx 2 17 [TxIn (repeat x05 32) 1 [x51] 4294967293 [[x01]; []]; TxIn (repeat x06 32) 0 [] 7 []] [TxOut 1000 [x52; x53]])).
  { unfold wf_tx, wf_txin, wf_txout, wf_vec, wf_witness. cbn. repeat (split || constructor); vm_compute; try reflexivity; discriminate. }
  assert (Hu : wf_tx (Tx 2 17 [TxIn (repeat x06 32) 0 [] 7 []] [TxOut 1000 [x52; x53]])).
  { unfold wf_tx, wf_txin, wf_txout, wf_vec, wf_witness. cbn. repeat (split || constructor); vm_compute; try reflexivity; discriminate. }
  split; [exact Ht|]. split; [exact Hu|]. split; (apply C121_written; [assumption|vm_compute; reflexivity]).
Qed.
