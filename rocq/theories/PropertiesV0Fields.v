(** C122: every field of a v0 PSBT is written under the key type and in the format of its BIP. *)
From Verif Require Import Base OMap Consensus ConsensusFacts Ext ExtInstance Raw RawFacts TapTree Serialize SerializeFacts MapCodec
  V2Global V2Input V2Output V2Psbt SpecCodec SpecPsbt V2PsbtFacts V2CodecFacts SpecTx TxWireFacts SpecFields FieldFacts
  V0Error V0Input V0Output V0Psbt V0OutputFacts V0InputFacts V0GlobalFacts SpecPsbt0 V0PsbtFacts V0WireFacts SpecFields0 SampleV0.
Local Open Scope N_scope.

(** Used by the examples only; the theorems bind their own. *)
#[local] Existing Instance toy | 100.

Section Facts.
Context `{X : Ext}.

Lemma unsigned_tx_bytes t b : wf_tx t -> legacy_wire t b <-> b = enc_tx_nowit t.
Proof.
  intros (W1 & W2 & W3 & W4 & W5 & W6). rewrite legacy_wire_iff. apply wf_txins_split in W4 as [W4 _]. tauto.
Qed.
Lemma global0_fields p q : wf_tx (p0_unsigned_tx p) -> In q (global0_pairs p) <-> global0_field p q.
Proof.
  intros W. unfold global0_pairs. splits. split.
  - intros H. pick; try (constructor; assumption).
    + apply G0_unsigned_tx. now apply unsigned_tx_bytes.
    + apply G0_version. lia.
  - destruct 1.
    + apply unsigned_tx_bytes in H as ->; [|exact W]. disj.
    + disj.
    + right. right. left. split; [lia|reflexivity].
    + disj.
    + disj.
Qed.
Lemma output0_fields o p : In p (output0_pairs o) <-> output0_field o p.
Proof.
  unfold output0_pairs. splits. split.
  - intros H. pick; rewrite ?taporigin_bytes_eq; constructor; assumption.
  - destruct 1; rewrite <- ?taporigin_bytes_eq; disj.
Qed.
Lemma input0_fields i p : wf_input0 i -> In p (input0_pairs i) <-> input0_field i p.
Proof.
  intros W. pose proof (wi0_non_witness_utxo _ W) as W1. pose proof (wi0_witness_utxo _ W) as W2. pose proof (wi0_final_wit _ W) as W3.
  clear W. unfold input0_pairs. splits. split.
  - intros H. pick; rewrite ?taporigin_bytes_eq; try (constructor; assumption).
    + apply (I0_non_witness_utxo i x); auto. rewrite H in W1. now apply tx_bytes_iff.
    + apply (I0_witness_utxo i x); auto. rewrite H in W2. now apply txout_bytes_iff.
    + apply (I0_partial_sig i x x0 _); auto. now apply pubkey_bytes_iff.
    + apply (I0_script_witness i x); auto. rewrite H in W3. now apply witness_bytes_iff.
    + apply (I0_tap_sig i x _); auto. now apply tsig_bytes_iff.
    + destruct x as [x h]. apply (I0_tap_script_sig i x h x0 _); auto. now apply tsig_bytes_iff.
    + destruct x0 as [s v]. now apply (I0_tap_leaf i x s v).
  - destruct 1; rewrite <- ?taporigin_bytes_eq; same_bytes; disj.
Qed.
End Facts.

(** The three maps consist of exactly the pairs of the tables in [SpecFields0], each once. *)
Theorem C122_fields : forall (X : Ext) (L : ExtLaws X) p, wf_psbt0 p ->
  exists lg lis los, psbt_wire lg lis los (psbt0_serialize p)
    /\ written_as (global0_field p) lg
    /\ Forall2 (fun i l => written_as (input0_field i) l) (p0_inputs p) lis
    /\ Forall2 (fun o l => written_as (output0_field o) l) (p0_outputs p) los.
Proof.
  intros X L p H. exists (global0_pairs p), (map input0_pairs (p0_inputs p)), (map output0_pairs (p0_outputs p)).
  split; [|split; [|split]].
  - rewrite serialize0_wire. now apply psbt_wire_intro; apply serialize0_pairs_wf.
  - split; [|intros q; apply global0_fields, (wp0_tx _ H)]. eapply NoDup_map_inv. apply global0_pairs_nodup, wf_psbt0_g0, H.
  - pose proof (wp0_inputs _ H) as Q. induction Q as [|i l Hi Hl IH]; cbn; constructor; auto.
    split; [|intros q; now apply input0_fields]. eapply NoDup_map_inv. now apply input0_pairs_nodup.
  - pose proof (wp0_outputs _ H) as Q. induction Q as [|i l Hi Hl IH]; cbn; constructor; auto.
    split; [|intros q; apply output0_fields]. eapply NoDup_map_inv. now apply output0_pairs_nodup.
Qed.
Print Assumptions C122_fields.

(** Written maps contain the fields as the BIPs number them, e.g. *)
Example C122_example : @wf_psbt0 toy sample0
  /\ map (fun p => k_type (p_key p)) (global0_pairs sample0) = [x00; x01; xfc; xf0]
  /\ map (map (fun p => k_type (p_key p))) (map input0_pairs (p0_inputs sample0))
     = [[x01; x02; x06; x0b; xf1]; [x00; x06; x07; x08]]
  /\ map (map (fun p => k_type (p_key p))) (map output0_pairs (p0_outputs sample0)) = [[x02]; [x05; x06; xf2]].
Proof.
  split; [exact (@deserialize0_wf toy toy_laws _ _ sample0_decodes)|]. split; [|split]; vm_compute; reflexivity.
Qed.
