(** C59: every field is written under the key type and in the format of its BIP. *)
From Verif Require Import Base OMap Consensus ConsensusFacts Ext ExtInstance Raw RawFacts TapTree Serialize SerializeFacts MapCodec
  V2Global V2Input V2Output V2Psbt SpecCodec SpecPsbt V2PsbtFacts V2CodecFacts V2WireFacts SpecTx TxWireFacts SpecFields FieldFacts SampleV2.
Local Open Scope N_scope.

(** Used by the examples only; the theorems bind their own. *)
#[local] Existing Instance toy | 100.
#[local] Instance ex_cfg : Cfg | 100 := cfg_of false false.

Section Facts.
Context `{X : Ext} `{C : Cfg}.

Lemma global_fields g p : In p (global_pairs g) <-> global_field g p.
Proof.
  unfold global_pairs. splits. split.
  - intros H. pick; constructor; assumption.
  - destruct 1; disj.
Qed.
Lemma output_fields o p : In p (output_pairs o) <-> output_field o p.
Proof.
  unfold output_pairs. splits. split.
  - intros H. pick; rewrite ?taporigin_bytes_eq; constructor; assumption.
  - destruct 1; rewrite <- ?taporigin_bytes_eq; disj.
Qed.
Lemma input_fields i p : wf_input i -> In p (input_pairs i) <-> input_field i p.
Proof.
  intros W. pose proof (wi_non_witness_utxo _ W) as W1. pose proof (wi_witness_utxo _ W) as W2. pose proof (wi_final_wit _ W) as W3.
  clear W. unfold input_pairs. splits. split.
  - intros H. pick; rewrite ?taporigin_bytes_eq; try (constructor; assumption).
    + apply (IF_non_witness_utxo i x); auto. rewrite H in W1. now apply tx_bytes_iff.
    + apply (IF_witness_utxo i x); auto. rewrite H in W2. now apply txout_bytes_iff.
    + apply (IF_partial_sig i x x0 _); auto. now apply pubkey_bytes_iff.
    + apply (IF_script_witness i x); auto. rewrite H in W3. now apply witness_bytes_iff.
    + apply (IF_tap_sig i x _); auto. now apply tsig_bytes_iff.
    + destruct x as [x h]. apply (IF_tap_script_sig i x h x0 _); auto. now apply tsig_bytes_iff.
    + destruct x0 as [s v]. now apply (IF_tap_leaf i x s v).
  - destruct 1; rewrite <- ?taporigin_bytes_eq; same_bytes; disj.
Qed.
End Facts.

(** The three maps consist of exactly the pairs of the tables in [SpecFields], each once. *)
Theorem C59_fields : forall (X : Ext) (L : ExtLaws X) (C : Cfg) p, wf_psbt p ->
  exists lg lis los, psbt_wire lg lis los (psbt_serialize p)
    /\ written_as (global_field (p_global p)) lg
    /\ Forall2 (fun i l => written_as (input_field i) l) (p_inputs p) lis
    /\ Forall2 (fun o l => written_as (output_field o) l) (p_outputs p) los.
Proof.
  intros X L C p H. exists (global_pairs (p_global p)), (map input_pairs (p_inputs p)), (map output_pairs (p_outputs p)).
  split; [|split; [|split]].
  - destruct (serialize_maps p H) as (w & t & E & W & _). rewrite serialize_wire by assumption.
    now apply psbt_wire_intro; apply serialize_pairs_wf.
  - split; [|intros q; apply global_fields]. eapply NoDup_map_inv. apply global_pairs_nodup, H.
  - pose proof (wp_inputs _ H) as Q. induction Q as [|i l Hi Hl IH]; cbn; constructor; auto.
    split; [|intros q; now apply input_fields]. eapply NoDup_map_inv. now apply input_pairs_nodup.
  - pose proof (wp_outputs _ H) as Q. induction Q as [|i l Hi Hl IH]; cbn; constructor; auto.
    split; [|intros q; apply output_fields]. eapply NoDup_map_inv. now apply output_pairs_nodup.
Qed.
Print Assumptions C59_fields.

(** Written maps contain the fields as the BIPs number them, e.g. *)
Example C59_example : wf_psbt sample
  /\ map (map (fun p => k_type (p_key p))) (map input_pairs (p_inputs sample))
     = [[x0e; x0f; x01; x02; x06; x0b; xf1]; [x0e; x0f; x10; x12; x01; x06]]
  /\ map (map (fun p => k_type (p_key p))) (map output_pairs (p_outputs sample)) = [[x03; x04; x02]; [x03; x04; x05; x06; xf2]].
Proof.
  split; [exact (@deserialize_wf toy toy_laws _ _ _ sample_decodes)|]. split; vm_compute; reflexivity.
Qed.
