(** C146: the decoders accept exactly the byte strings of the format in [SpecAccept]. *)
From Coq Require Import List.
From Verif Require Import Base OMap Consensus ConsensusFacts Ext ExtInstance Raw RawFacts TapTree SpecCodec SpecCodecFacts Serialize SerializeFacts
  MapCodec MapFacts V2Global V2Input V2Output V2Psbt V0Error V0Input V0Output V0Psbt SpecPsbt V2PsbtFacts V0PsbtFacts
  SpecErrors SpecAccept AcceptAllFacts SampleV2 SampleV0.
Local Open Scope N_scope.

(** Used by the examples only; the theorems bind their own. *)
#[local] Existing Instance toy | 100.
#[local] Existing Instance toy_laws | 100.
Local Notation cfg0 := (cfg_of false false).

(** A version 2 PSBT is accepted exactly when it has the format. *)
Theorem C146_v2 : forall (X : Ext) (L : ExtLaws X) (C : Cfg) bs,
  (exists p, psbt_deserialize bs = Ok p) <-> psbt_format feat_sp size_input size_output bs.
Proof. intros X L C. exact accept_v2. Qed.
Print Assumptions C146_v2.

(** The same for version 0. *)
Theorem C146_v0 : forall (X : Ext) (L : ExtLaws X) bs,
  (exists p, psbt0_deserialize bs = Ok p) <-> psbt0_format bs.
Proof. intros X L. exact accept_v0. Qed.
Print Assumptions C146_v0.

Lemma map_level {E A} (dec : reader E A) (acc : list pair -> A -> Prop) (fine : list pair -> Prop) :
  (forall bs a r, dec bs = Ok (a, r) <-> exists l, bs = ser_pairs l ++ r /\ acc l a) ->
  (forall l a, acc l a -> Forall wf_pair l) -> (forall l, sizes l -> ((exists a, acc l a) <-> fine l)) ->
  forall bs r, (exists a, dec bs = Ok (a, r)) <-> exists l w, bs = w ++ r /\ map_wire l w /\ sizes l /\ fine l.
Proof.
  intros D W F bs r. split.
  - intros (a & H). apply D in H as (l & -> & H). pose proof (W _ _ H) as Wl. exists l, (ser_pairs l). split; [reflexivity|].
    split; [now apply ser_pairs_spec|]. apply sizes_wf in Wl. split; [exact Wl|]. apply F; eauto.
  - intros (l & w & -> & M & S & K). apply F in K as (a & K); [|exact S]. exists a. apply D. exists l.
    apply map_wire_ser in M. subst w. auto.
Qed.

(** Single maps; [r] is what stands behind the map. *)
Theorem C146_input : forall (X : Ext) (L : ExtLaws X) (C : Cfg) bs r,
  (exists i, input_decode bs = Ok (i, r)) <-> exists l w, bs = w ++ r /\ map_wire l w /\ sizes l /\ input_fine feat_sp l.
Proof. intros X L C. exact (map_level _ _ _ input_decode_iff (fun l a H => proj1 H) input_fine_acc). Qed.
Print Assumptions C146_input.
Theorem C146_output : forall (X : Ext) (L : ExtLaws X) (C : Cfg) bs r,
  (exists o, output_decode bs = Ok (o, r)) <-> exists l w, bs = w ++ r /\ map_wire l w /\ sizes l /\ output_fine feat_sp l.
Proof. intros X L C. exact (map_level _ _ _ output_decode_iff (fun l a H => proj1 H) output_fine_acc). Qed.
Print Assumptions C146_output.
Theorem C146_input_v0 : forall (X : Ext) (L : ExtLaws X) bs r,
  (exists i, input0_decode bs = Ok (i, r)) <-> exists l w, bs = w ++ r /\ map_wire l w /\ sizes l /\ input0_fine l.
Proof. intros X L. exact (map_level _ _ _ input0_decode_iff (fun l a H => proj1 H) input0_fine_acc). Qed.
Print Assumptions C146_input_v0.
Theorem C146_output_v0 : forall (X : Ext) (L : ExtLaws X) bs r,
  (exists o, output0_decode bs = Ok (o, r)) <-> exists l w, bs = w ++ r /\ map_wire l w /\ sizes l /\ output0_fine l.
Proof. intros X L. exact (map_level _ _ _ output0_decode_iff (fun l a H => proj1 H) output0_fine_acc). Qed.
Print Assumptions C146_output_v0.

(** The format is neither empty nor everything. *)
Example C146_v2_case : psbt_format false (@size_input cfg0) (@size_output cfg0) sample_bytes.
Proof. apply (C146_v2 toy toy_laws cfg0). exists sample. exact sample_decodes. Qed.
Example C146_v2_not : ~ psbt_format false (@size_input cfg0) (@size_output cfg0) (removelast sample_bytes).
Proof.
  intros H. apply (C146_v2 toy toy_laws cfg0) in H as (p & H).
  assert (E : is_ok (@psbt_deserialize toy cfg0 (removelast sample_bytes)) = false) by (vm_compute; reflexivity).
  rewrite H in E. discriminate E.
Qed.
Example C146_v0_case : psbt0_format sample0_bytes.
Proof. apply (C146_v0 toy toy_laws). exists sample0. exact sample0_decodes. Qed.

(** An output map of version 2 that has the format, from the specification alone. *)
Definition plain_output : list pair :=
  [Pair (Key x03 []) [x01; x00; x00; x00; x00; x00; x00; x00]; Pair (Key x04 []) [x51]].
Example C146_output_case : output_fine false plain_output /\ exists o, @output_decode toy cfg0 (map_bytes plain_output) = Ok (o, []).
Proof.
  assert (F : output_fine false plain_output).
  { split; [split|].
    - repeat constructor; cbn; eexists; reflexivity.
    - repeat constructor. cbn. intros [H _]. discriminate H.
    - split; [|split; [|discriminate]].
      + eexists. split; [left; reflexivity|]. split; [reflexivity|discriminate].
      + intros _. eexists. split; [right; left; reflexivity|]. split; [reflexivity|discriminate]. }
  split; [exact F|]. apply (C146_output toy toy_laws cfg0).
  exists plain_output, (map_bytes plain_output). split; [now rewrite app_nil_r|]. split; [|split; [|exact F]].
  - rewrite DecodeErrorFacts.map_bytes_ser. apply ser_pairs_spec. repeat constructor; cbn; discriminate.
  - repeat constructor; cbn; discriminate.
Qed.

(** Where the format is wider than the BIPs: key data behind the type of an amount, an amount given
    twice, and bytes behind a count. *)
Definition odd_output : list pair :=
  [Pair (Key x03 [x07]) (repeat x00 8); Pair (Key x03 []) [x01; x00; x00; x00; x00; x00; x00; x00]; Pair (Key x04 []) [x51]].
Example C146_lax_output : output_fine false odd_output /\ is_ok (@output_decode toy cfg0 (map_bytes odd_output)) = true.
Proof.
  split; [|vm_compute; reflexivity]. split; [split|].
  - repeat constructor; cbn; eexists; reflexivity.
  - repeat constructor; cbn; intros [H1 H2]; try discriminate H1. now apply H2.
  - split; [|split; [|discriminate]].
    + eexists. split; [right; left; reflexivity|]. split; [reflexivity|discriminate].
    + intros _. eexists. split; [right; right; left; reflexivity|]. split; [reflexivity|discriminate].
Qed.
Example C146_lax_count : fits HCount (Pair (Key x04 []) [x01; xaa; xbb]).
Proof. split; [reflexivity|]. exists 1, [x01], [xaa; xbb]. split; [exact (cs_1 x01 eq_refl)|reflexivity]. Qed.
