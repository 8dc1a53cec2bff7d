(** Which maps the decoders accept. *)
From Coq Require Import List.
From Verif Require Import Base OMap Consensus ConsensusFacts Ext Raw RawFacts TapTree TapTreeFacts
  Serialize SerializeFacts MapCodec MapFacts V2Global V2Input V2InputFacts V2GlobalFacts V2Output V2OutputFacts
  V2Psbt V2PsbtFacts V2CodecFacts V2WireFacts V2PairFacts SpecCodec SpecCodecFacts SpecPsbt
  V0Error V0Input V0Output V0Psbt V0GlobalFacts V0InputFacts V0OutputFacts V0PsbtFacts V0WireFacts SpecErrors ErrorFacts DecodeErrorFacts SpecAccept AcceptFacts.
Local Open Scope N_scope.

Section Facts.
Context `{X : Ext} {L : ExtLaws X} `{C : Cfg}.

Lemma zero_txid v a : de_hash 32 v = Ok a -> (bytes_eqb TXID_ZERO a = true <-> v = repeat x00 32).
Proof.
  unfold de_hash. destruct (_ =? _); [|discriminate]. intros H. inj H. split.
  - intros E. apply bytes_eqb_eq in E. now rewrite <- E.
  - intros ->. apply bytes_eqb_refl.
Qed.
Lemma max_index v a : de_u32 v = Ok a -> (N.eqb U32_MAX a = true <-> v = [xff; xff; xff; xff]).
Proof.
  intros D. split.
  - intros E. apply N.eqb_eq in E. subst a. apply (de_consensus_canonical _ _ _ dec_u32_canon) in D. rewrite D. reflexivity.
  - intros ->. vm_compute in D. inj D. reflexivity.
Qed.
Lemma zero_amount v a : de_amount v = Ok a -> ((a =? 0) = true <-> v = repeat x00 8).
Proof.
  intros D. split.
  - intros E. apply N.eqb_eq in E. subst a. apply (de_consensus_canonical _ _ _ dec_u64_canon) in D. rewrite D. reflexivity.
  - intros ->. vm_compute in D. inj D. reflexivity.
Qed.
Lemma empty_script v a : de_script v = Ok a -> (is_empty a = true <-> v = []).
Proof. unfold de_script. intros H. inj H. apply is_empty_nil. Qed.

Lemma g_reads f : reads (fun t => gslot t = f) (gupd f) (gget f gdec_init) (fun p => fits ((global_shape feat_sp) (ptype p)) p) (clashes (global_shape feat_sp) no_place).
Proof.
  destruct f; cbn [gupd gty].
  - refine (by_shape _ no_place _ _ _ _ _ gslot_GVersion eq_refl _ (version_reads _ _)); discriminate.
  - refine (by_shape _ no_place _ _ _ _ _ gslot_GTxVersion eq_refl _ (u32_reads _ _)); discriminate.
  - refine (by_shape _ no_place _ _ _ _ _ gslot_GFallback eq_refl _ (u32_reads _ _)); discriminate.
  - eapply reads_ext; [| | |exact counts_reads].
    + intros t Ht. now apply gslot_GCounts.
    + intros p Hp. apply gslot_GCounts in Hp as [<-|<-]; reflexivity.
    + intros p q _ Hq. unfold clashes, ptype in *. apply gslot_GCounts in Hq as [<-|<-]; reflexivity.
  - refine (by_shape _ no_place _ _ _ _ _ gslot_GFlags eq_refl _ (flags_reads _ _)); discriminate.
  - refine (by_shape _ no_place _ _ _ _ _ gslot_GXpubs eq_refl _ (xpub_reads _ _)); discriminate.
  - destruct feat_sp eqn:F; [|now apply none_reads; intros t; apply gslot_GSpEcdhShares_off].
    refine (by_shape _ no_place _ _ _ _ _ (fun t => gslot_GSpEcdhShares t F) eq_refl _ (sp_reads _ _ _ _)); discriminate.
  - destruct feat_sp eqn:F; [|now apply none_reads; intros t; apply gslot_GSpDleqProofs_off].
    refine (by_shape _ no_place _ _ _ _ _ (fun t => gslot_GSpDleqProofs t F) eq_refl _ (sp_reads _ _ _ _)); discriminate.
  - refine (by_shape _ no_place _ _ _ _ _ gslot_GProprietaries eq_refl _ (gprop_reads _)); discriminate.
  - refine (by_other _ no_place _ (fun b => beq b x00) _ _ _ (guarded_reads _ _ _)).
    intros b. unfold gslot. destruct feat_sp; destruct b; cbn; intros H; (discriminate H || reflexivity).
Qed.
Lemma i_reads f : reads (fun t => islot t = f) (iupd f) (iget f input_invalid) (fun p => fits ((input_shape feat_sp) (ptype p)) p) (clashes (input_shape feat_sp) input_place).
Proof.
  destruct f; cbn [iupd ity].
  - refine (by_shape _ input_place _ _ _ _ _ islot_IPreviousTxid eq_refl _ (place_reads _ _ (bytes_eqb TXID_ZERO) _ TXID_ZERO eq_refl zero_txid)); discriminate.
  - refine (by_shape _ input_place _ _ _ _ _ islot_ISpentOutputIndex eq_refl _ (place_reads _ _ (N.eqb U32_MAX) _ U32_MAX eq_refl max_index)); discriminate.
  - refine (by_shape _ input_place _ _ _ _ _ islot_ISequence eq_refl _ (opt_reads _ _ _)); discriminate.
  - refine (by_shape _ input_place _ _ _ _ _ islot_IMinTime eq_refl _ (opt_reads _ _ _)); discriminate.
  - refine (by_shape _ input_place _ _ _ _ _ islot_IMinHeight eq_refl _ (opt_reads _ _ _)); discriminate.
  - refine (by_shape _ input_place _ _ _ _ _ islot_INonWitnessUtxo eq_refl _ (opt_reads _ _ _)); discriminate.
  - refine (by_shape _ input_place _ _ _ _ _ islot_IWitnessUtxo eq_refl _ (opt_reads _ _ _)); discriminate.
  - refine (by_shape _ input_place _ _ _ _ _ islot_IPartialSigs eq_refl _ (map_reads _ _ sk_pubkey sk_pubkey_inj _ _)); discriminate.
  - refine (by_shape _ input_place _ _ _ _ _ islot_ISighashType eq_refl _ (opt_reads _ _ _)); discriminate.
  - refine (by_shape _ input_place _ _ _ _ _ islot_IRedeemScript eq_refl _ (opt_reads _ _ _)); discriminate.
  - refine (by_shape _ input_place _ _ _ _ _ islot_IWitnessScript eq_refl _ (opt_reads _ _ _)); discriminate.
  - refine (by_shape _ input_place _ _ _ _ _ islot_IBip32 eq_refl _ (map_reads _ _ bkey bkey_inj _ _)); discriminate.
  - refine (by_shape _ input_place _ _ _ _ _ islot_IFinalScriptSig eq_refl _ (opt_reads _ _ _)); discriminate.
  - refine (by_shape _ input_place _ _ _ _ _ islot_IFinalScriptWitness eq_refl _ (opt_reads _ _ _)); discriminate.
  - refine (by_shape _ input_place _ _ _ _ _ islot_IRipemd160 eq_refl _ (hash_reads _ _ 20 _ _ ltac:(lia))); discriminate.
  - refine (by_shape _ input_place _ _ _ _ _ islot_ISha256 eq_refl _ (hash_reads _ _ 32 _ _ ltac:(lia))); discriminate.
  - refine (by_shape _ input_place _ _ _ _ _ islot_IHash160 eq_refl _ (hash_reads _ _ 20 _ _ ltac:(lia))); discriminate.
  - refine (by_shape _ input_place _ _ _ _ _ islot_IHash256 eq_refl _ (hash_reads _ _ 32 _ _ ltac:(lia))); discriminate.
  - refine (by_shape _ input_place _ _ _ _ _ islot_ITapKeySig eq_refl _ (opt_reads _ _ _)); discriminate.
  - refine (by_shape _ input_place _ _ _ _ _ islot_ITapScriptSigs eq_refl _ (map_reads _ _ sk_xleaf sk_xleaf_inj _ _)); discriminate.
  - refine (by_shape _ input_place _ _ _ _ _ islot_ITapScripts eq_refl _ (map_reads _ _ sk_controlblock sk_controlblock_inj _ _)); discriminate.
  - refine (by_shape _ input_place _ _ _ _ _ islot_ITapKeyOrigins eq_refl _ (map_reads _ _ bkey bkey_inj _ _)); discriminate.
  - refine (by_shape _ input_place _ _ _ _ _ islot_ITapInternalKey eq_refl _ (opt_reads _ _ _)); discriminate.
  - refine (by_shape _ input_place _ _ _ _ _ islot_ITapMerkleRoot eq_refl _ (opt_reads _ _ _)); discriminate.
  - destruct feat_sp eqn:F; [|now apply none_reads; intros t; apply islot_ISpEcdhShares_off].
    refine (by_shape _ input_place _ _ _ _ _ (fun t => islot_ISpEcdhShares t F) eq_refl _ (sp_reads _ _ _ _)); discriminate.
  - destruct feat_sp eqn:F; [|now apply none_reads; intros t; apply islot_ISpDleqProofs_off].
    refine (by_shape _ input_place _ _ _ _ _ (fun t => islot_ISpDleqProofs t F) eq_refl _ (sp_reads _ _ _ _)); discriminate.
  - refine (by_shape _ input_place _ _ _ _ _ islot_IProprietaries eq_refl _ (prop_reads _ IDeser)); discriminate.
  - refine (by_other _ input_place _ (fun _ => false) _ _ _ _).
    + intros b. unfold islot. destruct feat_sp; destruct b; cbn; intros H; (discriminate H || reflexivity).
    + eapply reads_ext; [| | |exact (unknown_reads (fun t => islot t = IUnknowns))]; cbv beta; [trivial|intros; split; trivial|intros; reflexivity].
Qed.
Lemma o_reads f : reads (fun t => oslot t = f) (oupd f) (oget f output_invalid) (fun p => fits ((output_shape feat_sp) (ptype p)) p) (clashes (output_shape feat_sp) output_place).
Proof.
  destruct f; cbn [oupd oty].
  - refine (by_shape _ output_place _ _ _ _ _ oslot_OAmount eq_refl _ (place_reads _ _ (fun a => a =? 0) _ 0 eq_refl zero_amount)); discriminate.
  - refine (by_shape _ output_place _ _ _ _ _ oslot_OScriptPubkey eq_refl _ (place_reads _ _ is_empty _ [] eq_refl empty_script)); discriminate.
  - refine (by_shape _ output_place _ _ _ _ _ oslot_ORedeemScript eq_refl _ (opt_reads _ _ _)); discriminate.
  - refine (by_shape _ output_place _ _ _ _ _ oslot_OWitnessScript eq_refl _ (opt_reads _ _ _)); discriminate.
  - refine (by_shape _ output_place _ _ _ _ _ oslot_OBip32 eq_refl _ (map_reads _ _ bkey bkey_inj _ _)); discriminate.
  - refine (by_shape _ output_place _ _ _ _ _ oslot_OTapInternalKey eq_refl _ (opt_reads _ _ _)); discriminate.
  - refine (by_shape _ output_place _ _ _ _ _ oslot_OTapTree eq_refl _ (opt_reads _ _ _)); discriminate.
  - refine (by_shape _ output_place _ _ _ _ _ oslot_OTapKeyOrigins eq_refl _ (map_reads _ _ bkey bkey_inj _ _)); discriminate.
  - destruct feat_sp eqn:F; [|now apply none_reads; intros t; apply oslot_OSpInfo_off].
    refine (by_shape _ output_place _ _ _ _ _ (fun t => oslot_OSpInfo t F) eq_refl _ (info_reads _ _)); discriminate.
  - destruct feat_sp eqn:F; [|now apply none_reads; intros t; apply oslot_OSpLabel_off].
    refine (by_shape _ output_place _ _ _ _ _ (fun t => oslot_OSpLabel t F) eq_refl _ (label_reads _ _)); discriminate.
  - refine (by_shape _ output_place _ _ _ _ _ oslot_OProprietaries eq_refl _ (prop_reads _ IDeser)); discriminate.
  - refine (by_other _ output_place _ (fun _ => false) _ _ _ _).
    + intros b. unfold oslot. destruct feat_sp; destruct b; cbn; intros H; (discriminate H || reflexivity).
    + eapply reads_ext; [| | |exact (unknown_reads (fun t => oslot t = OUnknowns))]; cbv beta; [trivial|intros; split; trivial|intros; reflexivity].
Qed.
Lemma g0_reads f : reads (fun t => g0slot t = f) (g0upd f) (g0get f gdec0_init) (fun p => fits (global0_shape (ptype p)) p) (clashes global0_shape no_place).
Proof.
  destruct f; cbn [g0upd g0ty].
  - refine (by_shape _ no_place _ _ _ _ _ g0slot_G0Tx eq_refl _ (tx0_reads _ _)); discriminate.
  - refine (by_shape _ no_place _ _ _ _ _ g0slot_G0Xpub eq_refl _ (xpub0_reads _ _)); discriminate.
  - refine (by_shape _ no_place _ _ _ _ _ g0slot_G0Version eq_refl _ (version0_reads _ _)); discriminate.
  - refine (by_shape _ no_place _ _ _ _ _ g0slot_G0Proprietary eq_refl _ (prop_reads _ IDeser)); discriminate.
  - refine (by_other _ no_place _ global0_excluded _ _ _ (guarded_reads _ _ _)).
    intros b. unfold g0slot. destruct b; cbn; intros H; (discriminate H || reflexivity).
Qed.
Lemma i0_reads f : reads (fun t => i0slot t = f) (i0upd f) (i0get f input0_default) (fun p => fits (input0_shape (ptype p)) p) (clashes input0_shape no_place).
Proof.
  destruct f; cbn [i0upd i0ty].
  - refine (by_shape _ no_place _ _ _ _ _ i0slot_I0NonWitnessUtxo eq_refl _ (opt_reads _ _ _)); discriminate.
  - refine (by_shape _ no_place _ _ _ _ _ i0slot_I0WitnessUtxo eq_refl _ (opt_reads _ _ _)); discriminate.
  - refine (by_shape _ no_place _ _ _ _ _ i0slot_I0PartialSigs eq_refl _ (map_reads _ _ sk_pubkey sk_pubkey_inj _ _)); discriminate.
  - refine (by_shape _ no_place _ _ _ _ _ i0slot_I0SighashType eq_refl _ (opt_reads _ _ _)); discriminate.
  - refine (by_shape _ no_place _ _ _ _ _ i0slot_I0RedeemScript eq_refl _ (opt_reads _ _ _)); discriminate.
  - refine (by_shape _ no_place _ _ _ _ _ i0slot_I0WitnessScript eq_refl _ (opt_reads _ _ _)); discriminate.
  - refine (by_shape _ no_place _ _ _ _ _ i0slot_I0Bip32 eq_refl _ (map_reads _ _ bkey bkey_inj _ _)); discriminate.
  - refine (by_shape _ no_place _ _ _ _ _ i0slot_I0FinalScriptSig eq_refl _ (opt_reads _ _ _)); discriminate.
  - refine (by_shape _ no_place _ _ _ _ _ i0slot_I0FinalScriptWitness eq_refl _ (opt_reads _ _ _)); discriminate.
  - refine (by_shape _ no_place _ _ _ _ _ i0slot_I0Ripemd160 eq_refl _ (hash_reads _ _ 20 _ _ ltac:(lia))); discriminate.
  - refine (by_shape _ no_place _ _ _ _ _ i0slot_I0Sha256 eq_refl _ (hash_reads _ _ 32 _ _ ltac:(lia))); discriminate.
  - refine (by_shape _ no_place _ _ _ _ _ i0slot_I0Hash160 eq_refl _ (hash_reads _ _ 20 _ _ ltac:(lia))); discriminate.
  - refine (by_shape _ no_place _ _ _ _ _ i0slot_I0Hash256 eq_refl _ (hash_reads _ _ 32 _ _ ltac:(lia))); discriminate.
  - refine (by_shape _ no_place _ _ _ _ _ i0slot_I0TapKeySig eq_refl _ (opt_reads _ _ _)); discriminate.
  - refine (by_shape _ no_place _ _ _ _ _ i0slot_I0TapScriptSigs eq_refl _ (map_reads _ _ sk_xleaf sk_xleaf_inj _ _)); discriminate.
  - refine (by_shape _ no_place _ _ _ _ _ i0slot_I0TapScripts eq_refl _ (map_reads _ _ sk_controlblock sk_controlblock_inj _ _)); discriminate.
  - refine (by_shape _ no_place _ _ _ _ _ i0slot_I0TapKeyOrigins eq_refl _ (map_reads _ _ bkey bkey_inj _ _)); discriminate.
  - refine (by_shape _ no_place _ _ _ _ _ i0slot_I0TapInternalKey eq_refl _ (opt_reads _ _ _)); discriminate.
  - refine (by_shape _ no_place _ _ _ _ _ i0slot_I0TapMerkleRoot eq_refl _ (opt_reads _ _ _)); discriminate.
  - refine (by_shape _ no_place _ _ _ _ _ i0slot_I0Proprietary eq_refl _ (prop_reads _ IDeser)); discriminate.
  - refine (by_other _ no_place _ input0_excluded _ _ _ (guarded_reads _ _ _)).
    intros b. unfold i0slot. destruct b; cbn; intros H; (discriminate H || reflexivity).
Qed.
Lemma o0_reads f : reads (fun t => o0slot t = f) (o0upd f) (o0get f output0_default) (fun p => fits (output0_shape (ptype p)) p) (clashes output0_shape no_place).
Proof.
  destruct f; cbn [o0upd o0ty].
  - refine (by_shape _ no_place _ _ _ _ _ o0slot_O0RedeemScript eq_refl _ (opt_reads _ _ _)); discriminate.
  - refine (by_shape _ no_place _ _ _ _ _ o0slot_O0WitnessScript eq_refl _ (opt_reads _ _ _)); discriminate.
  - refine (by_shape _ no_place _ _ _ _ _ o0slot_O0Bip32 eq_refl _ (map_reads _ _ bkey bkey_inj _ _)); discriminate.
  - refine (by_shape _ no_place _ _ _ _ _ o0slot_O0TapInternalKey eq_refl _ (opt_reads _ _ _)); discriminate.
  - refine (by_shape _ no_place _ _ _ _ _ o0slot_O0TapTree eq_refl _ (opt_reads _ _ _)); discriminate.
  - refine (by_shape _ no_place _ _ _ _ _ o0slot_O0TapKeyOrigins eq_refl _ (map_reads _ _ bkey bkey_inj _ _)); discriminate.
  - refine (by_shape _ no_place _ _ _ _ _ o0slot_O0Proprietary eq_refl _ (prop_reads _ IDeser)); discriminate.
  - refine (by_other _ no_place _ output0_excluded _ _ _ (guarded_reads _ _ _)).
    intros b. unfold o0slot. destruct b; cbn; intros H; (discriminate H || reflexivity).
Qed.

(** ** All pairs of a map *)
Lemma clash_slot {F} sh place (slot : byte -> F) : (forall b, sh b = HCount -> slot x05 = slot b) ->
  forall p q, clashes sh place p q -> slot (ptype p) = slot (ptype q).
Proof.
  intros H p q. unfold clashes, ptype. destruct (sh (k_type (p_key q))) eqn:E; try (intros [-> _]; reflexivity).
  intros ->. now apply H.
Qed.
Lemma g_readable l : Forall wf_pair l -> ((exists s, ins_all global_insert_pair l gdec_init = Ok s) <-> readable (global_shape feat_sp) no_place l).
Proof.
  apply (frame_reads _ gget gset gfield_dec gupd gslot _ gdec_init _ _ gframe g_reads). apply clash_slot.
  intros b. destruct feat_sp; destruct b; cbn; intros H; (discriminate H || reflexivity).
Qed.
Lemma i_readable l : Forall wf_pair l -> ((exists s, ins_all input_insert_pair l input_invalid = Ok s) <-> readable (input_shape feat_sp) input_place l).
Proof.
  apply (frame_reads _ iget iset ifield_dec iupd islot _ input_invalid _ _ iframe i_reads). apply clash_slot.
  intros b. destruct feat_sp; destruct b; cbn; intros H; (discriminate H || reflexivity).
Qed.
Lemma o_readable l : Forall wf_pair l -> ((exists s, ins_all output_insert_pair l output_invalid = Ok s) <-> readable (output_shape feat_sp) output_place l).
Proof.
  apply (frame_reads _ oget oset ofield_dec oupd oslot _ output_invalid _ _ oframe o_reads). apply clash_slot.
  intros b. destruct feat_sp; destruct b; cbn; intros H; (discriminate H || reflexivity).
Qed.
Lemma g0_readable l : Forall wf_pair l -> ((exists s, ins_all global0_insert_pair l gdec0_init = Ok s) <-> readable global0_shape no_place l).
Proof.
  apply (frame_reads _ g0get g0set g0field_dec g0upd g0slot _ gdec0_init _ _ g0frame g0_reads). apply clash_slot.
  intros b. destruct b; cbn; intros H; (discriminate H || reflexivity).
Qed.
Lemma i0_readable l : Forall wf_pair l -> ((exists s, ins_all input0_insert_pair l input0_default = Ok s) <-> readable input0_shape no_place l).
Proof.
  apply (frame_reads _ i0get i0set i0field_dec i0upd i0slot _ input0_default _ _ i0frame i0_reads). apply clash_slot.
  intros b. destruct b; cbn; intros H; (discriminate H || reflexivity).
Qed.
Lemma o0_readable l : Forall wf_pair l -> ((exists s, ins_all output0_insert_pair l output0_default = Ok s) <-> readable output0_shape no_place l).
Proof.
  apply (frame_reads _ o0get o0set o0field_dec o0upd o0slot _ output0_default _ _ o0frame o0_reads). apply clash_slot.
  intros b. destruct b; cbn; intros H; (discriminate H || reflexivity).
Qed.

End Facts.
