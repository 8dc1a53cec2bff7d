(** Field laws of the output map (src/v2/map/output.rs) and their consequences. *)
From Coq Require Import Permutation.
From Verif Require Import Base OMap Consensus ConsensusFacts Ext Raw RawFacts TapTree TapTreeFacts
  Serialize SerializeFacts MapCodec MapFacts V2Output.
Local Open Scope N_scope.

(** The fields of [output] in the order in which they are serialized. *)
Inductive ofield : Type :=
| OAmount
| OScriptPubkey
| ORedeemScript
| OWitnessScript
| OBip32
| OTapInternalKey
| OTapTree
| OTapKeyOrigins
| OSpInfo
| OSpLabel
| OProprietaries
| OUnknowns.

Definition ofield_dec (a b : ofield) : {a = b} + {a <> b}.
Proof. decide equality. Defined.

Definition oorder : list ofield :=
  [OAmount; OScriptPubkey; ORedeemScript; OWitnessScript; OBip32; OTapInternalKey; OTapTree; OTapKeyOrigins; OSpInfo; OSpLabel; OProprietaries; OUnknowns].

Section Facts.
Context `{X : Ext} {L : ExtLaws X} `{C : Cfg}.

(** The two silent payment fields accept the same pairs as [ins_opt] with these parsers. *)
Definition de_sp_info (b : bytes) : res serr bytes := if blen b =? 66 then Ok b else Err SNoMorePairs.
Definition de_sp_label (b : bytes) : res serr N := if blen b =? 4 then Ok (le_dec b) else Err SNoMorePairs.

Lemma sp_info_codec : codec_ok VLIM (wf_bytes_n 66) ser_vec de_sp_info.
Proof.
  unfold de_sp_info, ser_vec, wf_bytes_n, blen. constructor; cbv beta; unfold blen.
  - intros a Ha. replace (N.of_nat (length a) =? 66) with true by lia. reflexivity.
  - intros a Ha. lims. lia.
  - intros b a _ H. destruct (_ =? _) eqn:E; [|discriminate]. inj H. lia.
  - intros b. destruct (_ =? _); discriminate.
Qed.
Lemma sp_label_codec : codec_ok VLIM wf_u32 (le_enc 4) de_sp_label.
Proof.
  unfold de_sp_label, wf_u32, blen. constructor; cbv beta; unfold blen.
  - intros a Ha. rewrite le_enc_length. change (N.of_nat 4 =? 4) with true. cbv iota.
    rewrite le_dec_enc; auto.
  - intros a _. rewrite le_enc_length. lims. lia.
  - intros b a _ H. destruct (_ =? _) eqn:E; [|discriminate]. inj H.
    pose proof (le_dec_lt b) as Q. replace (length b) with 4%nat in Q by lia. exact Q.
  - intros b. destruct (_ =? _); discriminate.
Qed.
Lemma sp_info_equiv p a a' : ins_opt de_sp_info p a = Ok a' <-> ins_sp_v0_info p a = Ok a'.
Proof.
  unfold ins_opt, ins_sp_v0_info, de_sp_info. destruct a as [a|]; cbn [is_some fail_if bind].
  - destruct (is_empty _); split; discriminate.
  - destruct (is_empty _); cbn [negb fail_if bind]; [|split; discriminate].
    destruct (blen _ =? 66); cbn [negb fail_if bind map_err]; split; try discriminate; auto.
Qed.
Lemma sp_label_equiv p a a' : ins_opt de_sp_label p a = Ok a' <-> ins_sp_v0_label p a = Ok a'.
Proof.
  unfold ins_opt, ins_sp_v0_label, de_sp_label. destruct a as [a|]; cbn [is_some fail_if bind].
  - destruct (is_empty _); split; discriminate.
  - destruct (is_empty _); cbn [negb fail_if bind]; [|split; discriminate].
    destruct (blen _ =? 4); cbn [negb fail_if bind map_err]; split; try discriminate; auto.
Qed.
Lemma sp_info_np p a : ins_sp_v0_info p a <> Panic.
Proof.
  unfold ins_sp_v0_info, fail_if. destruct (is_some a); [discriminate|]. cbn [bind].
  destruct (negb _); [discriminate|]. cbn [bind]. destruct (negb _); discriminate.
Qed.
Lemma sp_label_np p a : ins_sp_v0_label p a <> Panic.
Proof.
  unfold ins_sp_v0_label, fail_if. destruct (is_some a); [discriminate|]. cbn [bind].
  destruct (negb _); [discriminate|]. cbn [bind]. destruct (negb _); discriminate.
Qed.
Lemma sp_info_fspec t :
  fspec (eq t) ins_sp_v0_info (opt_pairs t ser_vec) None (opt_all (wf_bytes_n 66)) (fun a => a).
Proof.
  apply (fspec_equiv _ (ins_opt de_sp_info)).
  - intros p a a' _. apply sp_info_equiv.
  - apply sp_info_np.
  - apply opt_fspec, sp_info_codec.
Qed.
Lemma sp_label_fspec t :
  fspec (eq t) ins_sp_v0_label (opt_pairs t (le_enc 4)) None (opt_all wf_u32) (fun a => a).
Proof.
  apply (fspec_equiv _ (ins_opt de_sp_label)).
  - intros p a a' _. apply sp_label_equiv.
  - apply sp_label_np.
  - apply opt_fspec, sp_label_codec.
Qed.
Lemma sp_info_fdup t : fdup (eq t) ins_sp_v0_info.
Proof. apply (fdup_equiv _ (ins_opt de_sp_info)); [intros p a a' _; apply sp_info_equiv|apply opt_fdup]. Qed.
Lemma sp_label_fdup t : fdup (eq t) ins_sp_v0_label.
Proof. apply (fdup_equiv _ (ins_opt de_sp_label)); [intros p a a' _; apply sp_label_equiv|apply opt_fdup]. Qed.
Lemma sp_info_fcomm t wf : fcomm (eq t) ins_sp_v0_info wf.
Proof. apply (fcomm_equiv _ (ins_opt de_sp_info)); [intros p a a' _; apply sp_info_equiv|apply opt_fcomm]. Qed.
Lemma sp_label_fcomm t wf : fcomm (eq t) ins_sp_v0_label wf.
Proof. apply (fcomm_equiv _ (ins_opt de_sp_label)); [intros p a a' _; apply sp_label_equiv|apply opt_fcomm]. Qed.

Lemma xonly_nonempty k : wf_xonly k -> ser_xonly k <> [].
Proof. intros [H _] E. unfold ser_xonly in E. subst k. discriminate. Qed.


(** Type of a field. *)
Definition oty (f : ofield) : Type :=
  match f with
  | OAmount => N
  | OScriptPubkey => bytes
  | ORedeemScript => option bytes
  | OWitnessScript => option bytes
  | OBip32 => list (bytes * keysource)
  | OTapInternalKey => option bytes
  | OTapTree => option taptree
  | OTapKeyOrigins => list (bytes * taporigin)
  | OSpInfo => option bytes
  | OSpLabel => option N
  | OProprietaries => list (propkey * bytes)
  | OUnknowns => list (key * bytes)
  end.

Definition oget (f : ofield) : output -> oty f :=
  match f return output -> oty f with
  | OAmount => out_amount
  | OScriptPubkey => out_script_pubkey
  | ORedeemScript => out_redeem_script
  | OWitnessScript => out_witness_script
  | OBip32 => out_bip32_derivations
  | OTapInternalKey => out_tap_internal_key
  | OTapTree => out_tap_tree
  | OTapKeyOrigins => out_tap_key_origins
  | OSpInfo => out_sp_v0_info
  | OSpLabel => out_sp_v0_label
  | OProprietaries => out_proprietaries
  | OUnknowns => out_unknowns
  end.

Definition oset (f : ofield) : oty f -> output -> output :=
  match f return oty f -> output -> output with
  | OAmount => set_out_amount
  | OScriptPubkey => set_out_script_pubkey
  | ORedeemScript => set_out_redeem_script
  | OWitnessScript => set_out_witness_script
  | OBip32 => set_out_bip32_derivations
  | OTapInternalKey => set_out_tap_internal_key
  | OTapTree => set_out_tap_tree
  | OTapKeyOrigins => set_out_tap_key_origins
  | OSpInfo => set_out_sp_v0_info
  | OSpLabel => set_out_sp_v0_label
  | OProprietaries => set_out_proprietaries
  | OUnknowns => set_out_unknowns
  end.

(** The field a key type belongs to. *)
Definition oslot (t : byte) : ofield :=
  if beq t x03 then OAmount else
  if beq t x04 then OScriptPubkey else
  if beq t x00 then ORedeemScript else
  if beq t x01 then OWitnessScript else
  if beq t x02 then OBip32 else
  if beq t xfc then OProprietaries else
  if beq t x05 then OTapInternalKey else
  if beq t x06 then OTapTree else
  if beq t x07 then OTapKeyOrigins else
  if feat_sp && beq t x09 then OSpInfo else
  if feat_sp && beq t x0a then OSpLabel else
  OUnknowns.

(** What a pair does to its field. *)
Definition oupd (f : ofield) : pair -> oty f -> res ierr (oty f) :=
  match f return pair -> oty f -> res ierr (oty f) with
  | OAmount => ins_placeholder (fun a => a =? 0) de_amount
  | OScriptPubkey => ins_placeholder is_empty de_script
  | ORedeemScript => ins_opt de_script
  | OWitnessScript => ins_opt de_script
  | OBip32 => ins_map bkey de_secp de_keysource
  | OTapInternalKey => ins_opt de_xonly
  | OTapTree => ins_opt de_taptree
  | OTapKeyOrigins => ins_map bkey de_xonly de_taporigin
  | OSpInfo => ins_sp_v0_info
  | OSpLabel => ins_sp_v0_label
  | OProprietaries => ins_prop IDeser
  | OUnknowns => ins_unknown
  end.

(** The pairs of a field. *)
Definition ofpairs (f : ofield) : oty f -> list pair :=
  match f return oty f -> list pair with
  | OAmount => fun a => [Pair (Key x03 []) (ser_amount a)]
  | OScriptPubkey => fun a => [Pair (Key x04 []) (ser_script a)]
  | ORedeemScript => opt_pairs x00 ser_script
  | OWitnessScript => opt_pairs x01 ser_script
  | OBip32 => map_pairs x02 ser_secp ser_keysource
  | OTapInternalKey => opt_pairs x05 ser_xonly
  | OTapTree => opt_pairs x06 ser_taptree
  | OTapKeyOrigins => map_pairs x07 ser_xonly ser_taporigin
  | OSpInfo => fun a => if feat_sp then opt_pairs x09 ser_vec a else []
  | OSpLabel => fun a => if feat_sp then opt_pairs x0a (le_enc 4) a else []
  | OProprietaries => prop_pairs
  | OUnknowns => unknown_pairs
  end.

(** The field before the first pair. *)
Definition oempty (f : ofield) : oty f :=
  match f return oty f with
  | OAmount => 0
  | OScriptPubkey => []
  | ORedeemScript => None
  | OWitnessScript => None
  | OBip32 => []
  | OTapInternalKey => None
  | OTapTree => None
  | OTapKeyOrigins => []
  | OSpInfo => None
  | OSpLabel => None
  | OProprietaries => []
  | OUnknowns => []
  end.

(** Well-formed contents of a field. *)
Definition ofwf (f : ofield) : oty f -> Prop :=
  match f return oty f -> Prop with
  | OAmount => wf_u64
  | OScriptPubkey => wf_value
  | ORedeemScript => opt_all wf_value
  | OWitnessScript => opt_all wf_value
  | OBip32 => wf_map bkey wf_secp wf_keysource
  | OTapInternalKey => opt_all wf_xonly
  | OTapTree => opt_all wf_taptree
  | OTapKeyOrigins => wf_map bkey wf_xonly wf_taporigin
  | OSpInfo => fun a => if feat_sp then opt_all (wf_bytes_n 66) a else a = None
  | OSpLabel => fun a => if feat_sp then opt_all wf_u32 a else a = None
  | OProprietaries => wf_props
  | OUnknowns => wf_unknowns (fun t => oslot t = OUnknowns)
  end.

(** What is read back. *)
Definition onorm (f : ofield) : oty f -> oty f :=
  match f return oty f -> oty f with
  | OAmount => fun a => a
  | OScriptPubkey => fun a => a
  | ORedeemScript => fun a => a
  | OWitnessScript => fun a => a
  | OBip32 => fun a => a
  | OTapInternalKey => fun a => a
  | OTapTree => option_map tt_norm
  | OTapKeyOrigins => fun a => a
  | OSpInfo => fun a => a
  | OSpLabel => fun a => a
  | OProprietaries => fun a => a
  | OUnknowns => fun a => a
  end.

Lemma oframe : frame_ok oty oget oset oupd oslot output_insert_pair.
Proof.
  constructor.
  - intros f v s. destruct f; reflexivity.
  - intros f g v s H. destruct f, g; first [now destruct H | reflexivity].
  - intros s s' H.
    pose proof (H OAmount) as E0.
    pose proof (H OScriptPubkey) as E1.
    pose proof (H ORedeemScript) as E2.
    pose proof (H OWitnessScript) as E3.
    pose proof (H OBip32) as E4.
    pose proof (H OTapInternalKey) as E5.
    pose proof (H OTapTree) as E6.
    pose proof (H OTapKeyOrigins) as E7.
    pose proof (H OSpInfo) as E8.
    pose proof (H OSpLabel) as E9.
    pose proof (H OProprietaries) as E10.
    pose proof (H OUnknowns) as E11.
    clear H. destruct s, s'. cbn in E0, E1, E2, E3, E4, E5, E6, E7, E8, E9, E10, E11. congruence.
  - intros p s. unfold output_insert_pair, oslot, ptype. cbv zeta.
    destruct (beq (k_type (p_key p)) x03); [reflexivity|].
    destruct (beq (k_type (p_key p)) x04); [reflexivity|].
    destruct (beq (k_type (p_key p)) x00); [reflexivity|].
    destruct (beq (k_type (p_key p)) x01); [reflexivity|].
    destruct (beq (k_type (p_key p)) x02); [reflexivity|].
    destruct (beq (k_type (p_key p)) xfc); [reflexivity|].
    destruct (beq (k_type (p_key p)) x05); [reflexivity|].
    destruct (beq (k_type (p_key p)) x06); [reflexivity|].
    destruct (beq (k_type (p_key p)) x07); [reflexivity|].
    destruct (feat_sp && beq (k_type (p_key p)) x09); [reflexivity|].
    destruct (feat_sp && beq (k_type (p_key p)) x0a); [reflexivity|].
    reflexivity.
Qed.

Lemma oslot_OAmount t : x03 = t <-> oslot t = OAmount.
Proof. destruct feat_sp eqn:F; slot_tac oslot F. Qed.
Lemma oslot_OScriptPubkey t : x04 = t <-> oslot t = OScriptPubkey.
Proof. destruct feat_sp eqn:F; slot_tac oslot F. Qed.
Lemma oslot_ORedeemScript t : x00 = t <-> oslot t = ORedeemScript.
Proof. destruct feat_sp eqn:F; slot_tac oslot F. Qed.
Lemma oslot_OWitnessScript t : x01 = t <-> oslot t = OWitnessScript.
Proof. destruct feat_sp eqn:F; slot_tac oslot F. Qed.
Lemma oslot_OBip32 t : x02 = t <-> oslot t = OBip32.
Proof. destruct feat_sp eqn:F; slot_tac oslot F. Qed.
Lemma oslot_OTapInternalKey t : x05 = t <-> oslot t = OTapInternalKey.
Proof. destruct feat_sp eqn:F; slot_tac oslot F. Qed.
Lemma oslot_OTapTree t : x06 = t <-> oslot t = OTapTree.
Proof. destruct feat_sp eqn:F; slot_tac oslot F. Qed.
Lemma oslot_OTapKeyOrigins t : x07 = t <-> oslot t = OTapKeyOrigins.
Proof. destruct feat_sp eqn:F; slot_tac oslot F. Qed.
Lemma oslot_OSpInfo t : feat_sp = true -> (x09 = t <-> oslot t = OSpInfo).
Proof. intros F. slot_tac oslot F. Qed.
Lemma oslot_OSpInfo_off t : feat_sp = false -> oslot t <> OSpInfo.
Proof. intros F. slot_off oslot F. Qed.
Lemma oslot_OSpLabel t : feat_sp = true -> (x0a = t <-> oslot t = OSpLabel).
Proof. intros F. slot_tac oslot F. Qed.
Lemma oslot_OSpLabel_off t : feat_sp = false -> oslot t <> OSpLabel.
Proof. intros F. slot_off oslot F. Qed.
Lemma oslot_OProprietaries t : xfc = t <-> oslot t = OProprietaries.
Proof. destruct feat_sp eqn:F; slot_tac oslot F. Qed.

Lemma ospec f : fspec (fun t => oslot t = f) (oupd f) (ofpairs f) (oempty f) (ofwf f) (onorm f).
Proof.
  destruct f; cbn [oupd ofpairs oempty ofwf onorm oty].

  - apply (fspec_types (eq x03)); [intros t; apply oslot_OAmount|]. exact (placeholder_fspec x03 (fun a => a =? 0) 0 wf_u64 ser_amount de_amount amount_codec eq_refl ltac:(reflexivity)).
  - apply (fspec_types (eq x04)); [intros t; apply oslot_OScriptPubkey|]. exact (placeholder_fspec x04 is_empty [] wf_value ser_script de_script script_codec eq_refl ltac:(discriminate)).
  - apply (fspec_types (eq x00)); [intros t; apply oslot_ORedeemScript|]. exact (opt_fspec x00 _ _ _ script_codec).
  - apply (fspec_types (eq x01)); [intros t; apply oslot_OWitnessScript|]. exact (opt_fspec x01 _ _ _ script_codec).
  - apply (fspec_types (eq x02)); [intros t; apply oslot_OBip32|]. exact (map_fspec x02 bkey _ _ _ _ _ _ bkey_inj (secp_codec KLIM ltac:(lims; lia)) keysource_codec secp_nonempty).
  - apply (fspec_types (eq x05)); [intros t; apply oslot_OTapInternalKey|]. exact (opt_fspec x05 _ _ _ (xonly_codec VLIM ltac:(lims; lia))).
  - apply (fspec_types (eq x06)); [intros t; apply oslot_OTapTree|]. exact (taptree_fspec x06).
  - apply (fspec_types (eq x07)); [intros t; apply oslot_OTapKeyOrigins|]. exact (map_fspec x07 bkey _ _ _ _ _ _ bkey_inj (xonly_codec KLIM ltac:(lims; lia)) taporigin_codec xonly_nonempty).
  - destruct feat_sp eqn:F.
    + apply (fspec_types (eq x09)); [intros t; now apply oslot_OSpInfo|]. exact (sp_info_fspec x09).
    + apply (fspec_types (fun _ => False)); [intros t; split; [tauto|now apply oslot_OSpInfo_off]|].
      apply (fspec_off _ _ _ _ _ _ (sp_info_fspec x09)).
  - destruct feat_sp eqn:F.
    + apply (fspec_types (eq x0a)); [intros t; now apply oslot_OSpLabel|]. exact (sp_label_fspec x0a).
    + apply (fspec_types (fun _ => False)); [intros t; split; [tauto|now apply oslot_OSpLabel_off]|].
      apply (fspec_off _ _ _ _ _ _ (sp_label_fspec x0a)).
  - apply (fspec_types (eq xfc)); [intros t; apply oslot_OProprietaries|]. exact (prop_fspec IDeser).
  - exact (unknown_fspec (fun t => oslot t = OUnknowns)).
Qed.

(** Fields whose duplicate pairs can go unnoticed. *)
Definition ospecial (f : ofield) : bool :=
  match f with OAmount | OScriptPubkey => true | _ => false end.

Lemma odup f : ospecial f = false -> fdup (fun t => oslot t = f) (oupd f).
Proof.
  destruct f; intros Hsp; try discriminate Hsp; clear Hsp; cbn [oupd ofwf oty].

  - apply (fdup_types (eq x00)); [intros t; apply oslot_ORedeemScript|]. exact (opt_fdup x00 _).
  - apply (fdup_types (eq x01)); [intros t; apply oslot_OWitnessScript|]. exact (opt_fdup x01 _).
  - apply (fdup_types (eq x02)); [intros t; apply oslot_OBip32|]. exact (map_fdup x02 bkey _ _ bkey_inj).
  - apply (fdup_types (eq x05)); [intros t; apply oslot_OTapInternalKey|]. exact (opt_fdup x05 _).
  - apply (fdup_types (eq x06)); [intros t; apply oslot_OTapTree|]. exact (opt_fdup x06 _).
  - apply (fdup_types (eq x07)); [intros t; apply oslot_OTapKeyOrigins|]. exact (map_fdup x07 bkey _ _ bkey_inj).
  - destruct feat_sp eqn:F.
    + apply (fdup_types (eq x09)); [intros t; now apply oslot_OSpInfo|]. exact (sp_info_fdup x09).
    + apply (fdup_types (fun _ => False)); [intros t; split; [tauto|now apply oslot_OSpInfo_off]|]. apply fdup_none.
  - destruct feat_sp eqn:F.
    + apply (fdup_types (eq x0a)); [intros t; now apply oslot_OSpLabel|]. exact (sp_label_fdup x0a).
    + apply (fdup_types (fun _ => False)); [intros t; split; [tauto|now apply oslot_OSpLabel_off]|]. apply fdup_none.
  - apply (fdup_types (eq xfc)); [intros t; apply oslot_OProprietaries|]. exact (prop_fdup IDeser).
  - exact (unknown_fdup (fun t => oslot t = OUnknowns)).
Qed.

Lemma ocomm f : ospecial f = false -> fcomm (fun t => oslot t = f) (oupd f) (ofwf f).
Proof.
  destruct f; intros Hsp; try discriminate Hsp; clear Hsp; cbn [oupd ofwf oty].

  - apply (fcomm_types (eq x00)); [intros t; apply oslot_ORedeemScript|]. exact (opt_fcomm x00 _ _).
  - apply (fcomm_types (eq x01)); [intros t; apply oslot_OWitnessScript|]. exact (opt_fcomm x01 _ _).
  - apply (fcomm_types (eq x02)); [intros t; apply oslot_OBip32|]. exact (map_fcomm x02 bkey _ _ _ _ bkey_inj).
  - apply (fcomm_types (eq x05)); [intros t; apply oslot_OTapInternalKey|]. exact (opt_fcomm x05 _ _).
  - apply (fcomm_types (eq x06)); [intros t; apply oslot_OTapTree|]. exact (opt_fcomm x06 _ _).
  - apply (fcomm_types (eq x07)); [intros t; apply oslot_OTapKeyOrigins|]. exact (map_fcomm x07 bkey _ _ _ _ bkey_inj).
  - destruct feat_sp eqn:F.
    + apply (fcomm_types (eq x09)); [intros t; now apply oslot_OSpInfo|]. exact (sp_info_fcomm x09 _).
    + apply (fcomm_types (fun _ => False)); [intros t; split; [tauto|now apply oslot_OSpInfo_off]|]. apply fcomm_none.
  - destruct feat_sp eqn:F.
    + apply (fcomm_types (eq x0a)); [intros t; now apply oslot_OSpLabel|]. exact (sp_label_fcomm x0a _).
    + apply (fcomm_types (fun _ => False)); [intros t; split; [tauto|now apply oslot_OSpLabel_off]|]. apply fcomm_none.
  - apply (fcomm_types (eq xfc)); [intros t; apply oslot_OProprietaries|]. exact (prop_fcomm IDeser).
  - exact (unknown_fcomm (fun t => oslot t = OUnknowns)).
Qed.

Lemma oraw_OProprietaries : fraw (fun t => oslot t = OProprietaries) (oupd OProprietaries) (ofpairs OProprietaries).
Proof. apply (fraw_types (eq xfc)); [intros t; apply oslot_OProprietaries|]. exact (prop_fraw IDeser). Qed.

Lemma oraw_OUnknowns : fraw (fun t => oslot t = OUnknowns) (oupd OUnknowns) (ofpairs OUnknowns).
Proof. exact (unknown_fraw (fun t => oslot t = OUnknowns)). Qed.

Lemma oorder_nodup : NoDup oorder.
Proof. apply (NoDup_nodup_dec ofield_dec). vm_compute. reflexivity. Qed.
Lemma oorder_all f : In f oorder.
Proof. apply (in_dec_true ofield_dec). destruct f; vm_compute; reflexivity. Qed.

Lemma oinit_empty f : oget f output_invalid = oempty f.
Proof. destruct f; reflexivity. Qed.

Lemma opairs_eq s : output_pairs s = spairs oty oget ofpairs oorder s.
Proof. unfold output_pairs, spairs, oorder. cbn [flat_map ofpairs oget]. rewrite app_nil_r. reflexivity. Qed.

End Facts.
