(** Field laws of the v0 output map (src/v0/bitcoin/map/output.rs) and their consequences. *)
From Coq Require Import Permutation.
From Verif Require Import Base OMap Consensus ConsensusFacts Ext Raw RawFacts TapTree TapTreeFacts
  Serialize SerializeFacts MapCodec MapFacts V2OutputFacts V2InputFacts V0Output.
Local Open Scope N_scope.

Ltac slot_tac0 slot :=
  unfold slot; split;
  [ intros <-; reflexivity
  | intros H;
    repeat match type of H with
      | (if ?b then _ else _) = _ =>
          let E := fresh "E" in destruct b eqn:E; [try discriminate H; apply beq_eq in E; now subst|]
      end; discriminate H ].

(** The fields of [output0] in the order in which they are serialized. *)
Inductive o0field : Type :=
| O0RedeemScript
| O0WitnessScript
| O0Bip32
| O0TapInternalKey
| O0TapTree
| O0TapKeyOrigins
| O0Proprietary
| O0Unknown.

Definition o0field_dec (a b : o0field) : {a = b} + {a <> b}.
Proof. decide equality. Defined.

Definition o0order : list o0field :=
  [O0RedeemScript; O0WitnessScript; O0Bip32; O0TapInternalKey; O0TapTree; O0TapKeyOrigins; O0Proprietary; O0Unknown].

Section Facts.
Context `{X : Ext} {L : ExtLaws X}.

(** Type of a field. *)
Definition o0ty (f : o0field) : Type :=
  match f with
  | O0RedeemScript => option bytes
  | O0WitnessScript => option bytes
  | O0Bip32 => list (bytes * keysource)
  | O0TapInternalKey => option bytes
  | O0TapTree => option taptree
  | O0TapKeyOrigins => list (bytes * taporigin)
  | O0Proprietary => list (propkey * bytes)
  | O0Unknown => list (key * bytes)
  end.

Definition o0get (f : o0field) : output0 -> o0ty f :=
  match f return output0 -> o0ty f with
  | O0RedeemScript => o0_redeem_script
  | O0WitnessScript => o0_witness_script
  | O0Bip32 => o0_bip32_derivation
  | O0TapInternalKey => o0_tap_internal_key
  | O0TapTree => o0_tap_tree
  | O0TapKeyOrigins => o0_tap_key_origins
  | O0Proprietary => o0_proprietary
  | O0Unknown => o0_unknown
  end.

Definition o0set (f : o0field) : o0ty f -> output0 -> output0 :=
  match f return o0ty f -> output0 -> output0 with
  | O0RedeemScript => set_o0_redeem_script
  | O0WitnessScript => set_o0_witness_script
  | O0Bip32 => set_o0_bip32_derivation
  | O0TapInternalKey => set_o0_tap_internal_key
  | O0TapTree => set_o0_tap_tree
  | O0TapKeyOrigins => set_o0_tap_key_origins
  | O0Proprietary => set_o0_proprietary
  | O0Unknown => set_o0_unknown
  end.

(** The field a key type belongs to. *)
Definition o0slot (t : byte) : o0field :=
  if beq t x00 then O0RedeemScript else
  if beq t x01 then O0WitnessScript else
  if beq t x02 then O0Bip32 else
  if beq t xfc then O0Proprietary else
  if beq t x05 then O0TapInternalKey else
  if beq t x06 then O0TapTree else
  if beq t x07 then O0TapKeyOrigins else
  O0Unknown.

(** What a pair does to its field. *)
Definition o0upd (f : o0field) : pair -> o0ty f -> res ierr (o0ty f) :=
  match f return pair -> o0ty f -> res ierr (o0ty f) with
  | O0RedeemScript => ins_opt de_script
  | O0WitnessScript => ins_opt de_script
  | O0Bip32 => ins_map bkey de_secp de_keysource
  | O0TapInternalKey => ins_opt de_xonly
  | O0TapTree => ins_opt de_taptree
  | O0TapKeyOrigins => ins_map bkey de_xonly de_taporigin
  | O0Proprietary => ins_prop IDeser
  | O0Unknown => guarded output0_excluded (fun p => IExcludedKey (ptype p)) ins_unknown
  end.

(** The pairs of a field. *)
Definition o0fpairs (f : o0field) : o0ty f -> list pair :=
  match f return o0ty f -> list pair with
  | O0RedeemScript => opt_pairs x00 ser_script
  | O0WitnessScript => opt_pairs x01 ser_script
  | O0Bip32 => map_pairs x02 ser_secp ser_keysource
  | O0TapInternalKey => opt_pairs x05 ser_xonly
  | O0TapTree => opt_pairs x06 ser_taptree
  | O0TapKeyOrigins => map_pairs x07 ser_xonly ser_taporigin
  | O0Proprietary => prop_pairs
  | O0Unknown => unknown_pairs
  end.

(** The field before the first pair. *)
Definition o0empty (f : o0field) : o0ty f :=
  match f return o0ty f with
  | O0RedeemScript => None
  | O0WitnessScript => None
  | O0Bip32 => []
  | O0TapInternalKey => None
  | O0TapTree => None
  | O0TapKeyOrigins => []
  | O0Proprietary => []
  | O0Unknown => []
  end.

(** Well-formed contents of a field. *)
Definition o0fwf (f : o0field) : o0ty f -> Prop :=
  match f return o0ty f -> Prop with
  | O0RedeemScript => opt_all wf_value
  | O0WitnessScript => opt_all wf_value
  | O0Bip32 => wf_map bkey wf_secp wf_keysource
  | O0TapInternalKey => opt_all wf_xonly
  | O0TapTree => opt_all wf_taptree
  | O0TapKeyOrigins => wf_map bkey wf_xonly wf_taporigin
  | O0Proprietary => wf_props
  | O0Unknown => wf_unknowns (fun t => o0slot t = O0Unknown /\ output0_excluded t = false)
  end.

(** What is read back. *)
Definition o0norm (f : o0field) : o0ty f -> o0ty f :=
  match f return o0ty f -> o0ty f with
  | O0RedeemScript => fun a => a
  | O0WitnessScript => fun a => a
  | O0Bip32 => fun a => a
  | O0TapInternalKey => fun a => a
  | O0TapTree => option_map tt_norm
  | O0TapKeyOrigins => fun a => a
  | O0Proprietary => fun a => a
  | O0Unknown => fun a => a
  end.

Lemma o0frame : frame_ok o0ty o0get o0set o0upd o0slot output0_insert_pair.
Proof.
  constructor.
  - intros f v s. destruct f; reflexivity.
  - intros f g v s H. destruct f, g; try reflexivity; now destruct H.
  - intros s s' H.
    pose proof (H O0RedeemScript) as E0.
    pose proof (H O0WitnessScript) as E1.
    pose proof (H O0Bip32) as E2.
    pose proof (H O0TapInternalKey) as E3.
    pose proof (H O0TapTree) as E4.
    pose proof (H O0TapKeyOrigins) as E5.
    pose proof (H O0Proprietary) as E6.
    pose proof (H O0Unknown) as E7.
    clear H. destruct s, s'. cbn in E0, E1, E2, E3, E4, E5, E6, E7. subst. reflexivity.
  - intros p s. unfold output0_insert_pair, o0slot, ptype. cbv zeta.
    destruct (beq (k_type (p_key p)) x00); [reflexivity|].
    destruct (beq (k_type (p_key p)) x01); [reflexivity|].
    destruct (beq (k_type (p_key p)) x02); [reflexivity|].
    destruct (beq (k_type (p_key p)) xfc); [reflexivity|].
    destruct (beq (k_type (p_key p)) x05); [reflexivity|].
    destruct (beq (k_type (p_key p)) x06); [reflexivity|].
    destruct (beq (k_type (p_key p)) x07); [reflexivity|].
    cbn [o0upd]. unfold guarded, ptype. destruct (output0_excluded (k_type (p_key p))); reflexivity.
Qed.

Lemma o0slot_O0RedeemScript t : x00 = t <-> o0slot t = O0RedeemScript.
Proof. slot_tac0 o0slot. Qed.
Lemma o0slot_O0WitnessScript t : x01 = t <-> o0slot t = O0WitnessScript.
Proof. slot_tac0 o0slot. Qed.
Lemma o0slot_O0Bip32 t : x02 = t <-> o0slot t = O0Bip32.
Proof. slot_tac0 o0slot. Qed.
Lemma o0slot_O0TapInternalKey t : x05 = t <-> o0slot t = O0TapInternalKey.
Proof. slot_tac0 o0slot. Qed.
Lemma o0slot_O0TapTree t : x06 = t <-> o0slot t = O0TapTree.
Proof. slot_tac0 o0slot. Qed.
Lemma o0slot_O0TapKeyOrigins t : x07 = t <-> o0slot t = O0TapKeyOrigins.
Proof. slot_tac0 o0slot. Qed.
Lemma o0slot_O0Proprietary t : xfc = t <-> o0slot t = O0Proprietary.
Proof. slot_tac0 o0slot. Qed.

Lemma o0spec f : fspec (fun t => o0slot t = f) (o0upd f) (o0fpairs f) (o0empty f) (o0fwf f) (o0norm f).
Proof.
  destruct f; cbn [o0upd o0fpairs o0empty o0fwf o0norm o0ty].

  - apply (fspec_types (eq x00)); [intros t; apply o0slot_O0RedeemScript|]. exact (opt_fspec x00 _ _ _ script_codec).
  - apply (fspec_types (eq x01)); [intros t; apply o0slot_O0WitnessScript|]. exact (opt_fspec x01 _ _ _ script_codec).
  - apply (fspec_types (eq x02)); [intros t; apply o0slot_O0Bip32|]. exact (map_fspec x02 bkey _ _ _ _ _ _ bkey_inj (secp_codec KLIM ltac:(lims; lia)) keysource_codec secp_nonempty).
  - apply (fspec_types (eq x05)); [intros t; apply o0slot_O0TapInternalKey|]. exact (opt_fspec x05 _ _ _ (xonly_codec VLIM ltac:(lims; lia))).
  - apply (fspec_types (eq x06)); [intros t; apply o0slot_O0TapTree|]. exact (taptree_fspec x06).
  - apply (fspec_types (eq x07)); [intros t; apply o0slot_O0TapKeyOrigins|]. exact (map_fspec x07 bkey _ _ _ _ _ _ bkey_inj (xonly_codec KLIM ltac:(lims; lia)) taporigin_codec xonly_nonempty).
  - apply (fspec_types (eq xfc)); [intros t; apply o0slot_O0Proprietary|]. exact (prop_fspec IDeser).
  - exact (fspec_guard (fun t => o0slot t = O0Unknown /\ output0_excluded t = false) _ _ _ _ (fun t => iff_refl _) _ _ _ _ (unknown_fspec (fun t => o0slot t = O0Unknown /\ output0_excluded t = false))).
Qed.

Definition o0special (f : o0field) : bool := false.

Lemma o0dup f : o0special f = false -> fdup (fun t => o0slot t = f) (o0upd f).
Proof.
  destruct f; intros Hsp; try discriminate Hsp; clear Hsp; cbn [o0upd o0fwf o0ty].

  - apply (fdup_types (eq x00)); [intros t; apply o0slot_O0RedeemScript|]. exact (opt_fdup x00 _).
  - apply (fdup_types (eq x01)); [intros t; apply o0slot_O0WitnessScript|]. exact (opt_fdup x01 _).
  - apply (fdup_types (eq x02)); [intros t; apply o0slot_O0Bip32|]. exact (map_fdup x02 bkey _ _ bkey_inj).
  - apply (fdup_types (eq x05)); [intros t; apply o0slot_O0TapInternalKey|]. exact (opt_fdup x05 _).
  - apply (fdup_types (eq x06)); [intros t; apply o0slot_O0TapTree|]. exact (opt_fdup x06 _).
  - apply (fdup_types (eq x07)); [intros t; apply o0slot_O0TapKeyOrigins|]. exact (map_fdup x07 bkey _ _ bkey_inj).
  - apply (fdup_types (eq xfc)); [intros t; apply o0slot_O0Proprietary|]. exact (prop_fdup IDeser).
  - exact (fdup_guard (fun t => o0slot t = O0Unknown /\ output0_excluded t = false) _ _ _ _ (fun t => iff_refl _) (unknown_fdup (fun t => o0slot t = O0Unknown /\ output0_excluded t = false))).
Qed.

Lemma o0comm f : o0special f = false -> fcomm (fun t => o0slot t = f) (o0upd f) (o0fwf f).
Proof.
  destruct f; intros Hsp; try discriminate Hsp; clear Hsp; cbn [o0upd o0fwf o0ty].

  - apply (fcomm_types (eq x00)); [intros t; apply o0slot_O0RedeemScript|]. exact (opt_fcomm x00 _ _).
  - apply (fcomm_types (eq x01)); [intros t; apply o0slot_O0WitnessScript|]. exact (opt_fcomm x01 _ _).
  - apply (fcomm_types (eq x02)); [intros t; apply o0slot_O0Bip32|]. exact (map_fcomm x02 bkey _ _ _ _ bkey_inj).
  - apply (fcomm_types (eq x05)); [intros t; apply o0slot_O0TapInternalKey|]. exact (opt_fcomm x05 _ _).
  - apply (fcomm_types (eq x06)); [intros t; apply o0slot_O0TapTree|]. exact (opt_fcomm x06 _ _).
  - apply (fcomm_types (eq x07)); [intros t; apply o0slot_O0TapKeyOrigins|]. exact (map_fcomm x07 bkey _ _ _ _ bkey_inj).
  - apply (fcomm_types (eq xfc)); [intros t; apply o0slot_O0Proprietary|]. exact (prop_fcomm IDeser).
  - exact (fcomm_guard (fun t => o0slot t = O0Unknown /\ output0_excluded t = false) _ _ _ _ (fun t => iff_refl _) _ (unknown_fcomm (fun t => o0slot t = O0Unknown /\ output0_excluded t = false))).
Qed.

Lemma o0raw_O0Proprietary : fraw (fun t => o0slot t = O0Proprietary) (o0upd O0Proprietary) (o0fpairs O0Proprietary).
Proof. apply (fraw_types (eq xfc)); [intros t; apply o0slot_O0Proprietary|]. exact (prop_fraw IDeser). Qed.

Lemma o0raw_O0Unknown : fraw (fun t => o0slot t = O0Unknown) (o0upd O0Unknown) (o0fpairs O0Unknown).
Proof. exact (fraw_guard (fun t => o0slot t = O0Unknown /\ output0_excluded t = false) _ _ _ _ (fun t => iff_refl _) _ (unknown_fraw (fun t => o0slot t = O0Unknown /\ output0_excluded t = false))). Qed.

Lemma o0order_nodup : NoDup o0order.
Proof. apply (NoDup_nodup_dec o0field_dec). vm_compute. reflexivity. Qed.
Lemma o0order_all f : In f o0order.
Proof. apply (in_dec_true o0field_dec). destruct f; vm_compute; reflexivity. Qed.

Lemma o0init_empty f : o0get f output0_default = o0empty f.
Proof. destruct f; reflexivity. Qed.

Lemma o0pairs_eq s : output0_pairs s = spairs o0ty o0get o0fpairs o0order s.
Proof. unfold output0_pairs, spairs, o0order. cbn [flat_map o0fpairs o0get]. rewrite app_nil_r. reflexivity. Qed.
End Facts.
