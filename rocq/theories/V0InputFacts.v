(** Field laws of the v0 input map (src/v0/bitcoin/map/input.rs) and their consequences. *)
From Coq Require Import Permutation.
From Verif Require Import Base OMap Consensus ConsensusFacts Ext Raw RawFacts TapTree TapTreeFacts
  Serialize SerializeFacts MapCodec MapFacts V2OutputFacts V2InputFacts V0Input.
Local Open Scope N_scope.

Ltac slot_tac0 slot :=
  unfold slot; split;
  [ intros <-; reflexivity
  | intros H;
    repeat match type of H with
      | (if ?b then _ else _) = _ =>
          let E := fresh "E" in destruct b eqn:E; [try discriminate H; apply beq_eq in E; now subst|]
      end; discriminate H ].

(** The fields of [input0] in the order in which they are serialized. *)
Inductive i0field : Type :=
| I0NonWitnessUtxo
| I0WitnessUtxo
| I0PartialSigs
| I0SighashType
| I0RedeemScript
| I0WitnessScript
| I0Bip32
| I0FinalScriptSig
| I0FinalScriptWitness
| I0Ripemd160
| I0Sha256
| I0Hash160
| I0Hash256
| I0TapKeySig
| I0TapScriptSigs
| I0TapScripts
| I0TapKeyOrigins
| I0TapInternalKey
| I0TapMerkleRoot
| I0Proprietary
| I0Unknown.

Definition i0field_dec (a b : i0field) : {a = b} + {a <> b}.
Proof. decide equality. Defined.

Definition i0order : list i0field :=
  [I0NonWitnessUtxo; I0WitnessUtxo; I0PartialSigs; I0SighashType; I0RedeemScript; I0WitnessScript; I0Bip32; I0FinalScriptSig; I0FinalScriptWitness; I0Ripemd160; I0Sha256; I0Hash160; I0Hash256; I0TapKeySig; I0TapScriptSigs; I0TapScripts; I0TapKeyOrigins; I0TapInternalKey; I0TapMerkleRoot; I0Proprietary; I0Unknown].

Section Facts.
Context `{X : Ext} {L : ExtLaws X}.

(** Type of a field. *)
Definition i0ty (f : i0field) : Type :=
  match f with
  | I0NonWitnessUtxo => option tx
  | I0WitnessUtxo => option txout
  | I0PartialSigs => list (pubkey * esig)
  | I0SighashType => option N
  | I0RedeemScript => option bytes
  | I0WitnessScript => option bytes
  | I0Bip32 => list (bytes * keysource)
  | I0FinalScriptSig => option bytes
  | I0FinalScriptWitness => option witness
  | I0Ripemd160 => list (bytes * bytes)
  | I0Sha256 => list (bytes * bytes)
  | I0Hash160 => list (bytes * bytes)
  | I0Hash256 => list (bytes * bytes)
  | I0TapKeySig => option tsig
  | I0TapScriptSigs => list (xleaf * tsig)
  | I0TapScripts => list (controlblock * leafscript)
  | I0TapKeyOrigins => list (bytes * taporigin)
  | I0TapInternalKey => option bytes
  | I0TapMerkleRoot => option bytes
  | I0Proprietary => list (propkey * bytes)
  | I0Unknown => list (key * bytes)
  end.

Definition i0get (f : i0field) : input0 -> i0ty f :=
  match f return input0 -> i0ty f with
  | I0NonWitnessUtxo => i0_non_witness_utxo
  | I0WitnessUtxo => i0_witness_utxo
  | I0PartialSigs => i0_partial_sigs
  | I0SighashType => i0_sighash_type
  | I0RedeemScript => i0_redeem_script
  | I0WitnessScript => i0_witness_script
  | I0Bip32 => i0_bip32_derivation
  | I0FinalScriptSig => i0_final_script_sig
  | I0FinalScriptWitness => i0_final_script_witness
  | I0Ripemd160 => i0_ripemd160_preimages
  | I0Sha256 => i0_sha256_preimages
  | I0Hash160 => i0_hash160_preimages
  | I0Hash256 => i0_hash256_preimages
  | I0TapKeySig => i0_tap_key_sig
  | I0TapScriptSigs => i0_tap_script_sigs
  | I0TapScripts => i0_tap_scripts
  | I0TapKeyOrigins => i0_tap_key_origins
  | I0TapInternalKey => i0_tap_internal_key
  | I0TapMerkleRoot => i0_tap_merkle_root
  | I0Proprietary => i0_proprietary
  | I0Unknown => i0_unknown
  end.

Definition i0set (f : i0field) : i0ty f -> input0 -> input0 :=
  match f return i0ty f -> input0 -> input0 with
  | I0NonWitnessUtxo => set_i0_non_witness_utxo
  | I0WitnessUtxo => set_i0_witness_utxo
  | I0PartialSigs => set_i0_partial_sigs
  | I0SighashType => set_i0_sighash_type
  | I0RedeemScript => set_i0_redeem_script
  | I0WitnessScript => set_i0_witness_script
  | I0Bip32 => set_i0_bip32_derivation
  | I0FinalScriptSig => set_i0_final_script_sig
  | I0FinalScriptWitness => set_i0_final_script_witness
  | I0Ripemd160 => set_i0_ripemd160_preimages
  | I0Sha256 => set_i0_sha256_preimages
  | I0Hash160 => set_i0_hash160_preimages
  | I0Hash256 => set_i0_hash256_preimages
  | I0TapKeySig => set_i0_tap_key_sig
  | I0TapScriptSigs => set_i0_tap_script_sigs
  | I0TapScripts => set_i0_tap_scripts
  | I0TapKeyOrigins => set_i0_tap_key_origins
  | I0TapInternalKey => set_i0_tap_internal_key
  | I0TapMerkleRoot => set_i0_tap_merkle_root
  | I0Proprietary => set_i0_proprietary
  | I0Unknown => set_i0_unknown
  end.

(** The field a key type belongs to. *)
Definition i0slot (t : byte) : i0field :=
  if beq t x00 then I0NonWitnessUtxo else
  if beq t x01 then I0WitnessUtxo else
  if beq t x02 then I0PartialSigs else
  if beq t x03 then I0SighashType else
  if beq t x04 then I0RedeemScript else
  if beq t x05 then I0WitnessScript else
  if beq t x06 then I0Bip32 else
  if beq t x07 then I0FinalScriptSig else
  if beq t x08 then I0FinalScriptWitness else
  if beq t x0a then I0Ripemd160 else
  if beq t x0b then I0Sha256 else
  if beq t x0c then I0Hash160 else
  if beq t x0d then I0Hash256 else
  if beq t x13 then I0TapKeySig else
  if beq t x14 then I0TapScriptSigs else
  if beq t x15 then I0TapScripts else
  if beq t x16 then I0TapKeyOrigins else
  if beq t x17 then I0TapInternalKey else
  if beq t x18 then I0TapMerkleRoot else
  if beq t xfc then I0Proprietary else
  I0Unknown.

(** What a pair does to its field. *)
Definition i0upd (f : i0field) : pair -> i0ty f -> res ierr (i0ty f) :=
  match f return pair -> i0ty f -> res ierr (i0ty f) with
  | I0NonWitnessUtxo => ins_opt de_tx
  | I0WitnessUtxo => ins_opt de_txout
  | I0PartialSigs => ins_map sk_pubkey de_pubkey de_esig
  | I0SighashType => ins_opt de_u32
  | I0RedeemScript => ins_opt de_script
  | I0WitnessScript => ins_opt de_script
  | I0Bip32 => ins_map bkey de_secp de_keysource
  | I0FinalScriptSig => ins_opt de_script
  | I0FinalScriptWitness => ins_opt de_witness
  | I0Ripemd160 => ins_hash 20 ripemd160 HRipemd
  | I0Sha256 => ins_hash 32 sha256 HSha256
  | I0Hash160 => ins_hash 20 hash160 HHash160
  | I0Hash256 => ins_hash 32 sha256d HHash256
  | I0TapKeySig => ins_opt de_tsig
  | I0TapScriptSigs => ins_map sk_xleaf de_xleaf de_tsig
  | I0TapScripts => ins_map sk_controlblock de_controlblock de_leafscript
  | I0TapKeyOrigins => ins_map bkey de_xonly de_taporigin
  | I0TapInternalKey => ins_opt de_xonly
  | I0TapMerkleRoot => ins_opt (de_hash 32)
  | I0Proprietary => ins_prop IDeser
  | I0Unknown => guarded input0_excluded (fun p => IExcludedKey (ptype p)) ins_unknown
  end.

(** The pairs of a field. *)
Definition i0fpairs (f : i0field) : i0ty f -> list pair :=
  match f return i0ty f -> list pair with
  | I0NonWitnessUtxo => opt_pairs x00 ser_tx
  | I0WitnessUtxo => opt_pairs x01 ser_txout
  | I0PartialSigs => map_pairs x02 ser_pubkey ser_esig
  | I0SighashType => opt_pairs x03 ser_u32
  | I0RedeemScript => opt_pairs x04 ser_script
  | I0WitnessScript => opt_pairs x05 ser_script
  | I0Bip32 => map_pairs x06 ser_secp ser_keysource
  | I0FinalScriptSig => opt_pairs x07 ser_script
  | I0FinalScriptWitness => opt_pairs x08 ser_witness
  | I0Ripemd160 => map_pairs x0a ser_hash ser_vec
  | I0Sha256 => map_pairs x0b ser_hash ser_vec
  | I0Hash160 => map_pairs x0c ser_hash ser_vec
  | I0Hash256 => map_pairs x0d ser_hash ser_vec
  | I0TapKeySig => opt_pairs x13 ser_tsig
  | I0TapScriptSigs => map_pairs x14 ser_xleaf ser_tsig
  | I0TapScripts => map_pairs x15 ser_controlblock ser_leafscript
  | I0TapKeyOrigins => map_pairs x16 ser_xonly ser_taporigin
  | I0TapInternalKey => opt_pairs x17 ser_xonly
  | I0TapMerkleRoot => opt_pairs x18 ser_hash
  | I0Proprietary => prop_pairs
  | I0Unknown => unknown_pairs
  end.

(** The field before the first pair. *)
Definition i0empty (f : i0field) : i0ty f :=
  match f return i0ty f with
  | I0NonWitnessUtxo => None
  | I0WitnessUtxo => None
  | I0PartialSigs => []
  | I0SighashType => None
  | I0RedeemScript => None
  | I0WitnessScript => None
  | I0Bip32 => []
  | I0FinalScriptSig => None
  | I0FinalScriptWitness => None
  | I0Ripemd160 => []
  | I0Sha256 => []
  | I0Hash160 => []
  | I0Hash256 => []
  | I0TapKeySig => None
  | I0TapScriptSigs => []
  | I0TapScripts => []
  | I0TapKeyOrigins => []
  | I0TapInternalKey => None
  | I0TapMerkleRoot => None
  | I0Proprietary => []
  | I0Unknown => []
  end.

(** Well-formed contents of a field. *)
Definition i0fwf (f : i0field) : i0ty f -> Prop :=
  match f return i0ty f -> Prop with
  | I0NonWitnessUtxo => opt_all wf_tx_v
  | I0WitnessUtxo => opt_all wf_txout_v
  | I0PartialSigs => wf_map sk_pubkey wf_pubkey wf_esig
  | I0SighashType => opt_all wf_u32
  | I0RedeemScript => opt_all wf_value
  | I0WitnessScript => opt_all wf_value
  | I0Bip32 => wf_map bkey wf_secp wf_keysource
  | I0FinalScriptSig => opt_all wf_value
  | I0FinalScriptWitness => opt_all wf_witness_v
  | I0Ripemd160 => wf_preimages 20%nat ripemd160
  | I0Sha256 => wf_preimages 32%nat sha256
  | I0Hash160 => wf_preimages 20%nat hash160
  | I0Hash256 => wf_preimages 32%nat sha256d
  | I0TapKeySig => opt_all wf_tsig
  | I0TapScriptSigs => wf_map sk_xleaf wf_xleaf wf_tsig
  | I0TapScripts => wf_map sk_controlblock wf_controlblock wf_leafscript
  | I0TapKeyOrigins => wf_map bkey wf_xonly wf_taporigin
  | I0TapInternalKey => opt_all wf_xonly
  | I0TapMerkleRoot => opt_all (wf_bytes_n 32)
  | I0Proprietary => wf_props
  | I0Unknown => wf_unknowns (fun t => i0slot t = I0Unknown /\ input0_excluded t = false)
  end.

(** What is read back. *)
Definition i0norm (f : i0field) : i0ty f -> i0ty f :=
  match f return i0ty f -> i0ty f with
  | I0NonWitnessUtxo => fun a => a
  | I0WitnessUtxo => fun a => a
  | I0PartialSigs => fun a => a
  | I0SighashType => fun a => a
  | I0RedeemScript => fun a => a
  | I0WitnessScript => fun a => a
  | I0Bip32 => fun a => a
  | I0FinalScriptSig => fun a => a
  | I0FinalScriptWitness => fun a => a
  | I0Ripemd160 => fun a => a
  | I0Sha256 => fun a => a
  | I0Hash160 => fun a => a
  | I0Hash256 => fun a => a
  | I0TapKeySig => fun a => a
  | I0TapScriptSigs => fun a => a
  | I0TapScripts => fun a => a
  | I0TapKeyOrigins => fun a => a
  | I0TapInternalKey => fun a => a
  | I0TapMerkleRoot => fun a => a
  | I0Proprietary => fun a => a
  | I0Unknown => fun a => a
  end.

Lemma i0frame : frame_ok i0ty i0get i0set i0upd i0slot input0_insert_pair.
Proof.
  constructor.
  - intros f v s. destruct f; reflexivity.
  - intros f g v s H. destruct f, g; try reflexivity; now destruct H.
  - intros s s' H.
    pose proof (H I0NonWitnessUtxo) as E0.
    pose proof (H I0WitnessUtxo) as E1.
    pose proof (H I0PartialSigs) as E2.
    pose proof (H I0SighashType) as E3.
    pose proof (H I0RedeemScript) as E4.
    pose proof (H I0WitnessScript) as E5.
    pose proof (H I0Bip32) as E6.
    pose proof (H I0FinalScriptSig) as E7.
    pose proof (H I0FinalScriptWitness) as E8.
    pose proof (H I0Ripemd160) as E9.
    pose proof (H I0Sha256) as E10.
    pose proof (H I0Hash160) as E11.
    pose proof (H I0Hash256) as E12.
    pose proof (H I0TapKeySig) as E13.
    pose proof (H I0TapScriptSigs) as E14.
    pose proof (H I0TapScripts) as E15.
    pose proof (H I0TapKeyOrigins) as E16.
    pose proof (H I0TapInternalKey) as E17.
    pose proof (H I0TapMerkleRoot) as E18.
    pose proof (H I0Proprietary) as E19.
    pose proof (H I0Unknown) as E20.
    clear H. destruct s, s'. cbn in E0, E1, E2, E3, E4, E5, E6, E7, E8, E9, E10, E11, E12, E13, E14, E15, E16, E17, E18, E19, E20. subst. reflexivity.
  - intros p s. unfold input0_insert_pair, i0slot, ptype. cbv zeta.
    destruct (beq (k_type (p_key p)) x00); [reflexivity|].
    destruct (beq (k_type (p_key p)) x01); [reflexivity|].
    destruct (beq (k_type (p_key p)) x02); [reflexivity|].
    destruct (beq (k_type (p_key p)) x03); [reflexivity|].
    destruct (beq (k_type (p_key p)) x04); [reflexivity|].
    destruct (beq (k_type (p_key p)) x05); [reflexivity|].
    destruct (beq (k_type (p_key p)) x06); [reflexivity|].
    destruct (beq (k_type (p_key p)) x07); [reflexivity|].
    destruct (beq (k_type (p_key p)) x08); [reflexivity|].
    destruct (beq (k_type (p_key p)) x0a); [reflexivity|].
    destruct (beq (k_type (p_key p)) x0b); [reflexivity|].
    destruct (beq (k_type (p_key p)) x0c); [reflexivity|].
    destruct (beq (k_type (p_key p)) x0d); [reflexivity|].
    destruct (beq (k_type (p_key p)) x13); [reflexivity|].
    destruct (beq (k_type (p_key p)) x14); [reflexivity|].
    destruct (beq (k_type (p_key p)) x15); [reflexivity|].
    destruct (beq (k_type (p_key p)) x16); [reflexivity|].
    destruct (beq (k_type (p_key p)) x17); [reflexivity|].
    destruct (beq (k_type (p_key p)) x18); [reflexivity|].
    destruct (beq (k_type (p_key p)) xfc); [reflexivity|].
    cbn [i0upd]. unfold guarded, ptype. destruct (input0_excluded (k_type (p_key p))); reflexivity.
Qed.

Lemma i0slot_I0NonWitnessUtxo t : x00 = t <-> i0slot t = I0NonWitnessUtxo.
Proof. slot_tac0 i0slot. Qed.
Lemma i0slot_I0WitnessUtxo t : x01 = t <-> i0slot t = I0WitnessUtxo.
Proof. slot_tac0 i0slot. Qed.
Lemma i0slot_I0PartialSigs t : x02 = t <-> i0slot t = I0PartialSigs.
Proof. slot_tac0 i0slot. Qed.
Lemma i0slot_I0SighashType t : x03 = t <-> i0slot t = I0SighashType.
Proof. slot_tac0 i0slot. Qed.
Lemma i0slot_I0RedeemScript t : x04 = t <-> i0slot t = I0RedeemScript.
Proof. slot_tac0 i0slot. Qed.
Lemma i0slot_I0WitnessScript t : x05 = t <-> i0slot t = I0WitnessScript.
Proof. slot_tac0 i0slot. Qed.
Lemma i0slot_I0Bip32 t : x06 = t <-> i0slot t = I0Bip32.
Proof. slot_tac0 i0slot. Qed.
Lemma i0slot_I0FinalScriptSig t : x07 = t <-> i0slot t = I0FinalScriptSig.
Proof. slot_tac0 i0slot. Qed.
Lemma i0slot_I0FinalScriptWitness t : x08 = t <-> i0slot t = I0FinalScriptWitness.
Proof. slot_tac0 i0slot. Qed.
Lemma i0slot_I0Ripemd160 t : x0a = t <-> i0slot t = I0Ripemd160.
Proof. slot_tac0 i0slot. Qed.
Lemma i0slot_I0Sha256 t : x0b = t <-> i0slot t = I0Sha256.
Proof. slot_tac0 i0slot. Qed.
Lemma i0slot_I0Hash160 t : x0c = t <-> i0slot t = I0Hash160.
Proof. slot_tac0 i0slot. Qed.
Lemma i0slot_I0Hash256 t : x0d = t <-> i0slot t = I0Hash256.
Proof. slot_tac0 i0slot. Qed.
Lemma i0slot_I0TapKeySig t : x13 = t <-> i0slot t = I0TapKeySig.
Proof. slot_tac0 i0slot. Qed.
Lemma i0slot_I0TapScriptSigs t : x14 = t <-> i0slot t = I0TapScriptSigs.
Proof. slot_tac0 i0slot. Qed.
Lemma i0slot_I0TapScripts t : x15 = t <-> i0slot t = I0TapScripts.
Proof. slot_tac0 i0slot. Qed.
Lemma i0slot_I0TapKeyOrigins t : x16 = t <-> i0slot t = I0TapKeyOrigins.
Proof. slot_tac0 i0slot. Qed.
Lemma i0slot_I0TapInternalKey t : x17 = t <-> i0slot t = I0TapInternalKey.
Proof. slot_tac0 i0slot. Qed.
Lemma i0slot_I0TapMerkleRoot t : x18 = t <-> i0slot t = I0TapMerkleRoot.
Proof. slot_tac0 i0slot. Qed.
Lemma i0slot_I0Proprietary t : xfc = t <-> i0slot t = I0Proprietary.
Proof. slot_tac0 i0slot. Qed.

Lemma i0spec f : fspec (fun t => i0slot t = f) (i0upd f) (i0fpairs f) (i0empty f) (i0fwf f) (i0norm f).
Proof.
  destruct f; cbn [i0upd i0fpairs i0empty i0fwf i0norm i0ty].

  - apply (fspec_types (eq x00)); [intros t; apply i0slot_I0NonWitnessUtxo|]. exact (opt_fspec x00 _ _ _ tx_codec).
  - apply (fspec_types (eq x01)); [intros t; apply i0slot_I0WitnessUtxo|]. exact (opt_fspec x01 _ _ _ txout_codec).
  - apply (fspec_types (eq x02)); [intros t; apply i0slot_I0PartialSigs|]. exact (map_fspec x02 sk_pubkey _ _ _ _ _ _ sk_pubkey_inj (pubkey_codec KLIM ltac:(lims; lia)) esig_codec pubkey_nonempty).
  - apply (fspec_types (eq x03)); [intros t; apply i0slot_I0SighashType|]. exact (opt_fspec x03 _ _ _ (u32_codec VLIM ltac:(lims; lia))).
  - apply (fspec_types (eq x04)); [intros t; apply i0slot_I0RedeemScript|]. exact (opt_fspec x04 _ _ _ script_codec).
  - apply (fspec_types (eq x05)); [intros t; apply i0slot_I0WitnessScript|]. exact (opt_fspec x05 _ _ _ script_codec).
  - apply (fspec_types (eq x06)); [intros t; apply i0slot_I0Bip32|]. exact (map_fspec x06 bkey _ _ _ _ _ _ bkey_inj (secp_codec KLIM ltac:(lims; lia)) keysource_codec secp_nonempty).
  - apply (fspec_types (eq x07)); [intros t; apply i0slot_I0FinalScriptSig|]. exact (opt_fspec x07 _ _ _ script_codec).
  - apply (fspec_types (eq x08)); [intros t; apply i0slot_I0FinalScriptWitness|]. exact (opt_fspec x08 _ _ _ witness_codec).
  - apply (fspec_types (eq x0a)); [intros t; apply i0slot_I0Ripemd160|]. exact (hash_fspec x0a 20 ripemd160 _ ltac:(lia)).
  - apply (fspec_types (eq x0b)); [intros t; apply i0slot_I0Sha256|]. exact (hash_fspec x0b 32 sha256 _ ltac:(lia)).
  - apply (fspec_types (eq x0c)); [intros t; apply i0slot_I0Hash160|]. exact (hash_fspec x0c 20 hash160 _ ltac:(lia)).
  - apply (fspec_types (eq x0d)); [intros t; apply i0slot_I0Hash256|]. exact (hash_fspec x0d 32 sha256d _ ltac:(lia)).
  - apply (fspec_types (eq x13)); [intros t; apply i0slot_I0TapKeySig|]. exact (opt_fspec x13 _ _ _ tsig_codec).
  - apply (fspec_types (eq x14)); [intros t; apply i0slot_I0TapScriptSigs|]. exact (map_fspec x14 sk_xleaf _ _ _ _ _ _ sk_xleaf_inj (xleaf_codec KLIM ltac:(lims; lia)) tsig_codec xleaf_nonempty).
  - apply (fspec_types (eq x15)); [intros t; apply i0slot_I0TapScripts|]. exact (map_fspec x15 sk_controlblock _ _ _ _ _ _ sk_controlblock_inj (controlblock_codec KLIM ltac:(lims; lia)) leafscript_codec controlblock_nonempty).
  - apply (fspec_types (eq x16)); [intros t; apply i0slot_I0TapKeyOrigins|]. exact (map_fspec x16 bkey _ _ _ _ _ _ bkey_inj (xonly_codec KLIM ltac:(lims; lia)) taporigin_codec xonly_nonempty).
  - apply (fspec_types (eq x17)); [intros t; apply i0slot_I0TapInternalKey|]. exact (opt_fspec x17 _ _ _ (xonly_codec VLIM ltac:(lims; lia))).
  - apply (fspec_types (eq x18)); [intros t; apply i0slot_I0TapMerkleRoot|]. exact (opt_fspec x18 _ _ _ (hash_codec VLIM 32 ltac:(lims; lia))).
  - apply (fspec_types (eq xfc)); [intros t; apply i0slot_I0Proprietary|]. exact (prop_fspec IDeser).
  - exact (fspec_guard (fun t => i0slot t = I0Unknown /\ input0_excluded t = false) _ _ _ _ (fun t => iff_refl _) _ _ _ _ (unknown_fspec (fun t => i0slot t = I0Unknown /\ input0_excluded t = false))).
Qed.

Definition i0special (f : i0field) : bool := false.

Lemma i0dup f : i0special f = false -> fdup (fun t => i0slot t = f) (i0upd f).
Proof.
  destruct f; intros Hsp; try discriminate Hsp; clear Hsp; cbn [i0upd i0fwf i0ty].

  - apply (fdup_types (eq x00)); [intros t; apply i0slot_I0NonWitnessUtxo|]. exact (opt_fdup x00 _).
  - apply (fdup_types (eq x01)); [intros t; apply i0slot_I0WitnessUtxo|]. exact (opt_fdup x01 _).
  - apply (fdup_types (eq x02)); [intros t; apply i0slot_I0PartialSigs|]. exact (map_fdup x02 sk_pubkey _ _ sk_pubkey_inj).
  - apply (fdup_types (eq x03)); [intros t; apply i0slot_I0SighashType|]. exact (opt_fdup x03 _).
  - apply (fdup_types (eq x04)); [intros t; apply i0slot_I0RedeemScript|]. exact (opt_fdup x04 _).
  - apply (fdup_types (eq x05)); [intros t; apply i0slot_I0WitnessScript|]. exact (opt_fdup x05 _).
  - apply (fdup_types (eq x06)); [intros t; apply i0slot_I0Bip32|]. exact (map_fdup x06 bkey _ _ bkey_inj).
  - apply (fdup_types (eq x07)); [intros t; apply i0slot_I0FinalScriptSig|]. exact (opt_fdup x07 _).
  - apply (fdup_types (eq x08)); [intros t; apply i0slot_I0FinalScriptWitness|]. exact (opt_fdup x08 _).
  - apply (fdup_types (eq x0a)); [intros t; apply i0slot_I0Ripemd160|]. exact (hash_fdup x0a 20 ripemd160 _ ltac:(lia)).
  - apply (fdup_types (eq x0b)); [intros t; apply i0slot_I0Sha256|]. exact (hash_fdup x0b 32 sha256 _ ltac:(lia)).
  - apply (fdup_types (eq x0c)); [intros t; apply i0slot_I0Hash160|]. exact (hash_fdup x0c 20 hash160 _ ltac:(lia)).
  - apply (fdup_types (eq x0d)); [intros t; apply i0slot_I0Hash256|]. exact (hash_fdup x0d 32 sha256d _ ltac:(lia)).
  - apply (fdup_types (eq x13)); [intros t; apply i0slot_I0TapKeySig|]. exact (opt_fdup x13 _).
  - apply (fdup_types (eq x14)); [intros t; apply i0slot_I0TapScriptSigs|]. exact (map_fdup x14 sk_xleaf _ _ sk_xleaf_inj).
  - apply (fdup_types (eq x15)); [intros t; apply i0slot_I0TapScripts|]. exact (map_fdup x15 sk_controlblock _ _ sk_controlblock_inj).
  - apply (fdup_types (eq x16)); [intros t; apply i0slot_I0TapKeyOrigins|]. exact (map_fdup x16 bkey _ _ bkey_inj).
  - apply (fdup_types (eq x17)); [intros t; apply i0slot_I0TapInternalKey|]. exact (opt_fdup x17 _).
  - apply (fdup_types (eq x18)); [intros t; apply i0slot_I0TapMerkleRoot|]. exact (opt_fdup x18 _).
  - apply (fdup_types (eq xfc)); [intros t; apply i0slot_I0Proprietary|]. exact (prop_fdup IDeser).
  - exact (fdup_guard (fun t => i0slot t = I0Unknown /\ input0_excluded t = false) _ _ _ _ (fun t => iff_refl _) (unknown_fdup (fun t => i0slot t = I0Unknown /\ input0_excluded t = false))).
Qed.

Lemma i0comm f : i0special f = false -> fcomm (fun t => i0slot t = f) (i0upd f) (i0fwf f).
Proof.
  destruct f; intros Hsp; try discriminate Hsp; clear Hsp; cbn [i0upd i0fwf i0ty].

  - apply (fcomm_types (eq x00)); [intros t; apply i0slot_I0NonWitnessUtxo|]. exact (opt_fcomm x00 _ _).
  - apply (fcomm_types (eq x01)); [intros t; apply i0slot_I0WitnessUtxo|]. exact (opt_fcomm x01 _ _).
  - apply (fcomm_types (eq x02)); [intros t; apply i0slot_I0PartialSigs|]. exact (map_fcomm x02 sk_pubkey _ _ _ _ sk_pubkey_inj).
  - apply (fcomm_types (eq x03)); [intros t; apply i0slot_I0SighashType|]. exact (opt_fcomm x03 _ _).
  - apply (fcomm_types (eq x04)); [intros t; apply i0slot_I0RedeemScript|]. exact (opt_fcomm x04 _ _).
  - apply (fcomm_types (eq x05)); [intros t; apply i0slot_I0WitnessScript|]. exact (opt_fcomm x05 _ _).
  - apply (fcomm_types (eq x06)); [intros t; apply i0slot_I0Bip32|]. exact (map_fcomm x06 bkey _ _ _ _ bkey_inj).
  - apply (fcomm_types (eq x07)); [intros t; apply i0slot_I0FinalScriptSig|]. exact (opt_fcomm x07 _ _).
  - apply (fcomm_types (eq x08)); [intros t; apply i0slot_I0FinalScriptWitness|]. exact (opt_fcomm x08 _ _).
  - apply (fcomm_types (eq x0a)); [intros t; apply i0slot_I0Ripemd160|]. exact (hash_fcomm x0a 20 ripemd160 _ ltac:(lia)).
  - apply (fcomm_types (eq x0b)); [intros t; apply i0slot_I0Sha256|]. exact (hash_fcomm x0b 32 sha256 _ ltac:(lia)).
  - apply (fcomm_types (eq x0c)); [intros t; apply i0slot_I0Hash160|]. exact (hash_fcomm x0c 20 hash160 _ ltac:(lia)).
  - apply (fcomm_types (eq x0d)); [intros t; apply i0slot_I0Hash256|]. exact (hash_fcomm x0d 32 sha256d _ ltac:(lia)).
  - apply (fcomm_types (eq x13)); [intros t; apply i0slot_I0TapKeySig|]. exact (opt_fcomm x13 _ _).
  - apply (fcomm_types (eq x14)); [intros t; apply i0slot_I0TapScriptSigs|]. exact (map_fcomm x14 sk_xleaf _ _ _ _ sk_xleaf_inj).
  - apply (fcomm_types (eq x15)); [intros t; apply i0slot_I0TapScripts|]. exact (map_fcomm x15 sk_controlblock _ _ _ _ sk_controlblock_inj).
  - apply (fcomm_types (eq x16)); [intros t; apply i0slot_I0TapKeyOrigins|]. exact (map_fcomm x16 bkey _ _ _ _ bkey_inj).
  - apply (fcomm_types (eq x17)); [intros t; apply i0slot_I0TapInternalKey|]. exact (opt_fcomm x17 _ _).
  - apply (fcomm_types (eq x18)); [intros t; apply i0slot_I0TapMerkleRoot|]. exact (opt_fcomm x18 _ _).
  - apply (fcomm_types (eq xfc)); [intros t; apply i0slot_I0Proprietary|]. exact (prop_fcomm IDeser).
  - exact (fcomm_guard (fun t => i0slot t = I0Unknown /\ input0_excluded t = false) _ _ _ _ (fun t => iff_refl _) _ (unknown_fcomm (fun t => i0slot t = I0Unknown /\ input0_excluded t = false))).
Qed.

Lemma i0raw_I0Proprietary : fraw (fun t => i0slot t = I0Proprietary) (i0upd I0Proprietary) (i0fpairs I0Proprietary).
Proof. apply (fraw_types (eq xfc)); [intros t; apply i0slot_I0Proprietary|]. exact (prop_fraw IDeser). Qed.

Lemma i0raw_I0Unknown : fraw (fun t => i0slot t = I0Unknown) (i0upd I0Unknown) (i0fpairs I0Unknown).
Proof. exact (fraw_guard (fun t => i0slot t = I0Unknown /\ input0_excluded t = false) _ _ _ _ (fun t => iff_refl _) _ (unknown_fraw (fun t => i0slot t = I0Unknown /\ input0_excluded t = false))). Qed.

Lemma i0order_nodup : NoDup i0order.
Proof. apply (NoDup_nodup_dec i0field_dec). vm_compute. reflexivity. Qed.
Lemma i0order_all f : In f i0order.
Proof. apply (in_dec_true i0field_dec). destruct f; vm_compute; reflexivity. Qed.

Lemma i0init_empty f : i0get f input0_default = i0empty f.
Proof. destruct f; reflexivity. Qed.

Lemma i0pairs_eq s : input0_pairs s = spairs i0ty i0get i0fpairs i0order s.
Proof. unfold input0_pairs, spairs, i0order. cbn [flat_map i0fpairs i0get]. rewrite app_nil_r. reflexivity. Qed.
End Facts.
