(** Field laws of the input map (src/v2/map/input.rs) and their consequences. *)
From Coq Require Import Permutation.
From Verif Require Import Base OMap Consensus ConsensusFacts Ext Raw RawFacts TapTree TapTreeFacts
  Serialize SerializeFacts MapCodec MapFacts V2Input.
Local Open Scope N_scope.

(** The fields of [input] in the order in which they are serialized. *)
Inductive ifield : Type :=
| IPreviousTxid
| ISpentOutputIndex
| ISequence
| IMinTime
| IMinHeight
| INonWitnessUtxo
| IWitnessUtxo
| IPartialSigs
| ISighashType
| IRedeemScript
| IWitnessScript
| IBip32
| IFinalScriptSig
| IFinalScriptWitness
| IRipemd160
| ISha256
| IHash160
| IHash256
| ITapKeySig
| ITapScriptSigs
| ITapScripts
| ITapKeyOrigins
| ITapInternalKey
| ITapMerkleRoot
| ISpEcdhShares
| ISpDleqProofs
| IProprietaries
| IUnknowns.

Definition ifield_dec (a b : ifield) : {a = b} + {a <> b}.
Proof. decide equality. Defined.

Definition iorder : list ifield :=
  [IPreviousTxid; ISpentOutputIndex; ISequence; IMinTime; IMinHeight; INonWitnessUtxo; IWitnessUtxo; IPartialSigs; ISighashType; IRedeemScript; IWitnessScript; IBip32; IFinalScriptSig; IFinalScriptWitness; IRipemd160; ISha256; IHash160; IHash256; ITapKeySig; ITapScriptSigs; ITapScripts; ITapKeyOrigins; ITapInternalKey; ITapMerkleRoot; ISpEcdhShares; ISpDleqProofs; IProprietaries; IUnknowns].

Section Facts.
Context `{X : Ext} {L : ExtLaws X} `{C : Cfg}.

Lemma xonly_nonempty k : wf_xonly k -> ser_xonly k <> [].
Proof. intros [H _] E. unfold ser_xonly in E. subst k. discriminate. Qed.
Lemma pubkey_nonempty k : wf_pubkey k -> ser_pubkey k <> [].
Proof.
  intros H. unfold ser_pubkey. destruct (pub_compressed k).
  - intros E. apply secp_parse_len in H. rewrite E in H. discriminate.
  - intros E. apply secp_uncompress_len in H. rewrite E in H. discriminate.
Qed.
Lemma xleaf_nonempty k : wf_xleaf k -> ser_xleaf k <> [].
Proof.
  intros [[H _] _] E. unfold ser_xleaf in E. apply app_eq_nil in E as [E _]. rewrite E in H. discriminate.
Qed.
Lemma controlblock_nonempty k : wf_controlblock k -> ser_controlblock k <> [].
Proof. intros _ E. unfold ser_controlblock in E. discriminate. Qed.
Lemma cpk_rt v : wf_secp v -> de_cpk (ser_secp v) = Some v.
Proof. exact (fun H => H). Qed.
Lemma cpk_len v : wf_secp v -> blen (ser_secp v) <= VLIM.
Proof. intros H. apply secp_parse_len in H. unfold ser_secp, blen. rewrite H. lims. lia. Qed.
Lemma cpk_wf b v : de_cpk b = Some v -> wf_secp v.
Proof. apply secp_parse_idem. Qed.
Lemma dleq_rt v : wf_dleq v -> dleq_try_from (ser_dleq v) = Some v.
Proof. unfold wf_dleq, dleq_try_from, ser_dleq, blen. intros ->. reflexivity. Qed.
Lemma dleq_len v : wf_dleq v -> blen (ser_dleq v) <= VLIM.
Proof. unfold wf_dleq, ser_dleq, blen. intros ->. lims. lia. Qed.
Lemma dleq_wf b v : dleq_try_from b = Some v -> wf_dleq v.
Proof. unfold wf_dleq, dleq_try_from, blen. destruct (_ =? _) eqn:E; [|discriminate]. intros H. inj H. lia. Qed.


(** Type of a field. *)
Definition ity (f : ifield) : Type :=
  match f with
  | IPreviousTxid => bytes
  | ISpentOutputIndex => N
  | ISequence => option N
  | IMinTime => option N
  | IMinHeight => option N
  | INonWitnessUtxo => option tx
  | IWitnessUtxo => option txout
  | IPartialSigs => list (pubkey * esig)
  | ISighashType => option N
  | IRedeemScript => option bytes
  | IWitnessScript => option bytes
  | IBip32 => list (bytes * keysource)
  | IFinalScriptSig => option bytes
  | IFinalScriptWitness => option witness
  | IRipemd160 => list (bytes * bytes)
  | ISha256 => list (bytes * bytes)
  | IHash160 => list (bytes * bytes)
  | IHash256 => list (bytes * bytes)
  | ITapKeySig => option tsig
  | ITapScriptSigs => list (xleaf * tsig)
  | ITapScripts => list (controlblock * leafscript)
  | ITapKeyOrigins => list (bytes * taporigin)
  | ITapInternalKey => option bytes
  | ITapMerkleRoot => option bytes
  | ISpEcdhShares => list (bytes * bytes)
  | ISpDleqProofs => list (bytes * bytes)
  | IProprietaries => list (propkey * bytes)
  | IUnknowns => list (key * bytes)
  end.

Definition iget (f : ifield) : input -> ity f :=
  match f return input -> ity f with
  | IPreviousTxid => in_previous_txid
  | ISpentOutputIndex => in_spent_output_index
  | ISequence => in_sequence
  | IMinTime => in_min_time
  | IMinHeight => in_min_height
  | INonWitnessUtxo => in_non_witness_utxo
  | IWitnessUtxo => in_witness_utxo
  | IPartialSigs => in_partial_sigs
  | ISighashType => in_sighash_type
  | IRedeemScript => in_redeem_script
  | IWitnessScript => in_witness_script
  | IBip32 => in_bip32_derivations
  | IFinalScriptSig => in_final_script_sig
  | IFinalScriptWitness => in_final_script_witness
  | IRipemd160 => in_ripemd160_preimages
  | ISha256 => in_sha256_preimages
  | IHash160 => in_hash160_preimages
  | IHash256 => in_hash256_preimages
  | ITapKeySig => in_tap_key_sig
  | ITapScriptSigs => in_tap_script_sigs
  | ITapScripts => in_tap_scripts
  | ITapKeyOrigins => in_tap_key_origins
  | ITapInternalKey => in_tap_internal_key
  | ITapMerkleRoot => in_tap_merkle_root
  | ISpEcdhShares => in_sp_ecdh_shares
  | ISpDleqProofs => in_sp_dleq_proofs
  | IProprietaries => in_proprietaries
  | IUnknowns => in_unknowns
  end.

Definition iset (f : ifield) : ity f -> input -> input :=
  match f return ity f -> input -> input with
  | IPreviousTxid => set_in_previous_txid
  | ISpentOutputIndex => set_in_spent_output_index
  | ISequence => set_in_sequence
  | IMinTime => set_in_min_time
  | IMinHeight => set_in_min_height
  | INonWitnessUtxo => set_in_non_witness_utxo
  | IWitnessUtxo => set_in_witness_utxo
  | IPartialSigs => set_in_partial_sigs
  | ISighashType => set_in_sighash_type
  | IRedeemScript => set_in_redeem_script
  | IWitnessScript => set_in_witness_script
  | IBip32 => set_in_bip32_derivations
  | IFinalScriptSig => set_in_final_script_sig
  | IFinalScriptWitness => set_in_final_script_witness
  | IRipemd160 => set_in_ripemd160_preimages
  | ISha256 => set_in_sha256_preimages
  | IHash160 => set_in_hash160_preimages
  | IHash256 => set_in_hash256_preimages
  | ITapKeySig => set_in_tap_key_sig
  | ITapScriptSigs => set_in_tap_script_sigs
  | ITapScripts => set_in_tap_scripts
  | ITapKeyOrigins => set_in_tap_key_origins
  | ITapInternalKey => set_in_tap_internal_key
  | ITapMerkleRoot => set_in_tap_merkle_root
  | ISpEcdhShares => set_in_sp_ecdh_shares
  | ISpDleqProofs => set_in_sp_dleq_proofs
  | IProprietaries => set_in_proprietaries
  | IUnknowns => set_in_unknowns
  end.

(** The field a key type belongs to. *)
Definition islot (t : byte) : ifield :=
  if beq t x0e then IPreviousTxid else
  if beq t x0f then ISpentOutputIndex else
  if beq t x10 then ISequence else
  if beq t x11 then IMinTime else
  if beq t x12 then IMinHeight else
  if beq t x00 then INonWitnessUtxo else
  if beq t x01 then IWitnessUtxo else
  if beq t x02 then IPartialSigs else
  if beq t x03 then ISighashType else
  if beq t x04 then IRedeemScript else
  if beq t x05 then IWitnessScript else
  if beq t x06 then IBip32 else
  if beq t x07 then IFinalScriptSig else
  if beq t x08 then IFinalScriptWitness else
  if beq t x0a then IRipemd160 else
  if beq t x0b then ISha256 else
  if beq t x0c then IHash160 else
  if beq t x0d then IHash256 else
  if beq t x13 then ITapKeySig else
  if beq t x14 then ITapScriptSigs else
  if beq t x15 then ITapScripts else
  if beq t x16 then ITapKeyOrigins else
  if beq t x17 then ITapInternalKey else
  if beq t x18 then ITapMerkleRoot else
  if feat_sp && beq t x1d then ISpEcdhShares else
  if feat_sp && beq t x1e then ISpDleqProofs else
  if beq t xfc then IProprietaries else
  IUnknowns.

(** What a pair does to its field. *)
Definition iupd (f : ifield) : pair -> ity f -> res ierr (ity f) :=
  match f return pair -> ity f -> res ierr (ity f) with
  | IPreviousTxid => ins_placeholder (bytes_eqb TXID_ZERO) (de_hash 32)
  | ISpentOutputIndex => ins_placeholder (N.eqb U32_MAX) de_u32
  | ISequence => ins_opt de_u32
  | IMinTime => ins_opt de_time
  | IMinHeight => ins_opt de_height
  | INonWitnessUtxo => ins_opt de_tx
  | IWitnessUtxo => ins_opt de_txout
  | IPartialSigs => ins_map sk_pubkey de_pubkey de_esig
  | ISighashType => ins_opt de_u32
  | IRedeemScript => ins_opt de_script
  | IWitnessScript => ins_opt de_script
  | IBip32 => ins_map bkey de_secp de_keysource
  | IFinalScriptSig => ins_opt de_script
  | IFinalScriptWitness => ins_opt de_witness
  | IRipemd160 => ins_hash 20 ripemd160 HRipemd
  | ISha256 => ins_hash 32 sha256 HSha256
  | IHash160 => ins_hash 20 hash160 HHash160
  | IHash256 => ins_hash 32 sha256d HHash256
  | ITapKeySig => ins_opt de_tsig
  | ITapScriptSigs => ins_map sk_xleaf de_xleaf de_tsig
  | ITapScripts => ins_map sk_controlblock de_controlblock de_leafscript
  | ITapKeyOrigins => ins_map bkey de_xonly de_taporigin
  | ITapInternalKey => ins_opt de_xonly
  | ITapMerkleRoot => ins_opt (de_hash 32)
  | ISpEcdhShares => ins_sp de_cpk 33
  | ISpDleqProofs => ins_sp dleq_try_from 64
  | IProprietaries => ins_prop IDeser
  | IUnknowns => ins_unknown
  end.

(** The pairs of a field. *)
Definition ifpairs (f : ifield) : ity f -> list pair :=
  match f return ity f -> list pair with
  | IPreviousTxid => fun a => [Pair (Key x0e []) (ser_hash a)]
  | ISpentOutputIndex => fun a => [Pair (Key x0f []) (ser_u32 a)]
  | ISequence => opt_pairs x10 ser_u32
  | IMinTime => opt_pairs x11 ser_time
  | IMinHeight => opt_pairs x12 ser_height
  | INonWitnessUtxo => opt_pairs x00 ser_tx
  | IWitnessUtxo => opt_pairs x01 ser_txout
  | IPartialSigs => map_pairs x02 ser_pubkey ser_esig
  | ISighashType => opt_pairs x03 ser_u32
  | IRedeemScript => opt_pairs x04 ser_script
  | IWitnessScript => opt_pairs x05 ser_script
  | IBip32 => map_pairs x06 ser_secp ser_keysource
  | IFinalScriptSig => opt_pairs x07 ser_script
  | IFinalScriptWitness => opt_pairs x08 ser_witness
  | IRipemd160 => map_pairs x0a ser_hash ser_vec
  | ISha256 => map_pairs x0b ser_hash ser_vec
  | IHash160 => map_pairs x0c ser_hash ser_vec
  | IHash256 => map_pairs x0d ser_hash ser_vec
  | ITapKeySig => opt_pairs x13 ser_tsig
  | ITapScriptSigs => map_pairs x14 ser_xleaf ser_tsig
  | ITapScripts => map_pairs x15 ser_controlblock ser_leafscript
  | ITapKeyOrigins => map_pairs x16 ser_xonly ser_taporigin
  | ITapInternalKey => opt_pairs x17 ser_xonly
  | ITapMerkleRoot => opt_pairs x18 ser_hash
  | ISpEcdhShares => fun a => if feat_sp then map_pairs x1d ser_secp ser_secp a else []
  | ISpDleqProofs => fun a => if feat_sp then map_pairs x1e ser_secp ser_dleq a else []
  | IProprietaries => prop_pairs
  | IUnknowns => unknown_pairs
  end.

(** The field before the first pair. *)
Definition iempty (f : ifield) : ity f :=
  match f return ity f with
  | IPreviousTxid => TXID_ZERO
  | ISpentOutputIndex => U32_MAX
  | ISequence => None
  | IMinTime => None
  | IMinHeight => None
  | INonWitnessUtxo => None
  | IWitnessUtxo => None
  | IPartialSigs => []
  | ISighashType => None
  | IRedeemScript => None
  | IWitnessScript => None
  | IBip32 => []
  | IFinalScriptSig => None
  | IFinalScriptWitness => None
  | IRipemd160 => []
  | ISha256 => []
  | IHash160 => []
  | IHash256 => []
  | ITapKeySig => None
  | ITapScriptSigs => []
  | ITapScripts => []
  | ITapKeyOrigins => []
  | ITapInternalKey => None
  | ITapMerkleRoot => None
  | ISpEcdhShares => []
  | ISpDleqProofs => []
  | IProprietaries => []
  | IUnknowns => []
  end.

(** Well-formed contents of a field. *)
Definition ifwf (f : ifield) : ity f -> Prop :=
  match f return ity f -> Prop with
  | IPreviousTxid => (wf_bytes_n 32)
  | ISpentOutputIndex => wf_u32
  | ISequence => opt_all wf_u32
  | IMinTime => opt_all wf_time
  | IMinHeight => opt_all wf_height
  | INonWitnessUtxo => opt_all wf_tx_v
  | IWitnessUtxo => opt_all wf_txout_v
  | IPartialSigs => wf_map sk_pubkey wf_pubkey wf_esig
  | ISighashType => opt_all wf_u32
  | IRedeemScript => opt_all wf_value
  | IWitnessScript => opt_all wf_value
  | IBip32 => wf_map bkey wf_secp wf_keysource
  | IFinalScriptSig => opt_all wf_value
  | IFinalScriptWitness => opt_all wf_witness_v
  | IRipemd160 => wf_preimages 20%nat ripemd160
  | ISha256 => wf_preimages 32%nat sha256
  | IHash160 => wf_preimages 20%nat hash160
  | IHash256 => wf_preimages 32%nat sha256d
  | ITapKeySig => opt_all wf_tsig
  | ITapScriptSigs => wf_map sk_xleaf wf_xleaf wf_tsig
  | ITapScripts => wf_map sk_controlblock wf_controlblock wf_leafscript
  | ITapKeyOrigins => wf_map bkey wf_xonly wf_taporigin
  | ITapInternalKey => opt_all wf_xonly
  | ITapMerkleRoot => opt_all (wf_bytes_n 32)
  | ISpEcdhShares => fun a => if feat_sp then wf_map bkey wf_secp wf_secp a else a = []
  | ISpDleqProofs => fun a => if feat_sp then wf_map bkey wf_secp wf_dleq a else a = []
  | IProprietaries => wf_props
  | IUnknowns => wf_unknowns (fun t => islot t = IUnknowns)
  end.

(** What is read back. *)
Definition inorm (f : ifield) : ity f -> ity f :=
  match f return ity f -> ity f with
  | IPreviousTxid => fun a => a
  | ISpentOutputIndex => fun a => a
  | ISequence => fun a => a
  | IMinTime => fun a => a
  | IMinHeight => fun a => a
  | INonWitnessUtxo => fun a => a
  | IWitnessUtxo => fun a => a
  | IPartialSigs => fun a => a
  | ISighashType => fun a => a
  | IRedeemScript => fun a => a
  | IWitnessScript => fun a => a
  | IBip32 => fun a => a
  | IFinalScriptSig => fun a => a
  | IFinalScriptWitness => fun a => a
  | IRipemd160 => fun a => a
  | ISha256 => fun a => a
  | IHash160 => fun a => a
  | IHash256 => fun a => a
  | ITapKeySig => fun a => a
  | ITapScriptSigs => fun a => a
  | ITapScripts => fun a => a
  | ITapKeyOrigins => fun a => a
  | ITapInternalKey => fun a => a
  | ITapMerkleRoot => fun a => a
  | ISpEcdhShares => fun a => a
  | ISpDleqProofs => fun a => a
  | IProprietaries => fun a => a
  | IUnknowns => fun a => a
  end.

Lemma iframe : frame_ok ity iget iset iupd islot input_insert_pair.
Proof.
  constructor.
  - intros f v s. destruct f; reflexivity.
  - intros f g v s H. destruct f, g; try reflexivity; now destruct H.
  - intros s s' H.
    pose proof (H IPreviousTxid) as E0.
    pose proof (H ISpentOutputIndex) as E1.
    pose proof (H ISequence) as E2.
    pose proof (H IMinTime) as E3.
    pose proof (H IMinHeight) as E4.
    pose proof (H INonWitnessUtxo) as E5.
    pose proof (H IWitnessUtxo) as E6.
    pose proof (H IPartialSigs) as E7.
    pose proof (H ISighashType) as E8.
    pose proof (H IRedeemScript) as E9.
    pose proof (H IWitnessScript) as E10.
    pose proof (H IBip32) as E11.
    pose proof (H IFinalScriptSig) as E12.
    pose proof (H IFinalScriptWitness) as E13.
    pose proof (H IRipemd160) as E14.
    pose proof (H ISha256) as E15.
    pose proof (H IHash160) as E16.
    pose proof (H IHash256) as E17.
    pose proof (H ITapKeySig) as E18.
    pose proof (H ITapScriptSigs) as E19.
    pose proof (H ITapScripts) as E20.
    pose proof (H ITapKeyOrigins) as E21.
    pose proof (H ITapInternalKey) as E22.
    pose proof (H ITapMerkleRoot) as E23.
    pose proof (H ISpEcdhShares) as E24.
    pose proof (H ISpDleqProofs) as E25.
    pose proof (H IProprietaries) as E26.
    pose proof (H IUnknowns) as E27.
    clear H. destruct s, s'. cbn in E0, E1, E2, E3, E4, E5, E6, E7, E8, E9, E10, E11, E12, E13, E14, E15, E16, E17, E18, E19, E20, E21, E22, E23, E24, E25, E26, E27. subst. reflexivity.
  - intros p s. unfold input_insert_pair, islot, ptype. cbv zeta.
    destruct (beq (k_type (p_key p)) x0e); [reflexivity|].
    destruct (beq (k_type (p_key p)) x0f); [reflexivity|].
    destruct (beq (k_type (p_key p)) x10); [reflexivity|].
    destruct (beq (k_type (p_key p)) x11); [reflexivity|].
    destruct (beq (k_type (p_key p)) x12); [reflexivity|].
    destruct (beq (k_type (p_key p)) x00); [reflexivity|].
    destruct (beq (k_type (p_key p)) x01); [reflexivity|].
    destruct (beq (k_type (p_key p)) x02); [reflexivity|].
    destruct (beq (k_type (p_key p)) x03); [reflexivity|].
    destruct (beq (k_type (p_key p)) x04); [reflexivity|].
    destruct (beq (k_type (p_key p)) x05); [reflexivity|].
    destruct (beq (k_type (p_key p)) x06); [reflexivity|].
    destruct (beq (k_type (p_key p)) x07); [reflexivity|].
    destruct (beq (k_type (p_key p)) x08); [reflexivity|].
    destruct (beq (k_type (p_key p)) x0a); [reflexivity|].
    destruct (beq (k_type (p_key p)) x0b); [reflexivity|].
    destruct (beq (k_type (p_key p)) x0c); [reflexivity|].
    destruct (beq (k_type (p_key p)) x0d); [reflexivity|].
    destruct (beq (k_type (p_key p)) x13); [reflexivity|].
    destruct (beq (k_type (p_key p)) x14); [reflexivity|].
    destruct (beq (k_type (p_key p)) x15); [reflexivity|].
    destruct (beq (k_type (p_key p)) x16); [reflexivity|].
    destruct (beq (k_type (p_key p)) x17); [reflexivity|].
    destruct (beq (k_type (p_key p)) x18); [reflexivity|].
    destruct (feat_sp && beq (k_type (p_key p)) x1d); [reflexivity|].
    destruct (feat_sp && beq (k_type (p_key p)) x1e); [reflexivity|].
    destruct (beq (k_type (p_key p)) xfc); [reflexivity|].
    reflexivity.
Qed.

Lemma islot_IPreviousTxid t : x0e = t <-> islot t = IPreviousTxid.
Proof. destruct feat_sp eqn:F; slot_tac islot F. Qed.
Lemma islot_ISpentOutputIndex t : x0f = t <-> islot t = ISpentOutputIndex.
Proof. destruct feat_sp eqn:F; slot_tac islot F. Qed.
Lemma islot_ISequence t : x10 = t <-> islot t = ISequence.
Proof. destruct feat_sp eqn:F; slot_tac islot F. Qed.
Lemma islot_IMinTime t : x11 = t <-> islot t = IMinTime.
Proof. destruct feat_sp eqn:F; slot_tac islot F. Qed.
Lemma islot_IMinHeight t : x12 = t <-> islot t = IMinHeight.
Proof. destruct feat_sp eqn:F; slot_tac islot F. Qed.
Lemma islot_INonWitnessUtxo t : x00 = t <-> islot t = INonWitnessUtxo.
Proof. destruct feat_sp eqn:F; slot_tac islot F. Qed.
Lemma islot_IWitnessUtxo t : x01 = t <-> islot t = IWitnessUtxo.
Proof. destruct feat_sp eqn:F; slot_tac islot F. Qed.
Lemma islot_IPartialSigs t : x02 = t <-> islot t = IPartialSigs.
Proof. destruct feat_sp eqn:F; slot_tac islot F. Qed.
Lemma islot_ISighashType t : x03 = t <-> islot t = ISighashType.
Proof. destruct feat_sp eqn:F; slot_tac islot F. Qed.
Lemma islot_IRedeemScript t : x04 = t <-> islot t = IRedeemScript.
Proof. destruct feat_sp eqn:F; slot_tac islot F. Qed.
Lemma islot_IWitnessScript t : x05 = t <-> islot t = IWitnessScript.
Proof. destruct feat_sp eqn:F; slot_tac islot F. Qed.
Lemma islot_IBip32 t : x06 = t <-> islot t = IBip32.
Proof. destruct feat_sp eqn:F; slot_tac islot F. Qed.
Lemma islot_IFinalScriptSig t : x07 = t <-> islot t = IFinalScriptSig.
Proof. destruct feat_sp eqn:F; slot_tac islot F. Qed.
Lemma islot_IFinalScriptWitness t : x08 = t <-> islot t = IFinalScriptWitness.
Proof. destruct feat_sp eqn:F; slot_tac islot F. Qed.
Lemma islot_IRipemd160 t : x0a = t <-> islot t = IRipemd160.
Proof. destruct feat_sp eqn:F; slot_tac islot F. Qed.
Lemma islot_ISha256 t : x0b = t <-> islot t = ISha256.
Proof. destruct feat_sp eqn:F; slot_tac islot F. Qed.
Lemma islot_IHash160 t : x0c = t <-> islot t = IHash160.
Proof. destruct feat_sp eqn:F; slot_tac islot F. Qed.
Lemma islot_IHash256 t : x0d = t <-> islot t = IHash256.
Proof. destruct feat_sp eqn:F; slot_tac islot F. Qed.
Lemma islot_ITapKeySig t : x13 = t <-> islot t = ITapKeySig.
Proof. destruct feat_sp eqn:F; slot_tac islot F. Qed.
Lemma islot_ITapScriptSigs t : x14 = t <-> islot t = ITapScriptSigs.
Proof. destruct feat_sp eqn:F; slot_tac islot F. Qed.
Lemma islot_ITapScripts t : x15 = t <-> islot t = ITapScripts.
Proof. destruct feat_sp eqn:F; slot_tac islot F. Qed.
Lemma islot_ITapKeyOrigins t : x16 = t <-> islot t = ITapKeyOrigins.
Proof. destruct feat_sp eqn:F; slot_tac islot F. Qed.
Lemma islot_ITapInternalKey t : x17 = t <-> islot t = ITapInternalKey.
Proof. destruct feat_sp eqn:F; slot_tac islot F. Qed.
Lemma islot_ITapMerkleRoot t : x18 = t <-> islot t = ITapMerkleRoot.
Proof. destruct feat_sp eqn:F; slot_tac islot F. Qed.
Lemma islot_ISpEcdhShares t : feat_sp = true -> (x1d = t <-> islot t = ISpEcdhShares).
Proof. intros F. slot_tac islot F. Qed.
Lemma islot_ISpEcdhShares_off t : feat_sp = false -> islot t <> ISpEcdhShares.
Proof. intros F. slot_off islot F. Qed.
Lemma islot_ISpDleqProofs t : feat_sp = true -> (x1e = t <-> islot t = ISpDleqProofs).
Proof. intros F. slot_tac islot F. Qed.
Lemma islot_ISpDleqProofs_off t : feat_sp = false -> islot t <> ISpDleqProofs.
Proof. intros F. slot_off islot F. Qed.
Lemma islot_IProprietaries t : xfc = t <-> islot t = IProprietaries.
Proof. destruct feat_sp eqn:F; slot_tac islot F. Qed.

Lemma ispec f : fspec (fun t => islot t = f) (iupd f) (ifpairs f) (iempty f) (ifwf f) (inorm f).
Proof.
  destruct f; cbn [iupd ifpairs iempty ifwf inorm ity].

  - apply (fspec_types (eq x0e)); [intros t; apply islot_IPreviousTxid|]. exact (placeholder_fspec x0e (bytes_eqb TXID_ZERO) TXID_ZERO (wf_bytes_n 32) ser_hash (de_hash 32) (hash_codec VLIM 32 ltac:(lims; lia)) eq_refl eq_refl).
  - apply (fspec_types (eq x0f)); [intros t; apply islot_ISpentOutputIndex|]. exact (placeholder_fspec x0f (N.eqb U32_MAX) U32_MAX wf_u32 ser_u32 de_u32 (u32_codec VLIM ltac:(lims; lia)) eq_refl eq_refl).
  - apply (fspec_types (eq x10)); [intros t; apply islot_ISequence|]. exact (opt_fspec x10 _ _ _ (u32_codec VLIM ltac:(lims; lia))).
  - apply (fspec_types (eq x11)); [intros t; apply islot_IMinTime|]. exact (opt_fspec x11 _ _ _ time_codec).
  - apply (fspec_types (eq x12)); [intros t; apply islot_IMinHeight|]. exact (opt_fspec x12 _ _ _ height_codec).
  - apply (fspec_types (eq x00)); [intros t; apply islot_INonWitnessUtxo|]. exact (opt_fspec x00 _ _ _ tx_codec).
  - apply (fspec_types (eq x01)); [intros t; apply islot_IWitnessUtxo|]. exact (opt_fspec x01 _ _ _ txout_codec).
  - apply (fspec_types (eq x02)); [intros t; apply islot_IPartialSigs|]. exact (map_fspec x02 sk_pubkey _ _ _ _ _ _ sk_pubkey_inj (pubkey_codec KLIM ltac:(lims; lia)) esig_codec pubkey_nonempty).
  - apply (fspec_types (eq x03)); [intros t; apply islot_ISighashType|]. exact (opt_fspec x03 _ _ _ (u32_codec VLIM ltac:(lims; lia))).
  - apply (fspec_types (eq x04)); [intros t; apply islot_IRedeemScript|]. exact (opt_fspec x04 _ _ _ script_codec).
  - apply (fspec_types (eq x05)); [intros t; apply islot_IWitnessScript|]. exact (opt_fspec x05 _ _ _ script_codec).
  - apply (fspec_types (eq x06)); [intros t; apply islot_IBip32|]. exact (map_fspec x06 bkey _ _ _ _ _ _ bkey_inj (secp_codec KLIM ltac:(lims; lia)) keysource_codec secp_nonempty).
  - apply (fspec_types (eq x07)); [intros t; apply islot_IFinalScriptSig|]. exact (opt_fspec x07 _ _ _ script_codec).
  - apply (fspec_types (eq x08)); [intros t; apply islot_IFinalScriptWitness|]. exact (opt_fspec x08 _ _ _ witness_codec).
  - apply (fspec_types (eq x0a)); [intros t; apply islot_IRipemd160|]. exact (hash_fspec x0a 20 ripemd160 _ ltac:(lia)).
  - apply (fspec_types (eq x0b)); [intros t; apply islot_ISha256|]. exact (hash_fspec x0b 32 sha256 _ ltac:(lia)).
  - apply (fspec_types (eq x0c)); [intros t; apply islot_IHash160|]. exact (hash_fspec x0c 20 hash160 _ ltac:(lia)).
  - apply (fspec_types (eq x0d)); [intros t; apply islot_IHash256|]. exact (hash_fspec x0d 32 sha256d _ ltac:(lia)).
  - apply (fspec_types (eq x13)); [intros t; apply islot_ITapKeySig|]. exact (opt_fspec x13 _ _ _ tsig_codec).
  - apply (fspec_types (eq x14)); [intros t; apply islot_ITapScriptSigs|]. exact (map_fspec x14 sk_xleaf _ _ _ _ _ _ sk_xleaf_inj (xleaf_codec KLIM ltac:(lims; lia)) tsig_codec xleaf_nonempty).
  - apply (fspec_types (eq x15)); [intros t; apply islot_ITapScripts|]. exact (map_fspec x15 sk_controlblock _ _ _ _ _ _ sk_controlblock_inj (controlblock_codec KLIM ltac:(lims; lia)) leafscript_codec controlblock_nonempty).
  - apply (fspec_types (eq x16)); [intros t; apply islot_ITapKeyOrigins|]. exact (map_fspec x16 bkey _ _ _ _ _ _ bkey_inj (xonly_codec KLIM ltac:(lims; lia)) taporigin_codec xonly_nonempty).
  - apply (fspec_types (eq x17)); [intros t; apply islot_ITapInternalKey|]. exact (opt_fspec x17 _ _ _ (xonly_codec VLIM ltac:(lims; lia))).
  - apply (fspec_types (eq x18)); [intros t; apply islot_ITapMerkleRoot|]. exact (opt_fspec x18 _ _ _ (hash_codec VLIM 32 ltac:(lims; lia))).
  - destruct feat_sp eqn:F.
    + apply (fspec_types (eq x1d)); [intros t; now apply islot_ISpEcdhShares|]. exact (sp_fspec x1d wf_secp ser_secp de_cpk 33 cpk_rt cpk_len cpk_wf).
    + apply (fspec_types (fun _ => False)); [intros t; split; [tauto|now apply islot_ISpEcdhShares_off]|].
      apply (fspec_off _ _ _ _ _ _ (sp_fspec x1d wf_secp ser_secp de_cpk 33 cpk_rt cpk_len cpk_wf)).
  - destruct feat_sp eqn:F.
    + apply (fspec_types (eq x1e)); [intros t; now apply islot_ISpDleqProofs|]. exact (sp_fspec x1e wf_dleq ser_dleq dleq_try_from 64 dleq_rt dleq_len dleq_wf).
    + apply (fspec_types (fun _ => False)); [intros t; split; [tauto|now apply islot_ISpDleqProofs_off]|].
      apply (fspec_off _ _ _ _ _ _ (sp_fspec x1e wf_dleq ser_dleq dleq_try_from 64 dleq_rt dleq_len dleq_wf)).
  - apply (fspec_types (eq xfc)); [intros t; apply islot_IProprietaries|]. exact (prop_fspec IDeser).
  - exact (unknown_fspec (fun t => islot t = IUnknowns)).
Qed.

(** Fields whose duplicate pairs can go unnoticed. *)
Definition ispecial (f : ifield) : bool :=
  match f with IPreviousTxid | ISpentOutputIndex => true | _ => false end.

Lemma idup f : ispecial f = false -> fdup (fun t => islot t = f) (iupd f).
Proof.
  destruct f; intros Hsp; try discriminate Hsp; clear Hsp; cbn [iupd ifwf ity].

  - apply (fdup_types (eq x10)); [intros t; apply islot_ISequence|]. exact (opt_fdup x10 _).
  - apply (fdup_types (eq x11)); [intros t; apply islot_IMinTime|]. exact (opt_fdup x11 _).
  - apply (fdup_types (eq x12)); [intros t; apply islot_IMinHeight|]. exact (opt_fdup x12 _).
  - apply (fdup_types (eq x00)); [intros t; apply islot_INonWitnessUtxo|]. exact (opt_fdup x00 _).
  - apply (fdup_types (eq x01)); [intros t; apply islot_IWitnessUtxo|]. exact (opt_fdup x01 _).
  - apply (fdup_types (eq x02)); [intros t; apply islot_IPartialSigs|]. exact (map_fdup x02 sk_pubkey _ _ sk_pubkey_inj).
  - apply (fdup_types (eq x03)); [intros t; apply islot_ISighashType|]. exact (opt_fdup x03 _).
  - apply (fdup_types (eq x04)); [intros t; apply islot_IRedeemScript|]. exact (opt_fdup x04 _).
  - apply (fdup_types (eq x05)); [intros t; apply islot_IWitnessScript|]. exact (opt_fdup x05 _).
  - apply (fdup_types (eq x06)); [intros t; apply islot_IBip32|]. exact (map_fdup x06 bkey _ _ bkey_inj).
  - apply (fdup_types (eq x07)); [intros t; apply islot_IFinalScriptSig|]. exact (opt_fdup x07 _).
  - apply (fdup_types (eq x08)); [intros t; apply islot_IFinalScriptWitness|]. exact (opt_fdup x08 _).
  - apply (fdup_types (eq x0a)); [intros t; apply islot_IRipemd160|]. exact (hash_fdup x0a 20 ripemd160 _ ltac:(lia)).
  - apply (fdup_types (eq x0b)); [intros t; apply islot_ISha256|]. exact (hash_fdup x0b 32 sha256 _ ltac:(lia)).
  - apply (fdup_types (eq x0c)); [intros t; apply islot_IHash160|]. exact (hash_fdup x0c 20 hash160 _ ltac:(lia)).
  - apply (fdup_types (eq x0d)); [intros t; apply islot_IHash256|]. exact (hash_fdup x0d 32 sha256d _ ltac:(lia)).
  - apply (fdup_types (eq x13)); [intros t; apply islot_ITapKeySig|]. exact (opt_fdup x13 _).
  - apply (fdup_types (eq x14)); [intros t; apply islot_ITapScriptSigs|]. exact (map_fdup x14 sk_xleaf _ _ sk_xleaf_inj).
  - apply (fdup_types (eq x15)); [intros t; apply islot_ITapScripts|]. exact (map_fdup x15 sk_controlblock _ _ sk_controlblock_inj).
  - apply (fdup_types (eq x16)); [intros t; apply islot_ITapKeyOrigins|]. exact (map_fdup x16 bkey _ _ bkey_inj).
  - apply (fdup_types (eq x17)); [intros t; apply islot_ITapInternalKey|]. exact (opt_fdup x17 _).
  - apply (fdup_types (eq x18)); [intros t; apply islot_ITapMerkleRoot|]. exact (opt_fdup x18 _).
  - destruct feat_sp eqn:F.
    + apply (fdup_types (eq x1d)); [intros t; now apply islot_ISpEcdhShares|]. exact (sp_fdup x1d de_cpk 33).
    + apply (fdup_types (fun _ => False)); [intros t; split; [tauto|now apply islot_ISpEcdhShares_off]|]. apply fdup_none.
  - destruct feat_sp eqn:F.
    + apply (fdup_types (eq x1e)); [intros t; now apply islot_ISpDleqProofs|]. exact (sp_fdup x1e dleq_try_from 64).
    + apply (fdup_types (fun _ => False)); [intros t; split; [tauto|now apply islot_ISpDleqProofs_off]|]. apply fdup_none.
  - apply (fdup_types (eq xfc)); [intros t; apply islot_IProprietaries|]. exact (prop_fdup IDeser).
  - exact (unknown_fdup (fun t => islot t = IUnknowns)).
Qed.

Lemma icomm f : ispecial f = false -> fcomm (fun t => islot t = f) (iupd f) (ifwf f).
Proof.
  destruct f; intros Hsp; try discriminate Hsp; clear Hsp; cbn [iupd ifwf ity].

  - apply (fcomm_types (eq x10)); [intros t; apply islot_ISequence|]. exact (opt_fcomm x10 _ _).
  - apply (fcomm_types (eq x11)); [intros t; apply islot_IMinTime|]. exact (opt_fcomm x11 _ _).
  - apply (fcomm_types (eq x12)); [intros t; apply islot_IMinHeight|]. exact (opt_fcomm x12 _ _).
  - apply (fcomm_types (eq x00)); [intros t; apply islot_INonWitnessUtxo|]. exact (opt_fcomm x00 _ _).
  - apply (fcomm_types (eq x01)); [intros t; apply islot_IWitnessUtxo|]. exact (opt_fcomm x01 _ _).
  - apply (fcomm_types (eq x02)); [intros t; apply islot_IPartialSigs|]. exact (map_fcomm x02 sk_pubkey _ _ _ _ sk_pubkey_inj).
  - apply (fcomm_types (eq x03)); [intros t; apply islot_ISighashType|]. exact (opt_fcomm x03 _ _).
  - apply (fcomm_types (eq x04)); [intros t; apply islot_IRedeemScript|]. exact (opt_fcomm x04 _ _).
  - apply (fcomm_types (eq x05)); [intros t; apply islot_IWitnessScript|]. exact (opt_fcomm x05 _ _).
  - apply (fcomm_types (eq x06)); [intros t; apply islot_IBip32|]. exact (map_fcomm x06 bkey _ _ _ _ bkey_inj).
  - apply (fcomm_types (eq x07)); [intros t; apply islot_IFinalScriptSig|]. exact (opt_fcomm x07 _ _).
  - apply (fcomm_types (eq x08)); [intros t; apply islot_IFinalScriptWitness|]. exact (opt_fcomm x08 _ _).
  - apply (fcomm_types (eq x0a)); [intros t; apply islot_IRipemd160|]. exact (hash_fcomm x0a 20 ripemd160 _ ltac:(lia)).
  - apply (fcomm_types (eq x0b)); [intros t; apply islot_ISha256|]. exact (hash_fcomm x0b 32 sha256 _ ltac:(lia)).
  - apply (fcomm_types (eq x0c)); [intros t; apply islot_IHash160|]. exact (hash_fcomm x0c 20 hash160 _ ltac:(lia)).
  - apply (fcomm_types (eq x0d)); [intros t; apply islot_IHash256|]. exact (hash_fcomm x0d 32 sha256d _ ltac:(lia)).
  - apply (fcomm_types (eq x13)); [intros t; apply islot_ITapKeySig|]. exact (opt_fcomm x13 _ _).
  - apply (fcomm_types (eq x14)); [intros t; apply islot_ITapScriptSigs|]. exact (map_fcomm x14 sk_xleaf _ _ _ _ sk_xleaf_inj).
  - apply (fcomm_types (eq x15)); [intros t; apply islot_ITapScripts|]. exact (map_fcomm x15 sk_controlblock _ _ _ _ sk_controlblock_inj).
  - apply (fcomm_types (eq x16)); [intros t; apply islot_ITapKeyOrigins|]. exact (map_fcomm x16 bkey _ _ _ _ bkey_inj).
  - apply (fcomm_types (eq x17)); [intros t; apply islot_ITapInternalKey|]. exact (opt_fcomm x17 _ _).
  - apply (fcomm_types (eq x18)); [intros t; apply islot_ITapMerkleRoot|]. exact (opt_fcomm x18 _ _).
  - destruct feat_sp eqn:F.
    + apply (fcomm_types (eq x1d)); [intros t; now apply islot_ISpEcdhShares|]. exact (sp_fcomm x1d wf_secp de_cpk 33).
    + apply (fcomm_types (fun _ => False)); [intros t; split; [tauto|now apply islot_ISpEcdhShares_off]|]. apply fcomm_none.
  - destruct feat_sp eqn:F.
    + apply (fcomm_types (eq x1e)); [intros t; now apply islot_ISpDleqProofs|]. exact (sp_fcomm x1e wf_dleq dleq_try_from 64).
    + apply (fcomm_types (fun _ => False)); [intros t; split; [tauto|now apply islot_ISpDleqProofs_off]|]. apply fcomm_none.
  - apply (fcomm_types (eq xfc)); [intros t; apply islot_IProprietaries|]. exact (prop_fcomm IDeser).
  - exact (unknown_fcomm (fun t => islot t = IUnknowns)).
Qed.

Lemma iraw_IProprietaries : fraw (fun t => islot t = IProprietaries) (iupd IProprietaries) (ifpairs IProprietaries).
Proof. apply (fraw_types (eq xfc)); [intros t; apply islot_IProprietaries|]. exact (prop_fraw IDeser). Qed.

Lemma iraw_IUnknowns : fraw (fun t => islot t = IUnknowns) (iupd IUnknowns) (ifpairs IUnknowns).
Proof. exact (unknown_fraw (fun t => islot t = IUnknowns)). Qed.

Lemma iorder_nodup : NoDup iorder.
Proof. apply (NoDup_nodup_dec ifield_dec). vm_compute. reflexivity. Qed.
Lemma iorder_all f : In f iorder.
Proof. apply (in_dec_true ifield_dec). destruct f; vm_compute; reflexivity. Qed.

Lemma iinit_empty f : iget f input_invalid = iempty f.
Proof. destruct f; reflexivity. Qed.

Lemma ipairs_eq s : input_pairs s = spairs ity iget ifpairs iorder s.
Proof. unfold input_pairs, spairs, iorder. cbn [flat_map ifpairs iget]. rewrite app_nil_r. reflexivity. Qed.

End Facts.
