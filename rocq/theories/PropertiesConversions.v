(** C142: the hex text of a PSBT.  C143: the texts of the signer checks.  C144: conversions lose
    nothing. *)
From Coq Require Import Strings.String.
From Verif Require Import Base OMap Consensus ConsensusFacts Ext ExtInstance Raw RawFacts TapTree TapTreeFacts Serialize SerializeFacts MapCodec
  SighashType V2Global V2Input V2Output V2Psbt V2Roles SpecCodec SpecCodecFacts SpecPsbt SpecRoles V2PsbtFacts V2WireFacts V2RolesFacts
  Script V2Sign SignInstance SpecSign V2SignFacts V0Error V0Input V0Output V0Psbt SpecPsbt0 V0PsbtFacts V0WireFacts V0PairFacts
  SpecExtract0 V0ExtractFacts V0Sign SchnorrInstance SpecSign0 V0SignFacts V0SignResultFacts V0CheckFacts V0Finalize SpecFinalize0 V0FinalizeFacts V0Update V0SighashMsgFacts
  SpecText Text TextFacts ErrorText SpecErrorText ErrorTextFacts SpecErrorQuote ErrorQuoteFacts Conversions SpecConversions
  PropertiesV0Check PropertiesSighash PropertiesV0Sign PropertiesV0SighashMsg PropertiesErrorQuote SampleV2 SampleV0.
Local Open Scope N_scope.

(** Used by the examples only; the theorems bind their own. *)
#[local] Existing Instance toy | 100.
#[local] Existing Instance toy_sign | 100.
#[local] Existing Instance toy_schnorr | 100.
#[local] Instance ex_cfg : Cfg | 100 := cfg_of false false.

(** ** C142: the hex text *)

(** It has two digits for each byte of the serialization, and whoever reads them gets the PSBT. *)
Theorem C142_v2 : forall (X : Ext) (L : ExtLaws X) (C : Cfg) p, wf_psbt p ->
  in_hex (psbt_serialize_hex p) (psbt_serialize p)
  /\ forall bs, in_hex (psbt_serialize_hex p) bs -> exists p', psbt_deserialize bs = Ok p' /\ psbt_eq p p'.
Proof.
  intros X L C p W. split; [apply hex_shows|]. intros bs H. rewrite (C138_hex _ _ _ H (hex_shows _)). now apply psbt_roundtrip.
Qed.
Print Assumptions C142_v2.

Theorem C142_v0 : forall (X : Ext) (L : ExtLaws X) p, wf_psbt0 p ->
  in_hex (psbt0_serialize_hex p) (psbt0_serialize p)
  /\ forall bs, in_hex (psbt0_serialize_hex p) bs -> exists p', psbt0_deserialize bs = Ok p' /\ psbt0_eq p p'.
Proof.
  intros X L p W. split; [apply hex_shows|]. intros bs H. rewrite (C138_hex _ _ _ H (hex_shows _)). now apply psbt0_roundtrip.
Qed.
Print Assumptions C142_v0.

(** PSBTs with the same hex text have the same base64 text, and the other way round. *)
Theorem C142_base64 : forall (X : Ext) (C : Cfg),
  (forall p q, psbt_serialize_hex p = psbt_serialize_hex q <-> psbt_to_string p = psbt_to_string q)
  /\ (forall p q, psbt0_serialize_hex p = psbt0_serialize_hex q <-> psbt0_to_string p = psbt0_to_string q).
Proof.
  assert (H : forall a b, hex_text a = hex_text b <-> b64_encode a = b64_encode b).
  { intros a b. split.
    - intros H. now rewrite (hex_text_inj _ _ H).
    - intros H. assert (Ha : b64_decode (b64_encode a) = Ok a) by apply base64_decode_iff, encode_base64.
      assert (Hb : b64_decode (b64_encode b) = Ok b) by apply base64_decode_iff, encode_base64.
      rewrite H, Hb in Ha. injection Ha as <-. reflexivity. }
  intros X C. split; intros p q; apply H.
Qed.
Print Assumptions C142_base64.

Example C142_example : wf_psbt sample /\ wf_psbt0 sample0
  /\ firstn 14 (psbt_serialize_hex sample) = str "70736274ff01fb" /\ firstn 14 (psbt0_serialize_hex sample0) = str "70736274ff0100"
  /\ blen (psbt_serialize_hex sample) = 2 * blen (psbt_serialize sample).
Proof.
  split; [apply (deserialize_wf (L := toy_laws) (psbt_serialize sample)); vm_compute; reflexivity|].
  split; [apply (deserialize0_wf (L := toy_laws) (psbt0_serialize sample0)); vm_compute; reflexivity|].
  repeat split; vm_compute; reflexivity.
Qed.

(** ** C143: the texts of the signer checks *)

Theorem C143_says_truth_partial : forall (X : Ext) (L : ExtLaws X) p e, one_map_per_input p ->
  signer_checks p = Err e -> e <> SCWitnessScriptMismatchShWsh ->
  exists s, In s (spends p) /\ check_words s (checks_text e).
Proof.
  intros X L p e Hone H Hne. apply (checks_err_iff L p e Hone) in H as (l1 & s & l2 & E & _ & He).
  exists s. split; [rewrite E; apply in_elt|].
  destruct He as [Hu Hk|t _ Ht Hx|Hu _ _|u r _ _ Hu Hr Hx|u h w _ Hu Hh _ Hw Hx|u r w _ Hu Hr Hx Hw]; cbn [checks_text].
  - now constructor.
  - econstructor; eassumption.
  - now constructor.
  - eapply WRedeem; eassumption.
  - eapply WWitness; eassumption.
  - now destruct Hne.
Qed.
Print Assumptions C143_says_truth_partial.

(** The text about nested scripts is wrong whenever it is shown: the input has a redeem script with
    the hash in the script pubkey. *)
Theorem C143_nested : forall (X : Ext) (L : ExtLaws X) p, one_map_per_input p ->
  signer_checks p = Err SCWitnessScriptMismatchShWsh ->
  exists l1 s l2 u r, spends p = l1 ++ s :: l2 /\ Forall checked l1
    /\ i0_witness_utxo (snd s) = Some u /\ i0_redeem_script (snd s) = Some r /\ to_script u = p2sh_script (hash160 r)
    /\ ~ check_words s (checks_text SCWitnessScriptMismatchShWsh).
Proof.
  intros X L p Hone H. apply (checks_err_iff L p _ Hone) in H as (l1 & s & l2 & E & Hl & He).
  inversion He as [| | | | |u r w _ Hu Hr Hx Hw]. exists l1, s, l2, u, r. repeat (split; [assumption|]).
  intros Hc. cbn [checks_text] in Hc. inversion Hc as [| | | | |u' r' Hu' _ Hr' Hx' Ht]; try discriminate.
  rewrite Hu in Hu'. injection Hu' as <-. rewrite Hr in Hr'. injection Hr' as <-. now destruct Hx'.
Qed.
Print Assumptions C143_nested.

Theorem C143_says_truth_refuted : exists (X : Ext) (L : ExtLaws X) p e,
  wf_psbt0 p /\ Forall consistent (spends p) /\ signer_checks p = Err e
  /\ ~ exists s, In s (spends p) /\ check_words s (checks_text e).
Proof.
  destruct C49_complete_refuted as (X & L & p & _ & (W & Hc & _ & _ & H) & _). exists X, L, p, SCWitnessScriptMismatchShWsh.
  repeat (split; [assumption|]). intros (s & Hin & Hw). cbn [checks_text] in Hw. inversion Hw as [| | | | |u r Hu _ Hr Hx Ht]; try discriminate.
  rewrite Forall_forall in Hc. destruct (cs_redeem s (Hc s Hin) r Hr) as (v & Hv & Hs).
  assert (Hf : funds0 s u) by now left. rewrite (funds0_fun s v u Hv Hf) in Hs. contradiction.
Qed.
Print Assumptions C143_says_truth_refuted.

(** Texts of different errors differ. *)
Theorem C143_distinct : forall a b, checks_text a = checks_text b -> a = b.
Proof. intros [] []; vm_compute; intros H; reflexivity || discriminate H. Qed.
Print Assumptions C143_distinct.

Example C143_example : signer_checks (ck_of [ck_wpkh; ck_witness (p2sh_script (repeat x11 20)) (Some [x51]) None]) = Err SCRedeemScriptMismatch
  /\ one_map_per_input (ck_of [ck_wpkh; ck_witness (p2sh_script (repeat x11 20)) (Some [x51]) None])
  /\ signer_checks (ck_of [ck_wpkh; ck_shwsh]) = Err SCWitnessScriptMismatchShWsh /\ one_map_per_input (ck_of [ck_wpkh; ck_shwsh]).
Proof. repeat split; vm_compute; reflexivity. Qed.

(** ** C144: conversions lose nothing *)

Lemma type_field field :
  let r := match field with Some n => ok_or (sighash_tap_ty n) n | None => Ok TDefault end in
  (forall ty, (exists t, r = Ok t /\ from_tap t = ty) <-> taproot_type_of field ty)
  /\ (forall n, r = Err n <-> field = Some n /\ forall ty, ~ taproot_type_of field ty)
  /\ r <> Panic.
Proof.
  cbv zeta.
  assert (Hr : forall t, match field with Some n => ok_or (sighash_tap_ty n) n | None => Ok TDefault end = Ok t
                         <-> match field with Some n => n = tap_num t | None => t = TDefault end).
  { intros t. destruct field as [n|]; [|split; [now intros [= <-]|now intros ->]].
    rewrite <- tap_ty_iff. destruct (sighash_tap_ty n); cbn [ok_or]; split; congruence. }
  assert (Hty : forall ty, (exists t, match field with Some n => ok_or (sighash_tap_ty n) n | None => Ok TDefault end = Ok t /\ from_tap t = ty)
                           <-> taproot_type_of field ty).
  { intros ty. unfold taproot_type_of, from_tap. split.
    - intros (t & H & <-). apply Hr in H. destruct field as [n|]; subst.
      + split; [|now left]. destruct t; cbn; auto 12.
      + split; [now left|]. now right.
    - intros [Hin H]. assert (Ht : exists t, tap_num t = ty).
      { cbn in Hin. repeat destruct Hin as [<-|Hin]; try contradiction;
          [exists TDefault|exists TAll|exists TNone|exists TSingle|exists TAllAcp|exists TNoneAcp|exists TSingleAcp]; reflexivity. }
      destruct Ht as [t Ht]. exists t. split; [|assumption]. apply Hr. destruct H as [->|[-> ->]]; [auto|]. now destruct t. }
  split; [exact Hty|]. split.
  - intros n. split.
    + intros H. split.
      * destruct field as [m|]; [|discriminate]. destruct (sighash_tap_ty m); cbn [ok_or] in H; congruence.
      * intros ty Hc. apply Hty in Hc as (t & Hc & _). congruence.
    + intros [-> H]. destruct (sighash_tap_ty n) as [t|] eqn:E; [|reflexivity]. destruct (H (from_tap t)). apply Hty. exists t. now split.
  - destruct field as [n|]; [|discriminate]. destruct (sighash_tap_ty n); discriminate.
Qed.

(** The taproot sighash type of an input. *)
Theorem C144_taproot_type : forall i,
  (forall ty, (exists t, input_taproot_hash_ty i = Ok t /\ from_tap t = ty) <-> taproot_type_of (in_sighash_type i) ty)
  /\ (forall n, input_taproot_hash_ty i = Err n <-> in_sighash_type i = Some n /\ forall ty, ~ taproot_type_of (in_sighash_type i) ty)
  /\ input_taproot_hash_ty i <> Panic.
Proof. intros i. exact (type_field (in_sighash_type i)). Qed.
Print Assumptions C144_taproot_type.

Theorem C144_taproot_type_v0 : forall i,
  (forall ty, (exists t, input0_taproot_hash_ty_or i = Ok t /\ from_tap t = ty) <-> taproot_type_of (i0_sighash_type i) ty)
  /\ (forall n, input0_taproot_hash_ty_or i = Err n <-> i0_sighash_type i = Some n /\ forall ty, ~ taproot_type_of (i0_sighash_type i) ty)
  /\ input0_taproot_hash_ty_or i <> Panic.
Proof. intros i. exact (type_field (i0_sighash_type i)). Qed.
Print Assumptions C144_taproot_type_v0.

(** The message of a sighash is the one that the signer signs. *)
Theorem C144_message : forall (X : Ext) (S : SignExt) (T : SchnorrExt) (LA : AnyoneLaws T) p n s leaf us r,
  one_map_per_input p -> spent_outputs p us -> spend_at p n s ->
  psbt0_sighash_msg p n (p0_unsigned_tx p) leaf = Ok r ->
  (spends_ecdsa s -> exists ty, to_sign0 p (p0_unsigned_tx p) n (to_secp_msg r) ty)
  /\ (spends_taproot s -> exists ty, taproot_to_sign p n leaf (to_secp_msg r) ty).
Proof.
  intros X S T LA p n s leaf us r Hone Hus Hs H. split; intros Hk.
  - destruct (C104_ecdsa X S T p n s leaf us (to_secp_msg r) Hone Hus Hs Hk) as (H1 & H2 & H3).
    destruct r as [m|m|m]; cbn [to_secp_msg] in *; [contradiction|now apply H1|now apply H2].
  - apply (C104_taproot X S T LA p n s leaf us Hone Hus Hs Hk) in H as (m & ty & -> & H). eauto.
Qed.
Print Assumptions C144_message.

(** Proofs: exactly the strings of 64 bytes, which come out as they went in. *)
Theorem C144_proof : forall bs,
  (forall d, dleq_from_slice bs = Ok d <-> length bs = 64%nat /\ dleq_as_bytes d = bs)
  /\ (forall e, dleq_from_slice bs = Err e -> length bs <> 64%nat
       /\ exists g x, in_decimal g (N.of_nat (length bs)) /\ in_decimal x 64
            /\ dleq_length_text e = str "invalid length for BIP-375 type: got " ++ g ++ str ", expected " ++ x).
Proof.
  intros bs. unfold dleq_from_slice, dleq_try_from, dleq_as_bytes. unfold blen. split.
  - intros d. destruct (_ =? 64) eqn:E; cbn [ok_or].
    + split; [intros [= <-]; split; [lia|reflexivity]|now intros [_ ->]].
    + split; [discriminate|intros [H _]; lia].
  - intros e. destruct (_ =? 64) eqn:E; cbn [ok_or]; [discriminate|]. intros [= <-]. split; [lia|].
    exists (dec_text (N.of_nat (length bs))), (dec_text 64). split; [apply dec_text_shows|]. split; [apply dec_text_shows|reflexivity].
Qed.
Print Assumptions C144_proof.

(** Versions: exactly 0 and 2. *)
Theorem C144_version : forall n,
  (forall v, version_try_from n = Ok v <-> (n = 0 \/ n = 2) /\ version_to_u32 v = n)
  /\ (forall e, version_try_from n = Err e -> e = SUnsupportedVersion n /\ ~ (n = 0 \/ n = 2)
       /\ exists d, in_decimal d n /\ unsupported_version_text n = str "unsupported version, we only support v0 and v2: " ++ d).
Proof.
  intros n. unfold version_try_from, version_to_u32. split.
  - intros v. destruct (n =? 0) eqn:E0; [|destruct (n =? 2) eqn:E2].
    + split; [intros [= <-]; lia|intros [_ ->]; f_equal; lia].
    + split; [intros [= <-]; lia|intros [_ ->]; f_equal; lia].
    + split; [discriminate|lia].
  - intros e. destruct (n =? 0) eqn:E0; [discriminate|]. destruct (n =? 2) eqn:E2; [discriminate|]. intros [= <-]. split; [reflexivity|].
    split; [lia|]. exists (dec_text n). split; [apply dec_text_shows|reflexivity].
Qed.
Print Assumptions C144_version.

Example C144_example :
  input_taproot_hash_ty (set_in_sighash_type (Some 131) (input_new (txid_a, 0))) = Ok TSingleAcp
  /\ input0_taproot_hash_ty_or (set_i0_sighash_type (Some 4) input0_default) = Err 4
  /\ dleq_from_slice (repeat x07 64) = Ok (repeat x07 64)
  /\ (exists e, dleq_from_slice [x07] = Err e /\ dleq_length_text e = str "invalid length for BIP-375 type: got 1, expected 64")
  /\ version_try_from 2 = Ok 2
  /\ unsupported_version_text 1 = str "unsupported version, we only support v0 and v2: 1".
Proof. repeat (split; [vm_compute; reflexivity|]). split; [eexists; split; vm_compute; reflexivity|]. split; vm_compute; reflexivity. Qed.

(** The hypotheses of [C144_message] hold for the PSBT of [C104_example], with inputs of both kinds. *)
Example C144_message_example : one_map_per_input ex0_all
  /\ spent_outputs ex0_all (map (fun i => match i0_witness_utxo i with Some u => u | None => TxOut 0 [] end) (p0_inputs ex0_all))
  /\ (exists r, psbt0_sighash_msg ex0_all 1 (p0_unsigned_tx ex0_all) None = Ok r
        /\ to_secp_msg r = segwit_digest (p0_unsigned_tx ex0_all) 1 [x51] 5000 131).
Proof.
  split; [reflexivity|]. split; [unfold spent_outputs; repeat (apply Forall2_cons; [left; reflexivity|]); apply Forall2_nil|].
  eexists. split; vm_compute; reflexivity.
Qed.

(** The outpoint of an input is the one it was made for and the one that its transaction spends. *)
Theorem C144_out_point : forall (C : Cfg),
  (forall op, input_out_point (input_new op) = op)
  /\ (forall i, (ti_txid (input_unsigned_tx_in i), ti_vout (input_unsigned_tx_in i)) = input_out_point i)
  /\ (forall (E : Type) i t, input_signed_tx_in (E := E) i = Ok t -> (ti_txid t, ti_vout t) = input_out_point i).
Proof.
  intros C. split; [now intros []|]. split; [reflexivity|]. intros E i t H. unfold input_signed_tx_in in H.
  repeat (apply bind_ok in H as (? & _ & H)). injection H as <-. reflexivity.
Qed.
Print Assumptions C144_out_point.

Example C144_out_point_example : map input_out_point (p_inputs sample) <> []
  /\ exists t, input_signed_tx_in (E := unit) (set_in_final_script_sig (Some [x51]) (set_in_final_script_witness (Some [[x01]]) (input_new (txid_a, 7)))) = Ok t
     /\ ti_vout t = 7.
Proof. split; [vm_compute; discriminate|]. eexists. split; vm_compute; reflexivity. Qed.
