(** C140 for the public [sighash_ecdsa] of both versions, for the index given to the v0 finalizer and
    for the checked extraction. *)
From Coq Require Import Strings.String.
From Verif Require Import Base OMap Consensus ConsensusFacts Ext ExtInstance Raw RawFacts TapTree SpecCodec Serialize SerializeFacts MapCodec
  V2Global V2Input V2Output V2Psbt V2Roles SpecRoles V2RolesFacts Script SighashType V2Sign SignInstance SpecSign V2SignFacts
  PropertiesV2Sign V2Finalize SpecFinalize PropertiesV2Finalize V0Error V0Input V0Output V0Psbt SpecPsbt0 V0WireFacts SpecExtract0 V0ExtractFacts PropertiesV0Extract PropertiesV0Combine V0Sign SchnorrInstance SpecSign0 V0SignFacts
  V0SignResultFacts V0CheckFacts PropertiesV0Sign V2Finalize SpecFinalizeErr V0Finalize SpecFinalize0 V0FinalizeFacts MsInstance0 PropertiesV0Finalize PropertiesV0Extractor PropertiesV0Spend PropertiesFinalizeErr
  ErrorText SpecErrorQuote ErrorQuoteFacts RoleErrorText SpecRoleErrors SpecDigestErrors PropertiesRoleErrors PropertiesRoleErrors0 SampleV2 SampleV0.
Local Open Scope N_scope.

(** Used by the examples only; the theorems bind their own. *)
#[local] Existing Instance toy | 100.
#[local] Instance ex_cfg : Cfg | 100 := cfg_of false false.
#[local] Existing Instance toy_sign | 100.
#[local] Existing Instance toy_schnorr | 100.
#[local] Existing Instance toy_ms0 | 100.
#[local] Existing Instance toy_nm | 100.

Lemma p2wpkh_code s h : p2wpkh_hash s h -> p2wpkh_script_code s = Some (p2pkh_script h).
Proof. intros H. apply script_code_iff. exists h. auto. Qed.

(** ** Version 2 *)

Theorem C140_sighash : forall (X : Ext) (C : Cfg) (S : SignExt) P p n t e, psbt_sighash_ecdsa p n t = Err e ->
  exists l, role_report P (RSign e) l /\ digest_words P p n t l.
Proof.
  intros X C S P p n t e H. rewrite sighash_slot in H. destruct (slot_res p n) as [[i u]|e'|] eqn:E; cbn [bind] in H; [|injection H as ->|discriminate].
  - apply slot_ok in E as [Hi Hu]. destruct (kind_of _ _) as [o|] eqn:Ek.
    2:{ injection H as <-. eexists. split; [last_text|]. eapply DWKind; [exact Hi|exact Hu|]. intros o Ho. apply kind_of_iff in Ho. congruence. }
    apply kind_of_iff in Ek. assert (Dec : o = Tr \/ o <> Tr) by (destruct o; auto; right; discriminate). destruct Dec as [->|Hne].
    { injection H as <-. eexists. split; [last_text|]. inversion Ek; subst. eapply DWTaproot; eassumption. }
    destruct (input_ecdsa_hash_ty i) as [ty|] eqn:Ety.
    2:{ assert (e = SEInvalidSighashType) as -> by (destruct o; cbn [ok_or bind] in H; congruence). eexists. split; [last_text|].
        eapply DWSign; [exact Hi|]. apply SWType. intros ty Hty. apply hash_ty_iff in Hty. congruence. }
    unfold legacy_signature_hash, p2wpkh_signature_hash, p2wsh_signature_hash in H.
    destruct (N.ltb_spec n (blen (tx_input t))) as [Hlt|Hle].
    + destruct o; cbn [ok_or bind expect] in H; try discriminate.
      * inversion Ek; subst. erewrite p2wpkh_code in H by eassumption. discriminate.
      * destruct (in_witness_script i) as [w|] eqn:Ew; cbn [ok_or bind] in H; [discriminate|]. injection H as <-. eexists. split; [last_text|].
        inversion Ek; subst. eapply DWSign; [exact Hi|]. eapply SWWitness; eauto.
      * inversion Ek as [| | |r h Hp Hr Hh| | |]. rewrite Hr in H. cbn [expect bind] in H. erewrite p2wpkh_code in H by eassumption. discriminate.
      * destruct (in_witness_script i) as [w|] eqn:Ew; cbn [ok_or bind] in H; [discriminate|]. injection H as <-. eexists. split; [last_text|].
        inversion Ek; subst. eapply DWSign; [exact Hi|]. eapply SWWitness; eauto.
      * destruct (in_redeem_script i) as [w|] eqn:Ew; cbn [ok_or bind expect] in H; [discriminate|]. injection H as <-. eexists. split; [last_text|].
        inversion Ek; subst. eapply DWSign; [exact Hi|]. eapply SWRedeem; eauto.
      * congruence.
    + destruct o; cbn [ok_or bind expect] in H; try discriminate.
      * inversion Ek; subst. erewrite p2wpkh_code in H by eassumption. injection H as <-. eexists. split; [next_text; last_text|].
        eapply DWWpkh; eauto.
      * destruct (in_witness_script i) as [w|] eqn:Ew; cbn [ok_or bind] in H; injection H as <-.
        { eexists. split; [next_text; last_text|]. eapply DWWsh; eauto. }
        eexists. split; [last_text|]. inversion Ek; subst. eapply DWSign; [exact Hi|]. eapply SWWitness; eauto.
      * inversion Ek as [| | |r h Hp Hr Hh| | |]. rewrite Hr in H. cbn [expect bind] in H. erewrite p2wpkh_code in H by eassumption.
        injection H as <-. eexists. split; [next_text; last_text|]. eapply DWWpkh; eauto.
      * destruct (in_witness_script i) as [w|] eqn:Ew; cbn [ok_or bind] in H; injection H as <-.
        { eexists. split; [next_text; last_text|]. eapply DWWsh; eauto. }
        eexists. split; [last_text|]. inversion Ek; subst. eapply DWSign; [exact Hi|]. eapply SWWitness; eauto.
      * destruct (in_redeem_script i) as [w|] eqn:Ew; cbn [ok_or bind expect] in H; [discriminate|]. injection H as <-. eexists. split; [last_text|].
        inversion Ek; subst. eapply DWSign; [exact Hi|]. eapply SWRedeem; eauto.
      * congruence.
  - unfold slot_res in E. destruct (checked_input p n) as [i|e'|] eqn:Ec; cbn [map_err bind] in E; [|injection E as <-|discriminate].
    + apply checked_iff in Ec. destruct (input_funding_utxo i) as [u|e'|] eqn:Eu; cbn [map_err bind] in E; [discriminate|injection E as <-|discriminate].
      destruct (utxo_report P i e' Eu) as (w & Hr & Hw). eexists. split; [next_text; exact Hr|]. eapply DWUtxo; eassumption.
    + rewrite checked_cases in Ec. destruct (N.leb_spec (blen (p_inputs p)) n) as [H1|H1].
      * injection Ec as <-. eexists. split; [next_text; last_text|]. apply DWIndex. eapply IWInputs; [exact H1|apply text2_end].
      * destruct (N.leb_spec (g_input_count (p_global p)) n) as [H2|H2]; [|destruct (nth_error _ _); discriminate].
        injection Ec as <-. eexists. split; [next_text; last_text|]. apply DWIndex. eapply IWCount; [exact H1|exact H2|apply text2_end].
Qed.
Print Assumptions C140_sighash.

Example C140_sighash_ex :
  let t := Tx 2 0 [] [] in let ask p n l := exists e, psbt_sighash_ecdsa p n t = Err e /\ role_report ex_printers (RSign e) l in
  ask ex_all 6 [str "index out of bounds"; str "index 6 is out-of-bounds for PSBT inputs vector length 6"]
  /\ ask (ex_of 3 [input_new (repeat x00 32, 4)]) 0 [str "input funding utxo error"; str "no funding utxo found"]
  /\ ask (ex_of 3 [ex_spend 0 (program_script 1 (repeat x44 20))]) 0 [str "unable to determine the output type"]
  /\ ask ex_all 3 [str "attempt to sign an input with the wrong signing algorithm"]
  /\ ask (ex_of 3 [set_in_sighash_type (Some 7) ex_wsh]) 0 [str "invalid sighash type"]
  /\ ask ex_all 1 [str "segwit v0 sighash"; str "other"]
  /\ ask ex_all 0 [str "p2wpkh sighash"; str "other"].
Proof. cbn zeta. repeat split; (eexists; split; [vm_compute; reflexivity|]); report. Qed.

(** ** Version 0 *)

Theorem C140_v0_sighash : forall (X : Ext) (S : SignExt) P p n t e, psbt0_sighash_ecdsa p n t = Err e ->
  digest_words0 P p n t (sign0_text e :: sign0_causes P e).
Proof.
  intros X S P p n t e H. rewrite sighash0_slot in H. pose proof (slot0_spec p n) as Hs.
  destruct (slot0 p n) as [[s u]|e'|] eqn:E; cbn [bind fst snd] in H; [|injection H as ->|discriminate].
  - destruct Hs as [Hi Hu]. destruct (kind0 _) as [o|] eqn:Ek.
    2:{ injection H as <-. eapply DW0Kind; [exact Hi|exact Hu|]. intros o (u' & Hu' & Ho). rewrite (funds0_fun s u' u Hu' Hu) in Ho.
        apply kind_of_iff in Ho. unfold kind0 in Ek. cbn [fst snd] in Ek. congruence. }
    apply kind0_iff in Ek. assert (Hk : spends_kind s o) by (exists u; auto).
    assert (Dec : o = Tr \/ o <> Tr) by (destruct o; auto; right; discriminate). destruct Dec as [->|Hne].
    { injection H as <-. inversion Ek; subst. eapply DW0Taproot; [exact Hi|]. exists u. eauto. }
    assert (Hec : spends_ecdsa s) by (exists o; auto).
    destruct (input0_ecdsa_hash_ty (snd s)) as [ty|] eqn:Ety.
    2:{ assert (e = S0InvalidSighashType) as -> by (destruct o; cbn [ok_or bind] in H; congruence).
        eapply DW0Type; [exact Hi|exact Hec|]. intros ty Hty. apply hash_ty0_iff in Hty. congruence. }
    unfold legacy_signature_hash, p2wpkh_signature_hash0, p2wsh_signature_hash in H.
    destruct (N.ltb_spec n (blen (tx_input t))) as [Hlt|Hle].
    + destruct o; cbn [ok_or bind expect] in H; try discriminate.
      * inversion Ek; subst. erewrite p2wpkh_code in H by eassumption. discriminate.
      * destruct (i0_witness_script (snd s)) as [w|] eqn:Ew; cbn [ok_or bind] in H; [discriminate|]. injection H as <-. eapply DW0Witness; eauto.
      * inversion Ek as [| | |r h Hp Hr Hh| | |]. rewrite Hr in H. cbn [expect bind] in H. erewrite p2wpkh_code in H by eassumption. discriminate.
      * destruct (i0_witness_script (snd s)) as [w|] eqn:Ew; cbn [ok_or bind] in H; [discriminate|]. injection H as <-. eapply DW0Witness; eauto.
      * destruct (i0_redeem_script (snd s)) as [w|] eqn:Ew; cbn [ok_or bind expect] in H; [discriminate|]. injection H as <-. eapply DW0Redeem; eauto.
      * congruence.
    + destruct o; cbn [ok_or bind expect] in H; try discriminate.
      * inversion Ek; subst. erewrite p2wpkh_code in H by eassumption. injection H as <-. eapply DW0Wpkh; eauto.
      * destruct (i0_witness_script (snd s)) as [w|] eqn:Ew; cbn [ok_or bind] in H; injection H as <-; [eapply DW0Wsh|eapply DW0Witness]; eauto.
      * inversion Ek as [| | |r h Hp Hr Hh| | |]. rewrite Hr in H. cbn [expect bind] in H. erewrite p2wpkh_code in H by eassumption.
        injection H as <-. eapply DW0Wpkh; eauto.
      * destruct (i0_witness_script (snd s)) as [w|] eqn:Ew; cbn [ok_or bind] in H; injection H as <-; [eapply DW0Wsh|eapply DW0Witness]; eauto.
      * destruct (i0_redeem_script (snd s)) as [w|] eqn:Ew; cbn [ok_or bind expect] in H; [discriminate|]. injection H as <-. eapply DW0Redeem; eauto.
      * congruence.
  - destruct e; try contradiction.
    + destruct Hs as [_ Hc]. rewrite checked0_cases in Hc. destruct (N.leb_spec (blen (p0_inputs p)) n) as [H1|H1].
      * injection Hc as <-. eapply DW0Inputs; [exact H1|apply text2_end].
      * destruct (N.leb_spec (blen (tx_input (p0_unsigned_tx p))) n) as [H2|H2]; [|destruct (nth_error _ _); discriminate].
        injection Hc as <-. eapply DW0TxInputs; [exact H1|exact H2|apply text2_end].
    + destruct Hs as (s & Hi & Hn). eapply DW0Utxo; eassumption.
Qed.
Print Assumptions C140_v0_sighash.

Example C140_v0_sighash_ex :
  let t := Tx 2 0 [] [] in
  let ask p n l := exists e, psbt0_sighash_ecdsa p n t = Err e /\ sign0_text e :: sign0_causes ex_printers e = l in
  ask ex0_all 6 [str "index out of bounds"; str "index 6 is out-of-bounds for PSBT inputs vector length 6"]
  /\ ask (set_p0_inputs (p0_inputs ex0_all ++ [ex0_wpkh]) ex0_all) 6
       [str "index out of bounds"; str "index 6 is out-of-bounds for PSBT unsigned tx input vector length 6"]
  /\ ask (ex0_of [input0_default]) 0 [str "missing spend utxo in PSBT"]
  /\ ask ex0_all 3 [str "attempt to sign an input with the wrong signing algorithm"]
  /\ ask (ex0_of [set_i0_sighash_type (Some 7) ex0_wsh]) 0 [str "invalid sighash type"]
  /\ ask ex0_all 1 [str "segwit v0 sighash"; str "other"]
  /\ ask ex0_all 0 [str "p2wpkh sighash"; str "other"].
Proof. cbn zeta. repeat split; (eexists; split; [vm_compute; reflexivity|]); vm_compute; reflexivity. Qed.

(** ** Finalizing an input that is not there *)

Theorem C140_v0_finalize_index : forall (X : Ext) (M : MsExt) (NM : MsNmExt M) P p n e,
  blen (p0_inputs p) <= n -> finalize_inp_mut p n = Err e \/ finalize_inp_mall_mut p n = Err e ->
  shows_lengths "psbt input index " " out of bounds: psbt.inputs.len() " "" n (blen (p0_inputs p)) (finalize0_text P e).
Proof.
  intros X M NM P p n e Hle H. assert (e = M0InputIdxOutofBounds (blen (p0_inputs p)) n) as ->.
  { unfold finalize_inp_mut, finalize_inp_mall_mut in H. replace (blen (p0_inputs p) <=? n) with true in H by lia.
    cbn [fail_if bind] in H. destruct H; congruence. }
  apply text2_end.
Qed.
Print Assumptions C140_v0_finalize_index.

(** ** Checked extraction *)

Theorem C140_v0_checked : forall (X : Ext) (M : MsExt) P p e, unsigned (p0_unsigned_tx p) -> extract_checked p = Err e ->
  checked_extract_words0 P p (finalize0_text P e).
Proof.
  intros X M P p e Hu H. apply (C92_errors X M p e Hu) in H.
  destruct H as [H|[(n & i & -> & Hi & H1 & H2)|[(n & -> & (s & Hs & Hn) & _)|(n & i & v & -> & Hi & Hv & Hne)]]].
  - destruct e as [e n|a b|a b]; cbn [sanity_error] in H; [|destruct H as (-> & -> & Hne)|contradiction].
    + destruct e; try contradiction.
      * destruct H as (i & k & s & Hi & Hin & Hty). cbn [finalize0_text input0_text]. rewrite <- !app_assoc.
        eapply CX0SigType; [exact Hi|exact Hin|exact Hty|apply dec_text_shows].
      * destruct H as (i & Hi & Hty). cbn [finalize0_text input0_text]. rewrite <- !app_assoc. eapply CX0Type; [exact Hi|exact Hty|apply dec_text_shows].
      * destruct H as (i & s & Hi & Hin & Hty & <- & Hne). cbn [finalize0_text input0_text]. rewrite <- !app_assoc.
        eapply CX0Flag; [exact Hi|exact Hin|exact Hty|exact Hne|apply dec_text_shows].
    + eapply CX0Count; [exact Hne|apply text2].
  - eapply CX0Final; [exact Hi|exact H1|exact H2|]. exists (dec_text n). split; [apply dec_text_shows|]. cbn [finalize0_text input0_text]. now rewrite app_nil_r.
  - eapply CX0Utxo; [exact Hs|exact Hn|]. exists (dec_text n). split; [apply dec_text_shows|]. cbn [finalize0_text input0_text]. now rewrite app_nil_r.
  - cbn [finalize0_text input0_text]. rewrite <- !app_assoc.
    eapply (CX0Check P p n i (final_wit i) (final_sig i)); [exact Hi| | | |apply dec_text_shows].
    + unfold final_wit. destruct (i0_final_script_witness i); auto.
    + unfold final_sig. destruct (i0_final_script_sig i); auto.
    + intros Ha. apply Hne. exact (verdict_fun _ _ _ _ _ _ Hv Ha).
Qed.
Print Assumptions C140_v0_checked.

Example C140_v0_checked_ex :
  let sg ty := set_i0_partial_sigs [(PubKey true (ex_pk ex_sec_a), ESig (toy_sig [] []) ty)] in
  let ask p l := unsigned (p0_unsigned_tx p) /\ exists e, extract_checked p = Err e /\ finalize0_text ex_printers e = l in
  ask fy_done (str "PSBT is missing witness at index 0")
  /\ ask (set_p0_inputs [] fy_done) (str "PSBT had 2 inputs in transaction but 0 inputs in map")
  /\ ask (ex0_of [ex0_wpkh; sg 2 ex0_wpkh])
       (str "PSBT: signature with key key had sighashflag 2 rather than required 1 at index 1")
  /\ ask (ex0_of [ex0_wpkh; sg 7 ex0_wpkh]) (str "Interpreter: other at index 1")
  /\ ask (ex0_of [set_i0_sighash_type (Some 7) ex0_wpkh]) (str "Non-standard sighash type other at index 0").
Proof.
  cbn zeta. repeat apply conj; match goal with |- unsigned _ => vm_compute; repeat constructor | _ => idtac end;
    (eexists; split; [vm_compute; reflexivity|]); vm_compute; reflexivity.
Qed.
