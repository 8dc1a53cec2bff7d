(** C140: what the text of the error of a failed operation of a role says is true, version 0; C141:
    an error about something missing does not always say so. *)
From Coq Require Import Strings.String.
From Verif Require Import Base OMap Consensus ConsensusFacts Ext ExtInstance Raw RawFacts TapTree SpecCodec Serialize SerializeFacts MapCodec
  V2Global V2Input V2Psbt V2Roles SpecRoles V2RolesFacts Script SighashType V2Sign SignInstance SpecSign V2SignFacts
  PropertiesV2Sign V2Finalize SpecFinalize PropertiesV2Finalize V0Error V0Input V0Output V0Psbt SpecPsbt0 V0WireFacts SpecExtract0 V0ExtractFacts PropertiesV0Extract PropertiesV0Combine V0Sign SchnorrInstance SpecSign0 V0SignFacts
  V0SignResultFacts V0CheckFacts PropertiesV0Sign V2Finalize SpecFinalizeErr V0Finalize SpecFinalize0 V0FinalizeFacts MsInstance0 PropertiesV0Finalize PropertiesV0Spend PropertiesFinalizeErr
  V0Update SpecUpdate0 DescInstance PropertiesV0Update PropertiesV0SighashMsg
  ErrorText SpecErrorQuote ErrorQuoteFacts RoleErrorText SpecRoleErrors PropertiesRoleErrors SampleV2 SampleV0.
Local Open Scope N_scope.

(** Used by the examples only; the theorems bind their own. *)
#[local] Existing Instance toy | 100.
#[local] Existing Instance toy_sign | 100.
#[local] Existing Instance toy_schnorr | 100.
#[local] Existing Instance toy_desc | 100.
#[local] Existing Instance toy_ms0 | 100.
#[local] Existing Instance toy_nm | 100.

(** ** Extraction *)

Theorem C140_v0_extract : forall P max p e, extract0_with_fee_rate_limit max p = Err e ->
  fee_limit_words0 P max p (extract0_text P e).
Proof.
  intros P max p e H. pose proof (C79_fee_error p) as Q. pose proof (extract0_spec p) as Ht. unfold extract0_with_fee_rate_limit in H.
  destruct (psbt0_fee p) as [fee|e'|] eqn:Ef; [|destruct e'; try discriminate|discriminate].
  - cbv zeta in H. destruct (_ <? _) eqn:El; [|discriminate]. injection H as <-. apply N.ltb_lt in El.
    apply C79_fee_ok in Ef as (_ & vs & Hf & _ & _ & Hs). cbn [extract0_text]. eapply XW0Rate; [exact Hf|exact Ht|exact El|].
    cbn zeta. intros Hb. replace (total vs - _) with fee in * by lia. unfold saturating_mul.
    replace (N.min (fee * 1000) (U64 - 1)) with (fee * 1000) by (change (2 ^ 64) with U64 in Hb; lia). reflexivity.
  - injection H as <-. destruct Q as (l1 & s & l2 & vs & Hl & _ & _ & Hn). apply XW0Value. exists s. split; [|exact Hn].
    rewrite Hl. apply in_elt.
  - injection H as <-. destruct Q as (vs & Hf & _ & _ & Hlt). eapply XW0Negative; eassumption.
  - injection H as <-. destruct Q as [(l1 & s & l2 & vs & Hl & Hf & _ & u & Hu & Ho)|(vs & Hf & _ & Ho)].
    + apply (XW0Overflow P max p (vs ++ [to_value u]) (l1 ++ [s]) l2).
      * rewrite Hl, <- app_assoc. reflexivity.
      * apply Forall2_app; [exact Hf|]. constructor; [exists u; auto|constructor].
      * left. rewrite total_app. cbn [total fold_right]. lia.
    + apply (XW0Overflow P max p vs (spends p) []); [now rewrite app_nil_r|exact Hf|auto].
Qed.
Print Assumptions C140_v0_extract.

Example C140_v0_extract_ex :
  (exists e, extract0_with_fee_rate_limit 100 (cx0 [] [] []) = Err e
     /\ extract0_text ex_printers e = str "One of the inputs lacked value information (witness_utxo or non_witness_utxo)")
  /\ (exists e, extract0_with_fee_rate_limit 100 (cx0 [] (cx0_utxo 3999) []) = Err e
     /\ extract0_text ex_printers e = str "Transaction would be invalid due to output value being greater than input value.")
  /\ (exists e r, extract0_with_fee_rate_limit 1 sample0 = Err e
     /\ extract0_text ex_printers e = str "An absurdly high fee rate of " ++ r).
Proof.
  split; [|split].
  - eexists. split; [vm_compute; reflexivity|]. reflexivity.
  - eexists. split; [vm_compute; reflexivity|]. reflexivity.
  - eexists _, _. split; [vm_compute; reflexivity|]. reflexivity.
Qed.

(** ** Signing *)

Lemma spend_in p n s : spend_at p n s -> In s (spends p).
Proof. intros H. eapply nth_error_In. exact H. Qed.

Theorem C140_v0_sign : forall (X : Ext) (S : SignExt) (T : SchnorrExt) P k p p' used errs n e,
  psbt0_sign k p = Ok (p', used, errs) -> one_map_per_input p -> Forall sorted_origins (p0_inputs p) -> In (n, e) errs ->
  exists s, spend_at p n s /\ sign_words0 P p n s (sign0_text e :: sign0_causes P e).
Proof.
  intros X S T P k p p' used errs n e H Hone Hs He. destruct (proj1 (C82_errors X S T k p p' used errs H Hone Hs n e) He) as (s & Hat & Hw).
  exists s. split; [exact Hat|]. destruct Hw as [Hn|u Hu Hk|sks e Hec _ _ Hw|leaf x sk e Htr _ Hw].
  - eapply SW0Utxo; [eapply spend_in; exact Hat|exact Hn].
  - eapply SW0Kind; eassumption.
  - destruct Hw as [Ht|ty Ht Hk Hr|ty Ht Hk Hr]; cbn [sign0_text sign0_causes].
    + now apply SW0Type.
    + now apply SW0Redeem.
    + now apply SW0Witness.
  - destruct Hw as [Ht|ty s' Ht Hin Hs' Hn|ty Ht Hin Hle _]; cbn [sign0_text sign0_causes].
    + now apply SW0TapType.
    + eapply SW0Utxo; eassumption.
    + eapply SW0Single; eassumption.
Qed.
Print Assumptions C140_v0_sign.

Example C140_v0_sign_ex :
  let p := ex0_of [ex0_wpkh; input0_default; set_i0_sighash_type (Some 7) ex0_tr; set_i0_redeem_script None ex0_sh;
                   set_i0_witness_script None ex0_wsh] in
  one_map_per_input p /\ Forall sorted_origins (p0_inputs p)
  /\ then_holds (psbt0_sign ex0_keys p) (fun r => map (fun e => sign0_text (snd e)) (snd r)
       = [str "missing spend utxo in PSBT"; str "invalid sighash type"; str "missing redeem script"; str "missing witness script"]).
Proof.
  intros p. assert (Hw : wf_psbt0 p) by (apply ex0_wf; vm_compute; reflexivity).
  destruct (wf_signable _ Hw) as [H1 H2]. split; [exact H1|]. split; [exact H2|]. vm_compute. reflexivity.
Qed.

(** ** Finalizing *)

Lemma problem_text0 P q : hd_error (problem_words P q) = Some (input0_text P (error_of0 q)).
Proof. destruct q; reflexivity. Qed.

Theorem C140_v0_finalize : forall (X : Ext) (L : ExtLaws X) (M : MsExt) (NM : MsNmExt M) P p n e,
  one_map_per_input p -> vouts_in_bounds p -> Forall (fun i => m_sorted sk_pubkey (i0_partial_sigs i)) (p0_inputs p) ->
  n < blen (p0_inputs p) -> finalize_inp_mut p n = Err e -> finalize_words0 P false p n (finalize0_text P e).
Proof.
  intros X L M NM P p n e Hone Hv Hs Hn H. apply (C137_v0_finalize X L M NM p n e Hone Hv Hs Hn) in H.
  destruct H as [s Hat Hu|s u q Hat Hu Hq|k Hno Hk|w ss v Hno Hb Hver Hv'].
  - eapply YW0Utxo; [exact Hat|exact Hu|]. exists (dec_text n). split; [apply dec_text_shows|]. cbn [finalize0_text input0_text]. now rewrite app_nil_r.
  - eapply YW0Problem; [exact Hat|exact Hu|exact Hq|apply problem_text0|apply dec_text_shows].
  - destruct Hk as ((s & Hat & Hu) & _). eapply YW0Utxo; [exact Hat|exact Hu|]. exists (dec_text k). split; [apply dec_text_shows|].
    cbn [finalize0_text input0_text]. now rewrite app_nil_r.
  - cbn [finalize0_text input0_text]. rewrite <- app_assoc. eapply YW0Check; [exact Hno|exact Hb| |apply dec_text_shows].
    intros Ha. apply Hv'. exact (verdict_fun _ _ _ _ _ _ Hver Ha).
Qed.
Print Assumptions C140_v0_finalize.

Example C140_v0_finalize_ex :
  let p := ex0_of [fz_in fz_wpkh_script; set_i0_redeem_script (Some [x51]) (fy_utxo (p2sh_script (hash160 fz_wpkh_script)) input0_default)] in
  one_map_per_input p /\ vouts_in_bounds p /\ Forall (fun i => m_sorted sk_pubkey (i0_partial_sigs i)) (p0_inputs p)
  /\ exists e, finalize_inp_mut p 1 = Err e
     /\ finalize0_text ex_printers e
        = str "Redeem script 51 does not match the p2sh script " ++ hex_text (p2sh_script (hash160 fz_wpkh_script)) ++ str " at index 1".
Proof.
  cbn zeta. split; [vm_compute; reflexivity|]. split.
  - repeat apply Forall_cons; try apply Forall_nil; intros (H1 & t & H2 & _); vm_compute in H1, H2; discriminate.
  - split; [vm_compute; repeat constructor|]. eexists. split; [vm_compute; reflexivity|]. vm_compute. reflexivity.
Qed.

(** ** Updating *)

Theorem C140_v0_update_input : forall (X : Ext) (L : ExtLaws X) (T : SchnorrExt) (LD : DescLaws T) (D : DescExt) P n d p p' e,
  update_input n d p = (p', Err e) -> input_update_words P n d p (utxo_update_text P e).
Proof.
  intros X L T LD D P n d p p' e H. apply (C96_input_error X L T LD D) in H as (_ & H).
  destruct H as [Hle|Hlt Hle|s Hat Hno|s u Hat Hsp (k & Hk & Hd)|s u d' Hat Hsp Hd _ Hne]; cbn [utxo_update_text].
  - apply UWIndex; [exact Hle|apply text2_end].
  - now apply UWMissing.
  - eapply UWUtxo; eassumption.
  - eapply UWKeys; eassumption.
  - eapply UWScript; eassumption.
Qed.
Print Assumptions C140_v0_update_input.

Theorem C140_v0_update_output : forall (X : Ext) (L : ExtLaws X) (T : SchnorrExt) (LD : DescLaws T) (D : DescExt) P n d p p' e,
  update_output n d p = (p', Err e) -> output_update_words P n d p (output_update_text P e).
Proof.
  intros X L T LD D P n d p p' e H. apply (C96_output_error X L T LD D) in H as (_ & H).
  destruct H as [Hle|Hlt Hle|Hlt Hlt' (k & Hk & Hd)|u d' Hlt Hu Hd _ Hne]; cbn [output_update_text].
  - apply OWIndex; [exact Hle|apply text2_end].
  - now apply OWMissing.
  - eapply OWKeys; eassumption.
  - eapply OWScript; eassumption.
Qed.
Print Assumptions C140_v0_update_output.

Example C140_v0_update_ex :
  (exists e, update_input 9 (given (DscPkh (up_key 1))) up_p = (up_p, Err e)
     /\ utxo_update_text ex_printers e = str "index 9, psbt input len: 9")
  /\ (exists p' e, update_output 1 (given (DscPkh (up_key 1))) up_p = (p', Err e)
     /\ output_update_text ex_printers e = str "The output's script pubkey didn't match the descriptor").
Proof.
  split; [eexists; split; vm_compute; reflexivity|]. eexists _, _. split; vm_compute; reflexivity.
Qed.

(** ** The message to sign *)

Theorem C140_v0_message : forall (X : Ext) (S : SignExt) (T : SchnorrExt) (LA : AnyoneLaws T) P p n leaf e,
  one_map_per_input p -> psbt0_sighash_msg p n (p0_unsigned_tx p) leaf = Err e -> message_words P p n (sighash_msg_text P e).
Proof.
  intros X S T LA P p n leaf e Hone H. apply (C104_error X S T LA p n leaf e Hone) in H.
  destruct H as [Hle|k Hlt ((s & Hs & Hn) & _)|s us Hf Hat Htr Hty|s us Hf Hat Htr Hty|s us ty Hf Hat Hty Hk Hr|s us ty Hf Hat Hty Hk Hr|s us ty Hf Hat Htr Hty Hin Hle];
    cbn [sighash_msg_text].
  - apply MWIndex; [exact Hle|apply text2_end].
  - eapply MWUtxo; [eapply spend_in; exact Hs|exact Hn].
  - eapply MWType; eassumption.
  - eapply MWTapType; eassumption.
  - eapply MWRedeem; eassumption.
  - eapply MWWitness; eassumption.
  - eapply MWSingle; eassumption.
Qed.
Print Assumptions C140_v0_message.

Example C140_v0_message_ex :
  one_map_per_input ex0_all /\ exists e, psbt0_sighash_msg ex0_all 6 (p0_unsigned_tx ex0_all) None = Err e
  /\ sighash_msg_text ex_printers e = str "index 6, psbt input len: 6".
Proof. split; [vm_compute; reflexivity|]. eexists. split; vm_compute; reflexivity. Qed.

(** ** C141: something is missing *)

(** A text mentions a word. *)
Definition mentions (w : string) (t : bytes) : Prop := exists a b, t = a ++ str w ++ b.
Fixpoint mentionsb (w t : bytes) : bool :=
  match t with
  | [] => bytes_eqb w []
  | _ :: t' => bytes_eqb (firstn (length w) t) w || mentionsb w t'
  end.
Lemma mentions_dec w t : mentionsb (str w) t = false -> ~ mentions w t.
Proof.
  intros H (a & b & ->). revert H. induction a as [|c a IH]; cbn [app].
  - destruct (str w ++ b) as [|c l] eqn:E; cbn [mentionsb].
    + apply app_eq_nil in E as [-> _]. discriminate.
    + rewrite <- E, firstn_app, firstn_all, Nat.sub_diag. cbn [firstn]. rewrite app_nil_r.
      rewrite (proj2 (bytes_eqb_eq (str w) (str w)) eq_refl). discriminate.
  - cbn [mentionsb]. intros H. apply orb_false_iff in H as [_ H]. auto.
Qed.

(** A finalizer that fails because an input lacks something. *)
Definition lacks (q : problem) : Prop := In q [NoRedeemScript; NoWitnessScript; NoSigningKey].

(** The report says so, unless it is the redeem script that is missing. *)
Theorem C141_says_missing_partial : forall (X : Ext) (L : ExtLaws X) (C : Cfg) (M : MsExt) P p l1 i l2 u q,
  finalizer_value p -> Forall (fun i => m_sorted sk_pubkey (in_partial_sigs i)) (p_inputs p) ->
  p_inputs p = l1 ++ i :: l2 -> Forall (fun j => forall e, ~ why p j e) l1 -> funds i u -> cannot (spending_of (p_inputs p) i u) q ->
  lacks q -> q <> NoRedeemScript ->
  exists e l t, finalizer_finalize p = Err e /\ role_report P (RFinalize e) l /\ In t l /\ mentions "issing" t.
Proof.
  intros X L C M P p l1 i l2 u q V Hs Hl Hno Hu Hq Hla Hne.
  exists (FEInput (blen l1) (FIFinal (error_of q))). eexists. exists (hd [] (problem_words P q)). split.
  - apply (C137_finalize X L C M p _ _ V Hs). exists l1, i, l2. split; [exact Hl|]. split; [exact Hno|]. split; [|reflexivity].
    exact (WProblem p i u q Hu Hq).
  - split; [next_text; next_text; apply problem_report|]. destruct Hla as [<-|[<-|[<-|[]]]]; [destruct (Hne eq_refl)| |]; cbn [problem_words hd].
    + split; [right; right; now left|]. exists (str "PSBT is m"), (str " witness script"). reflexivity.
    + split; [right; right; now left|]. exists (str "M"), (str " pubkey for a pkh/wpkh"). reflexivity.
Qed.
Print Assumptions C141_says_missing_partial.

(** The text for a missing redeem script lost its verb (src/v2/miniscript/finalize.rs:619). *)
Theorem C141_says_missing_refuted : exists (X : Ext) (C : Cfg) (M : MsExt) p i u, forall P,
  finalizer_value p /\ p_inputs p = [i] /\ funds i u /\ cannot (spending_of (p_inputs p) i u) NoRedeemScript
  /\ exists e l, finalizer_finalize p = Err e /\ role_report P (RFinalize e) l /\ forall t, In t l -> ~ mentions "issing" t.
Proof.
  exists toy, (cfg_of false false), toy_ms0, (ex_of 0 [fe_in (p2sh_script (hash160 fx_wpkh_script))]).
  exists (fe_in (p2sh_script (hash160 fx_wpkh_script))), (TxOut 5000 (p2sh_script (hash160 fx_wpkh_script))). intros P.
  split; [vm_compute; reflexivity|]. split; [reflexivity|]. split; [left; reflexivity|].
  split; [apply (CNShNone _ (hash160 fx_wpkh_script)); [split; [vm_compute; reflexivity|reflexivity]|reflexivity]|].
  eexists _, _. split; [vm_compute; reflexivity|]. split; [next_text; next_text; last_text|].
  cbn [In]. intros t [<-|[<-|[<-|[]]]]; apply mentions_dec; vm_compute; reflexivity.
Qed.
Print Assumptions C141_says_missing_refuted.

(** The same in version 0, where the text is that of one input (src/v0/miniscript/mod.rs:200). *)
Theorem C141_v0_says_missing_partial : forall (X : Ext) (L : ExtLaws X) (M : MsExt) (NM : MsNmExt M) P p n s u q,
  one_map_per_input p -> vouts_in_bounds p -> Forall (fun i => m_sorted sk_pubkey (i0_partial_sigs i)) (p0_inputs p) ->
  n < blen (p0_inputs p) -> spend_at p n s -> no_utxo s \/ funds0 s u /\ cannot (spending_of0 false p s u) q /\ lacks q /\ q <> NoRedeemScript ->
  exists e, finalize_inp_mut p n = Err e /\ mentions "issing" (finalize0_text P e).
Proof.
  intros X L M NM P p n s u q Hone Hv Hs Hn Hat [Hu|(Hu & Hq & Hla & Hne)].
  - exists (M0Input J0MissingUtxo n). split; [apply (C137_v0_finalize X L M NM p n _ Hone Hv Hs Hn); eapply W0Utxo; eassumption|].
    exists (str "PSBT is m"), (str " both witness and non-witness UTXO" ++ str " at index " ++ dec_text n). reflexivity.
  - exists (M0Input (error_of0 q) n). split; [apply (C137_v0_finalize X L M NM p n _ Hone Hv Hs Hn); eapply W0Problem; eassumption|].
    destruct Hla as [<-|[<-|[<-|[]]]]; [destruct (Hne eq_refl)| |].
    + exists (str "PSBT is m"), (str " witness script" ++ str " at index " ++ dec_text n). reflexivity.
    + exists (str "M"), (str " pubkey for a pkh/wpkh" ++ str " at index " ++ dec_text n). reflexivity.
Qed.
Print Assumptions C141_v0_says_missing_partial.
Theorem C141_v0_says_missing_refuted : exists (X : Ext) (M : MsExt) (NM : MsNmExt M) p s u, forall P,
  one_map_per_input p /\ spend_at p 0 s /\ funds0 s u /\ cannot (spending_of0 false p s u) NoRedeemScript
  /\ exists e, finalize_inp_mut p 0 = Err e /\ ~ mentions "issing" (finalize0_text P e).
Proof.
  pose (spk := p2sh_script (hash160 fz_wpkh_script)).
  exists toy, toy_ms0, toy_nm, (ex0_of [fy_utxo spk input0_default]). eexists. exists (TxOut 5000 spk). intros P.
  split; [vm_compute; reflexivity|]. split; [reflexivity|]. split; [left; reflexivity|].
  split; [apply (CNShNone _ (hash160 fz_wpkh_script)); [split; [vm_compute; reflexivity|reflexivity]|reflexivity]|].
  eexists. split; [vm_compute; reflexivity|]. apply mentions_dec. vm_compute. reflexivity.
Qed.
Print Assumptions C141_v0_says_missing_refuted.

Example C141_example :
  let p := ex_of 0 [fe_sig (fe_in fx_wpkh_script); fe_in fe_wsh_script] in
  finalizer_value p /\ lacks NoWitnessScript
  /\ cannot (spending_of (p_inputs p) (fe_in fe_wsh_script) (TxOut 5000 fe_wsh_script)) NoWitnessScript
  /\ exists e, finalizer_finalize (C := cfg_of false false) p = Err e
     /\ role_report ex_printers (RFinalize e) [str "failed to finalize input at index 1"; str "final"; str "PSBT is missing witness script"].
Proof.
  cbn zeta. split; [vm_compute; reflexivity|]. split; [right; now left|]. split.
  - apply (CNWsh _ (sha256 fx_after)); [split; [split; [reflexivity|]; vm_compute; repeat split; discriminate|vm_compute; reflexivity]|reflexivity|]. apply SPNone. reflexivity.
  - eexists. split; [vm_compute; reflexivity|]. report.
Qed.
