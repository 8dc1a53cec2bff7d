(** C140: what the report of a failed operation of a role says is true, version 2. *)
From Coq Require Import Strings.String.
From Verif Require Import Base OMap Consensus ConsensusFacts Ext ExtInstance Raw RawFacts TapTree Serialize SerializeFacts MapCodec
  V2Global V2Input V2Output V2Psbt SpecCodec SpecPsbt V2PsbtFacts V2WireFacts V2CodecFacts V2Roles SpecRoles V2RolesFacts
  SpecCombine SpecCombineErr CombineErrFacts PropertiesCombineErr PropertiesV2Combine PropertiesV2Roles
  Script SighashType V2Sign SignInstance SpecSign V2SignFacts PropertiesV2Sign
  V2Finalize SpecFinalize V2FinalizeFacts MsInstance MsInstance0 SpecFinalizeErr PropertiesFinalizeErr PropertiesV2Finalize
  ErrorText SpecErrorQuote ErrorQuoteFacts RoleErrorText SpecRoleErrors V2ParallelFacts SampleV2.
Local Open Scope N_scope.

(** Used by the examples only; the theorems bind their own. *)
#[local] Existing Instance toy | 100.
#[local] Instance ex_cfg : Cfg | 100 := cfg_of false false.
#[local] Existing Instance toy_sign | 100.
#[local] Existing Instance toy_ms0 | 100.

(** There is one report, or none where printing panics. *)
Lemma report_unique P e l : role_report P e l -> forall l', role_report P e l' -> l = l'.
Proof. intros H. induction H; intros l' H'; inversion H'; subst; try congruence. f_equal; [congruence|]. apply IHrole_report. congruence. Qed.

(** ** Reading the texts *)

Lemma text2 before between after a b :
  shows_lengths before between after a b (str before ++ dec_text a ++ str between ++ dec_text b ++ str after).
Proof. exists (dec_text a), (dec_text b). auto using dec_text_shows. Qed.
Lemma text2_end before between a b : shows_lengths before between "" a b (str before ++ dec_text a ++ str between ++ dec_text b).
Proof. exists (dec_text a), (dec_text b). split; [apply dec_text_shows|]. split; [apply dec_text_shows|]. now rewrite app_nil_r. Qed.
Lemma text1 before after n : shows_number before n after (str before ++ dec_text n ++ str after).
Proof. exists (dec_text n). auto using dec_text_shows. Qed.
Lemma text1_end before n : shows_number before n "" (str before ++ dec_text n).
Proof. exists (dec_text n). split; [apply dec_text_shows|]. now rewrite app_nil_r. Qed.

Ltac last_text := apply RRLast; reflexivity.
Ltac next_text := eapply RRMore; [reflexivity|reflexivity|].

(** Printers for the examples. *)
Definition ex_printers : printers := Printers (fun _ => str "xpub") dec_text hex_text dec_text hex_text dec_text
  (fun k => hex_text (ser_pubkey k)) (fun _ => str "key") dec_text dec_text dec_text (str "other").
Ltac report := repeat first [last_text | eapply RRMore; [vm_compute; reflexivity|vm_compute; reflexivity|]].

(** ** Combining *)

Theorem C140_combine : forall (X : Ext) (C : Cfg) P a b e, sorted_psbt a -> sorted_psbt b -> psbt_combine a b = Err e ->
  exists l, role_report P (RCombine e) l /\ combine_words P a b l.
Proof.
  intros X C P a b e Sa Sb H. apply (C135_error X C a b e Sa Sb) in H.
  destruct e as [e|e|e]; cbn [disagree] in H.
  - destruct e as [v v'|v v'|x]; cbn [global_disagree] in H.
    + destruct H as (N & -> & ->). eexists. split; [next_text; last_text|]. cbn [role_text global_combine_text].
      apply CWVersion; [exact N|]. eexists _, _. split; [apply dec_text_shows|]. split; [apply dec_text_shows|].
      unfold version_debug. rewrite <- !app_assoc. reflexivity.
    + destruct H as (_ & N & -> & ->). eexists. split; [next_text; last_text|]. now apply CWTxVersion.
    + destruct H as (_ & _ & N). eexists. split; [next_text; next_text; last_text|]. now apply CWKeySources.
  - destruct H as (_ & n & i & j & F & H). destruct e as [t t'|t t']; cbn [input_disagree] in H.
    + destruct H as (N & -> & ->). eexists. split; [next_text; last_text|]. eapply CWTxid; eassumption.
    + destruct H as (_ & N & -> & ->). eexists. split; [next_text; last_text|]. eapply CWVout; [eassumption|eassumption|].
      apply text2_end.
  - destruct H as (_ & _ & n & o & o' & F & H). destruct e as [t t'|t t']; cbn [output_disagree] in H.
    + destruct H as (N & -> & ->). eexists. split; [next_text; last_text|]. eapply CWAmount; eassumption.
    + destruct H as (_ & N & -> & ->). eexists. split; [next_text; last_text|].
      eapply CWScript; [eassumption|eassumption|apply hex_shows|apply hex_shows].
Qed.
Print Assumptions C140_combine.

Example C140_combine_ex :
  let i := [pr x0e [] txid_a; pr x0f [] (le4 1)] in let o := [pr x03 [] (le_enc 8 4000); pr x04 [] p2wpkh_a] in
  (exists e, psbt_combine (ce i o) (ce [pr x0e [] txid_a; pr x0f [] (le4 3)] o) = Err e
     /\ role_report ex_printers (RCombine e) [str "error while combining the input maps";
          str "combine two PSBTs with different spent output indecies: 1 3"])
  /\ (exists e, psbt_combine (ce i o) (ce i [pr x03 [] (le_enc 8 4000); pr x04 [] [x51; x52]]) = Err e
     /\ role_report ex_printers (RCombine e) [str "error while combining the output maps";
          str "combine two PSBTs with different script_pubkeys: " ++ hex_text p2wpkh_a ++ str " 5152"]).
Proof. cbn zeta. split; eexists; (split; [vm_compute; reflexivity|]); report. Qed.

(** ** Fee, extraction *)

Lemma utxo_report P i e : input_funding_utxo i = Err e -> exists w, role_report P (RFunding e) [w] /\ utxo_words i w.
Proof.
  intros H. destruct (C44_funding_utxo i) as (_ & H1 & H2 & _). destruct e as [v n|].
  - destruct (proj1 (H2 _ _) H) as (Hw & t & Ht & Hle & -> & ->). eexists. split; [last_text|]. eapply UWVout; [eassumption..|]. apply text2_end.
  - destruct (proj1 H1 H) as (Hw & Hn). eexists. split; [last_text|]. now apply UWNone.
Qed.
Lemma funded_all l vs : funded l vs -> Forall is_funded l.
Proof. intros H. induction H as [|i v l vs (u & Hu & _) H IH]; constructor; [now exists u|assumption]. Qed.

Theorem C140_fee : forall P p e, psbt_fee p = Err e -> exists l, role_report P (RFee e) l /\ fee_words p l.
Proof.
  intros P p e H. pose proof (C23_fee_error p) as Q. rewrite H in Q. destruct e as [e| | |].
  - destruct Q as (l1 & i & l2 & vs & Hl & Hf & _ & _ & He). destruct (utxo_report P i e He) as (w & Hr & Hw).
    eexists. split; [next_text; exact Hr|]. eapply FWUtxo; [exact Hl|eapply funded_all; eassumption|exact Hw].
  - destruct Q as (l1 & i & l2 & vs & u & Hl & Hf & _ & Hu & Ho). eexists. split; [last_text|]. eapply FWInput; eassumption.
  - destruct Q as (vs & _ & _ & Ho). eexists. split; [last_text|]. now apply FWOutput.
  - destruct Q as (vs & Hf & _ & _ & Ho). eexists. split; [last_text|]. eapply FWNegative; eassumption.
Qed.
Print Assumptions C140_fee.

Theorem C140_extractor : forall P p e, extractor_new p = Err e -> exists l, role_report P (RExtract e) l /\ extractor_words p l.
Proof.
  intros P p e H. unfold extractor_new, fail_if in H.
  destruct (existsb (fun i => negb (input_is_finalized i)) (p_inputs p)) eqn:E; cbn [bind] in H.
  - injection H as <-. apply existsb_exists in E as (i & Hi & E). eexists. split; [last_text|]. eapply EWFinal; [exact Hi|].
    intros F. pose proof (proj2 (is_finalized_iff (Psbt (p_global p) [i] [])) (Forall_cons _ F (Forall_nil _))) as Q.
    unfold psbt_is_finalized in Q. cbn [p_inputs forallb] in Q. rewrite andb_true_r in Q. rewrite Q in E. discriminate.
  - destruct (determine_lock_time p) as [n|[]|] eqn:D; cbn [map_err bind] in H; try discriminate. injection H as <-.
    eexists. split; [next_text; last_text|]. apply EWLock. apply (C18_lock_time p). exact D.
Qed.
Print Assumptions C140_extractor.

Theorem C140_extract : forall (X : Ext) (C : Cfg) P max p e, extractor_value p ->
  extract_tx_with_fee_rate_limit max p = Err e -> exists l, role_report P (RExtractFee e) l /\ extract_words P max p l.
Proof.
  intros X C P max p e V H. destruct (C25_extracts X C p V) as (n & t & _ & Ht & Eu & _).
  unfold extract_tx_with_fee_rate_limit in H. rewrite Eu in H. destruct (psbt_fee p) as [fee|e'|] eqn:Ef; cbn [map_err bind] in H.
  - destruct (max <? _) eqn:El; cbn [fail_if bind] in H; [|discriminate]. injection H as <-. apply N.ltb_lt in El.
    destruct (proj1 (C23_fee_ok p fee) Ef) as (vs & Hf & _ & _ & Hs). eexists. split; [last_text|].
    cbn [role_text extract_fee_text]. eapply (XWRate P max p vs n t); [exact Hf|exact Ht|exact El|].
    cbn zeta. intros Hb. replace (total vs - _) with fee in * by lia. unfold saturating_mul.
    replace (N.min (fee * 1000) (U64 - 1)) with (fee * 1000) by (change (2 ^ 64) with U64 in Hb; lia). reflexivity.
  - injection H as <-. destruct (C140_fee P p e' Ef) as (l & Hr & Hw). eexists. split; [next_text; exact Hr|]. now apply XWFee.
  - discriminate.
Qed.
Print Assumptions C140_extract.

Example C140_extract_ex :
  (exists e, psbt_fee (ex_psbt [fund 10 ex_in_a; ex_in_b] [ex_out]) = Err e
     /\ role_report ex_printers (RFee e) [str "funding utxo error for input"; str "no funding utxo found"])
  /\ (exists e, extractor_new (ex_psbt [fund 10 ex_in_a] [ex_out]) = Err e
     /\ role_report ex_printers (RExtract e) [str "attempted to extract tx from an unfinalized PSBT"])
  /\ (let p := ex_psbt [final (fund 5000 ex_in_a)] [ex_out] in
      extractor_value p /\ exists e, extract_tx_with_fee_rate_limit 3 p = Err e
     /\ exists r, role_report ex_printers (RExtractFee e) [str "fee " ++ dec_text r ++ str " is greater than max 3"]).
Proof.
  cbn zeta. split; [|split].
  - eexists. split; [vm_compute; reflexivity|]. report.
  - eexists. split; [vm_compute; reflexivity|]. report.
  - split; [apply (ENew (ex_psbt [final (fund 5000 ex_in_a)] [ex_out])); vm_compute; reflexivity|].
    eexists. split; [vm_compute; reflexivity|]. eexists. apply RRLast; [|reflexivity]. cbn [role_text extract_fee_text pr_rate ex_printers]. reflexivity.
Qed.

(** ** Constructor, updater *)

Definition constructor_error (k : ckind) (e : moderr) : rerr := match k with KModifiable => RModifiable e | _ => RFlag e end.
Theorem C140_constructor : forall P k p e, constructor_new k p = Err e ->
  exists l, role_report P (constructor_error k e) l /\ constructor_words p k l.
Proof.
  intros P k p e H. unfold constructor_new in H. destruct k.
  - rewrite is_inputs_bit, is_outputs_bit in H. destruct (N.testbit _ 0) eqn:E0; cbn [negb] in H.
    + destruct (N.testbit _ 1) eqn:E1; cbn [negb] in H; [discriminate|]. injection H as <-.
      eexists. split; [next_text; last_text|]. now apply KWBothOutputs.
    + injection H as <-. eexists. split; [next_text; last_text|]. now apply KWBothInputs.
  - rewrite is_inputs_bit in H. destruct (N.testbit _ 0) eqn:E0; [discriminate|]. injection H as <-.
    eexists. split; [last_text|]. now apply KWInputs.
  - rewrite is_outputs_bit in H. destruct (N.testbit _ 1) eqn:E0; [discriminate|]. injection H as <-.
    eexists. split; [last_text|]. now apply KWOutputs.
Qed.
Print Assumptions C140_constructor.

Theorem C140_updater : forall P n k p e, updater_set_sequence n k p = Err e ->
  exists l, role_report P (RIndex e) l /\ index_words k p l.
Proof.
  intros P n k p e H. pose proof (C29_set_sequence n k p) as Q. rewrite H in Q. destruct e as [j l|j c].
  - destruct Q as (Hle & -> & ->). eexists. split; [last_text|]. eapply IWInputs; [exact Hle|apply text2_end].
  - destruct Q as (Hlt & Hle & -> & ->). eexists. split; [last_text|]. eapply IWCount; [exact Hlt|exact Hle|apply text2_end].
Qed.
Print Assumptions C140_updater.

Example C140_updater_ex :
  (exists e, updater_set_sequence 5 2 sample = Err e
     /\ role_report ex_printers (RIndex e) [str "index 2 is out-of-bounds for PSBT inputs vector length 2"])
  /\ (exists e, constructor_new KModifiable (constructor_no_more_inputs sample) = Err e
     /\ role_report ex_printers (RModifiable e)
          [str "inputs not modifiable"; str "PSBT does not have the inputs modifiable flag set"]).
Proof. split; eexists; (split; [vm_compute; reflexivity|]); report. Qed.

(** ** Signer *)

Theorem C140_sign : forall (X : Ext) (C : Cfg) (S : SignExt) P k p t used errs n e,
  unsigned_tx p = Ok t -> signer_sign k p = Err (used, errs) -> In (n, e) errs ->
  exists i l, input_at p n i /\ role_report P (RSign e) l /\ sign_words i l.
Proof.
  intros X C S P k p t used errs n e Ht H He. destruct (C30_errors X C S k p t used errs Ht H) as (_ & Q & _).
  destruct (proj1 (Q n e) He) as (i & (Hi & u & o & Hu & Ho & No) & Es & _).
  assert (Hn : n < blen (tx_input t)).
  { unfold unsigned_tx in Ht. destruct (determine_lock_time p) as [m| |]; cbn [bind] in Ht; try discriminate. injection Ht as <-.
    cbn [tx_input]. destruct Hi as [Hi _]. unfold blen. rewrite map_length.
    assert (N.to_nat n < length (p_inputs p))%nat by (apply nth_error_Some; rewrite Hi; discriminate). lia. }
  destruct (C33_missing X C S p n t i u o Hn Hi Hu Ho) as (M1 & M2 & M3 & M4 & M5 & M6).
  assert (Dec : (exists ty, type_of_input i ty) \/ forall ty, ~ type_of_input i ty).
  { unfold type_of_input. destruct (in_sighash_type i) as [ty|].
    - destruct (in_dec N.eq_dec ty [0x01; 0x02; 0x03; 0x81; 0x82; 0x83]) as [Hin|Hin]; [left; exists ty; auto|].
      right. intros ty' [Hin' [[= ->]|[[=] _]]]. contradiction.
    - left. exists 1. split; [cbn; tauto|]. right. auto. }
  exists i. destruct Dec as [Hty|Hty].
  2:{ rewrite (proj2 M2 (conj No Hty)) in Es. injection Es as <-. eexists. split; [exact Hi|]. split; [last_text|]. now apply SWType. }
  assert (G : forall A : Prop, A -> (A -> exists m ty, psbt_sighash_ecdsa p n t = Ok (m, ty)) -> False).
  { intros A HA F. destruct (F HA) as (m & ty & E). congruence. }
  destruct o.
  - destruct (G True I). intros _. apply M5. auto.
  - destruct (G True I). intros _. apply M5. auto.
  - destruct (in_witness_script i) as [w|] eqn:Ew; [destruct (G True I); intros _; apply M5; split; [exact Hty|discriminate]|].
    rewrite (proj2 M4) in Es by auto. injection Es as <-. inversion Ho; subst. eexists. split; [exact Hi|]. split; [last_text|].
    eapply SWWitness; eauto.
  - destruct (G True I). intros _. apply M5. auto.
  - destruct (in_witness_script i) as [w|] eqn:Ew; [destruct (G True I); intros _; apply M5; split; [exact Hty|discriminate]|].
    rewrite (proj2 M4) in Es by auto. injection Es as <-. inversion Ho; subst. eexists. split; [exact Hi|]. split; [last_text|].
    eapply SWWitness; eauto.
  - destruct (in_redeem_script i) as [w|] eqn:Ew; [destruct (G True I); intros _; apply M5; split; [exact Hty|discriminate]|].
    rewrite (proj2 M3) in Es by auto. injection Es as <-. inversion Ho; subst. eexists. split; [exact Hi|]. split; [last_text|].
    eapply SWRedeem; eauto.
  - destruct (No eq_refl).
Qed.
Print Assumptions C140_sign.

Example C140_sign_ex : exists used e,
  is_ok (unsigned_tx (ex_of 3 [set_in_witness_script None ex_wsh; ex_wpkh])) = true
  /\ signer_sign (ex_keys [ex_sec_a]) (ex_of 3 [set_in_witness_script None ex_wsh; ex_wpkh]) = Err (used, [(0, e)])
  /\ role_report ex_printers (RSign e) [str "missing witness script"].
Proof. eexists _, _. split; [vm_compute; reflexivity|]. split; [vm_compute; reflexivity|]. report. Qed.

(** ** Finalizer *)

Lemma all_funded_err l e : all_funded l = Err e -> exists l1 i l2, l = l1 ++ i :: l2 /\ Forall is_funded l1 /\ input_funding_utxo i = Err e.
Proof.
  induction l as [|i l IH]; cbn [all_funded]; [discriminate|]. intros H. destruct (input_funding_utxo i) as [u|e'|] eqn:E; cbn [bind] in H; try discriminate.
  - destruct (IH H) as (l1 & j & l2 & -> & H1 & H2). exists (i :: l1), j, l2. split; [reflexivity|]. split; [|exact H2].
    constructor; [|exact H1]. exists u. now apply (C44_funding_utxo i).
  - injection H as <-. exists [], i, l. auto.
Qed.
Lemma sighash_report P n i e : offence i n e -> exists l, role_report P (RPartialSigs e) l /\ sighash_words P n i l.
Proof.
  intros H. destruct H as [ty H1 H2|ty k s H1 H2 H3|ty k s H1 H2 H3].
  - eexists. split; [next_text; last_text|]. eapply HWInput; [exact H1|exact H2|apply text1].
  - eexists. split; [next_text; last_text|]. eapply HWSig; [exact H2|exact H3|apply text1].
  - eexists. split; [last_text|]. cbn [partial_sigs_text]. eapply HWFlag; [exact H1|exact H2|exact H3|apply dec_text_shows].
Qed.

Theorem C140_finalizer : forall P p e, finalizer_new p = Err e -> exists l, role_report P (RFinalizer e) l /\ finalizer_words P p l.
Proof.
  intros P p e H. unfold finalizer_new in H. destruct (all_funded (p_inputs p)) as [[]|e1|] eqn:E1; cbn [map_err bind] in H; try discriminate.
  - destruct (determine_lock_time p) as [n|[]|] eqn:D; cbn [map_err bind] in H; try discriminate.
    + destruct (check_partial_sigs_sighash_type p) as [[]|e3|] eqn:E3; cbn [map_err bind] in H; try discriminate. injection H as <-.
      destruct (C50_first p e3 E3) as (l1 & i & l2 & Hl & Hm & _ & Ho). destruct (sighash_report P _ _ _ Ho) as (l & Hr & Hw).
      eexists. split; [next_text; exact Hr|]. eapply ZWSigs; eassumption.
    + injection H as <-. eexists. split; [next_text; last_text|]. apply ZWLock. apply (C18_lock_time p). exact D.
  - injection H as <-. destruct (all_funded_err _ _ E1) as (l1 & i & l2 & Hl & Hf & He). destruct (utxo_report P i e1 He) as (w & Hr & Hw).
    eexists. split; [next_text; exact Hr|]. eapply ZWUtxo; eassumption.
Qed.
Print Assumptions C140_finalizer.

Example C140_finalizer_ex :
  let sg ty := set_in_partial_sigs [(PubKey true (ex_pk ex_sec_a), ESig (toy_sig [] []) ty)] in
  exists e, finalizer_new (ex_of 0 [sg 1 ex_wpkh; sg 1 ex_wsh]) = Err e
  /\ role_report ex_printers (RFinalizer e) [str "Finalizer sighash type error";
       str "wrong sighash flag for input 1 (got: 1, required: 131) pubkey: " ++ hex_text (ex_pk ex_sec_a)].
Proof. cbn zeta. eexists. split; [vm_compute; reflexivity|]. report. Qed.

Lemma problem_report P q : role_report P (RInput (error_of q)) (problem_words P q).
Proof. destruct q; cbn [error_of problem_words]; first [last_text|next_text; last_text]. Qed.

Lemma check_inputs_err `{M : MsExt} t us l : forall k e, Forall is_funded l -> interpreter_check_inputs t us k l = Err e ->
  exists n i v, nth_error l n = Some i /\ verdict t us (k + N.of_nat n) i v
    /\ match v with IOk => False | IConstructor => e = CIConstructor (k + N.of_nat n) | ISatisfaction => e = CISatisfaction (k + N.of_nat n) end.
Proof.
  induction l as [|i l IH]; intros k e Hf H; [discriminate|]. inversion Hf as [|? ? [u Hu] Hf']; subst.
  pose proof (check_step t us k i l u Hu) as Q.
  destruct (in_final_script_sig i), (in_final_script_witness i); try (rewrite Q in H; discriminate).
  destruct Q as (r & Hr & Eq). rewrite Eq in H. destruct r.
  - destruct (IH (k + 1) e Hf' H) as (n & j & v & Hn & Hv & Hm). exists (Datatypes.S n), j, v. split; [exact Hn|].
    replace (k + N.of_nat (Datatypes.S n)) with (k + 1 + N.of_nat n) by lia. auto.
  - injection H as <-. exists O, i, IConstructor. cbn [N.of_nat]. rewrite N.add_0_r. auto.
  - injection H as <-. exists O, i, ISatisfaction. cbn [N.of_nat]. rewrite N.add_0_r. auto.
Qed.

Theorem C140_finalize : forall (X : Ext) (L : ExtLaws X) (C : Cfg) (M : MsExt) P p e,
  finalizer_value p -> Forall (fun i => m_sorted sk_pubkey (in_partial_sigs i)) (p_inputs p) ->
  finalizer_finalize p = Err e -> exists l, role_report P (RFinalize e) l /\ finalize_words P p l.
Proof.
  intros X L C M P p e V Hs H. destruct e as [k e|e].
  - apply (C137_finalize X L C M p k e V Hs) in H as (l1 & i & l2 & Hl & Hno & Hw & ->). inversion Hw as [u q Hu Hq|u Hu Hq Hn Hwo]; subst.
    + eexists. split; [next_text; next_text; apply problem_report|]. eapply YWProblem; [exact Hl|exact Hno|exact Hu|exact Hq|apply text1_end].
    + eexists. split; [next_text; next_text; last_text|]. eapply YWLegacy; [exact Hl|exact Hno|exact Hu|exact Hn|exact Hwo|apply text1_end].
  - destruct (value_facts p V) as [Hf [m Hm]]. pose proof (unsigned_tx_ok _ _ Hm) as Ht.
    unfold finalizer_finalize in H. destruct (finalize_inputs (p_inputs p) 0 (p_inputs p)) as [l|e'|] eqn:E; cbn [bind] in H; try discriminate.
    2:{ apply finalize_inputs_err in E as (l1 & i & l2 & e2 & _ & _ & _ & ->). discriminate H. }
    apply finalize_inputs_ok in E. set (q := Psbt (p_global p) l (p_outputs p)) in *.
    pose proof (fin_unsigned p q _ Hf eq_refl eq_refl E Ht) as Hq. pose proof (fin_all_funded _ _ _ Hf E) as Hfq.
    destruct (funded_spends _ Hf) as [us Hus]. pose proof (fin_all_spends _ _ _ us E Hus) as Husq.
    unfold interpreter_check in H. rewrite Hq in H. unfold panic_unless in H. destruct (_ || _); cbn [map_err bind] in H; try discriminate.
    change (p_inputs q) with l in H. rewrite (proj2 (all_utxos_ok (E := checkerr) l us) Husq) in H. cbn [bind] in H.
    destruct (interpreter_check_inputs _ us 0 l) as [[]|e'|] eqn:Ec; cbn [map_err bind] in H; try discriminate. injection H as <-.
    destruct (check_inputs_err _ _ _ _ _ Hfq Ec) as (n & i' & v & Hn & Hv & Hm'). rewrite N.add_0_l in *.
    destruct (F2_nth_r _ _ _ _ _ E Hn) as (i & Hi & Hfin).
    assert (Hfu : exists u, funds i u). { rewrite Forall_forall in Hf. apply Hf. eapply nth_error_In. exact Hi. } destruct Hfu as [u Hu].
    apply (finalize_input_iff _ i i' u Hu) in Hfin as (ss & w & Hc & _ & F).
    assert (Hwy : Forall (fun j => forall e, ~ why p j e) (p_inputs p)).
    { apply Forall_forall. intros j Hj e0 Hw0. rewrite Forall_forall in Hf, Hs. destruct (Hf j Hj) as [uj Huj].
      apply (why_iff p j uj e0 Huj (Hs j Hj)) in Hw0. apply In_nth_error in Hj as (m' & Hj).
      destruct (F2_at _ _ _ E _ _ Hj) as (j' & _ & Hj'). unfold fin_rel in Hj'. unfold fails_with in Hw0. congruence. }
    pose proof Hv as (u' & ss' & w' & Hu' & Hss & Hw & Hi').
    rewrite (fi_script_sig _ _ _ _ F) in Hss. injection Hss as <-. rewrite (fi_witness _ _ _ _ F) in Hw.
    destruct (is_some (in_witness_utxo i)); [|discriminate]. injection Hw as <-.
    apply (fin_interp ss w i i' _ us (N.of_nat n) v F) in Hv as (u1 & Hu1 & Ev).
    destruct v; [destruct Hm'| |]; subst e'; (eexists; split; [next_text; next_text; next_text; last_text|]);
      (eapply YWCheck; [exact Hwy|exact Hi|exact Hu1|exact Hc|exact Ht|exact Hus|exact Ev|discriminate|apply text1_end]).
Qed.
Print Assumptions C140_finalize.

Example C140_finalize_ex :
  let p := ex_of 0 [fe_sig (fe_in fx_wpkh_script); fe_sig (fe_in (fe_pk fx_key)); fe_in fx_wpkh_script] in
  let q := ex_of 0 [fe_sig (fe_in fx_wpkh_script); set_in_redeem_script (Some [x51]) (fe_in (p2sh_script (hash160 fx_wpkh_script)))] in
  finalizer_value p /\ (exists e, finalizer_finalize p = Err e
    /\ role_report ex_printers (RFinalize e)
         [str "failed to finalize input at index 1"; str "input"; str "failed to create a final witness"])
  /\ finalizer_value q /\ (exists e, finalizer_finalize q = Err e
    /\ role_report ex_printers (RFinalize e)
         [str "failed to finalize input at index 1"; str "final";
          str "Redeem script 51 does not match the p2sh script " ++ hex_text (p2sh_script (hash160 fx_wpkh_script))])
  /\ Forall (fun i => m_sorted sk_pubkey (in_partial_sigs i)) (p_inputs p).
Proof.
  cbn zeta. split; [vm_compute; reflexivity|]. split; [eexists; (split; [vm_compute; reflexivity|]); report|].
  split; [vm_compute; reflexivity|]. split; [eexists; (split; [vm_compute; reflexivity|]); report|].
  vm_compute. repeat constructor.
Qed.
