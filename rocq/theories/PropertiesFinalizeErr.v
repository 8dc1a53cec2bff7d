(** C137: why an input cannot be finalized (src/v2/miniscript/finalize.rs:75-373,
    src/v0/miniscript/finalizer.rs:34-431). *)
From Verif Require Import Base OMap Consensus ConsensusFacts Ext ExtInstance Raw RawFacts TapTree Serialize SerializeFacts MapCodec
  SpecCodec SpecPsbt V2Global V2Input V2Output V2Psbt V2Roles SpecRoles V2RolesFacts SampleV2 Script V2Sign SignInstance SpecSign V2SignFacts PropertiesV2Sign
  V2Finalize SpecFinalize V2FinalizeFacts V2SpendFacts MsInstance PropertiesV2Finalize
  V0Error V0Input V0Output V0Psbt SpecPsbt0 SampleV0 PropertiesV0Codec SpecExtract0 V0ExtractFacts V0Sign SchnorrInstance SpecSign0 V0SignFacts PropertiesV0Sign
  V0Finalize SpecFinalize0 V0FinalizeFacts V0SpendFacts MsInstance0 PropertiesV0Finalize PropertiesV0Spend SpecFinalizeErr FinalizeErrFacts.
Local Open Scope N_scope.

#[local] Existing Instance toy | 100.
#[local] Instance ex_cfg : Cfg | 100 := cfg_of false false.
#[local] Existing Instance toy_sign | 100.
#[local] Existing Instance toy_ms0 | 100.
#[local] Existing Instance toy_nm | 100.

(** ** The problems *)

(** There is at most one, and the errors tell them apart. *)
Theorem C137_unique : forall (X : Ext) (L : ExtLaws X) (M : MsExt) (NM : MsNmExt M),
  (forall inputs i u q q', m_sorted sk_pubkey (in_partial_sigs i) ->
     cannot (spending_of inputs i u) q -> cannot (spending_of inputs i u) q' -> q = q')
  /\ (forall mall p s u q q', m_sorted sk_pubkey (i0_partial_sigs (snd s)) ->
        cannot (spending_of0 mall p s u) q -> cannot (spending_of0 mall p s u) q' -> q = q')
  /\ (forall q q', error_of q = error_of q' -> q = q') /\ (forall q q', error_of0 q = error_of0 q' -> q = q').
Proof.
  intros X L M NM. split; [|split; [|split; [apply error_of_inj|apply error_of0_inj]]].
  - intros inputs i u q q' Hs H H'. apply gen2_iff in H, H'; try assumption. congruence.
  - intros mall p s u q q' Hs H H'. apply gen0_iff in H, H'; try assumption. congruence.
Qed.
Print Assumptions C137_unique.

(** ** v2 *)

(** The error of an input names its problem, and without a problem there is none. *)
Theorem C137_input : forall (X : Ext) (L : ExtLaws X) (M : MsExt) inputs i u,
  funds i u -> m_sorted sk_pubkey (in_partial_sigs i) ->
  (forall e, final_script_sig_and_witness inputs i = Err e <-> exists q, cannot (spending_of inputs i u) q /\ e = error_of q)
  /\ ((exists ss w, final_script_sig_and_witness inputs i = Ok (ss, w)) <-> forall q, ~ cannot (spending_of inputs i u) q)
  /\ (forall ss w, final_script_sig_and_witness inputs i = Ok (ss, w) -> (w <> [] <-> witness_output (spending_of inputs i u))).
Proof.
  intros X L M inputs i u Hu Hs. split; [intros e; now apply final_err_iff|]. split.
  - rewrite <- (final_ok_iff inputs i u Hu Hs). split; [intros (ss & w & H); eauto|intros [[ss w] H]; eauto].
  - intros ss w H. exact (final_witness inputs i u ss w Hu H).
Qed.
Print Assumptions C137_input.

Lemma why_iff `{X : Ext} {L : ExtLaws X} `{C : Cfg} `{M : MsExt} p i u e : funds i u -> m_sorted sk_pubkey (in_partial_sigs i) ->
  (finalize_input (p_inputs p) i = Err e <-> why p i e).
Proof.
  intros Hu Hs. destruct (C137_input X L M (p_inputs p) i u Hu Hs) as (He & Ho & Hw). unfold finalize_input. split.
  - destruct (final_script_sig_and_witness (p_inputs p) i) as [[ss w]|e'|] eqn:F; cbn [map_err bind].
    + intros H. destruct (input_finalize i ss w) as [?|e'|] eqn:G; cbn [map_err] in H; try discriminate. injection H as <-.
      apply (input_finalize_err i ss w e' u Hu) in G as (H1 & -> & ->). apply (WLegacy p i u Hu); [apply Ho; eauto|assumption|].
      intros W. apply (proj2 (Hw ss [] eq_refl)) in W. congruence.
    + intros H. injection H as <-. destruct (proj1 (He e') eq_refl) as (q & Hq & ->). exact (WProblem p i u q Hu Hq).
    + discriminate.
  - intros H. destruct H as [u' q Hu' Hq|u' Hu' Hq Hn Hl]; rewrite (funds_unique i u' u Hu' Hu) in *.
    + rewrite (proj2 (He (error_of q))) by eauto. reflexivity.
    + destruct (proj2 Ho Hq) as (ss & w & F). rewrite F. cbn [map_err bind]. destruct w as [|x w].
      * rewrite (proj2 (input_finalize_err i ss [] FinEmptyWitness u Hu)) by auto. reflexivity.
      * exfalso. apply Hl, (Hw ss (x :: w) F). discriminate.
Qed.
Lemma funds_dec_why `{X : Ext} {L : ExtLaws X} `{C : Cfg} `{M : MsExt} p i : (exists u, funds i u) -> m_sorted sk_pubkey (in_partial_sigs i) ->
  (finalizes p i <-> forall e, ~ why p i e).
Proof.
  intros [u Hu] Hs. unfold finalizes. pose proof (finalize_input_np (p_inputs p) i u Hu) as Np. split.
  - intros [i' F] e He. apply (why_iff p i u e Hu Hs) in He. congruence.
  - intros H. destruct (finalize_input (p_inputs p) i) as [i'|e|] eqn:F; [eauto| |congruence]. exfalso. apply (H e). now apply (why_iff p i u e Hu Hs).
Qed.

(** The error of the finalizer names the first input that cannot be finalized, and why. *)
Theorem C137_finalize : forall (X : Ext) (L : ExtLaws X) (C : Cfg) (M : MsExt) p k e,
  finalizer_value p -> Forall (fun i => m_sorted sk_pubkey (in_partial_sigs i)) (p_inputs p) ->
  (finalizer_finalize p = Err (FEInput k e) <->
   exists l1 i l2, p_inputs p = l1 ++ i :: l2 /\ Forall (fun j => forall e', ~ why p j e') l1 /\ why p i e /\ k = blen l1).
Proof.
  intros X L C M p k e Hp Hs. rewrite (C52_error X C M p k e Hp). pose proof (proj2 (finalizer_new_funded p p Hp)) as Hf.
  assert (Q : forall l1 i l2, p_inputs p = l1 ++ i :: l2 ->
    (Forall (finalizes p) l1 /\ fails_with p i e <-> Forall (fun j => forall e', ~ why p j e') l1 /\ why p i e)).
  { intros l1 i l2 E. rewrite E in Hf, Hs. apply Forall_app in Hf as [Hf1 Hf2], Hs as [Hs1 Hs2]. inversion Hf2 as [|? ? [u Hu] _]; subst. inversion Hs2; subst.
    unfold fails_with. rewrite (why_iff p i u e Hu) by assumption.
    assert (A : Forall (finalizes p) l1 <-> Forall (fun j => forall e', ~ why p j e') l1); [|tauto].
    rewrite !Forall_forall in *. split; intros H j Hj; apply (funds_dec_why p j (Hf1 j Hj) (Hs1 j Hj)); auto. }
  split; intros (l1 & i & l2 & E & H1 & H2 & H3); exists l1, i, l2; destruct (Q _ _ _ E) as [Q1 Q2]; tauto.
Qed.
Print Assumptions C137_finalize.

(** Outputs of a key and a script, with what is missing or wrong. *)
Definition fe_in (spk : bytes) : input := set_in_witness_utxo (Some (TxOut 5000 spk)) (input_new (txid_a, 0)).
Definition fe_sig (i : input) : input := set_in_partial_sigs [(PubKey true fx_key, ESig (sign_ecdsa [x01] ex_sec_a) 1)] i.
Definition fe_wsh_script : bytes := program_script 0 (sha256 fx_after).
Definition fe_error (i : input) : option inputerr := match final_script_sig_and_witness [i] i with Err e => Some e | _ => None end.
Definition fe_pk (k : bytes) : bytes := n2b (blen k) :: k ++ [xac].
Example C137_example :
  let rs := set_in_redeem_script in
  let ws := set_in_witness_script in
  map fe_error [
    (* problems of outputs to keys *)
    fe_in (fe_pk (xff :: repeat x00 32)); fe_in (fe_pk fx_key); fe_in (p2pkh_script (hash160 fx_key)); fe_in fx_wpkh_script;
    (* problems of outputs to scripts *)
    rs (Some []) (fe_in fe_wsh_script); fe_in fe_wsh_script; ws (Some [x51]) (fe_in fe_wsh_script); ws (Some fx_after) (fe_in fe_wsh_script);
    fe_in (p2sh_script (hash160 fx_wpkh_script)); rs (Some [x51]) (fe_in (p2sh_script (hash160 fx_wpkh_script)));
    rs (Some fx_wpkh_script) (fe_in (p2sh_script (hash160 fx_wpkh_script)));
    rs (Some fe_wsh_script) (fe_in (p2sh_script (hash160 fe_wsh_script)));
    rs (Some fe_wsh_script) (ws (Some [x51]) (fe_in (p2sh_script (hash160 fe_wsh_script))));
    rs (Some [x51]) (ws (Some []) (fe_in (p2sh_script (hash160 [x51])))); rs (Some [x52]) (fe_in (p2sh_script (hash160 [x52])));
    (* problems of other outputs *)
    fe_in (program_script 1 (repeat x05 32)); ws (Some []) (fe_in [x6a]); rs (Some []) (fe_in [x6a]); fe_in [x6a];
    (* no problem *)
    fe_sig (fe_in (fe_pk fx_key)); fe_sig (fe_in fx_wpkh_script);
    fe_sig (rs (Some fx_wpkh_script) (fe_in (p2sh_script (hash160 fx_wpkh_script)))) ]
  = [ Some IEKey; Some IEMiniscript; Some IEMissingPubkey; Some IEMissingPubkey;
      Some IENonEmptyRedeemScript; Some IEMissingWitnessScript; Some (IEInvalidWitnessScript [x51] fe_wsh_script); Some IEMiniscript;
      Some IEMissingRedeemScript; Some (IEInvalidRedeemScript [x51] (p2sh_script (hash160 fx_wpkh_script)));
      Some IEMissingPubkey; Some IEMissingWitnessScript; Some (IEInvalidWitnessScript [x51] fe_wsh_script);
      Some IENonEmptyWitnessScript; Some IEMiniscript;
      Some IECouldNotSatisfyTr; Some IENonEmptyWitnessScript; Some IENonEmptyRedeemScript; Some IEMiniscript;
      None; None; None ].
Proof. vm_compute. reflexivity. Qed.
(** A signed pay-to-public-key input, given as if it had a witness. *)
Example C137_example_legacy :
  let p := ex_of 0 [fe_sig (fe_in fx_wpkh_script); fe_sig (fe_in (fe_pk fx_key)); fe_in fx_wpkh_script] in
  finalizer_value p /\ finalizer_finalize p = Err (FEInput 1 (FIInput FinEmptyWitness))
  /\ why p (fe_sig (fe_in (fe_pk fx_key))) (FIInput FinEmptyWitness).
Proof.
  split; [vm_compute; reflexivity|]. split; [vm_compute; reflexivity|].
  apply (why_iff (L := toy_laws) (C := ex_cfg) _ _ (TxOut 5000 (fe_pk fx_key))).
  - left. vm_compute. reflexivity.
  - vm_compute. repeat constructor.
  - vm_compute. reflexivity.
Qed.

(** ** v0 *)

Theorem C137_v0_input : forall (X : Ext) (L : ExtLaws X) (M : MsExt) (NM : MsNmExt M) mall p n s,
  spend_at p n s -> m_sorted sk_pubkey (i0_partial_sigs (snd s)) ->
  (forall e, build_final mall p n = Err e <->
     no_utxo s /\ e = J0MissingUtxo \/ exists u q, funds0 s u /\ cannot (spending_of0 mall p s u) q /\ e = error_of0 q)
  /\ ((exists w ss, build_final mall p n = Ok (w, ss)) <-> exists u, funds0 s u /\ forall q, ~ cannot (spending_of0 mall p s u) q).
Proof.
  intros X L M NM mall p n s Hat Hs. destruct (spend_cases s) as [Hn|[Ho|[u Hu]]].
  - assert (F : forall u, ~ funds0 s u) by (intros u [F|(_ & t & F & _)]; destruct Hn; congruence).
    rewrite (build_unknown mall p n s Hat Hn). split.
    + intros e. split; [intros E; injection E as <-; auto|]. intros [[_ ->]|(u & q & Hu & _)]; [reflexivity|]. now apply F in Hu.
    + split; [intros (w & ss & E); discriminate|]. intros (u & Hu & _). now apply F in Hu.
  - assert (F : forall u, ~ funds0 s u).
    { intros u Hu. apply (get_utxo_ok p n s u Hat) in Hu. apply (get_utxo_panic p n s Hat) in Ho. congruence. }
    rewrite (proj2 (build_final_panic mall p n s Hat) Ho). split.
    + intros e. split; [discriminate|]. intros [[[_ N] _]|(u & q & Hu & _)]; [|now apply F in Hu]. destruct Ho as (_ & t & Ht & _). congruence.
    + split; [intros (w & ss & E); discriminate|]. intros (u & Hu & _). now apply F in Hu.
  - split.
    + intros e. rewrite (final0_err_iff mall p n s u Hat Hu e Hs). split.
      * intros (q & H1 & H2). right. exists u, q. auto.
      * intros [[[N1 N2] _]|(u' & q & Hu' & H)]; [destruct Hu as [F|(_ & t & F & _)]; congruence|]. rewrite (funds0_fun _ _ _ Hu' Hu) in H. eauto.
    + transitivity (exists r, build_final mall p n = Ok r); [split; [intros (w & ss & H); eauto|intros [[w ss] H]; eauto]|].
      rewrite (final0_ok_iff mall p n s u Hat Hu Hs). split; [intros H; exists u; auto|]. intros (u' & Hu' & H). now rewrite (funds0_fun _ _ _ Hu' Hu) in H.
Qed.
Print Assumptions C137_v0_input.

Theorem C137_v0_finalize : forall (X : Ext) (L : ExtLaws X) (M : MsExt) (NM : MsNmExt M) p n e,
  one_map_per_input p -> vouts_in_bounds p -> Forall (fun i => m_sorted sk_pubkey (i0_partial_sigs i)) (p0_inputs p) ->
  n < blen (p0_inputs p) ->
  (finalize_inp_mut p n = Err e <-> why0 false p n e).
Proof.
  intros X L M NM p n e Hone Hin Hso Hn. rewrite (C52_v0_single_error X M NM p n e Hone Hin).
  destruct (spend_of p n Hone Hn) as [s Hat].
  assert (Hs : m_sorted sk_pubkey (i0_partial_sigs (snd s))).
  { rewrite Forall_forall in Hso. apply Hso. destruct s as [t i]. apply spend_at_iff in Hat as [_ Hi]. now apply nth_error_In in Hi. }
  destruct (C137_v0_input X L M NM false p n s Hat Hs) as [He Ho].
  assert (Np : (exists w ss, built false p n w ss) <-> no_problem0 false p n).
  { unfold built. rewrite Ho. unfold no_problem0. split; [intros (u & Hu & H); exists s, u; auto|]. intros (s' & u & Hat' & H). unfold spend_at in *.
    replace s' with s in H by congruence. eauto. }
  assert (U : forall s', spend_at p n s' -> s' = s) by (unfold spend_at in *; intros; congruence).
  split.
  - intros [[H _]|[_ H]]; [lia|]. destruct H as [e' H|w ss k H Hk|w ss v H Hv Hne].
    + unfold not_built in H. apply He in H as [[H ->]|(u & q & Hu & H & ->)]; [exact (W0Utxo false p n s Hat H)|exact (W0Problem false p n s u q Hat Hu H)].
    + apply W0Other; [apply Np; eauto|assumption].
    + apply (W0Interpreter false p n w ss v); [apply Np; eauto|assumption..].
  - intros H. right. split; [assumption|]. destruct H as [s' Hs' H|s' u q Hs' Hu H|k H Hk|w ss v _ H Hv Hne].
    + apply F0Build. unfold not_built. apply He. left. rewrite (U _ Hs') in H. auto.
    + apply F0Build. unfold not_built. apply He. right. rewrite (U _ Hs') in *. exists u, q. auto.
    + apply Np in H as (w & ss & H). exact (F0Utxo false p n w ss k H Hk).
    + exact (F0Interpreter false p n w ss v H Hv Hne).
Qed.
Print Assumptions C137_v0_finalize.

Definition fe0_error (mall : bool) (i : input0) : option inputerr0 := match build_final mall (ex0_of [i]) 0 with Err e => Some e | _ => None end.
Definition fe0_wsh_script : bytes := program_script 0 (sha256 fy_or).
Example C137_v0_example :
  let rs := set_i0_redeem_script in
  let ws := set_i0_witness_script in
  let on spk := fy_utxo spk input0_default in
  map (fe0_error false) [
    input0_default;
    on (fe_pk (xff :: repeat x00 32)); on (fe_pk fz_key); on (p2pkh_script (hash160 fz_key)); on fz_wpkh_script;
    rs (Some []) (on fe0_wsh_script); on fe0_wsh_script; ws (Some [x51]) (on fe0_wsh_script); ws (Some fy_or) (on fe0_wsh_script);
    on (p2sh_script (hash160 fz_wpkh_script)); rs (Some [x51]) (on (p2sh_script (hash160 fz_wpkh_script)));
    rs (Some fz_wpkh_script) (on (p2sh_script (hash160 fz_wpkh_script)));
    rs (Some fe0_wsh_script) (on (p2sh_script (hash160 fe0_wsh_script)));
    rs (Some fe0_wsh_script) (ws (Some [x51]) (on (p2sh_script (hash160 fe0_wsh_script))));
    rs (Some [x51]) (ws (Some []) (on (p2sh_script (hash160 [x51])))); rs (Some [x52]) (on (p2sh_script (hash160 [x52])));
    on (program_script 1 (repeat x05 32)); ws (Some []) (on [x6a]); rs (Some []) (on [x6a]); on [x6a];
    fz_in (fe_pk fz_key); fz_in fz_wpkh_script ]
  = [ Some J0MissingUtxo; Some J0Key; Some J0Miniscript; Some J0MissingPubkey; Some J0MissingPubkey;
      Some J0NonEmptyRedeemScript; Some J0MissingWitnessScript; Some (J0InvalidWitnessScript [x51] fe0_wsh_script); Some J0Miniscript;
      Some J0MissingRedeemScript; Some (J0InvalidRedeemScript [x51] (p2sh_script (hash160 fz_wpkh_script)));
      Some J0MissingPubkey; Some J0MissingWitnessScript; Some (J0InvalidWitnessScript [x51] fe0_wsh_script);
      Some J0NonEmptyWitnessScript; Some J0Miniscript;
      Some J0CouldNotSatisfyTr; Some J0NonEmptyWitnessScript; Some J0NonEmptyRedeemScript; Some J0Miniscript; None; None ].
Proof. vm_compute. reflexivity. Qed.
(** Nothing is wrong with the first input, but nothing is known of the output that the second spends. *)
Example C137_v0_example_other :
  let p := ex0_of [fz_in fz_wpkh_script; input0_default] in
  one_map_per_input p /\ vouts_in_bounds p /\ finalize_inp_mut p 0 = Err (M0Input J0MissingUtxo 1)
  /\ finalize_inp_mut p 1 = Err (M0Input J0MissingUtxo 1).
Proof.
  split; [vm_compute; reflexivity|]. split.
  - repeat apply Forall_cons; try apply Forall_nil; intros (H1 & t & H2 & _); vm_compute in H1, H2; discriminate.
  - vm_compute. auto.
Qed.
