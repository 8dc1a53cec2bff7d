(** Consequences for whole v2 PSBTs: round trip, stability, duplicates, raw pairs,
    order, truncation. *)
From Coq Require Import Permutation.
From Verif Require Import Base OMap Consensus ConsensusFacts Ext Raw RawFacts TapTree TapTreeFacts
  Serialize SerializeFacts MapCodec MapFacts V2Global V2Input V2Output V2Psbt
  V2OutputFacts V2InputFacts V2GlobalFacts SpecCodec SpecCodecFacts SpecPsbt V2PsbtFacts.
Local Open Scope N_scope.

Section Facts.
Context `{X : Ext} {L : ExtLaws X} `{C : Cfg}.

(** ** Key types *)
Lemma oslot_unknown t : oslot t = OUnknowns <-> output_type_key t = false /\ proprietary_type t = false.
Proof.
  unfold oslot, output_type_key, proprietary_type.
  destruct feat_sp; destruct t; cbn; split; intros H; (discriminate || now destruct H || auto).
Qed.
Lemma islot_unknown t : islot t = IUnknowns <-> input_type t = false /\ proprietary_type t = false.
Proof.
  unfold islot, input_type, proprietary_type.
  destruct feat_sp; destruct t; cbn; split; intros H; (discriminate || now destruct H || auto).
Qed.
Lemma gslot_unknown t : gslot t = GUnknowns <-> global_type t = false /\ proprietary_type t = false.
Proof.
  unfold gslot, global_type, proprietary_type.
  destruct feat_sp; destruct t; cbn; split; intros H; (discriminate || now destruct H || auto).
Qed.

Lemma wf_map_impl {K V} (sk : K -> list N) (P Q : K -> Prop) (wfv : V -> Prop) m :
  (forall k, P k -> Q k) -> wf_map sk P wfv m -> wf_map sk Q wfv m.
Proof.
  intros H [H1 H2]. split; auto. eapply Forall_impl; [|exact H2]. cbn. intros kv [Ha Hb]. auto.
Qed.
Lemma preimages_iff n h m : wf_preimages n h m <-> preimages n h m.
Proof.
  unfold wf_preimages, preimages, map_of. split.
  - intros [H1 H2]. split; [split; auto|]; eapply Forall_impl; try exact H2; cbn; tauto.
  - intros [[H1 H2] H3]. split; auto. rewrite Forall_forall in *. intros kv Hkv.
    specialize (H2 kv Hkv). specialize (H3 kv Hkv). tauto.
Qed.

(** ** Outputs *)
Lemma output_check_iff o :
  output_check o = Ok o <-> out_amount o <> 0 /\ (feat_sp = false -> out_script_pubkey o <> []) /\
    (feat_sp = true -> out_sp_v0_label o <> None -> out_sp_v0_info o <> None).
Proof.
  unfold output_check. destruct (out_amount o =? 0) eqn:E1; cbn [fail_if bind]; [split; [discriminate|lia]|].
  assert (Ha : out_amount o <> 0) by lia.
  destruct feat_sp; cbn [negb andb fail_if bind].
  - destruct (out_sp_v0_label o), (out_sp_v0_info o); cbn [is_some is_none andb fail_if bind];
      split; try discriminate; intros H; auto.
    + repeat split; auto; discriminate.
    + exfalso. destruct H as (_ & _ & H). apply H; auto; discriminate.
    + repeat split; auto. congruence.
    + repeat split; auto. congruence.
  - destruct (out_script_pubkey o); cbn [is_empty fail_if bind]; split; try discriminate; auto.
    + intros (_ & H & _). now specialize (H eq_refl).
    + intros _. repeat split; auto; discriminate.
Qed.

Lemma wf_output_iff o : wf_output o <-> swf oty oget ofwf o /\ output_check o = Ok o.
Proof.
  rewrite output_check_iff. split.
  - intros H. split; [|split; [apply H|split; [apply H|intros _; apply H]]].
    intros f. destruct f; try apply H.
    refine (wf_map_impl _ _ _ _ _ _ (wo_unknowns _ H)). intros k (H1 & H2). split; auto. now apply oslot_unknown.
  - intros (H & H1 & H2 & H3). constructor; auto.
    + exact (H OAmount).
    + exact (H OScriptPubkey).
    + exact (H ORedeemScript).
    + exact (H OWitnessScript).
    + exact (H OBip32).
    + exact (H OTapInternalKey).
    + exact (H OTapTree).
    + exact (H OTapKeyOrigins).
    + exact (H OSpInfo).
    + exact (H OSpLabel).
    + destruct feat_sp eqn:F; auto. pose proof (H OSpLabel) as Q. cbn in Q. rewrite F in Q. congruence.
    + exact (H OProprietaries).
    + refine (wf_map_impl _ _ _ _ _ _ (H OUnknowns)). intros k (Q1 & Q2). split; auto. now apply oslot_unknown.
Qed.

Lemma output_acc_wf l o : output_acc l o -> wf_output o.
Proof.
  intros (H1 & H2 & H3). apply wf_output_iff. split; auto.
  refine (frame_wf _ _ _ ofield_dec _ _ _ oframe _ _ _ _ ospec _ _ _ _ H1 H2).
  exact (frame_init_wf _ _ _ _ _ _ _ _ ospec _ oinit_empty).
Qed.

Lemma output_pairs_wf o : wf_output o -> Forall wf_pair (output_pairs o).
Proof. intros H. apply wf_output_iff in H as [H _]. rewrite opairs_eq. exact (frame_pairs_wf _ _ _ _ _ _ _ _ _ ospec _ H). Qed.
Lemma output_pairs_nodup o : wf_output o -> NoDup (map p_key (output_pairs o)).
Proof. intros H. apply wf_output_iff in H as [H _]. rewrite opairs_eq. exact (frame_nodup _ _ _ _ _ _ _ _ _ ospec oorder_nodup _ H). Qed.

Lemma output_rt o : wf_output o -> exists o', output_acc (output_pairs o) o' /\ forall f, oget f o' = onorm f (oget f o).
Proof.
  intros H. pose proof (output_pairs_wf o H) as Hp. apply wf_output_iff in H as [H Hc].
  destruct (frame_rt _ _ _ ofield_dec _ _ _ oframe _ _ _ _ _ ospec oorder_nodup oorder_all o output_invalid H oinit_empty) as (o' & E & En).
  exists o'. split; auto. split; auto. rewrite opairs_eq. split; auto.
  apply output_check_iff. apply output_check_iff in Hc.
  pose proof (En OAmount) as E1. pose proof (En OScriptPubkey) as E2. pose proof (En OSpInfo) as E3. pose proof (En OSpLabel) as E4.
  cbn in E1, E2, E3, E4. rewrite E1, E2, E3, E4. exact Hc.
Qed.

Lemma onorm_eq o o' : (forall f, oget f o' = onorm f (oget f o)) -> wf_output o -> output_eq o o'.
Proof.
  intros En Hw. split.
  - pose proof (En OTapTree) as E. cbn in E. rewrite E. pose proof (wo_tap_tree _ Hw) as Ht.
    destruct (out_tap_tree o) as [t|]; [|reflexivity]. cbn. f_equal. now destruct (tt_norm_spec t Ht) as (_ & -> & _).
  - pose proof (En OAmount). pose proof (En OScriptPubkey). pose proof (En ORedeemScript). pose proof (En OWitnessScript).
    pose proof (En OBip32). pose proof (En OTapInternalKey). pose proof (En OTapKeyOrigins). pose proof (En OSpInfo).
    pose proof (En OSpLabel). pose proof (En OProprietaries). pose proof (En OUnknowns).
    cbn in *. destruct o, o'. unfold set_out_tap_tree. cbn in *. subst. reflexivity.
Qed.
Lemma onorm_exact o o' : (forall f, oget f o' = onorm f (oget f o)) ->
  opt_of (fun t => exists sh, wf_shape sh /\ no_tie sh /\ node_of sh = Some t) (out_tap_tree o) -> o' = o.
Proof.
  intros En Ht. apply (fo_ext _ _ _ _ _ _ oframe). intros f. rewrite En. destruct f; try reflexivity. cbn.
  destruct (out_tap_tree o) as [t|]; [|reflexivity]. cbn. f_equal.
  destruct Ht as (sh & H1 & H2 & H3). unfold tt_norm. now rewrite (taptree_roundtrip_exact sh t).
Qed.

(** ** Inputs *)
Lemma is_empty_true {A} (l : list A) : is_empty l = true <-> l = [].
Proof. destruct l; split; (reflexivity || discriminate). Qed.
Lemma sp_both {A B} (a : list A) (b : list B) : Bool.eqb (is_empty a) (is_empty b) = true <-> (a = [] <-> b = []).
Proof.
  destruct a, b; cbn; (split; [intros H; try discriminate H; split; intros E; try discriminate E; auto
    | intros [H1 H2]; try reflexivity; (discriminate (H1 eq_refl) || discriminate (H2 eq_refl))]).
Qed.

Lemma input_check_iff i :
  input_check i = Ok i <-> in_previous_txid i <> TXID_ZERO /\ in_spent_output_index i <> U32_MAX /\
    (feat_sp = true -> (in_sp_ecdh_shares i = [] <-> in_sp_dleq_proofs i = [])).
Proof.
  unfold input_check. destruct (bytes_eqb (in_previous_txid i) TXID_ZERO) eqn:E1; cbn [fail_if bind].
  { apply bytes_eqb_eq in E1. split; [discriminate|tauto]. }
  apply bytes_eqb_neq in E1. destruct (in_spent_output_index i =? U32_MAX) eqn:E2; cbn [fail_if bind]; [split; [discriminate|lia]|].
  assert (E3 : in_spent_output_index i <> U32_MAX) by lia.
  destruct feat_sp; cbn [andb fail_if bind].
  - destruct (Bool.eqb _ _) eqn:E4; cbn [negb fail_if bind].
    + apply sp_both in E4. tauto.
    + split; [discriminate|]. intros (_ & _ & H). specialize (H eq_refl). apply sp_both in H. congruence.
  - split; auto. intros _. repeat split; auto; discriminate.
Qed.

Lemma wf_input_iff i : wf_input i <-> swf ity iget ifwf i /\ input_check i = Ok i.
Proof.
  rewrite input_check_iff. split.
  - intros H. split; [|split; [apply H|split; [pose proof (wi_index _ H) as Q; change (2 ^ 32) with 4294967296 in Q; unfold U32_MAX; lia|intros _; apply H]]].
    intros f. destruct f; try apply H.
    + pose proof (wi_index _ H) as Q. change (2 ^ 32) with 4294967296 in Q. cbn. unfold wf_u32, U32. lia.
    + apply preimages_iff, H.
    + apply preimages_iff, H.
    + apply preimages_iff, H.
    + apply preimages_iff, H.
    + refine (wf_map_impl _ _ _ _ _ _ (wi_unknowns _ H)). intros k (H1 & H2). split; auto. now apply islot_unknown.
  - intros (H & H1 & H2 & H3). constructor; auto.
    + exact (H IPreviousTxid).
    + pose proof (H ISpentOutputIndex) as Q. cbn in Q. unfold wf_u32, U32, U32_MAX in *. change (2 ^ 32) with 4294967296. lia.
    + exact (H ISequence).
    + exact (H IMinTime).
    + exact (H IMinHeight).
    + exact (H INonWitnessUtxo).
    + exact (H IWitnessUtxo).
    + exact (H IPartialSigs).
    + exact (H ISighashType).
    + exact (H IRedeemScript).
    + exact (H IWitnessScript).
    + exact (H IBip32).
    + exact (H IFinalScriptSig).
    + exact (H IFinalScriptWitness).
    + apply preimages_iff. exact (H IRipemd160).
    + apply preimages_iff. exact (H ISha256).
    + apply preimages_iff. exact (H IHash160).
    + apply preimages_iff. exact (H IHash256).
    + exact (H ITapKeySig).
    + exact (H ITapScriptSigs).
    + exact (H ITapScripts).
    + exact (H ITapKeyOrigins).
    + exact (H ITapInternalKey).
    + exact (H ITapMerkleRoot).
    + exact (H ISpEcdhShares).
    + exact (H ISpDleqProofs).
    + destruct feat_sp eqn:F; auto. pose proof (H ISpEcdhShares) as Q1. pose proof (H ISpDleqProofs) as Q2.
      cbn in Q1, Q2. rewrite F in Q1, Q2. rewrite Q1, Q2. tauto.
    + exact (H IProprietaries).
    + refine (wf_map_impl _ _ _ _ _ _ (H IUnknowns)). intros k (Q1 & Q2). split; auto. now apply islot_unknown.
Qed.

Lemma input_acc_wf l i : input_acc l i -> wf_input i.
Proof.
  intros (H1 & H2 & H3). apply wf_input_iff. split; auto.
  refine (frame_wf _ _ _ ifield_dec _ _ _ iframe _ _ _ _ ispec _ _ _ _ H1 H2).
  exact (frame_init_wf _ _ _ _ _ _ _ _ ispec _ iinit_empty).
Qed.
Lemma input_pairs_wf i : wf_input i -> Forall wf_pair (input_pairs i).
Proof. intros H. apply wf_input_iff in H as [H _]. rewrite ipairs_eq. exact (frame_pairs_wf _ _ _ _ _ _ _ _ _ ispec _ H). Qed.
Lemma input_pairs_nodup i : wf_input i -> NoDup (map p_key (input_pairs i)).
Proof. intros H. apply wf_input_iff in H as [H _]. rewrite ipairs_eq. exact (frame_nodup _ _ _ _ _ _ _ _ _ ispec iorder_nodup _ H). Qed.
Lemma input_rt i : wf_input i -> input_acc (input_pairs i) i.
Proof.
  intros H. pose proof (input_pairs_wf i H) as Hp. apply wf_input_iff in H as [H Hc].
  destruct (frame_rt _ _ _ ifield_dec _ _ _ iframe _ _ _ _ _ ispec iorder_nodup iorder_all i input_invalid H iinit_empty) as (i' & E & En).
  assert (i' = i). { apply (fo_ext _ _ _ _ _ _ iframe). intros f. rewrite En. now destruct f. }
  subst i'. split; auto. rewrite ipairs_eq. auto.
Qed.

(** ** The global map *)
Definition to_gdec (g : global) : gdec :=
  GDec (Some (g_version g)) (Some (g_tx_version g)) (g_fallback_lock_time g) (Some (g_tx_modifiable_flags g))
       (Some (g_input_count g), Some (g_output_count g)) (g_xpubs g) (g_sp_ecdh_shares g) (g_sp_dleq_proofs g)
       (g_proprietaries g) (g_unknowns g).

Lemma gpairs_eq g : global_pairs g = spairs gty gget gfpairs gorder (to_gdec g).
Proof.
  unfold global_pairs, spairs, gorder, to_gdec.
  cbn [flat_map gfpairs gget gd_version gd_tx_version gd_fallback_lock_time gd_counts gd_tx_modifiable_flags gd_xpubs
       gd_sp_ecdh_shares gd_sp_dleq_proofs gd_proprietaries gd_unknowns opt_pairs gcounts_pairs fst snd].
  unfold gcounts_pairs. cbn [opt_pairs fst snd]. rewrite app_nil_r. reflexivity.
Qed.

Lemma global_check_iff d g :
  global_check d = Ok g <-> exists v tv ic oc, gd_version d = Some v /\ gd_tx_version d = Some tv /\
     gd_counts d = (Some ic, Some oc) /\ ic < U64 /\ oc < U64 /\
     (feat_sp = true -> (gd_sp_ecdh_shares d = [] <-> gd_sp_dleq_proofs d = [])) /\
     g = Global v tv (gd_fallback_lock_time d) (opt_default 0 (gd_tx_modifiable_flags d)) ic oc
           (gd_xpubs d) (gd_sp_ecdh_shares d) (gd_sp_dleq_proofs d) (gd_proprietaries d) (gd_unknowns d).
Proof.
  unfold global_check. split.
  - intros H. apply bind_ok in H as (v & H1 & H). apply bind_ok in H as (tv & H2 & H).
    apply bind_ok in H as (ic & H3 & H). destruct (U64 <=? ic) eqn:Ei; cbn [fail_if bind] in H; [discriminate|].
    apply bind_ok in H as (oc & H4 & H). destruct (U64 <=? oc) eqn:Eo; cbn [fail_if bind] in H; [discriminate|].
    apply ok_or_ok in H1, H2, H3, H4. exists v, tv, ic, oc. destruct (gd_counts d) as [c1 c2]. cbn [fst snd] in *. subst c1 c2.
    split; auto. split; auto. split; auto. split; [lia|]. split; [lia|].
    destruct feat_sp; cbn [andb] in H.
    + destruct (Bool.eqb _ _) eqn:E4; cbn [negb fail_if bind] in H; [|discriminate]. apply sp_both in E4. inj H. auto.
    + cbn [fail_if bind] in H. inj H. split; auto. discriminate.
  - intros (v & tv & ic & oc & -> & -> & -> & Hi & Ho & Hsp & ->). cbn [ok_or bind fst snd].
    replace (U64 <=? ic) with false by lia. cbn [fail_if bind ok_or]. replace (U64 <=? oc) with false by lia.
    cbn [fail_if bind]. destruct feat_sp; cbn [andb fail_if bind]; auto.
    specialize (Hsp eq_refl). apply sp_both in Hsp. rewrite Hsp. reflexivity.
Qed.

Lemma wf_global_iff g : wf_global g <-> swf gty gget gfwf (to_gdec g) /\ global_check (to_gdec g) = Ok g.
Proof.
  rewrite global_check_iff. split.
  - intros H. split.
    + intros f. destruct f; try apply H.
      * cbn. symmetry. apply H.
      * split; apply H.
      * refine (wf_map_impl _ _ _ _ _ _ (wg_unknowns _ H)). intros k ((Hk & H1 & H2) & H3). split; auto. split.
        -- apply gslot_unknown. auto.
        -- destruct (beq (k_type k) x00) eqn:E; auto. apply beq_eq in E. congruence.
    + exists (g_version g), (g_tx_version g), (g_input_count g), (g_output_count g).
      split; auto. split; auto. split; auto. split; [apply H|]. split; [apply H|]. split; [intros _; apply H|]. now destruct g.
  - intros (H & v & tv & ic & oc & H1 & H2 & H3 & H4 & H5 & H6 & _). constructor.
    + symmetry. exact (H GVersion).
    + exact (H GTxVersion).
    + exact (H GFallback).
    + exact (H GFlags).
    + exact (proj1 (H GCounts)).
    + exact (proj2 (H GCounts)).
    + exact (H GXpubs).
    + exact (H GSpEcdhShares).
    + exact (H GSpDleqProofs).
    + cbn in H6. destruct feat_sp eqn:F; auto. pose proof (H GSpEcdhShares) as Q1. pose proof (H GSpDleqProofs) as Q2.
      cbn in Q1, Q2. rewrite F in Q1, Q2. rewrite Q1, Q2. tauto.
    + exact (H GProprietaries).
    + refine (wf_map_impl _ _ _ _ _ _ (H GUnknowns)). intros k (Q1 & Q2 & Q3). apply gslot_unknown in Q2.
      split; [split; auto|]. intros E. rewrite E in Q3. discriminate.
Qed.

Lemma global_acc_wf l g : global_acc l g -> wf_global g.
Proof.
  intros (H1 & d & H2 & H3). assert (Hd : swf gty gget gfwf d).
  { refine (frame_wf _ _ _ gfield_dec _ _ _ gframe _ _ _ _ gspec _ _ _ _ H1 H2).
    exact (frame_init_wf _ _ _ _ _ _ _ _ gspec _ ginit_empty). }
  apply global_check_iff in H3 as (v & tv & ic & oc & Ev & Et & Ec & Hi & Ho & Hsp & ->).
  apply wf_global_iff. split.
  - intros f. specialize (Hd f). destruct f; try exact Hd.
    + cbn in Hd |- *. now rewrite Ev in Hd.
    + cbn in Hd |- *. now rewrite Et in Hd.
    + cbn in Hd |- *. rewrite Ec in Hd. exact Hd.
    + cbn in Hd |- *. destruct (gd_tx_modifiable_flags d); [exact Hd|reflexivity].
  - apply global_check_iff. exists v, tv, ic, oc. cbn. repeat (split; [solve [auto]|]). reflexivity.
Qed.
Lemma global_pairs_wf g : wf_global g -> Forall wf_pair (global_pairs g).
Proof. intros H. apply wf_global_iff in H as [H _]. rewrite gpairs_eq. exact (frame_pairs_wf _ _ _ _ _ _ _ _ _ gspec _ H). Qed.
Lemma global_pairs_nodup g : wf_global g -> NoDup (map p_key (global_pairs g)).
Proof. intros H. apply wf_global_iff in H as [H _]. rewrite gpairs_eq. exact (frame_nodup _ _ _ _ _ _ _ _ _ gspec gorder_nodup _ H). Qed.
Lemma global_rt g : wf_global g -> global_acc (global_pairs g) g.
Proof.
  intros H. pose proof (global_pairs_wf g H) as Hp. apply wf_global_iff in H as [H Hc].
  destruct (frame_rt _ _ _ gfield_dec _ _ _ gframe _ _ _ _ _ gspec gorder_nodup gorder_all (to_gdec g) gdec_init H ginit_empty) as (i' & E & En).
  assert (i' = to_gdec g). { apply (fo_ext _ _ _ _ _ _ gframe). intros f. rewrite En. now destruct f. }
  subst i'. split; auto. rewrite gpairs_eq. eauto.
Qed.

End Facts.
