(** Signing, well-formedness and combining. *)
From Verif Require Import Base OMap Consensus Ext Raw TapTree Serialize SerializeFacts MapCodec V2Global V2Input V2Output V2Psbt
  SpecCodec SpecPsbt V2Roles SpecRoles V2RolesFacts RawFacts  SpecCombine V2CombineFacts Script SighashType V2Sign SpecSign V2SignFacts.
Local Open Scope N_scope.

Section Merge.
Context `{X : Ext} `{C : Cfg} `{S : SignExt}.

Lemma bits_below f : (forall b, 8 <= b -> N.testbit f b = false) -> f < 256.
Proof.
  intros H. destruct (N.ltb_spec f 256) as [Hf|Hf]; [assumption|exfalso].
  assert (Hl : 8 <= N.log2 f) by (change 8 with (N.log2 256); now apply N.log2_le_mono).
  specialize (H _ Hl). rewrite N.bit_log2 in H by lia. discriminate.
Qed.
Lemma flags_below P f g : flags_after P f g -> f < 256 -> g < 256.
Proof.
  intros [_ _ _ H] Hf. apply bits_below. intros b Hb. rewrite H by lia.
  rewrite <- (N.mod_small f (2 ^ 8)) by exact Hf. apply N.mod_pow2_bits_high. exact Hb.
Qed.

Lemma sign_input_wf (L : SignLaws X S) m ty sks i : In ty [1; 2; 3; 129; 130; 131] -> wf_input i -> wf_input (sign_input m ty sks i).
Proof.
  intros Hty H. assert (Hm : map_of sk_pubkey wf_pubkey wf_esig (add_sigs m ty (in_partial_sigs i) sks)).
  { destruct (wi_partial_sigs _ H) as [H1 H2]. split; [now apply add_sigs_sorted|].
    clear H H1. revert H2. generalize (in_partial_sigs i). induction sks as [|sk sks IH]; intros sigs Hs; cbn [add_sigs fold_left]; [assumption|].
    apply IH. apply m_put_forall; [assumption|]. cbn [fst snd]. split; [apply secret_pubkey_wf|]. split; cbn [es_der es_type]; [apply sign_ecdsa_der|].
    clear - Hty. cbn in Hty. repeat destruct Hty as [<-|Hty]; try contradiction; reflexivity. }
  unfold sign_input. destruct H. destruct i. constructor; cbn in *; assumption.
Qed.
Lemma F_nth {A} (P : A -> Prop) l : (forall n a, nth_error l (N.to_nat n) = Some a -> P a) -> Forall P l.
Proof.
  intros H. apply Forall_forall. intros a Ha. apply In_nth_error in Ha as [n Hn]. apply (H (N.of_nat n)). now rewrite Nat2N.id.
Qed.
Lemma signed_psbt_wf (L : SignLaws X S) k t p : unsigned_tx p = Ok t -> wf_psbt p -> wf_psbt (signed_psbt k t p).
Proof.
  intros Ht H. pose proof (signed_psbt_same k t p) as Hs. pose proof (signed_psbt_flags k t p Ht) as Hf.
  pose proof (F2_len _ _ _ (sb_inputs _ _ Hs)) as Hl.
  assert (Hg : wf_global (p_global (signed_psbt k t p))).
  { pose proof (sb_global _ _ Hs) as Hg. pose proof (flags_below _ _ _ Hf (wg_flags _ (wp_global _ H))) as Hb.
    rewrite Hg. pose proof (wp_global _ H) as W. destruct W. constructor; cbn; assumption. }
  constructor; [assumption| | | | | |].
  - apply F_nth. intros n i' Hi'. rewrite signed_psbt_nth in Hi'.
    destruct (nth_error (p_inputs p) (N.to_nat n)) as [i|] eqn:Ei; [|discriminate]. cbn [option_map] in Hi'. apply Some_inj in Hi'. subst i'.
    assert (Wi : wf_input i) by exact (proj1 (Forall_forall _ _) (wp_inputs _ H) _ (nth_error_In _ _ Ei)).
    unfold sign_outcome. destruct (outcome_of k t p n) as [|e| |m ty sks] eqn:Eo; auto.
    apply sign_input_wf; auto. destruct (outcome_ty k t p n m ty sks) as (j & _ & _ & _ & [Hty _] & _); auto.
    rewrite (unsigned_inputs _ _ Ht). assert (Hn : nth_error (p_inputs p) (N.to_nat n) <> None) by congruence.
    apply nth_error_Some in Hn. unfold blen. lia.
  - rewrite (sb_outputs _ _ Hs). apply H.
  - rewrite (sb_global _ _ Hs). cbn. unfold blen. rewrite <- Hl. apply H.
  - rewrite (sb_global _ _ Hs), (sb_outputs _ _ Hs). cbn. apply H.
  - unfold blen. rewrite <- Hl. apply H.
  - rewrite (sb_outputs _ _ Hs). apply H.
Qed.

Lemma pubkey_eq_dec (a b : pubkey) : {a = b} + {a <> b}.
Proof.
  destruct (bytes_eqb (pub_inner a) (pub_inner b)) eqn:E.
  - apply bytes_eqb_eq in E. destruct a as [[] ka], b as [[] kb]; cbn in E; subst; try (now left); right; congruence.
  - right. intros ->. now rewrite (proj2 (bytes_eqb_eq _ _) eq_refl) in E.
Qed.
(** Two copies signed with different keys. *)
Lemma outcome_other k1 k2 t p n m ty sks : outcome_of k1 t p n = Signed m ty sks ->
  exists sks', outcome_of k2 t p n = Signed m ty sks'.
Proof.
  unfold outcome_of. destruct (psbt_signing_algorithm p n) as [[]| |]; try discriminate.
  destruct (nth_error (p_inputs p) (N.to_nat n)) as [i|]; try discriminate.
  destruct (psbt_sighash_ecdsa p n t) as [[m' ty']| |]; try discriminate; [|destruct (is_empty _); discriminate].
  intros [= -> -> _]. eauto.
Qed.
Lemma signed_types_other k1 k2 t p ty : signed_types k1 t p ty <-> signed_types k2 t p ty.
Proof.
  unfold signed_types. split; intros (n & m & sks & H1 & H2).
  - destruct (outcome_other k1 k2 t p n m ty sks H2) as [sks' H]. eauto.
  - destruct (outcome_other k2 k1 t p n m ty sks H2) as [sks' H]. eauto.
Qed.
Lemma combine_sigs i s1 s2 : sorted_input i ->
  input_combine (set_in_partial_sigs s1 i) (set_in_partial_sigs s2 i) = Ok (set_in_partial_sigs (comb_map sk_pubkey s1 s2) i).
Proof.
  intros H. unfold input_combine.
  cbn [in_previous_txid in_spent_output_index in_sequence in_min_time in_min_height in_partial_sigs in_sighash_type in_redeem_script
    in_witness_script in_bip32_derivations in_final_script_sig in_final_script_witness in_ripemd160_preimages in_sha256_preimages
    in_hash160_preimages in_hash256_preimages in_tap_key_sig in_tap_script_sigs in_tap_scripts in_tap_key_origins in_tap_internal_key
    in_tap_merkle_root in_sp_ecdh_shares in_sp_dleq_proofs in_proprietaries in_unknowns set_in_partial_sigs].
  rewrite (proj2 (bytes_eqb_eq _ _) eq_refl), N.eqb_refl. cbn [negb fail_if bind]. f_equal.
  assert (Hu : input_combine_utxo (set_in_partial_sigs s1 i) (set_in_partial_sigs s2 i) = (in_non_witness_utxo i, in_witness_utxo i)).
  { unfold input_combine_utxo. cbn [in_non_witness_utxo in_witness_utxo set_in_partial_sigs]. rewrite comb_opt_self. now destruct (in_witness_utxo i). }
  rewrite Hu. cbn [fst snd]. rewrite !comb_opt_self. destruct H as [_ H2 H3 H4 H5 H6 H7 H8 H9 H10 H11 H12 H13].
  rewrite (comb_map_self _ bkey_inj _ H2), (comb_map_self _ bkey_inj _ H3), (comb_map_self _ bkey_inj _ H4),
    (comb_map_self _ bkey_inj _ H5), (comb_map_self _ bkey_inj _ H6), (comb_map_self _ sk_xleaf_inj _ H7),
    (comb_map_self _ sk_controlblock_inj _ H8), (comb_map_self _ bkey_inj _ H9), (comb_map_self _ bkey_inj _ H10),
    (comb_map_self _ bkey_inj _ H11), (comb_map_self _ sk_propkey_inj _ H12), (comb_map_self _ sk_key_inj _ H13).
  now destruct i.
Qed.
Lemma zip_intro {E A} (f : A -> A -> res E A) l1 : forall l2 l3, length l1 = length l2 -> length l1 = length l3 ->
  (forall n a b, nth_error l1 n = Some a -> nth_error l2 n = Some b -> exists c, nth_error l3 n = Some c /\ f a b = Ok c) ->
  combine_zip f l1 l2 = Ok l3.
Proof.
  induction l1 as [|a l1 IH]; intros [|b l2] [|c l3] H1 H2 H; try discriminate; cbn [combine_zip]; [reflexivity|].
  destruct (H 0%nat a b eq_refl eq_refl) as (c' & Hc & ->). cbn in Hc. apply Some_inj in Hc. subst c'. cbn [bind].
  rewrite (IH l2 l3); [reflexivity|cbn in H1; congruence|cbn in H2; congruence|].
  intros n x y Hx Hy. exact (H (Datatypes.S n) x y Hx Hy).
Qed.

(** The keys of [k1] have not signed before, or made the signature they make now. *)
Definition fresh_keys (k1 : provider) (t : tx) (p : psbt) : Prop :=
  forall n i m ty sks pk s, nth_error (p_inputs p) (N.to_nat n) = Some i -> outcome_of k1 t p n = Signed m ty sks ->
    In pk (map public_of sks) -> m_get sk_pubkey pk (in_partial_sigs i) = Some s -> signature_by sks m ty pk s.

Lemma merge_is_sequence k1 k2 t p : unsigned_tx p = Ok t -> sorted_psbt p -> fresh_keys k1 t p ->
  psbt_combine (signed_psbt k1 t p) (signed_psbt k2 t p) = Ok (signed_psbt k2 t (signed_psbt k1 t p)).
Proof.
  intros Ht (Hg & Hi & Ho) Hfr.
  pose proof (signed_psbt_same k1 t p) as S1. pose proof (signed_psbt_same k2 t p) as S2.
  pose proof (signed_psbt_same k2 t (signed_psbt k1 t p)) as S21. pose proof (sbs_trans _ _ _ S1 S21) as S3.
  pose proof (F2_len _ _ _ (sb_inputs _ _ S1)) as L1. pose proof (F2_len _ _ _ (sb_inputs _ _ S2)) as L2.
  pose proof (F2_len _ _ _ (sb_inputs _ _ S3)) as L3.
  assert (F1 : g_tx_modifiable_flags (p_global (signed_psbt k2 t p)) = g_tx_modifiable_flags (p_global (signed_psbt k1 t p))).
  { eapply flags_after_fun; [exact (signed_psbt_flags k2 t p Ht)|].
    eapply fa_ext; [|exact (signed_psbt_flags k1 t p Ht)]. apply signed_types_other. }
  assert (F2 : g_tx_modifiable_flags (p_global (signed_psbt k2 t (signed_psbt k1 t p))) = g_tx_modifiable_flags (p_global (signed_psbt k1 t p))).
  { eapply flags_after_fun; [exact (sign_again_flags k2 t p _ Ht S1)|].
    eapply fa_ext; [|exact (fa_idem _ _ _ (signed_psbt_flags k1 t p Ht))]. apply signed_types_other. }
  apply psbt_combine_ok. split; [|split].
  - rewrite (sb_global _ _ S1), (sb_global _ _ S2), (sb_global _ _ S3), F1, F2. apply global_combine_self.
    destruct Hg. constructor; assumption.
  - apply zip_intro; [congruence|congruence|]. intros n i1 i2 E1 E2.
    rewrite <- (Nat2N.id n) in *. rewrite signed_psbt_nth in E1, E2. rewrite (sign_again_nth k2 t p _ _ S1), signed_psbt_nth.
    destruct (nth_error (p_inputs p) (N.to_nat (N.of_nat n))) as [i|] eqn:E; [|discriminate].
    cbn [option_map] in *. apply Some_inj in E1, E2. subst i1 i2. eexists. split; [reflexivity|].
    assert (Si : sorted_input i) by exact (proj1 (Forall_forall _ _) Hi _ (nth_error_In _ _ E)).
    assert (Hself : forall q, (forall m ty sks, outcome_of q t p (N.of_nat n) <> Signed m ty sks) -> sign_outcome q t p (N.of_nat n) i = i).
    { intros q Hq. unfold sign_outcome. destruct (outcome_of q t p (N.of_nat n)) eqn:Eo; auto. now destruct (Hq _ _ _ eq_refl). }
    destruct (outcome_of k1 t p (N.of_nat n)) as [|e| |m ty sks] eqn:Eo.
    1-3: assert (H1 : sign_outcome k1 t p (N.of_nat n) i = i) by (apply Hself; intros m ty sks; congruence);
      assert (H2 : sign_outcome k2 t p (N.of_nat n) i = i)
        by (apply Hself; intros m ty sks H; destruct (outcome_other k2 k1 _ _ _ _ _ _ H) as [sks' H']; congruence);
      rewrite H1, H2; now apply input_combine_self.
    destruct (outcome_other k1 k2 _ _ _ _ _ _ Eo) as [sks' Eo']. unfold sign_outcome. rewrite Eo, Eo'.
    unfold sign_input at 1 2. rewrite (combine_sigs i _ _ Si). f_equal. unfold sign_input. cbn [in_partial_sigs set_in_partial_sigs].
    pose proof (si_partial_sigs _ Si) as Ss. clear Hself.
    replace (set_in_partial_sigs (add_sigs m ty (add_sigs m ty (in_partial_sigs i) sks) sks') (set_in_partial_sigs (add_sigs m ty (in_partial_sigs i) sks) i))
      with (set_in_partial_sigs (add_sigs m ty (add_sigs m ty (in_partial_sigs i) sks) sks') i) by now destruct i.
    f_equal. apply (m_ext sk_pubkey sk_pubkey_inj).
    + apply m_extend_is_sorted; [exact sk_pubkey_inj|]. now apply add_sigs_sorted.
    + apply add_sigs_sorted. now apply add_sigs_sorted.
    + intros pk. unfold comb_map. rewrite (m_get_extend sk_pubkey sk_pubkey_inj) by now apply add_sigs_sorted.
      destruct (m_get sk_pubkey pk (add_sigs m ty (in_partial_sigs i) sks')) as [s|] eqn:Eg.
      * symmetry. apply add_sigs_get. apply add_sigs_get in Eg as [Eg|[Eg Eg']]; [now left|right]. split; [assumption|].
        apply add_sigs_get.
        destruct (in_dec pubkey_eq_dec pk (map public_of sks)) as [Hin|Hin]; [left|right; auto].
        exact (Hfr _ _ _ _ _ _ _ E Eo Hin Eg').
      * apply add_sigs_none in Eg as [Eg Eg'].
        destruct (m_get sk_pubkey pk (add_sigs m ty (in_partial_sigs i) sks)) as [s|] eqn:Eh; symmetry.
        -- apply add_sigs_get. right. auto.
        -- apply add_sigs_none. auto.
  - rewrite (sb_outputs _ _ S1), (sb_outputs _ _ S2), (sb_outputs _ _ S3). apply combine_zip_self.
    eapply Forall_impl; [|exact Ho]. apply output_combine_self.
Qed.

End Merge.
