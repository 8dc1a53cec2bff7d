(** C151: what a signature of a version 2 PSBT covers. *)
From Verif Require Import Base OMap Consensus ConsensusFacts Ext RealExt RealLaws RealSign ExtInstance Serialize SerializeFacts
  V2Global V2Input V2Output V2Psbt SpecPsbt V2PsbtFacts V2Roles SpecRoles V2RolesFacts V2Sign SpecSign V2SignFacts SampleV2
  V2WireFacts DigestFacts SpecCommit SpecCommit2 PropertiesV2Codec PropertiesV2Roles PropertiesV2Sign PropertiesCommit.
Local Open Scope N_scope.

(** ** Values of well-formed PSBTs *)

Lemma commit2_funds `{X : Ext} `{C : Cfg} p i u : wf_psbt p -> In i (p_inputs p) -> funds i u -> wf_txout u.
Proof.
  intros W Hi Hu. pose proof (wp_inputs _ W) as F. rewrite Forall_forall in F. apply F in Hi. destruct Hu as [E|[_ (t & E & N)]].
  - pose proof (wi_witness_utxo _ Hi) as Q. rewrite E in Q. apply Q.
  - pose proof (wi_non_witness_utxo _ Hi) as Q. rewrite E in Q. destruct Q as [(_ & _ & _ & _ & _ & Q) _].
    apply nth_error_In in N. rewrite Forall_forall in Q. auto.
Qed.
Lemma commit2_lock `{X : Ext} `{C : Cfg} p k : wf_psbt p -> bip370_lock_time p (Some k) -> k < 2 ^ 32.
Proof.
  intros W H. pose proof (wp_inputs _ W) as F. rewrite Forall_forall in F. inversion H as [|_ E|h _ [(i & Hi & E) _] E'|h j _ _ _ [(i & Hi & E) _] E']; subst.
  - pose proof (wg_fallback _ (wp_global _ W)) as Q. destruct (g_fallback_lock_time _); [exact Q|reflexivity].
  - apply F in Hi. pose proof (wi_min_height _ Hi) as Q. rewrite E in Q. cbn [opt_of] in Q. unfold wf_height, LOCK_TIME_THRESHOLD in Q. lia.
  - apply F in Hi. pose proof (wi_min_time _ Hi) as Q. rewrite E in Q. cbn [opt_of] in Q. unfold wf_time, U32 in Q. lia.
Qed.
Lemma commit2_tx `{X : Ext} `{C : Cfg} (L : CfgLaws C) p t : wf_psbt p -> unsigned_tx p = Ok t ->
  wf_tx t /\ tx_version t = g_tx_version (p_global p) /\ bip370_lock_time p (Some (tx_lock_time t))
  /\ tx_input t = map input_unsigned_tx_in (p_inputs p) /\ tx_output t = map output_tx_out (p_outputs p).
Proof.
  intros W H. unfold unsigned_tx in H. destruct (determine_lock_time p) as [k|e|] eqn:D; cbn [bind] in H; try discriminate H. inj H. cbn [tx_version tx_lock_time tx_input tx_output].
  apply determine_ok_iff in D. split; [|auto]. pose proof (wp_inputs_fit _ W) as Fi. pose proof (wp_outputs_fit _ W) as Fo.
  pose proof size_input_pos as Pi. pose proof size_output_pos as Po.
  assert (Gi : blen (p_inputs p) <= blen (p_inputs p) * size_input) by (rewrite <- (N.mul_1_r (blen (p_inputs p))) at 1; apply N.mul_le_mono_l; lia).
  assert (Go : blen (p_outputs p) <= blen (p_outputs p) * size_output) by (rewrite <- (N.mul_1_r (blen (p_outputs p))) at 1; apply N.mul_le_mono_l; lia).
  assert (I : ISIZE_MAX < U64) by reflexivity.
  split; [exact (wg_tx_version _ (wp_global _ W))|]. split; [exact (commit2_lock p k W D)|]. cbn [tx_input tx_output].
  split; [unfold wf_vec; rewrite blen_map; lia|]. split; [|split; [unfold wf_vec; rewrite blen_map; lia|]].
  - rewrite Forall_map. eapply Forall_impl; [|exact (wp_inputs _ W)]. intros i Hi. cbn. split; [exact (wi_txid _ Hi)|].
    split; [pose proof (wi_index _ Hi) as Q; unfold wf_u32, U32; cbn; lia|]. split; [reflexivity|]. split; [|apply wf_witness_nil].
    pose proof (wi_sequence _ Hi) as Q. cbn. destruct (in_sequence i); [exact Q|reflexivity].
  - rewrite Forall_map. eapply Forall_impl; [|exact (wp_outputs _ W)]. intros o Ho. split; [exact (wo_amount _ Ho)|].
    pose proof (wo_script _ Ho) as Q. unfold wf_value, MAX_VALUE in Q. unfold wf_vec, U64. cbn. lia.
Qed.
Lemma commit2_outpoints p : map (fun i => (ti_txid i, ti_vout i)) (map input_unsigned_tx_in (p_inputs p)) = map outpoint_of (p_inputs p).
Proof. now rewrite map_map. Qed.
Lemma commit2_sequences p : map ti_sequence (map input_unsigned_tx_in (p_inputs p)) = map signed_sequence (p_inputs p).
Proof. rewrite map_map. apply map_ext. intros i. unfold signed_sequence. cbn. now destruct (in_sequence i). Qed.
Lemma commit2_payments p p' : map output_tx_out (p_outputs p) = map output_tx_out (p_outputs p') -> payments p = payments p'.
Proof. intros E. unfold payments. apply (f_equal (map (fun o => (to_value o, to_script o)))) in E. rewrite !map_map in E. exact E. Qed.
Lemma commit2_input p n i : input_at p n i -> nth_error (map input_unsigned_tx_in (p_inputs p)) (N.to_nat n) = Some (input_unsigned_tx_in i).
Proof. intros [H _]. now apply map_nth_error. Qed.
Lemma commit2_lt p n i : input_at p n i -> n < blen (map input_unsigned_tx_in (p_inputs p)).
Proof. intros [H _]. rewrite blen_map. assert (N.to_nat n < length (p_inputs p))%nat by (apply nth_error_Some; congruence). unfold blen. lia. Qed.
Lemma commit2_output p n o : nth_error (payments p) (N.to_nat n) = Some o -> nth_error (map output_tx_out (p_outputs p)) (N.to_nat n) = Some (TxOut (fst o) (snd o)).
Proof.
  unfold payments. rewrite !nth_error_map. destruct (nth_error (p_outputs p) (N.to_nat n)); cbn; [|discriminate]. intros E. injection E as <-. reflexivity.
Qed.

Lemma commit2_code `{X : Ext} `{C : Cfg} p i u c : wf_psbt p -> In i (p_inputs p) -> funds i u -> script_code2 i u c \/ legacy_code2 i u c -> wf_vec c.
Proof.
  intros W Hi Hu H. pose proof (commit2_funds p i u W Hi Hu) as [_ Wu]. pose proof (wp_inputs _ W) as F. rewrite Forall_forall in F. apply F in Hi.
  assert (K : forall h, length h = 20%nat -> wf_vec (p2pkh_script h)).
  { intros h L. unfold wf_vec, p2pkh_script, blen. rewrite !app_length, L. reflexivity. }
  assert (K1 : forall c, in_witness_script i = Some c -> wf_vec c).
  { intros b E. pose proof (wi_witness_script _ Hi) as Q. rewrite E in Q. unfold opt_of, wf_value, MAX_VALUE in Q. unfold wf_vec, U64. lia. }
  assert (K2 : forall c, in_redeem_script i = Some c -> wf_vec c).
  { intros b E. pose proof (wi_redeem _ Hi) as Q. rewrite E in Q. unfold opt_of, wf_value, MAX_VALUE in Q. unfold wf_vec, U64. lia. }
  destruct H as [[h [_ L]|c' h _ _ [_ L]|h c' _ E|q h c' _ _ _ E]|[_|c' _ E]]; auto.
Qed.
Lemma commit2_code_kind i u c : script_code2 i u c -> exists o, output_kind (to_script u) (in_redeem_script i) o /\ (o = Wpkh \/ o = Wsh \/ o = ShWpkh \/ o = ShWsh).
Proof.
  intros [h H1|r h H1 H2 H3|h b H1 H2|r h b H1 H2 H3 H4]; [exists Wpkh|exists ShWpkh|exists Wsh|exists ShWsh]; (split; [econstructor; eauto|tauto]).
Qed.
Lemma commit2_message t n i u ty m : @message real_signer t n i u ty m ->
  ((exists c, script_code2 i u c) -> exists c, script_code2 i u c /\ m = real_segwit t n c (to_value u) ty)
  /\ ((exists c, legacy_code2 i u c) -> exists c, legacy_code2 i u c /\ m = real_legacy t n c ty).
Proof.
  intros H.
  assert (A : forall c o, script_code2 i u c -> output_kind (to_script u) (in_redeem_script i) o -> o <> Bare /\ o <> Sh).
  { intros c o Hc Ho. destruct (commit2_code_kind _ _ _ Hc) as (o' & Ho' & Q). rewrite (kind_unique _ _ _ _ Ho Ho').
    split; intros ->; destruct Q as [|[|[|]]]; discriminate. }
  assert (B : forall c o, legacy_code2 i u c -> output_kind (to_script u) (in_redeem_script i) o -> o = Bare \/ o = Sh).
  { intros c o [K|b K _] Ho; rewrite (kind_unique _ _ _ _ Ho K); auto. }
  destruct H as [K|b K E|h K|b h K1 K2 K3|h b K1 K2|q h b K1 K2 K3 K4]; (split; intros [c Hc]).
  - destruct (A c Bare Hc K) as [Q _]. now destruct Q.
  - exists (to_script u). split; [now constructor|reflexivity].
  - destruct (A c Sh Hc K) as [_ Q]. now destruct Q.
  - exists b. split; [now apply Code2Sh|reflexivity].
  - exists (p2pkh_script h). split; [now constructor|reflexivity].
  - destruct (B c Wpkh Hc); [econstructor; eauto|discriminate|discriminate].
  - exists (p2pkh_script h). split; [now apply (Code2ShWpkh _ _ b h)|reflexivity].
  - destruct (B c ShWpkh Hc); [econstructor; eauto|discriminate|discriminate].
  - exists b. split; [now apply (Code2Wsh _ _ h)|reflexivity].
  - destruct (B c Wsh Hc); [econstructor; eauto|discriminate|discriminate].
  - exists b. split; [now apply (Code2ShWsh _ _ q h)|reflexivity].
  - destruct (B c ShWsh Hc); [econstructor; eauto|discriminate|discriminate].
Qed.
Lemma commit2_to_sign (X : Ext) (C : Cfg) p n i u t m ty : input_at p n i -> funds i u -> tx_input t = map input_unsigned_tx_in (p_inputs p) ->
  @psbt_sighash_ecdsa real_signer p n t = Ok (m, ty) -> In ty [0x01; 0x02; 0x03; 0x81; 0x82; 0x83] /\ @message real_signer t n i u ty m.
Proof.
  intros Hi Hu Et H. assert (Hn : n < blen (tx_input t)) by (rewrite Et; now apply (commit2_lt p n i)).
  apply (proj1 (C33_digest X C real_signer p n t m ty Hn)) in H. destruct H as (j & v & Hj & Hv & [Ty _] & M).
  assert (j = i) by (destruct Hi, Hj; congruence). subst j. assert (v = u); [|now subst].
  clear - Hu Hv. destruct Hu as [E|[E (t & E1 & E2)]], Hv as [E'|[E' (t' & E1' & E2')]]; congruence.
Qed.

(** ** Segwit version 0 *)

Theorem C151_segwit : forall (X : Ext) (C : Cfg) (LC : CfgLaws C) p n i u ty t p' n' i' u' ty' t' m,
  wf_psbt p -> wf_psbt p' -> unsigned_tx p = Ok t -> unsigned_tx p' = Ok t' ->
  input_at p n i -> funds i u -> (exists c, script_code2 i u c) ->
  input_at p' n' i' -> funds i' u' -> (exists c, script_code2 i' u' c) ->
  @psbt_sighash_ecdsa real_signer p n t = Ok (m, ty) -> @psbt_sighash_ecdsa real_signer p' n' t' = Ok (m, ty') ->
  collision_found \/
  (ty = ty' /\ same_locks p p' /\ outpoint_of i = outpoint_of i' /\ signed_sequence i = signed_sequence i'
   /\ to_value u = to_value u' /\ (exists c, script_code2 i u c /\ script_code2 i' u' c)
   /\ (all_inputs ty -> map outpoint_of (p_inputs p) = map outpoint_of (p_inputs p'))
   /\ (ty = 0x01 -> map signed_sequence (p_inputs p) = map signed_sequence (p_inputs p'))
   /\ (all_outputs ty -> payments p = payments p')
   /\ (one_output ty -> forall o o', nth_error (payments p) (N.to_nat n) = Some o -> nth_error (payments p') (N.to_nat n') = Some o' -> o = o')).
Proof.
  intros X C LC p n i u ty t p' n' i' u' ty' t' m W W' Ht Ht' Hi Hu Hc Hi' Hu' Hc' H H'.
  destruct (commit2_tx LC p t W Ht) as (Wt & Ev & Ek & Ei & Eo), (commit2_tx LC p' t' W' Ht') as (Wt' & Ev' & Ek' & Ei' & Eo').
  apply (commit2_to_sign X C p n i u t m ty Hi Hu Ei) in H as [Ty M]. apply (commit2_to_sign X C p' n' i' u' t' m ty' Hi' Hu' Ei') in H' as [Ty' M'].
  apply commit2_message in M as [M _]. apply commit2_message in M' as [M' _]. destruct (M Hc) as (c & K & ->), (M' Hc') as (c' & K' & E). clear M M'.
  destruct (commit_ecdsa_bits ty Ty) as (T1 & BA & BU & BS). destruct (commit_ecdsa_bits ty' Ty') as (T1' & _).
  assert (I : In i (p_inputs p)) by (destruct Hi as [Hi _]; now apply nth_error_In in Hi).
  assert (I' : In i' (p_inputs p')) by (destruct Hi' as [Hi' _]; now apply nth_error_In in Hi').
  pose proof (commit2_funds p i u W I Hu) as [Wv _]. pose proof (commit2_funds p' i' u' W' I' Hu') as [Wv' _].
  pose proof (commit2_input _ _ _ Hi) as Ni. pose proof (commit2_input _ _ _ Hi') as Ni'. rewrite <- Ei in Ni. rewrite <- Ei' in Ni'.
  destruct (segwit_inj _ _ _ _ _ _ _ _ _ _ _ _ Wt Wt' T1 T1' (commit2_code _ _ _ _ W I Hu (or_introl K)) (commit2_code _ _ _ _ W' I' Hu' (or_introl K'))
    Wv Wv' Ni Ni' E) as [B|(<- & <- & Ex & E1 & E2 & I1 & I2 & I3 & A1 & A2 & O1 & O2)]; [now left|right].
  rewrite Ei, Ei', !commit2_outpoints, !commit2_sequences in *. rewrite Eo, Eo' in *.
  split; [reflexivity|]. split; [split; [congruence|exists (tx_lock_time t); split; [exact Ek|now rewrite E2]]|].
  split; [cbn in I1, I2; unfold outpoint_of; congruence|].
  split; [unfold signed_sequence; cbn in I3; unfold opt_default, SEQ_ZERO in I3; destruct (in_sequence i), (in_sequence i'); exact I3|].
  split; [exact Ex|]. split; [now exists c|]. split; [auto|]. split; [intros ->; apply A2; [reflexivity| |]; discriminate|].
  split; [intros A; apply BU in A as [Q1 Q2]; apply commit2_payments; exact (O1 Q1 Q2)|].
  intros A o o' Ho Ho'. pose proof (O2 (BS A) _ _ (commit2_output _ _ _ Ho) (commit2_output _ _ _ Ho')) as Q. destruct o, o'. cbn in Q. congruence.
Qed.
Print Assumptions C151_segwit.

(** ** Before segwit *)

Theorem C151_legacy : forall (X : Ext) (C : Cfg) (LC : CfgLaws C) p n i u c ty t p' n' i' u' c' ty' t' m,
  wf_psbt p -> wf_psbt p' -> unsigned_tx p = Ok t -> unsigned_tx p' = Ok t' ->
  input_at p n i -> funds i u -> legacy_code2 i u c ->
  input_at p' n' i' -> funds i' u' -> legacy_code2 i' u' c' ->
  (one_output ty -> n < blen (p_outputs p)) -> (one_output ty' -> n' < blen (p_outputs p')) ->
  @psbt_sighash_ecdsa real_signer p n t = Ok (m, ty) -> @psbt_sighash_ecdsa real_signer p' n' t' = Ok (m, ty') ->
  collision_found \/
  (ty = ty' /\ same_locks p p'
   /\ (one_input ty \/ c <> [] -> outpoint_of i = outpoint_of i' /\ signed_sequence i = signed_sequence i' /\ c = c')
   /\ (all_inputs ty -> map outpoint_of (p_inputs p) = map outpoint_of (p_inputs p') /\ (c <> [] -> n = n'))
   /\ (ty = 0x01 -> map signed_sequence (p_inputs p) = map signed_sequence (p_inputs p'))
   /\ (all_outputs ty -> payments p = payments p')
   /\ (one_output ty -> n = n' /\ nth_error (payments p) (N.to_nat n) = nth_error (payments p') (N.to_nat n'))).
Proof.
  intros X C LC p n i u c0 ty t p' n' i' u' c0' ty' t' m W W' Ht Ht' Hi Hu Hc Hi' Hu' Hc' HS HS' H H'.
  assert (Fun : forall i u c c', legacy_code2 i u c -> legacy_code2 i u c' -> c = c').
  { clear. intros i u c c' [K|b K E] [K'|b' K' E']; [reflexivity| | |congruence]; pose proof (kind_unique _ _ _ _ K K') as Q; discriminate Q. }
  destruct (commit2_tx LC p t W Ht) as (Wt & Ev & Ek & Ei & Eo), (commit2_tx LC p' t' W' Ht') as (Wt' & Ev' & Ek' & Ei' & Eo').
  apply (commit2_to_sign X C p n i u t m ty Hi Hu Ei) in H as [Ty M]. apply (commit2_to_sign X C p' n' i' u' t' m ty' Hi' Hu' Ei') in H' as [Ty' M'].
  apply commit2_message in M as [_ M]. apply commit2_message in M' as [_ M'].
  destruct (M (ex_intro _ _ Hc)) as (c & K & ->), (M' (ex_intro _ _ Hc')) as (c' & K' & E). clear M M'.
  rewrite (Fun _ _ _ _ Hc K), (Fun _ _ _ _ Hc' K'). clear Hc Hc' c0 c0' Fun.
  assert (S3 : forall ty, In ty [0x01; 0x02; 0x03; 0x81; 0x82; 0x83] -> base_type ty = 3 -> one_output ty).
  { clear. intros ty H. unfold one_output. cbn [In] in *. decompose [or] H; subst; try contradiction; cbn; intros; try discriminate; tauto. }
  assert (O1 : one_input ty -> anyone ty = true).
  { clear. unfold one_input. cbn [In]. intros H. decompose [or] H; subst; try contradiction; reflexivity. }
  destruct (commit_ecdsa_bits ty Ty) as (T1 & BA & BU & BS). destruct (commit_ecdsa_bits ty' Ty') as (T1' & _).
  assert (I : In i (p_inputs p)) by (destruct Hi as [Hi _]; now apply nth_error_In in Hi).
  assert (I' : In i' (p_inputs p')) by (destruct Hi' as [Hi' _]; now apply nth_error_In in Hi').
  pose proof (commit2_input _ _ _ Hi) as Ni. pose proof (commit2_input _ _ _ Hi') as Ni'. rewrite <- Ei in Ni. rewrite <- Ei' in Ni'.
  rewrite <- (blen_map output_tx_out), <- Eo in HS. rewrite <- (blen_map output_tx_out), <- Eo' in HS'.
  destruct (legacy_inj _ _ _ _ _ _ _ _ _ _ Wt Wt' T1 T1' (commit2_code _ _ _ _ W I Hu (or_intror K)) (commit2_code _ _ _ _ W' I' Hu' (or_intror K'))
    Ni Ni' (fun E => HS (S3 _ Ty E)) (fun E => HS' (S3 _ Ty' E)) E) as [B|(<- & E1 & E2 & A1 & A2 & A3 & J & Q1 & Q2)]; [now left|right].
  rewrite Ei, Ei', !commit2_outpoints, !commit2_sequences in *. rewrite Eo, Eo' in *.
  split; [reflexivity|]. split; [split; [congruence|exists (tx_lock_time t); split; [exact Ek|now rewrite E2]]|].
  split; [|split; [|split; [|split]]].
  - intros Z. destruct J as (I1 & I2 & I3 & I4); [destruct Z; auto|]. split; [cbn in I1, I2; unfold outpoint_of; congruence|]. split; [|exact I4].
    unfold signed_sequence; cbn in I3; unfold opt_default, SEQ_ZERO in I3; destruct (in_sequence i), (in_sequence i'); exact I3.
  - intros A. apply BA in A. split; [exact (A1 A)|exact (A3 A)].
  - intros ->. apply A2; [reflexivity| |]; discriminate.
  - intros A. apply BU in A as [Z1 Z2]. apply commit2_payments. exact (Q1 Z1 Z2).
  - intros A. destruct (Q2 (BS A)) as [-> Q]. split; [reflexivity|]. rewrite !nth_error_map in Q. unfold payments. rewrite !nth_error_map.
    destruct (nth_error (p_outputs p) (N.to_nat n')), (nth_error (p_outputs p') (N.to_nat n')); cbn in *; try discriminate Q; [|reflexivity].
    injection Q as Q1' Q2'. unfold payment_of. now rewrite Q1', Q2'.
Qed.
Print Assumptions C151_legacy.

(** ** Two PSBTs with the same id *)

Lemma commit2_fits `{X : Ext} `{C : Cfg} (L : CfgLaws C) p : wf_psbt p -> tx_data_fits p.
Proof.
  intros W. pose proof (wp_inputs_fit _ W) as Fi. pose proof (wp_outputs_fit _ W) as Fo.
  pose proof size_input_pos as Pi. pose proof size_output_pos as Po.
  assert (Gi : blen (p_inputs p) <= blen (p_inputs p) * size_input) by (rewrite <- (N.mul_1_r (blen (p_inputs p))) at 1; apply N.mul_le_mono_l; lia).
  assert (Go : blen (p_outputs p) <= blen (p_outputs p) * size_output) by (rewrite <- (N.mul_1_r (blen (p_outputs p))) at 1; apply N.mul_le_mono_l; lia).
  assert (I : ISIZE_MAX < 2 ^ 64) by reflexivity.
  split; [exact (wg_tx_version _ (wp_global _ W))|]. split; [lia|]. split; [lia|]. split.
  - eapply Forall_impl; [|exact (wp_inputs _ W)]. intros i Hi. split; [exact (wi_txid _ Hi)|pose proof (wi_index _ Hi) as Q; lia].
  - eapply Forall_impl; [|exact (wp_outputs _ W)]. intros o Ho. split; [exact (wo_amount _ Ho)|].
    pose proof (wo_script _ Ho) as Q. unfold wf_value, MAX_VALUE in Q. lia.
Qed.
Theorem C151_id : forall (C : Cfg) (LC : CfgLaws C) p p' h,
  @wf_psbt real_root C p -> @wf_psbt real_root C p' -> @psbt_id real_root p = Ok h -> @psbt_id real_root p' = Ok h ->
  collision_found \/
  (same_locks p p' /\ map outpoint_of (p_inputs p) = map outpoint_of (p_inputs p') /\ payments p = payments p').
Proof.
  intros C LC p p' h W W' H H'. pose proof (@commit2_fits real_root C LC p W) as F. pose proof (@commit2_fits real_root C LC p' W') as F'.
  apply (C20_id_preimage real_root p h F) in H as (k & b & K & B & ->). apply (C20_id_preimage real_root p' _ F') in H' as (k' & b' & K' & B' & E).
  pose proof (@commit2_lock real_root C p k W K) as Wk. pose proof (@commit2_lock real_root C p' k' W' K') as Wk'.
  apply twice_inj in E as [<-|E]; [right|now left]. destruct F as (V & _ & _ & Fi & Fo), F' as (V' & _ & _ & Fi' & Fo').
  assert (G : forall l, Forall (fun o => out_amount o < 2 ^ 64 /\ blen (out_script_pubkey o) < 2 ^ 64) l -> Forall (fun o : N * bytes => fst o < 2 ^ 64) (map payment_of l)).
  { clear. intros l H. rewrite Forall_map. eapply Forall_impl; [|exact H]. cbn. tauto. }
  assert (G' : forall l, Forall (fun i => length (in_previous_txid i) = 32%nat /\ in_spent_output_index i < 2 ^ 32) l ->
    Forall (fun op : bytes * N => length (fst op) = 32%nat /\ snd op < 2 ^ 32) (map outpoint_of l)).
  { clear. intros l H. rewrite Forall_map. exact H. }
  destruct (C20_preimage_injective _ _ _ _ _ _ _ _ b V Wk V' Wk' (G' _ Fi) (G' _ Fi') (G _ Fo) (G _ Fo') B B') as (E1 & <- & E3 & E4).
  split; [split; [exact E1|now exists k]|]. split; [exact E3|exact E4].
Qed.
Print Assumptions C151_id.

(** ** What is not covered *)

#[local] Instance e2_cfg : Cfg | 100 := cfg_of false false.
Definition e2_in (n v : N) (s : option N) : input :=
  set_in_sequence s (set_in_final_script_sig (Some []) (set_in_final_script_witness (Some [[x01]])
    (set_in_witness_utxo (Some (TxOut v (program_script 0 (repeat x11 20)))) (input_new (txid_a, n))))).
Definition e2_psbt (v : N) (s : option N) : psbt := ex_of 3 [e2_in 0 5000 s; e2_in 1 v None].
Lemma e2_wf p : @psbt_deserialize real_root e2_cfg (@psbt_serialize real_root e2_cfg p) = Ok p -> @wf_psbt real_root e2_cfg p.
Proof. intros H. exact (@deserialize_wf real_root real_root_laws e2_cfg _ _ H). Qed.
Lemma e2_sighash (S : SignExt) v s t : 0 < blen (tx_input t) ->
  psbt_sighash_ecdsa (e2_psbt v s) 0 t = Ok (segwit_digest t 0 (p2pkh_script (repeat x11 20)) 5000 1, 1).
Proof.
  intros Ht. apply (C33_digest real_root e2_cfg S); [exact Ht|]. exists (e2_in 0 5000 s), (TxOut 5000 (program_script 0 (repeat x11 20))).
  split; [split; reflexivity|]. split; [now left|]. split; [split; [cbn; tauto|right; split; reflexivity]|].
  exact (MWpkh _ _ (e2_in 0 5000 s) (TxOut 5000 (program_script 0 (repeat x11 20))) _ _ ec_kind).
Qed.
Definition e2_tx : tx := match unsigned_tx (e2_psbt 6000 None) with Ok t => t | _ => Tx 0 0 [] [] end.

(** The amounts of other inputs, so the fee. *)
Theorem C151_fee_refuted : exists p p' t m f f',
  @wf_psbt real_root e2_cfg p /\ @wf_psbt real_root e2_cfg p' /\ unsigned_tx p = Ok t /\ unsigned_tx p' = Ok t
  /\ @psbt_sighash_ecdsa real_signer p 0 t = Ok (m, 0x01) /\ @psbt_sighash_ecdsa real_signer p' 0 t = Ok (m, 0x01)
  /\ psbt_fee p = Ok f /\ psbt_fee p' = Ok f' /\ f < f'.
Proof.
  exists (e2_psbt 6000 None), (e2_psbt 1000000 None), e2_tx. eexists. exists 7000, 1001000.
  split; [apply e2_wf; vm_compute; reflexivity|]. split; [apply e2_wf; vm_compute; reflexivity|].
  split; [vm_compute; reflexivity|]. split; [vm_compute; reflexivity|].
  split; [apply e2_sighash; reflexivity|]. split; [apply e2_sighash; reflexivity|]. split; [vm_compute; reflexivity|]. split; [vm_compute; reflexivity|]. lia.
Qed.
Print Assumptions C151_fee_refuted.

(** The sequence numbers of the transaction that is extracted: an input without sequence number is
    signed with 0 and extracted with the greatest number. *)
Theorem C151_sequence_refuted : exists p p' t m x x',
  @wf_psbt real_root e2_cfg p /\ @wf_psbt real_root e2_cfg p' /\ unsigned_tx p = Ok t /\ unsigned_tx p' = Ok t
  /\ @psbt_sighash_ecdsa real_signer p 0 t = Ok (m, 0x01) /\ @psbt_sighash_ecdsa real_signer p' 0 t = Ok (m, 0x01)
  /\ extract_tx_unchecked p = Ok x /\ extract_tx_unchecked p' = Ok x'
  /\ map ti_sequence (tx_input x) = [2 ^ 32 - 1; 2 ^ 32 - 1] /\ map ti_sequence (tx_input x') = [0; 2 ^ 32 - 1].
Proof.
  exists (e2_psbt 6000 None), (e2_psbt 6000 (Some 0)), e2_tx. eexists.
  exists (match extract_tx_unchecked (e2_psbt 6000 None) with Ok t => t | _ => Tx 0 0 [] [] end).
  exists (match extract_tx_unchecked (e2_psbt 6000 (Some 0)) with Ok t => t | _ => Tx 0 0 [] [] end).
  split; [apply e2_wf; vm_compute; reflexivity|]. split; [apply e2_wf; vm_compute; reflexivity|].
  split; [vm_compute; reflexivity|]. split; [vm_compute; reflexivity|].
  split; [apply e2_sighash; reflexivity|]. split; [apply e2_sighash; reflexivity|]. split; [vm_compute; reflexivity|]. split; [vm_compute; reflexivity|].
  split; vm_compute; reflexivity.
Qed.
Print Assumptions C151_sequence_refuted.

Lemma e2_id (X : Ext) : exists h, psbt_id (e2_psbt 6000 (Some 7)) = Ok h.
Proof. rewrite psbt_id_cases. replace (determine_lock_time (e2_psbt 6000 (Some 7))) with (@Ok dlterr N 0) by (vm_compute; reflexivity). eexists. reflexivity. Qed.
Definition e2_tx7 : tx := match unsigned_tx (e2_psbt 6000 (Some 7)) with Ok t => t | _ => Tx 0 0 [] [] end.
Lemma e2_message (S : SignExt) : exists t, unsigned_tx (e2_psbt 6000 (Some 7)) = Ok t /\ exists m, psbt_sighash_ecdsa (e2_psbt 6000 (Some 7)) 0 t = Ok (m, 0x01).
Proof.
  exists e2_tx7. split; [vm_compute; reflexivity|]. exists (segwit_digest e2_tx7 0 (p2pkh_script (repeat x11 20)) 5000 1).
  exact (e2_sighash S 6000 (Some 7) e2_tx7 eq_refl).
Qed.
(** PSBTs that meet the hypotheses. *)
Definition e2_bare : psbt := ex_of 3 [set_in_witness_utxo (Some (TxOut 6000 (p2pkh_script (repeat x11 20)))) (input_new (txid_a, 0))].
Example C151_case :
  @wf_psbt real_root e2_cfg (e2_psbt 6000 (Some 7)) /\ (exists t, unsigned_tx (e2_psbt 6000 (Some 7)) = Ok t
     /\ exists m, @psbt_sighash_ecdsa real_signer (e2_psbt 6000 (Some 7)) 0 t = Ok (m, 0x01))
  /\ input_at (e2_psbt 6000 (Some 7)) 0 (e2_in 0 5000 (Some 7)) /\ funds (e2_in 0 5000 (Some 7)) (TxOut 5000 (program_script 0 (repeat x11 20)))
  /\ script_code2 (e2_in 0 5000 (Some 7)) (TxOut 5000 (program_script 0 (repeat x11 20))) (p2pkh_script (repeat x11 20))
  /\ (exists h, @psbt_id real_root (e2_psbt 6000 (Some 7)) = Ok h)
  /\ @wf_psbt real_root e2_cfg e2_bare
  /\ exists i u, input_at e2_bare 0 i /\ funds i u /\ legacy_code2 i u (p2pkh_script (repeat x11 20)).
Proof.
  split; [apply e2_wf; vm_compute; reflexivity|].
  split; [apply e2_message|].
  split; [split; reflexivity|]. split; [now left|]. split; [apply Code2Wpkh, ec_kind|]. split; [apply e2_id|].
  split; [apply e2_wf; vm_compute; reflexivity|]. eexists _, (TxOut 6000 (p2pkh_script (repeat x11 20))). split; [split; reflexivity|]. split; [left; reflexivity|].
  apply (Code2Bare _ (TxOut 6000 (p2pkh_script (repeat x11 20)))). apply kind_of_iff. reflexivity.
Qed.
