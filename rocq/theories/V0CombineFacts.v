(** Facts about combining v0 PSBTs (src/v0/bitcoin/mod.rs:224-287 and the [combine]
    functions of the maps). *)
From Coq Require Import Permutation.
From Verif Require Import Base OMap Consensus ConsensusFacts Ext Raw RawFacts TapTree TapTreeFacts
  Serialize SerializeFacts MapCodec MapFacts V2Global V2Input V2Output V2Psbt
  V2OutputFacts V2InputFacts V2GlobalFacts SpecCodec SpecCodecFacts SpecPsbt V2PsbtFacts V2CodecFacts V2WireFacts
  V2PairFacts V2Roles SpecRoles V2RolesFacts SpecCombine V2CombineFacts
  V0Error V0Input V0Output V0Psbt V0OutputFacts V0InputFacts V0GlobalFacts SpecPsbt0 V0PsbtFacts V0WireFacts V0PairFacts
  SpecCombine0.
Local Open Scope N_scope.

Ltac fields0_wf :=
  first [apply keep_wf|apply opt_wf|apply drop_wf|apply preimages_comb
        |apply (wf_map_comb bkey bkey_inj)|apply (wf_map_comb sk_propkey sk_propkey_inj)
        |apply (wf_map_comb sk_key sk_key_inj)|apply (wf_map_comb sk_pubkey sk_pubkey_inj)
        |apply (wf_map_comb sk_xleaf sk_xleaf_inj)|apply (wf_map_comb sk_controlblock sk_controlblock_inj)].
Ltac fields0_from :=
  first [apply keep_from|apply opt_from|apply drop_from|exact (map_from _ _)].
Ltac maps0_left :=
  first [apply (map_left bkey bkey_inj)|apply (map_left sk_propkey sk_propkey_inj)|apply (map_left sk_key sk_key_inj)
        |apply (map_left sk_pubkey sk_pubkey_inj)|apply (map_left sk_xleaf sk_xleaf_inj)
        |apply (map_left sk_controlblock sk_controlblock_inj)]; reflexivity.
Ltac maps0_right :=
  first [apply (map_right bkey bkey_inj)|apply (map_right sk_propkey sk_propkey_inj)|apply (map_right sk_key sk_key_inj)
        |apply (map_right sk_pubkey sk_pubkey_inj)|apply (map_right sk_xleaf sk_xleaf_inj)
        |apply (map_right sk_controlblock sk_controlblock_inj)]; reflexivity.
Ltac maps0_second :=
  first [apply (map_second bkey bkey_inj)|apply (map_second sk_propkey sk_propkey_inj)|apply (map_second sk_key sk_key_inj)
        |apply (map_second sk_pubkey sk_pubkey_inj)|apply (map_second sk_xleaf sk_xleaf_inj)
        |apply (map_second sk_controlblock sk_controlblock_inj)]; let h := fresh in intros ? h; exact (proj1 h).
Ltac not_single0 Nt Ef H := exfalso; apply Nt; apply H in Ef; rewrite <- Ef; cbn; tauto.

Section Facts.
Context `{X : Ext} {L : ExtLaws X}.

(** ** Outputs *)
Definition o0R (f : o0field) : o0ty f -> o0ty f -> o0ty f -> Prop :=
  match f return o0ty f -> o0ty f -> o0ty f -> Prop with
  | O0RedeemScript => r_opt
  | O0WitnessScript => r_opt
  | O0Bip32 => r_map bkey
  | O0TapInternalKey => r_opt
  | O0TapTree => r_opt
  | O0TapKeyOrigins => r_map bkey
  | O0Proprietary => r_map sk_propkey
  | O0Unknown => r_map sk_key
  end.

Lemma output0_combine_R a b f : o0R f (o0get f a) (o0get f b) (o0get f (output0_combine a b)).
Proof. destruct f; reflexivity. Qed.
Lemma o0from f : c_from (o0fpairs f) (o0R f).
Proof. destruct f; cbn [o0fpairs o0R o0ty]; fields0_from. Qed.
Lemma o0left f : c_left (o0fpairs f) (o0R f).
Proof. destruct f; cbn [o0fpairs o0R o0ty]; first [apply opt_left|maps0_left]. Qed.
Lemma o0right f : c_right (o0fpairs f) (o0R f).
Proof. destruct f; cbn [o0fpairs o0R o0ty]; first [apply opt_right|maps0_right]. Qed.
Lemma o0wf f : c_wf (o0fwf f) (o0R f).
Proof. destruct f; cbn [o0fwf o0R o0ty]; fields0_wf. Qed.

Lemma output0_combine_wf a b : wf_output0 a -> wf_output0 b -> wf_output0 (output0_combine a b).
Proof.
  intros Ha Hb. apply wf_output0_iff in Ha, Hb. apply wf_output0_iff. intros f.
  exact (o0wf f _ _ _ (output0_combine_R a b f) (Ha f) (Hb f)).
Qed.
Lemma output0_combine_from a b p : In p (output0_pairs (output0_combine a b)) -> In p (output0_pairs a) \/ In p (output0_pairs b).
Proof. rewrite !o0pairs_eq. exact (frame_from _ _ _ _ _ a b _ (output0_combine_R a b) p o0from). Qed.
Lemma output0_combine_keys a b k : In k (keys (output0_pairs a)) \/ In k (keys (output0_pairs b)) ->
  In k (keys (output0_pairs (output0_combine a b))).
Proof.
  rewrite !o0pairs_eq. intros [H|H]; apply (spairs_key _ _ _ _ o0order_all) in H as (f & H).
  - exact (frame_left _ _ _ _ _ o0order_all a b _ (output0_combine_R a b) k f (o0left f) H).
  - exact (frame_right _ _ _ _ _ o0order_all a b _ (output0_combine_R a b) k f (o0right f) H).
Qed.
Lemma output0_perm_eq a b : wf_output0 a -> wf_output0 b -> Permutation (output0_pairs a) (output0_pairs b) -> output0_eq a b.
Proof.
  intros Ha Hb Hp. destruct (output0_rt a Ha) as (a' & Ra & Na). destruct (output0_rt b Hb) as (b' & Rb & Nb).
  apply (output0_reorder _ _ _ Hp) in Ra. assert (a' = b').
  { destruct Ra as (_ & R1), Rb as (_ & R2). rewrite R1 in R2. now apply Ok_inj in R2. }
  subst b'. pose proof (o0norm_eq _ _ Na Ha) as [E1 E2]. pose proof (o0norm_eq _ _ Nb Hb) as [E3 E4].
  split; [now rewrite E1, E3|now rewrite E2, E4].
Qed.
Lemma output0_combine_self o : sorted_output0 o -> output0_combine o o = o.
Proof.
  intros H. unfold output0_combine. rewrite !comb_opt_self. destruct H as [H1 H2 H3 H4].
  rewrite (comb_map_self _ bkey_inj _ H1), (comb_map_self _ bkey_inj _ H2), (comb_map_self _ sk_propkey_inj _ H3), (comb_map_self _ sk_key_inj _ H4).
  now destruct o.
Qed.
Lemma output0_first a b p : wf_output0 a -> In p (output0_pairs a) ->
  In (k_type (p_key p)) single_output0 -> In p (output0_pairs (output0_combine a b)).
Proof.
  intros Ha Hp Ht. pose proof (output0_combine_R a b) as HR. apply wf_output0_iff in Ha. rewrite o0pairs_eq in *.
  destruct (spairs_slot _ _ _ _ _ _ _ _ _ o0spec a p Ha Hp _ eq_refl) as (f & Ef & Hf).
  assert (G : forall f, In p (o0fpairs f (o0get f a)) -> c_first (o0fpairs f) (o0R f) ->
    In p (spairs o0ty o0get o0fpairs o0order (output0_combine a b))).
  { intros f' Hf' Hc. apply (frame_in _ _ _ _ o0order_all _ _ f'). exact (Hc _ _ _ _ (HR f') Hf'). }
  destruct f; try (apply (G _ Hf); cbn [o0fpairs o0R]; apply opt_first);
    (exfalso; unfold ptype in Ef; unfold single_output0 in Ht;
     repeat (destruct Ht as [Ht|Ht]; [rewrite <- Ht in Ef; discriminate Ef|]); exact Ht).
Qed.
Lemma output0_second a b q : wf_output0 b -> In q (output0_pairs b) ->
  ~ In (k_type (p_key q)) single_output0 -> In q (output0_pairs (output0_combine a b)).
Proof.
  intros Hb Hq Nt. pose proof (output0_combine_R a b) as HR. apply wf_output0_iff in Hb. rewrite o0pairs_eq in *.
  destruct (spairs_slot _ _ _ _ _ _ _ _ _ o0spec b q Hb Hq _ eq_refl) as (f & Ef & Hf).
  assert (G : forall f, In q (o0fpairs f (o0get f b)) -> c_second (o0fpairs f) (o0fwf f) (o0R f) ->
     In q (spairs o0ty o0get o0fpairs o0order (output0_combine a b))).
  { intros f' Hf' Hc. apply (frame_in _ _ _ _ o0order_all _ _ f'). exact (Hc _ _ _ _ (Hb f') (HR f') Hf'). }
  unfold ptype in Ef. destruct f; try (apply (G _ Hf); cbn [o0fpairs o0R o0fwf o0ty]; maps0_second).
  - not_single0 Nt Ef o0slot_O0RedeemScript.
  - not_single0 Nt Ef o0slot_O0WitnessScript.
  - not_single0 Nt Ef o0slot_O0TapInternalKey.
  - not_single0 Nt Ef o0slot_O0TapTree.
Qed.

(** ** Inputs *)
Definition i0R (f : i0field) : i0ty f -> i0ty f -> i0ty f -> Prop :=
  match f return i0ty f -> i0ty f -> i0ty f -> Prop with
  | I0NonWitnessUtxo => r_drop
  | I0WitnessUtxo => r_opt
  | I0PartialSigs => r_map sk_pubkey
  | I0SighashType => r_keep
  | I0RedeemScript => r_opt
  | I0WitnessScript => r_opt
  | I0Bip32 => r_map bkey
  | I0FinalScriptSig => r_opt
  | I0FinalScriptWitness => r_opt
  | I0Ripemd160 => r_map bkey
  | I0Sha256 => r_map bkey
  | I0Hash160 => r_map bkey
  | I0Hash256 => r_map bkey
  | I0TapKeySig => r_opt
  | I0TapScriptSigs => r_map sk_xleaf
  | I0TapScripts => r_map sk_controlblock
  | I0TapKeyOrigins => r_map bkey
  | I0TapInternalKey => r_opt
  | I0TapMerkleRoot => r_opt
  | I0Proprietary => r_map sk_propkey
  | I0Unknown => r_map sk_key
  end.

Lemma utxo_switch0_dec i j : utxo_switch0 i j \/ ~ utxo_switch0 i j.
Proof. unfold utxo_switch0. destruct (i0_witness_utxo i), (i0_witness_utxo j); intuition discriminate. Qed.
Lemma combine_utxo0_cases i j :
  (utxo_switch0 i j -> fst (input0_combine_utxo i j) = None) /\
  (~ utxo_switch0 i j -> fst (input0_combine_utxo i j) = comb_opt (i0_non_witness_utxo i) (i0_non_witness_utxo j)) /\
  snd (input0_combine_utxo i j) = comb_opt (i0_witness_utxo i) (i0_witness_utxo j).
Proof.
  unfold input0_combine_utxo, utxo_switch0. destruct (i0_witness_utxo i), (i0_witness_utxo j); cbn;
    (split; [|split; [|reflexivity]]); intros H; try reflexivity; try (now destruct H).
Qed.
Lemma input0_combine_nwu a b : ~ utxo_switch0 a b ->
  i0_non_witness_utxo (input0_combine a b) = comb_opt (i0_non_witness_utxo a) (i0_non_witness_utxo b).
Proof. intros H. destruct (combine_utxo0_cases a b) as (_ & U & _). exact (U H). Qed.
Lemma input0_combine_R a b f : i0R f (i0get f a) (i0get f b) (i0get f (input0_combine a b)).
Proof.
  destruct (combine_utxo0_cases a b) as (U1 & U2 & U3). destruct f; try reflexivity.
  - destruct (utxo_switch0_dec a b) as [U|U]; [left; now apply U1|right; now apply U2].
  - exact U3.
Qed.
Lemma i0from f : c_from (i0fpairs f) (i0R f).
Proof. destruct f; cbn [i0fpairs i0R i0ty]; fields0_from. Qed.
Lemma i0left f : f <> I0NonWitnessUtxo -> c_left (i0fpairs f) (i0R f).
Proof.
  intros H. destruct f; cbn [i0fpairs i0R i0ty]; try (now destruct H); first [apply keep_left|apply opt_left|maps0_left].
Qed.
Lemma i0right f : f <> I0NonWitnessUtxo -> f <> I0SighashType -> c_right (i0fpairs f) (i0R f).
Proof.
  intros H H'. destruct f; cbn [i0fpairs i0R i0ty]; try (now destruct H); try (now destruct H'); first [apply opt_right|maps0_right].
Qed.
Lemma i0wf f : c_wf (i0fwf f) (i0R f).
Proof. destruct f; cbn [i0fwf i0R i0ty]; fields0_wf. Qed.

Lemma input0_combine_wf a b : wf_input0 a -> wf_input0 b -> wf_input0 (input0_combine a b).
Proof.
  intros Ha Hb. apply wf_input0_iff in Ha, Hb. apply wf_input0_iff. intros f.
  exact (i0wf f _ _ _ (input0_combine_R a b f) (Ha f) (Hb f)).
Qed.
Lemma input0_combine_from a b p : In p (input0_pairs (input0_combine a b)) -> In p (input0_pairs a) \/ In p (input0_pairs b).
Proof. rewrite !i0pairs_eq. exact (frame_from _ _ _ _ _ a b _ (input0_combine_R a b) p i0from). Qed.
Lemma input0_combine_keys_left a b k : In k (keys (input0_pairs a)) ->
  In k (keys (input0_pairs (input0_combine a b))) \/ lost_first0 a b k.
Proof.
  pose proof (input0_combine_R a b) as HR. rewrite !i0pairs_eq.
  intros H; apply (spairs_key _ _ _ _ i0order_all) in H as (f & H).
  destruct (i0field_dec f I0NonWitnessUtxo) as [->|N1].
  - destruct (utxo_switch0_dec a b) as [U|U].
    + right. cbn in H. apply opt_pairs_key in H as [-> _]. now split.
    + left. apply (spairs_key _ _ _ _ i0order_all). exists I0NonWitnessUtxo. cbn [i0get i0fpairs] in *. rewrite (input0_combine_nwu a b U).
      refine (opt_left _ _ _ _ _ _ eq_refl H).
  - left. exact (frame_left _ _ _ _ _ i0order_all a b _ HR k f (i0left f N1) H).
Qed.
Lemma input0_combine_keys_right a b k : In k (keys (input0_pairs b)) ->
  In k (keys (input0_pairs (input0_combine a b))) \/ lost_second0 a b k.
Proof.
  pose proof (input0_combine_R a b) as HR. rewrite !i0pairs_eq.
  intros H; apply (spairs_key _ _ _ _ i0order_all) in H as (f & H).
  destruct (i0field_dec f I0NonWitnessUtxo) as [->|N1]; [|destruct (i0field_dec f I0SighashType) as [->|N2]].
  - destruct (utxo_switch0_dec a b) as [U|U].
    + right. cbn in H. apply opt_pairs_key in H as [-> _]. left. now split.
    + left. apply (spairs_key _ _ _ _ i0order_all). exists I0NonWitnessUtxo. cbn [i0get i0fpairs] in *. rewrite (input0_combine_nwu a b U).
      refine (opt_right _ _ _ _ _ _ eq_refl H).
  - cbn in H. apply opt_pairs_key in H as [-> _]. pose proof (HR I0SighashType) as R1. cbn in R1. unfold r_keep in R1.
    destruct (i0_sighash_type a) eqn:E; [left|right; right; now split].
    apply (spairs_key _ _ _ _ i0order_all). exists I0SighashType. cbn. rewrite E. apply opt_pairs_key. split; auto. discriminate.
  - left. exact (frame_right _ _ _ _ _ i0order_all a b _ HR k f (i0right f N1 N2) H).
Qed.
Lemma input0_perm_eq a b : wf_input0 a -> wf_input0 b -> Permutation (input0_pairs a) (input0_pairs b) -> a = b.
Proof.
  intros Ha Hb Hp. destruct (input0_reorder _ _ _ Hp (input0_rt a Ha)) as [_ R1]. destruct (input0_rt b Hb) as [_ R2].
  rewrite R1 in R2. now apply Ok_inj in R2.
Qed.
Lemma input0_combine_self i : sorted_input0 i -> input0_combine i i = i.
Proof.
  intros H. unfold input0_combine.
  assert (Hu : input0_combine_utxo i i = (i0_non_witness_utxo i, i0_witness_utxo i)).
  { unfold input0_combine_utxo. rewrite comb_opt_self. now destruct (i0_witness_utxo i). }
  rewrite Hu. cbn [fst snd]. rewrite !comb_opt_self. destruct H as [H1 H2 H3 H4 H5 H6 H7 H8 H9 H10 H11].
  rewrite (comb_map_self _ sk_pubkey_inj _ H1), (comb_map_self _ bkey_inj _ H2), (comb_map_self _ bkey_inj _ H3), (comb_map_self _ bkey_inj _ H4),
    (comb_map_self _ bkey_inj _ H5), (comb_map_self _ bkey_inj _ H6), (comb_map_self _ sk_xleaf_inj _ H7),
    (comb_map_self _ sk_controlblock_inj _ H8), (comb_map_self _ bkey_inj _ H9), (comb_map_self _ sk_propkey_inj _ H10),
    (comb_map_self _ sk_key_inj _ H11).
  now destruct i.
Qed.
Lemma input0_first a b p : wf_input0 a -> In p (input0_pairs a) -> In (k_type (p_key p)) single_input0 ->
  In p (input0_pairs (input0_combine a b)) \/ lost_first0 a b (p_key p).
Proof.
  intros Ha Hp Ht. pose proof (input0_combine_R a b) as HR. apply wf_input0_iff in Ha. rewrite i0pairs_eq in *.
  destruct (spairs_slot _ _ _ _ _ _ _ _ _ i0spec a p Ha Hp _ eq_refl) as (f & Ef & Hf).
  assert (G : forall f, In p (i0fpairs f (i0get f a)) -> c_first (i0fpairs f) (i0R f) ->
     In p (spairs i0ty i0get i0fpairs i0order (input0_combine a b))).
  { intros f' Hf' Hc. apply (frame_in _ _ _ _ i0order_all _ _ f'). exact (Hc _ _ _ _ (HR f') Hf'). }
  destruct f; try (left; apply (G _ Hf); cbn [i0fpairs i0R]; first [apply opt_first|apply keep_first]);
    try (exfalso; unfold ptype in Ef; repeat (destruct Ht as [Ht|Ht]; [rewrite <- Ht in Ef; discriminate Ef|]); exact Ht).
  destruct (utxo_switch0_dec a b) as [U|U].
  - right. split; auto. cbn in Hf. destruct (i0_non_witness_utxo a); [|destruct Hf]. destruct Hf as [<-|[]]. reflexivity.
  - left. apply (frame_in _ _ _ _ i0order_all _ _ I0NonWitnessUtxo). cbn [i0get i0fpairs] in Hf |- *. rewrite (input0_combine_nwu a b U).
    destruct (i0_non_witness_utxo a); [|destruct Hf]. exact Hf.
Qed.
Lemma input0_second a b q : wf_input0 b -> In q (input0_pairs b) -> ~ In (k_type (p_key q)) single_input0 ->
  In q (input0_pairs (input0_combine a b)).
Proof.
  intros Hb Hq Nt. pose proof (input0_combine_R a b) as HR. apply wf_input0_iff in Hb. rewrite i0pairs_eq in *.
  destruct (spairs_slot _ _ _ _ _ _ _ _ _ i0spec b q Hb Hq _ eq_refl) as (f & Ef & Hf).
  assert (G : forall f, In q (i0fpairs f (i0get f b)) -> c_second (i0fpairs f) (i0fwf f) (i0R f) ->
     In q (spairs i0ty i0get i0fpairs i0order (input0_combine a b))).
  { intros f' Hf' Hc. apply (frame_in _ _ _ _ i0order_all _ _ f'). exact (Hc _ _ _ _ (Hb f') (HR f') Hf'). }
  unfold ptype in Ef. destruct f; try (apply (G _ Hf); cbn [i0fpairs i0R i0fwf i0ty]; maps0_second).
  - not_single0 Nt Ef i0slot_I0NonWitnessUtxo.
  - not_single0 Nt Ef i0slot_I0WitnessUtxo.
  - not_single0 Nt Ef i0slot_I0SighashType.
  - not_single0 Nt Ef i0slot_I0RedeemScript.
  - not_single0 Nt Ef i0slot_I0WitnessScript.
  - not_single0 Nt Ef i0slot_I0FinalScriptSig.
  - not_single0 Nt Ef i0slot_I0FinalScriptWitness.
  - not_single0 Nt Ef i0slot_I0TapKeySig.
  - not_single0 Nt Ef i0slot_I0TapInternalKey.
  - not_single0 Nt Ef i0slot_I0TapMerkleRoot.
Qed.

(** ** Xpubs: the loop is the one of version 2. *)
Definition gcerr0 (e : gcerr) : err0 :=
  match e with GCInconsistentKeySources x => E0CombineInconsistentKeySources x | _ => E0Io end.
Lemma merge_xpub0_eq x k m : merge_xpub0 x k m = map_err gcerr0 (global_merge_xpub x k m).
Proof.
  unfold merge_xpub0, global_merge_xpub. destruct (m_get sk_xpub x m); [|reflexivity]. cbn zeta.
  repeat match goal with |- context [if ?b then _ else _] => destruct b end; reflexivity.
Qed.
Lemma merge_xpubs0_eq l : forall m, merge_xpubs0 l m = map_err gcerr0 (global_merge_xpubs l m).
Proof.
  induction l as [|[x k] l IH]; intros m; cbn [merge_xpubs0 global_merge_xpubs]; [reflexivity|].
  rewrite merge_xpub0_eq. destruct (global_merge_xpub x k m); cbn [map_err bind]; auto.
Qed.
Lemma merge_xpubs0_ok l m r : merge_xpubs0 l m = Ok r <-> global_merge_xpubs l m = Ok r.
Proof. rewrite merge_xpubs0_eq. apply map_err_ok. Qed.
Lemma merge_xpubs0_panic l m : merge_xpubs0 l m = Panic <-> global_merge_xpubs l m = Panic.
Proof. rewrite merge_xpubs0_eq. apply map_err_np. Qed.

(** ** Whole PSBTs *)
Lemma zip_combine_length {A} (f : A -> A -> A) l : forall l', length (zip_combine f l l') = length l.
Proof. induction l as [|a l IH]; intros [|b l']; cbn; auto. Qed.
Lemma zip_combine_nth {A} (f : A -> A -> A) l : forall l' n c, nth_error (zip_combine f l l') n = Some c ->
  exists a, nth_error l n = Some a /\
    (forall b, nth_error l' n = Some b -> c = f a b) /\ (nth_error l' n = None -> c = a).
Proof.
  induction l as [|a l IH]; intros l' n c H.
  - destruct n; discriminate.
  - destruct l' as [|b l']; cbn in H.
    + exists c. split; auto. split; auto. intros b Hb. destruct n; discriminate.
    + destruct n as [|n]; cbn in *.
      * apply Some_inj in H. subst c. exists a. split; auto. split; [intros b' Hb'; apply Some_inj in Hb'; now subst|discriminate].
      * now apply IH.
Qed.
Lemma zip_combine_forall {A} (f : A -> A -> A) (P : A -> Prop) l : forall l',
  (forall a b, P a -> P b -> P (f a b)) -> Forall P l -> Forall P l' -> Forall P (zip_combine f l l').
Proof.
  induction l as [|a l IH]; intros [|b l'] Hf H1 H2; cbn; auto. inv H1. inv H2. constructor; auto.
Qed.
Lemma zip_combine_self {A} (f : A -> A -> A) l : Forall (fun a => f a a = a) l -> zip_combine f l l = l.
Proof. induction 1 as [|a l H _ IH]; cbn; auto. now rewrite H, IH. Qed.
Lemma zip_combine_comm {A} (f : A -> A -> A) (Q : A -> A -> Prop) l l' : Forall2 (fun a b => Q (f a b) (f b a)) l l' ->
  Forall2 Q (zip_combine f l l') (zip_combine f l' l).
Proof. induction 1; cbn; auto. Qed.

(** The result for given xpubs. *)
Definition combined0 (a b : psbt0) (xs : list (xpub * keysource)) : psbt0 :=
  Psbt0 (p0_unsigned_tx a) (N.max (p0_version a) (p0_version b)) xs
    (comb_map sk_propkey (p0_proprietary a) (p0_proprietary b)) (comb_map sk_key (p0_unknown a) (p0_unknown b))
    (zip_combine input0_combine (p0_inputs a) (p0_inputs b)) (zip_combine output0_combine (p0_outputs a) (p0_outputs b)).
Lemma psbt0_combine_ok a b c : psbt0_combine a b = Ok c <->
  p0_unsigned_tx a = p0_unsigned_tx b /\ exists xs, global_merge_xpubs (p0_xpub b) (p0_xpub a) = Ok xs /\ c = combined0 a b xs.
Proof.
  unfold psbt0_combine. destruct (tx_dec _ _) as [E|N].
  - split.
    + intros H. apply bind_ok in H as (xs & Hx & H). apply Ok_inj in H. split; auto. exists xs. split; [now apply merge_xpubs0_ok|now subst].
    + intros (_ & xs & Hx & ->). apply merge_xpubs0_ok in Hx. rewrite Hx. reflexivity.
  - split; [discriminate|]. intros (E & _). now destruct N.
Qed.
Lemma psbt0_combine_panic a b : psbt0_combine a b = Panic <->
  p0_unsigned_tx a = p0_unsigned_tx b /\ global_merge_xpubs (p0_xpub b) (p0_xpub a) = Panic.
Proof.
  unfold psbt0_combine. destruct (tx_dec _ _) as [E|N].
  - rewrite <- merge_xpubs0_panic. destruct (merge_xpubs0 _ _); cbn [bind]; split; try discriminate; try (intros (_ & H); discriminate); auto.
  - split; [discriminate|]. intros (E & _). now destruct N.
Qed.
Lemma psbt0_combine_err a b e : psbt0_combine a b = Err e ->
  p0_unsigned_tx a <> p0_unsigned_tx b /\ e = E0UnexpectedUnsignedTx (p0_unsigned_tx a) (p0_unsigned_tx b) \/
  p0_unsigned_tx a = p0_unsigned_tx b /\ exists e', global_merge_xpubs (p0_xpub b) (p0_xpub a) = Err e' /\ e = gcerr0 e'.
Proof.
  unfold psbt0_combine. destruct (tx_dec _ _) as [E|N].
  - rewrite merge_xpubs0_eq. destruct (global_merge_xpubs _ _) as [m|e'|]; cbn [map_err bind]; try discriminate. intros H. injection H as <-.
    right. split; auto. exists e'. auto.
  - intros H. injection H as <-. left. auto.
Qed.

Definition g0R (f : g0field) : g0ty f -> g0ty f -> g0ty f -> Prop :=
  match f return g0ty f -> g0ty f -> g0ty f -> Prop with
  | G0Tx => r_keep
  | G0Xpub => fun a b c => global_merge_xpubs b a = Ok c
  | G0Version => fun a b c => c = Some (N.max (opt_default 0 a) (opt_default 0 b)) /\ (a <> None \/ b <> None) \/ c = None /\ a = None /\ b = None
  | G0Proprietary => r_map sk_propkey
  | G0Unknown => r_map sk_key
  end.
Lemma combined0_R a b xs : global_merge_xpubs (p0_xpub b) (p0_xpub a) = Ok xs ->
  forall f, g0R f (g0get f (to_gdec0 a)) (g0get f (to_gdec0 b)) (g0get f (to_gdec0 (combined0 a b xs))).
Proof.
  intros H f. destruct f; try reflexivity; [exact H|].
  cbn [g0R g0get to_gdec0 gd0_version combined0 p0_version].
  destruct (0 <? p0_version a) eqn:Ea, (0 <? p0_version b) eqn:Eb, (0 <? N.max (p0_version a) (p0_version b)) eqn:Ec;
    try (exfalso; lia); cbn [opt_default].
  - left. split; [reflexivity|]. left. discriminate.
  - left. split; [|left; discriminate]. f_equal. lia.
  - left. split; [|right; discriminate]. f_equal. lia.
  - right. auto.
Qed.
Lemma g0from f : c_from (g0fpairs f) (g0R f).
Proof.
  destruct f; cbn [g0fpairs g0ty]; try exact xpub_from; cbn [g0R]; try fields0_from.
  intros a b c p [(-> & H)|(-> & _)]; [|intros []]. cbn. intros [<-|[]].
  destruct a as [a|], b as [b|]; cbn [opt_default opt_pairs In]; try tauto.
  - destruct (N.max_spec a b) as [[_ ->]|[_ ->]]; auto.
  - rewrite N.max_0_r. auto.
  - rewrite N.max_0_l. auto.
Qed.
Lemma g0left f : c_left (g0fpairs f) (g0R f).
Proof.
  destruct f; cbn [g0fpairs g0ty]; try (intros a b c k H Q; exact (xpub_keys a b c k H (or_introl Q)));
    cbn [g0R]; try first [apply keep_left|maps0_left].
  intros a b c k H Q. apply opt_pairs_key in Q as [-> Q]. apply opt_pairs_key. split; auto.
  destruct H as [(-> & _)|(_ & -> & _)]; [discriminate|auto].
Qed.
Lemma combined0_from a b xs p : global_merge_xpubs (p0_xpub b) (p0_xpub a) = Ok xs -> In p (global0_pairs (combined0 a b xs)) ->
  In p (global0_pairs a) \/ In p (global0_pairs b).
Proof.
  intros H. rewrite !g0pairs_eq. exact (frame_from _ _ _ _ _ _ _ _ (combined0_R a b xs H) p g0from).
Qed.
Lemma combined0_keys_left a b xs k : global_merge_xpubs (p0_xpub b) (p0_xpub a) = Ok xs -> In k (keys (global0_pairs a)) ->
  In k (keys (global0_pairs (combined0 a b xs))).
Proof.
  intros Hx. rewrite !g0pairs_eq. intros H; apply (spairs_key _ _ _ _ g0order_all) in H as (f & H).
  exact (frame_left _ _ _ _ _ g0order_all _ _ _ (combined0_R a b xs Hx) k f (g0left f) H).
Qed.
Lemma combined0_keys_right a b xs k : global_merge_xpubs (p0_xpub b) (p0_xpub a) = Ok xs -> In k (keys (global0_pairs b)) ->
  In k (keys (global0_pairs (combined0 a b xs))).
Proof.
  intros Hx. pose proof (combined0_R a b xs Hx) as HR. rewrite !g0pairs_eq.
  intros H; apply (spairs_key _ _ _ _ g0order_all) in H as (f & H). pose proof (HR f) as R1. destruct f.
  - apply (spairs_key _ _ _ _ g0order_all). exists G0Tx. cbn in H |- *. exact H.
  - apply (spairs_key _ _ _ _ g0order_all). exists G0Xpub. exact (xpub_keys _ _ _ k R1 (or_intror H)).
  - apply (spairs_key _ _ _ _ g0order_all). exists G0Version. cbn [g0fpairs] in H |- *. apply opt_pairs_key in H as [-> Q]. apply opt_pairs_key. split; auto.
    cbn [g0R] in R1. destruct R1 as [(-> & _)|(_ & _ & R1)]; [discriminate|auto].
  - refine (frame_right _ _ _ _ _ g0order_all _ _ _ HR k G0Proprietary _ H). cbn [g0fpairs g0R g0ty]. maps0_right.
  - refine (frame_right _ _ _ _ _ g0order_all _ _ _ HR k G0Unknown _ H). cbn [g0fpairs g0R g0ty]. maps0_right.
Qed.
Lemma combined0_g0 a b xs : global_merge_xpubs (p0_xpub b) (p0_xpub a) = Ok xs -> wf_g0 a -> wf_g0 b -> wf_g0 (combined0 a b xs).
Proof.
  intros H (A1 & A2 & A3 & A4 & A5) (B1 & B2 & B3 & B4 & B5). unfold combined0.
  split; [exact A1|]. split; [cbn; lia|]. split; [|split].
  - cbn. destruct A3 as [S1 F1], B3 as [S2 F2]. split; [now apply (merge_sorted _ _ _ H)|].
    rewrite Forall_forall in *. intros e He. destruct (merge_in_inv _ _ _ _ H He); auto.
  - exact (wf_map_comb sk_propkey sk_propkey_inj _ _ _ _ _ eq_refl A4 B4).
  - exact (wf_map_comb sk_key sk_key_inj _ _ _ _ _ eq_refl A5 B5).
Qed.

Lemma combined0_wf a b xs : global_merge_xpubs (p0_xpub b) (p0_xpub a) = Ok xs -> wf_psbt0 a -> wf_psbt0 b ->
  global0_size (combined0 a b xs) <= 4000000 -> wf_psbt0 (combined0 a b xs).
Proof.
  intros H Ha Hb Hs. destruct (combined0_g0 a b xs H (wf_psbt0_g0 _ Ha) (wf_psbt0_g0 _ Hb)) as (G1 & G2 & G3 & G4 & G5).
  constructor; auto; cbn [combined0 p0_unsigned_tx p0_inputs p0_outputs]; try apply Ha.
  - apply zip_combine_forall; [exact input0_combine_wf|apply Ha|apply Hb].
  - apply zip_combine_forall; [exact output0_combine_wf|apply Ha|apply Hb].
  - rewrite zip_combine_length. apply Ha.
  - rewrite zip_combine_length. apply Ha.
Qed.

(** *** Idempotence *)
Lemma psbt0_combine_self p : sorted_psbt0 p -> psbt0_combine p p = Ok p.
Proof.
  intros [H1 H2 H3 H4 H5]. apply psbt0_combine_ok. split; auto. exists (p0_xpub p). split.
  - apply merge_self_step. intros x k Hi. now apply (m_in_get sk_xpub).
  - unfold combined0. rewrite N.max_id, (comb_map_self _ sk_propkey_inj _ H2), (comb_map_self _ sk_key_inj _ H3).
    rewrite (zip_combine_self input0_combine), (zip_combine_self output0_combine); [now destruct p| |].
    + eapply Forall_impl; [|exact H5]. apply output0_combine_self.
    + eapply Forall_impl; [|exact H4]. apply input0_combine_self.
Qed.
Lemma wf_sorted0 p : wf_psbt0 p -> sorted_psbt0 p.
Proof.
  intros H. constructor.
  - exact (proj1 (wp0_xpub _ H)).
  - exact (proj1 (wp0_props _ H)).
  - exact (proj1 (wp0_unknown _ H)).
  - eapply Forall_impl; [|exact (wp0_inputs _ H)]. intros i I. constructor.
    + exact (proj1 (wi0_partial_sigs _ I)).
    + exact (proj1 (wi0_bip32 _ I)).
    + exact (proj1 (proj1 (wi0_ripemd160 _ I))).
    + exact (proj1 (proj1 (wi0_sha256 _ I))).
    + exact (proj1 (proj1 (wi0_hash160 _ I))).
    + exact (proj1 (proj1 (wi0_hash256 _ I))).
    + exact (proj1 (wi0_tap_script_sigs _ I)).
    + exact (proj1 (wi0_tap_scripts _ I)).
    + exact (proj1 (wi0_tap_key_origins _ I)).
    + exact (proj1 (wi0_props _ I)).
    + exact (proj1 (wi0_unknown _ I)).
  - eapply Forall_impl; [|exact (wp0_outputs _ H)]. intros i I. constructor.
    + exact (proj1 (wo0_bip32 _ I)).
    + exact (proj1 (wo0_tap_key_origins _ I)).
    + exact (proj1 (wo0_props _ I)).
    + exact (proj1 (wo0_unknown _ I)).
Qed.

(** *** Commutation *)
Lemma key_of_nwu0 i k : wf_input0 i -> In k (keys (input0_pairs i)) -> k_type k = x00 -> i0_non_witness_utxo i <> None.
Proof.
  intros Hw Hk Et. unfold keys in Hk. apply in_map_iff in Hk as (p & <- & Hp). apply wf_input0_iff in Hw.
  rewrite i0pairs_eq in Hp. destruct (spairs_slot _ _ _ _ _ _ _ _ _ i0spec i p Hw Hp x00 Et) as (f & Ef & Hf).
  change (i0slot x00) with I0NonWitnessUtxo in Ef. subst f. cbn in Hf. destruct (i0_non_witness_utxo i); [discriminate|destruct Hf].
Qed.
Lemma key_of_sighash0 i k : wf_input0 i -> In k (keys (input0_pairs i)) -> k_type k = x03 -> i0_sighash_type i <> None.
Proof.
  intros Hw Hk Et. unfold keys in Hk. apply in_map_iff in Hk as (p & <- & Hp). apply wf_input0_iff in Hw.
  rewrite i0pairs_eq in Hp. destruct (spairs_slot _ _ _ _ _ _ _ _ _ i0spec i p Hw Hp x03 Et) as (f & Ef & Hf).
  change (i0slot x03) with I0SighashType in Ef. subst f. cbn in Hf. destruct (i0_sighash_type i); [discriminate|destruct Hf].
Qed.
Lemma compatible_inputs0_all i j : compatible_inputs0 i j -> wf_input0 i -> wf_input0 j ->
  forall k, In k (keys (input0_pairs i)) \/ In k (keys (input0_pairs j)) -> In k (keys (input0_pairs (input0_combine i j))).
Proof.
  intros (Hn & Hs & Hu) Hi Hj k [Hk|Hk].
  - destruct (input0_combine_keys_left i j _ Hk) as [Q|(Et & Q)]; auto.
    exfalso. apply (key_of_nwu0 i k Hi Hk Et). apply Hu. auto.
  - destruct (input0_combine_keys_right i j _ Hk) as [Q|[(Et & Q)|(Et & Q)]]; auto.
    + exfalso. apply (key_of_nwu0 j k Hj Hk Et). apply Hu. auto.
    + exfalso. apply (key_of_sighash0 j k Hj Hk Et). now apply Hs.
Qed.
Lemma compatible_inputs0_sym i j : compatible_inputs0 i j -> compatible_inputs0 j i.
Proof. intros (H1 & H2 & H3). split; [now apply no_conflict_sym|]. split; [tauto|]. intros H. apply and_comm. tauto. Qed.
Lemma compatible_inputs0_comm i j : wf_input0 i -> wf_input0 j -> compatible_inputs0 i j -> input0_combine i j = input0_combine j i.
Proof.
  intros Hi Hj Hc. pose proof (input0_combine_wf _ _ Hi Hj) as Wc. pose proof (input0_combine_wf _ _ Hj Hi) as Wd.
  apply input0_perm_eq; auto. apply (union_perm (input0_pairs i) (input0_pairs j)); auto using input0_pairs_nodup.
  - apply Hc.
  - intros p. now apply input0_combine_from.
  - now apply compatible_inputs0_all.
  - intros p. now apply input0_combine_from.
  - apply (compatible_inputs0_all j i); auto using compatible_inputs0_sym.
Qed.
Lemma compatible_outputs0_comm i j : wf_output0 i -> wf_output0 j -> compatible_outputs0 i j ->
  output0_eq (output0_combine i j) (output0_combine j i).
Proof.
  intros Hi Hj Hc. pose proof (output0_combine_wf _ _ Hi Hj) as Wc. pose proof (output0_combine_wf _ _ Hj Hi) as Wd.
  apply output0_perm_eq; auto. apply (union_perm (output0_pairs i) (output0_pairs j)); auto using output0_pairs_nodup.
  - intros p. now apply output0_combine_from.
  - intros k. now apply output0_combine_keys.
  - intros p. now apply output0_combine_from.
  - intros k. now apply output0_combine_keys.
Qed.

Lemma gdec0_perm_eq a b : wf_g0 a -> wf_g0 b -> Permutation (global0_pairs a) (global0_pairs b) -> to_gdec0 a = to_gdec0 b.
Proof.
  intros Ha Hb Hp. pose proof (global0_pairs_wf a Ha) as Pa. apply wf_g0_swf in Ha, Hb. rewrite !g0pairs_eq in *.
  destruct (frame_rt _ _ _ g0field_dec _ _ _ g0frame _ _ _ _ _ g0spec g0order_nodup g0order_all (to_gdec0 a) gdec0_init Ha g0init_empty) as (a' & Ea & Na).
  destruct (frame_rt _ _ _ g0field_dec _ _ _ g0frame _ _ _ _ _ g0spec g0order_nodup g0order_all (to_gdec0 b) gdec0_init Hb g0init_empty) as (b' & Eb & Nb).
  assert (a' = to_gdec0 a). { apply (fo_ext _ _ _ _ _ _ g0frame). intros f. rewrite Na. now destruct f. }
  assert (b' = to_gdec0 b). { apply (fo_ext _ _ _ _ _ _ g0frame). intros f. rewrite Nb. now destruct f. }
  subst a' b'. assert (Q : ins_all global0_insert_pair (spairs g0ty g0get g0fpairs g0order (to_gdec0 b)) gdec0_init = Ok (to_gdec0 a)).
  { refine (MapFacts.frame_perm _ _ _ g0field_dec _ _ _ g0frame _ _ _ _ g0spec g0special _ _ _ _ g0comm _ Pa Hp _ Ea).
    - exact (frame_init_wf _ _ _ _ _ _ _ _ g0spec _ g0init_empty).
    - intros f E. discriminate E. }
  rewrite Eb in Q. now apply Ok_inj in Q.
Qed.
Lemma xpub0_pair_in p x k : In (x, k) (p0_xpub p) -> In (Pair (Key x01 (ser_xpub x)) (ser_keysource k)) (global0_pairs p).
Proof.
  intros H. rewrite g0pairs_eq. apply in_flat_map. exists G0Xpub. split; [apply g0order_all|]. cbn.
  unfold map_pairs. apply in_map_iff. now exists (x, k).
Qed.
Lemma merge_agree0 g h : wf_g0 g -> wf_g0 h -> no_conflict (global0_pairs g) (global0_pairs h) ->
  exists m, global_merge_xpubs (p0_xpub h) (p0_xpub g) = Ok m.
Proof.
  intros (_ & _ & (Sg & Wg) & _) (_ & _ & (Sh & Wh) & _) Hn.
  apply merge_nested; auto. intros x a b Ha Hb. rewrite Forall_forall in *. destruct (Wg _ Ha) as [_ Wa], (Wh _ Hb) as [_ Wb]. cbn in Wa, Wb.
  assert (Q : ser_keysource a = ser_keysource b) by exact (Hn _ _ (xpub0_pair_in g x a Ha) (xpub0_pair_in h x b Hb) eq_refl).
  assert (a = b). { apply (f_equal de_keysource) in Q. rewrite !(co_rt _ _ _ _ keysource_codec) in Q by assumption. now apply Ok_inj in Q. }
  subst b. left. now exists [].
Qed.
Lemma tx0_pair_in p : In (Pair (Key x00 []) (enc_tx_nowit (p0_unsigned_tx p))) (global0_pairs p).
Proof. unfold global0_pairs. rewrite !in_app_iff. left. now left. Qed.
Lemma same_tx0 g h : wf_g0 g -> wf_g0 h -> no_conflict (global0_pairs g) (global0_pairs h) -> p0_unsigned_tx g = p0_unsigned_tx h.
Proof.
  intros (Wg & _) (Wh & _) Hn. pose proof (Hn _ _ (tx0_pair_in g) (tx0_pair_in h) eq_refl) as Q. cbn in Q.
  apply (f_equal de_unsigned_tx) in Q. rewrite !de_unsigned_tx_rt in Q by assumption. now apply Ok_inj in Q.
Qed.

(** What combining preserves: everything but the limit on the size of the global map. *)
Definition wf_parts0 (p : psbt0) : Prop := wf_g0 p /\ Forall wf_input0 (p0_inputs p) /\ Forall wf_output0 (p0_outputs p).
Lemma parts0_combine_comm p q : wf_parts0 p -> wf_parts0 q -> compatible0 p q ->
  exists r s, psbt0_combine p q = Ok r /\ psbt0_combine q p = Ok s /\ psbt0_eq r s.
Proof.
  intros (Gp & Ip & Op) (Gq & Iq & Oq) (Hn & Hi & Ho).
  pose proof (same_tx0 p q Gp Gq Hn) as Et. destruct (merge_agree0 p q Gp Gq Hn) as [m M1].
  destruct (merge_agree0 q p Gq Gp (no_conflict_sym _ _ Hn)) as [m' M2].
  exists (combined0 p q m), (combined0 q p m'). split; [apply psbt0_combine_ok; split; auto; eauto|]. split; [apply psbt0_combine_ok; split; eauto|].
  pose proof (combined0_g0 p q m M1 Gp Gq) as Wc. pose proof (combined0_g0 q p m' M2 Gq Gp) as Wd.
  assert (G : to_gdec0 (combined0 p q m) = to_gdec0 (combined0 q p m')).
  { apply gdec0_perm_eq; auto. apply (union_perm (global0_pairs p) (global0_pairs q)); auto using global0_pairs_nodup.
    - intros x. now apply combined0_from.
    - intros k [Hk|Hk]; [now apply combined0_keys_left|now apply combined0_keys_right].
    - intros x. now apply combined0_from.
    - intros k [Hk|Hk]; [now apply combined0_keys_left|now apply combined0_keys_right]. }
  assert (I : zip_combine input0_combine (p0_inputs p) (p0_inputs q) = zip_combine input0_combine (p0_inputs q) (p0_inputs p)).
  { apply Forall2_eq_list, zip_combine_comm. refine (Forall2_strong _ _ _ _ _ _ tt _ Ip Iq Hi).
    intros x y Wx Wy Hc. now apply compatible_inputs0_comm. }
  assert (O : Forall2 output0_eq (zip_combine output0_combine (p0_outputs p) (p0_outputs q)) (zip_combine output0_combine (p0_outputs q) (p0_outputs p))).
  { apply zip_combine_comm. refine (Forall2_strong _ _ _ _ _ _ tt _ Op Oq Ho).
    intros x y Wx Wy Hc. now apply compatible_outputs0_comm. }
  split; [|exact O]. unfold to_gdec0, combined0 in G. cbn in G. injection G as G1 _ G2 G3 G4.
  unfold set_p0_outputs, combined0. cbn. rewrite G1, G2, G3, G4, I. rewrite N.max_comm. reflexivity.
Qed.
Lemma wf_psbt0_parts p : wf_psbt0 p -> wf_parts0 p.
Proof. intros H. split; [now apply wf_psbt0_g0|]. split; apply H. Qed.
Lemma psbt0_combine_comm p q : wf_psbt0 p -> wf_psbt0 q -> compatible0 p q ->
  exists r s, psbt0_combine p q = Ok r /\ psbt0_combine q p = Ok s /\ psbt0_eq r s.
Proof. intros Hp Hq. apply parts0_combine_comm; now apply wf_psbt0_parts. Qed.

(** *** Conflicts *)
Lemma global0_first a b xs p : wf_g0 a -> wf_g0 b -> global_merge_xpubs (p0_xpub b) (p0_xpub a) = Ok xs -> In p (global0_pairs a) ->
  In (k_type (p_key p)) single_global0 -> In p (global0_pairs (combined0 a b xs)).
Proof.
  intros Ga Gb Hx Hp Ht. pose proof (proj1 (proj2 Ga)) as Va. pose proof (combined0_R a b xs Hx) as HR. apply wf_g0_swf in Ga. rewrite g0pairs_eq in *.
  destruct (spairs_slot _ _ _ _ _ _ _ _ _ g0spec (to_gdec0 a) p Ga Hp _ eq_refl) as (f & Ef & Hf).
  destruct f; try (exfalso; unfold ptype in Ef; unfold single_global0 in Ht;
     repeat (destruct Ht as [Ht|Ht]; [rewrite <- Ht in Ef; discriminate Ef|]); exact Ht).
  - apply (frame_in _ _ _ _ g0order_all _ _ G0Tx). exact Hf.
  - cbn in Hf. rewrite Va in Hf. destruct Hf.
Qed.
Lemma global0_second a b xs q : wf_g0 b -> global_merge_xpubs (p0_xpub b) (p0_xpub a) = Ok xs -> In q (global0_pairs b) ->
  ~ In (k_type (p_key q)) (x01 :: single_global0) -> In q (global0_pairs (combined0 a b xs)).
Proof.
  intros Gb Hx Hq Nt. pose proof (combined0_R a b xs Hx) as HR. apply wf_g0_swf in Gb. rewrite g0pairs_eq in *.
  destruct (spairs_slot _ _ _ _ _ _ _ _ _ g0spec (to_gdec0 b) q Gb Hq _ eq_refl) as (f & Ef & Hf).
  assert (G : forall f, In q (g0fpairs f (g0get f (to_gdec0 b))) -> c_second (g0fpairs f) (g0fwf f) (g0R f) ->
     In q (spairs g0ty g0get g0fpairs g0order (to_gdec0 (combined0 a b xs)))).
  { intros f' Hf' Hc. apply (frame_in _ _ _ _ g0order_all _ _ f'). exact (Hc _ _ _ _ (Gb f') (HR f') Hf'). }
  unfold ptype in Ef. destruct f; try (apply (G _ Hf); cbn [g0fpairs g0R g0fwf g0ty]; maps0_second).
  - not_single0 Nt Ef g0slot_G0Tx.
  - not_single0 Nt Ef g0slot_G0Xpub.
  - not_single0 Nt Ef g0slot_G0Version.
Qed.

End Facts.
