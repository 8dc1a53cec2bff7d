(** C131–C134: the texts of errors. *)
From Coq Require Import Strings.String.
From Verif Require Import Base OMap Consensus ConsensusFacts Ext ExtInstance Raw RawFacts TapTree TapTreeFacts
  Serialize SerializeFacts MapCodec SighashType V2Global V2Input V2Output V2Psbt V2Roles SpecCodec SpecCodecFacts SpecPsbt V2PsbtFacts V2WireFacts
  V0Error V0Input V0Output V0Psbt V0PsbtFacts V0WireFacts SpecErrors ErrorFacts DecodeErrorFacts ErrorText SpecErrorText ErrorTextFacts
  SampleV2 SampleV0.
Local Open Scope N_scope.

(** Used by the examples only; the theorems bind their own. *)
#[local] Existing Instance toy | 100.
#[local] Instance ex_cfg : Cfg | 100 := cfg_of false false.

(** ** C131: the names of the key types *)

Lemma look_named prefix rest table t name :
  match find (fun e => fst e =? b2n t) table with
  | Some e => name = str prefix ++ str (snd e)
  | None => name = rest
  end ->
  named prefix table t name \/ (unnamed table t /\ name = rest).
Proof.
  destruct (find _ _) as [[k s]|] eqn:F; intros ->.
  - apply find_some in F as [F1 F2]. cbn in F2. left. exists s. split; [|reflexivity]. apply N.eqb_eq in F2. now rewrite <- F2.
  - right. split; [|reflexivity]. intros Q. apply in_map_iff in Q as (e & E & Q).
    apply (find_none _ _ F) in Q. rewrite E, N.eqb_refl in Q. discriminate.
Qed.

Theorem C131_global : forall (C : Cfg) t,
  named "PSBT_GLOBAL_" (global_table feat_sp) t (global_name t)
  \/ (unnamed (global_table feat_sp) t /\ global_name t = str "unknown PSBT_GLOBAL_ key type value").
Proof.
  intros C t. apply look_named. destruct C as [[|] d i o], t; vm_compute; reflexivity.
Qed.
Print Assumptions C131_global.

Theorem C131_input : forall (C : Cfg) t,
  named "PSBT_IN_" (input_table feat_sp) t (in_name t)
  \/ (unnamed (input_table feat_sp) t /\ in_name t = str "unknown PSBT_IN_ key type value").
Proof.
  intros C t. apply look_named. destruct C as [[|] d i o], t; vm_compute; reflexivity.
Qed.
Print Assumptions C131_input.

Theorem C131_output : forall (C : Cfg) t,
  named "PSBT_OUT_" (output_table feat_sp) t (out_name t)
  \/ (unnamed (output_table feat_sp) t /\ out_name t = str "unknown PSBT_OUT_ key type value").
Proof.
  intros C t. apply look_named. destruct C as [[|] d i o], t; vm_compute; reflexivity.
Qed.
Print Assumptions C131_output.

(** No key type that the decoder handles is called unknown. *)
Theorem C131_handled : forall (X : Ext) (C : Cfg) t,
  (global_shape feat_sp t <> HOther -> ~ unnamed (global_table feat_sp) t)
  /\ (input_shape feat_sp t <> HOther -> ~ unnamed (input_table feat_sp) t)
  /\ (output_shape feat_sp t <> HOther -> ~ unnamed (output_table feat_sp) t).
Proof.
  intros X [[|] d i o] t; destruct t; (split; [|split]); cbn [feat_sp];
    first [ intros H; destruct (H eq_refl) | intros _ H; apply H; vm_compute; repeat first [left; reflexivity | right]].
Qed.
Print Assumptions C131_handled.

Example C131_ex :
  global_name xfb = str "PSBT_GLOBAL_VERSION" /\ in_name x1d = str "unknown PSBT_IN_ key type value"
  /\ @in_name (cfg_of true false) x1d = str "PSBT_IN_SP_ECDH_SHARE".
Proof. vm_compute. auto. Qed.

(** ** What the decoders' errors can be *)

Ltac breakup :=
  repeat match goal with
    | H : _ \/ _ |- _ => destruct H
    | H : _ /\ _ |- _ => destruct H
    | H : exists _, _ |- _ => destruct H
    end.

Lemma global_errs `{X : Ext} {L : ExtLaws X} `{C : Cfg} bs e : global_decode bs = Err (GDInsertPair e) -> global_pair e.
Proof.
  intros H. apply global_decode_says in H. cbn [global_says] in H. destruct H as (l & p & r & _ & R).
  assert (S0 : match global_shape feat_sp (k_type (p_key p)) with
               | HPreimage _ _ _ | HTx0 | HXpub0 | HVersion0 => False | HExcluded => k_type (p_key p) = x00 | _ => True end).
  { clear. destruct feat_sp, (k_type (p_key p)); try exact I; reflexivity. }
  revert S0 R. generalize (global_shape feat_sp (k_type (p_key p))). intros sh S0 R. unfold refused in R. cbv zeta in R.
  destruct sh; try (exfalso; exact S0); breakup; subst e; first [exact I|exact S0|destruct own; exact I].
Qed.

Lemma input_errs `{X : Ext} {L : ExtLaws X} `{C : Cfg} bs e : input_decode bs = Err (IDInsertPair e) -> input_pair e.
Proof.
  intros H. apply input_decode_says in H. cbn [input_says] in H. destruct H as (l & p & r & _ & R).
  assert (S0 : match input_shape feat_sp (k_type (p_key p)) with
               | HVersion | HCount | HXpub | HExcluded | HTx0 | HXpub0 | HVersion0 | HProp true => False | _ => True end).
  { clear. destruct feat_sp, (k_type (p_key p)); exact I. }
  revert S0 R. generalize (input_shape feat_sp (k_type (p_key p))). intros sh S0 R. unfold refused in R. cbv zeta in R.
  destruct sh; try destruct S0; try (destruct own; [destruct S0|]); breakup; subst e; exact I.
Qed.

Lemma output_errs `{X : Ext} {L : ExtLaws X} `{C : Cfg} bs e : output_decode bs = Err (ODInsertPair e) -> output_pair e.
Proof.
  intros H. apply output_decode_says in H. cbn [output_says] in H. destruct H as (l & p & r & _ & R).
  assert (S0 : match output_shape feat_sp (k_type (p_key p)) with
               | HPreimage _ _ _ | HShare _ _ | HVersion | HCount | HXpub | HExcluded | HTx0 | HXpub0 | HVersion0 | HProp true => False
               | _ => True end).
  { clear. destruct feat_sp, (k_type (p_key p)); exact I. }
  revert S0 R. generalize (output_shape feat_sp (k_type (p_key p))). intros sh S0 R. unfold refused in R. cbv zeta in R.
  destruct sh; try destruct S0; try (destruct own; [destruct S0|]); breakup; subst e; exact I.
Qed.

(** ** C132: an excluded field is called by its name *)

Theorem C132_global : forall (X : Ext) (L : ExtLaws X) (C : Cfg) bs t,
  global_decode bs = Err (GDInsertPair (IExcludedKey t)) ->
  exists l p r name, bs = flat_map ser_pair l ++ ser_pair p ++ r /\ named "PSBT_GLOBAL_" (global_table feat_sp) (k_type (p_key p)) name
    /\ global_ierr_text (IExcludedKey t) = str "found a keypair type that is explicitly excluded: " ++ name.
Proof.
  intros X L C bs t H. pose proof (global_errs _ _ H) as E. cbn [global_pair] in E. subst t.
  apply global_decode_says in H. cbn [global_says] in H. destruct H as (l & p & r & -> & R).
  assert (T : k_type (p_key p) = x00).
  { assert (S0 : global_shape feat_sp (k_type (p_key p)) = HExcluded).
    { revert R. generalize (global_shape feat_sp (k_type (p_key p))). intros sh R. unfold refused in R. cbv zeta in R.
      destruct sh; breakup; try discriminate; try reflexivity. destruct own; discriminate. }
    revert S0. destruct feat_sp, (k_type (p_key p)); try reflexivity; discriminate. }
  exists l, p, r, (str "PSBT_GLOBAL_UNSIGNED_TX"). split; [reflexivity|]. rewrite T. split; [|reflexivity].
  exists "UNSIGNED_TX"%string. split; [left; reflexivity|reflexivity].
Qed.
Print Assumptions C132_global.

Example C132_global_ex :
  global_decode (map_bytes [pr x00 [] (enc_tx_nowit sample0_tx)]) = Err (GDInsertPair (IExcludedKey x00)).
Proof. vm_compute. reflexivity. Qed.

(** The pair that a v0 decoder excludes. *)
Lemma excluded_pair `{X : Ext} sh bs t : (forall t, match sh t with HCount | HXpub => False | HProp true => False | _ => True end) ->
  map0_says sh bs (E0ExcludedKey t) ->
  exists l p r, bs = flat_map ser_pair l ++ ser_pair p ++ r /\ k_type (p_key p) = t /\ sh t = HExcluded.
Proof.
  intros S0 [(e & (l & p & r & -> & R) & M)|(s & _ & M)]; [|destruct s; discriminate M].
  exists l, p, r. split; [reflexivity|]. specialize (S0 (k_type (p_key p))).
  assert (Q : k_type (p_key p) = t /\ sh (k_type (p_key p)) = HExcluded).
  { revert S0 R. generalize (sh (k_type (p_key p))). intros f S0 R. unfold refused in R. cbv zeta in R.
    destruct f; try destruct S0; try (destruct own; [destruct S0|]); breakup; subst e; cbn [means0] in M;
      try discriminate M; try match type of M with _ /\ _ => destruct M as [_ M]; discriminate M end;
      try match goal with s : serr |- _ => destruct s; discriminate M end; try contradiction.
    injection M as ->. auto. }
  destruct Q as [Q1 Q2]. split; [exact Q1|]. rewrite <- Q1. exact Q2.
Qed.

Theorem C132_input_v0 : forall (X : Ext) (L : ExtLaws X) (C : Cfg) txid_text xpub_text bs t,
  input0_decode bs = Err (E0ExcludedKey t) ->
  exists l p r name, bs = flat_map ser_pair l ++ ser_pair p ++ r /\ named "PSBT_IN_" (input_table feat_sp) (k_type (p_key p)) name
    /\ err0_text txid_text xpub_text (E0ExcludedKey t) = str "found a keypair type that is explicitly excluded: " ++ name.
Proof.
  intros X L C txid_text xpub_text bs t H. apply input0_decode_says in H.
  apply excluded_pair in H as (l & p & r & -> & T & S0).
  2:{ intros t'; destruct t'; exact I. }
  exists l, p, r, (in_name t). split; [reflexivity|]. rewrite T. split; [|reflexivity].
  destruct (C131_input C t) as [N|[U _]]; [exact N|]. exfalso. apply U.
  revert S0. destruct t; try discriminate; intros _; vm_compute; repeat first [left; reflexivity | right].
Qed.
Print Assumptions C132_input_v0.

Example C132_input_v0_ex : input0_decode (map_bytes [pr x0e [] txid_a]) = Err (E0ExcludedKey x0e).
Proof. vm_compute. reflexivity. Qed.

(** In the other two maps of version 0 the field is given the name of an input field. *)
Theorem C132_global_v0_refuted : forall (C : Cfg) txid_text xpub_text,
  exists l r t, psbt0_deserialize ([x70; x73; x62; x74; xff] ++ map_bytes l ++ r) = Err (E0ExcludedKey t)
    /\ In t (map (fun p => k_type (p_key p)) l)
    /\ err0_text txid_text xpub_text (E0ExcludedKey t) = str "found a keypair type that is explicitly excluded: PSBT_IN_PARTIAL_SIG"
    /\ named "PSBT_GLOBAL_" (global_table feat_sp) t (str "PSBT_GLOBAL_TX_VERSION").
Proof.
  intros C f g. exists [pr x02 [] (le4 2)], [], x02. split; [vm_compute; reflexivity|]. split; [now left|]. split; [reflexivity|].
  exists "TX_VERSION"%string. split; [vm_compute; right; right; left; reflexivity|reflexivity].
Qed.
Print Assumptions C132_global_v0_refuted.

Theorem C132_output_v0_refuted : forall (C : Cfg) txid_text xpub_text,
  exists l t, output0_decode (map_bytes l) = Err (E0ExcludedKey t)
    /\ err0_text txid_text xpub_text (E0ExcludedKey t) = str "found a keypair type that is explicitly excluded: PSBT_IN_SIGHASH_TYPE"
    /\ named "PSBT_OUT_" (output_table feat_sp) t (str "PSBT_OUT_AMOUNT").
Proof.
  intros C f g. exists [pr x03 [] (le_enc 8 5)], x03. split; [vm_compute; reflexivity|]. split; [reflexivity|].
  exists "AMOUNT"%string. split; [vm_compute; do 3 right; left; reflexivity|reflexivity].
Qed.
Print Assumptions C132_output_v0_refuted.

(** ** C133: errors that look the same are the same *)

Theorem C133_value : forall (C : Cfg) a b l, value_report a l -> value_report b l -> same_value a b.
Proof. intros C a b l. apply value_report_inj. Qed.
Print Assumptions C133_value.

Theorem C133_global : forall (X : Ext) (L : ExtLaws X) (C : Cfg) bs bs' e e' l,
  global_decode bs = Err e -> global_decode bs' = Err e' -> global_report e l -> global_report e' l -> same_global e e'.
Proof.
  intros X L C bs bs' e e' l H H'. apply global_report_inj.
  - intros x ->. exact (global_errs _ _ H).
  - intros x ->. exact (global_errs _ _ H').
Qed.
Print Assumptions C133_global.

Theorem C133_input : forall (X : Ext) (L : ExtLaws X) (C : Cfg) bs bs' e e' l,
  input_decode bs = Err e -> input_decode bs' = Err e' -> input_report e l -> input_report e' l -> same_input e e'.
Proof.
  intros X L C bs bs' e e' l H H'. apply input_report_inj.
  - intros x ->. exact (input_errs _ _ H).
  - intros x ->. exact (input_errs _ _ H').
Qed.
Print Assumptions C133_input.

Theorem C133_output : forall (X : Ext) (L : ExtLaws X) (C : Cfg) bs bs' e e' l,
  output_decode bs = Err e -> output_decode bs' = Err e' -> output_report e l -> output_report e' l -> same_output e e'.
Proof.
  intros X L C bs bs' e e' l H H'. apply output_report_inj.
  - intros x ->. exact (output_errs _ _ H).
  - intros x ->. exact (output_errs _ _ H').
Qed.
Print Assumptions C133_output.

Theorem C133_v0 : forall (X : Ext) (L : ExtLaws X) (C : Cfg) txid_text xpub_text bs bs' e e',
  psbt0_deserialize bs = Err e -> psbt0_deserialize bs' = Err e' ->
  err0_text txid_text xpub_text e = err0_text txid_text xpub_text e' -> same0 e e'.
Proof.
  intros X L C txid_text xpub_text.
  assert (Q : forall bs e, psbt0_deserialize bs = Err e -> decode0_err e).
  { intros bs e H. apply deserialize0_says in H.
    assert (M : forall sh d, (forall t, shape0 (sh t) = true) -> (forall t, sh t = HExcluded -> 2 <= b2n t <= 18) ->
      map0_says sh d e -> decode0_err e).
    { intros sh d S0 Se [(x & (l & p & r & _ & R) & M)|(s & _ & ->)]; [|destruct s; exact Logic.I].
      specialize (S0 (k_type (p_key p))). specialize (Se (k_type (p_key p))).
      revert S0 Se R. generalize (sh (k_type (p_key p))). intros f S0 Se R. unfold refused in R. cbv zeta in R.
      destruct f; cbn [shape0] in S0; try discriminate S0; try (destruct own; [discriminate S0|]); breakup; subst x; cbn [means0] in M;
        try match type of M with _ /\ _ => destruct M as [M0 M] end; try (exfalso; exact M); subst e; try exact Logic.I; try (cbn; lia); try match goal with s : serr |- _ => destruct s; exact Logic.I end. }
    destruct H as [[-> _]|[[-> _]|[H|[H|[H|H]]]]]; try exact Logic.I.
    - destruct H as (d & d' & _ & _ & [H|[-> _]]); [|exact Logic.I].
      apply (M global0_shape d); [exact global0_shape0|intros []; try discriminate; cbn; lia|exact H].
    - destruct H as (lg & r & t & _ & _ & -> & _). exact Logic.I.
    - destruct H as (lg & lis & d & t & _ & _ & _ & H).
      apply (M input0_shape d); [exact input0_shape0|intros []; try discriminate; cbn; lia|exact H].
    - destruct H as (lg & lis & los & d & t & _ & _ & _ & _ & H).
      apply (M output0_shape d); [exact output0_shape0|intros []; try discriminate; cbn; lia|exact H]. }
  intros bs bs' e e' H H'. apply err0_text_inj; eauto.
Qed.
Print Assumptions C133_v0.

(** A report of an error in a value of an input map. *)
Definition bad_preimage (t : byte) : bytes := map_bytes [pr t (repeat x00 32) pre_a].
Definition preimage_report : list bytes :=
  [str "error inserting a key-value pair"; str "invalid hash preimage";
   str "invalid hash preimage self " ++ hex_text pre_a ++ str " " ++ hex_text (repeat x00 32)].
Lemma preimage_reported ht : input_report (IDInsertPair (IHashPreimage ht pre_a (repeat x00 32))) preimage_report.
Proof. eexists. split; [|reflexivity]. cbn [iderr_source]. do 2 (apply causes_next; cbn [cause_source input_ierr_source]). apply causes_end. Qed.

Example C133_ex :
  input_decode (bad_preimage x0b) = Err (IDInsertPair (IHashPreimage HSha256 pre_a (repeat x00 32)))
  /\ input_report (IDInsertPair (IHashPreimage HSha256 pre_a (repeat x00 32))) preimage_report
  /\ psbt0_deserialize (sample_of sample0_global [[pr x0b (repeat x00 32) pre_a]] [])
     = Err (E0InvalidPreimageHashPair HSha256 pre_a (repeat x00 32)).
Proof. split; [vm_compute; reflexivity|]. split; [apply preimage_reported|vm_compute; reflexivity]. Qed.

(** Which hash function a preimage does not fit cannot be seen in version 2. *)
Theorem C133_hash_refuted : exists bs bs' e e' l,
  input_decode bs = Err e /\ input_decode bs' = Err e' /\ e <> e' /\ input_report e l /\ input_report e' l.
Proof.
  exists (bad_preimage x0b), (bad_preimage x0d). do 2 eexists. exists preimage_report.
  split; [vm_compute; reflexivity|]. split; [vm_compute; reflexivity|]. split; [discriminate|].
  split; [exact (preimage_reported HSha256)|exact (preimage_reported HHash256)].
Qed.
Print Assumptions C133_hash_refuted.

(** A fingerprint that is too short is reported as a wrong derivation path. *)
Theorem C133_fingerprint_refuted : exists bs e m,
  global_decode bs = Err (GDInsertPair e) /\ e = IXpubInvalidFingerprint
  /\ global_ierr_text e = str "PSBT_GLOBAL_XPUB: derivation path must be " ++ m.
Proof.
  exists (map_bytes [pr x01 xpub_a [x01]]). do 2 eexists. split; [vm_compute; reflexivity|]. split; [reflexivity|].
  vm_compute. reflexivity.
Qed.
Print Assumptions C133_fingerprint_refuted.

(** ** C134: the cause of an error can be reached *)

(** The errors of the maps give the error they hold. *)
Definition pair_holds (e : ierr) : option cause :=
  match e with
  | IDeser s => Some (CValue s)
  | IConsensus _ | IBip32 => Some CForeign
  | IHashPreimage ht v h => Some (CPreimage ht v h)
  | _ => None
  end.
Theorem C134_maps : forall (X : Ext) (L : ExtLaws X) (C : Cfg) bs,
  (forall e, global_decode bs = Err (GDInsertPair e) ->
     gderr_source (GDInsertPair e) = Some (CGlobalPair e) /\ global_ierr_source e = pair_holds e)
  /\ (forall e, input_decode bs = Err (IDInsertPair e) ->
     iderr_source (IDInsertPair e) = Some (CInputPair e) /\ input_ierr_source e = pair_holds e)
  /\ (forall e, output_decode bs = Err (ODInsertPair e) ->
     oderr_source (ODInsertPair e) = Some (COutputPair e) /\ output_ierr_source e = pair_holds e).
Proof.
  intros X L C bs. split; [|split]; intros e H; (split; [reflexivity|]).
  - apply global_errs in H. destruct e; try reflexivity; destruct H.
  - apply input_errs in H. destruct e; try reflexivity; destruct H.
  - apply output_errs in H. destruct e; try reflexivity; destruct H.
Qed.
Print Assumptions C134_maps.

(** Those of values do not: five kinds of error are lost, and no others. *)
Theorem C134_value : forall e,
  serr_source e = serr_holds e
  <-> ~ In e [SInvalidPublicKey; SInvalidSecp256k1PublicKey; SInvalidEcdsaSignature; SInvalidTaprootSignature; STapTree].
Proof.
  intros e. split.
  - intros H. destruct e; try discriminate H; cbn [In]; intros Q; repeat destruct Q as [Q|Q]; try discriminate Q; destruct Q.
  - intros H. destruct e; try reflexivity; exfalso; apply H; cbn [In]; auto 6.
Qed.
Print Assumptions C134_value.

Theorem C134_lost_refuted : exists bs e,
  input_decode bs = Err (IDInsertPair (IDeser e)) /\ serr_holds e <> None /\ serr_source e = None.
Proof.
  exists (map_bytes [pr x02 [x01] [x30; x01]]). eexists. split; [vm_compute; reflexivity|]. split; [discriminate|reflexivity].
Qed.
Print Assumptions C134_lost_refuted.

Theorem C134_v0 : forall e,
  err0_source e = err0_holds e
  <-> ~ In e [E0InvalidPublicKey; E0InvalidSecp256k1PublicKey; E0InvalidEcdsaSignature; E0InvalidTaprootSignature; E0TapTree].
Proof.
  intros e. split.
  - intros H. destruct e; try discriminate H; cbn [In]; intros Q; repeat destruct Q as [Q|Q]; try discriminate Q; destruct Q.
  - intros H. destruct e; try reflexivity; exfalso; apply H; cbn [In]; auto 6.
Qed.
Print Assumptions C134_v0.
