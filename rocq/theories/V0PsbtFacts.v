(** Facts about the codec of v0 PSBTs (src/v0/bitcoin/serialize.rs:43-113). *)
From Coq Require Import Permutation.
From Verif Require Import Base OMap Consensus ConsensusFacts Ext Raw RawFacts TapTree TapTreeFacts
  Serialize SerializeFacts MapCodec MapFacts V2Global V2GlobalFacts V2Psbt SpecCodec SpecCodecFacts SpecPsbt
  V2PsbtFacts V2CodecFacts V2WireFacts
  V0Error V0Input V0Output V0Psbt V0OutputFacts V0InputFacts V0GlobalFacts SpecPsbt0.
Local Open Scope N_scope.

Section Facts.
Context `{X : Ext} {L : ExtLaws X}.

(** ** The grammar of the three maps *)

Definition output0_acc (l : list pair) (o : output0) : Prop :=
  Forall wf_pair l /\ ins_all output0_insert_pair l output0_default = Ok o.
Definition input0_acc (l : list pair) (i : input0) : Prop :=
  Forall wf_pair l /\ ins_all input0_insert_pair l input0_default = Ok i.
(** The global map fills the first five fields. *)
Definition global0_acc (l : list pair) (p : psbt0) : Prop :=
  Forall wf_pair l /\ blen (ser_pairs l) <= MAX_VEC_SIZE /\
  exists v, ins_all global0_insert_pair l gdec0_init
    = Ok (GDec0 (Some (p0_unsigned_tx p)) v (p0_unknown p) (p0_xpub p) (p0_proprietary p))
    /\ p0_version p = opt_default 0 v.

Lemma output0_decode_iff bs o r :
  output0_decode bs = Ok (o, r) <-> exists l, bs = ser_pairs l ++ r /\ output0_acc l o.
Proof. unfold output0_decode, output0_acc. apply dec_map_iff. Qed.
Lemma input0_decode_iff bs o r :
  input0_decode bs = Ok (o, r) <-> exists l, bs = ser_pairs l ++ r /\ input0_acc l o.
Proof. unfold input0_decode, input0_acc. apply dec_map_iff. Qed.

Lemma split_limit_app n bs : fst (split_limit n bs) ++ snd (split_limit n bs) = bs.
Proof. unfold split_limit. destruct (_ <=? _); cbn; [apply app_nil_r|apply firstn_skipn]. Qed.
Lemma split_limit_len n bs : blen (fst (split_limit n bs)) <= n.
Proof. unfold split_limit. destruct (_ <=? _) eqn:E; cbn; [lia|]. unfold blen. rewrite firstn_length. lia. Qed.
Lemma split_limit_prefix n a b : blen a <= n ->
  exists c, fst (split_limit n (a ++ b)) = a ++ c /\ b = c ++ snd (split_limit n (a ++ b)).
Proof.
  intros H. unfold split_limit. destruct (_ <=? _) eqn:E; cbn; [exists b; now rewrite app_nil_r|].
  exists (firstn (N.to_nat n - length a) b). unfold blen in *. split.
  - rewrite firstn_app. rewrite firstn_all2 by lia. reflexivity.
  - rewrite skipn_app. rewrite skipn_all2 by lia. cbn [app]. now rewrite firstn_skipn.
Qed.

Lemma global0_decode_iff bs p r :
  global0_decode bs = Ok (p, r)
  <-> p0_inputs p = [] /\ p0_outputs p = [] /\ exists l, bs = ser_pairs l ++ r /\ global0_acc l p.
Proof.
  unfold global0_decode, global0_acc. pose proof (split_limit_app MAX_VEC_SIZE bs) as E.
  pose proof (split_limit_len MAX_VEC_SIZE bs) as Hl.
  destruct (split_limit MAX_VEC_SIZE bs) as [lim behind] eqn:Es. cbn [fst snd] in E, Hl. split.
  - intros H. apply bind_ok in H as ([d r1] & H1 & H). apply bind_ok in H as (t & H2 & H). apply ok_or_ok in H2.
    inj2 H. apply dec_map_iff in H1 as (l & -> & W & I). cbn. split; auto. split; auto.
    exists l. split; [now rewrite <- app_assoc|]. split; auto. split; [rewrite blen_app in Hl; lia|].
    exists (gd0_version d). split; auto. rewrite I. destruct d. cbn in *. now subst.
  - intros (Ei & Eo & l & -> & W & Hs & v & I & Ev).
    destruct (split_limit_prefix MAX_VEC_SIZE (ser_pairs l) r Hs) as (c & E1 & E2). rewrite Es in E1, E2. cbn [fst snd] in E1, E2.
    match goal with |- context [dec_map ?f ?e ?n ?i ?b] =>
      assert (D : dec_map f e n i b = Ok (GDec0 (Some (p0_unsigned_tx p)) v (p0_unknown p) (p0_xpub p) (p0_proprietary p), c))
        by (apply dec_map_iff; eauto) end.
    rewrite D. cbn [bind gd0_tx gd0_version gd0_xpub gd0_proprietary gd0_unknown ok_or]. rewrite <- Ev, <- E2.
    destruct p. cbn in *. now subst.
Qed.

Lemma output0_decode_np bs : output0_decode bs <> Panic.
Proof.
  apply dec_map_nopanic. intros p a. pose proof (frame_np _ _ _ _ _ _ o0frame _ _ _ _ o0spec p a).
  destruct (output0_insert_pair p a); cbn; congruence.
Qed.
Lemma input0_decode_np bs : input0_decode bs <> Panic.
Proof.
  apply dec_map_nopanic. intros p a. pose proof (frame_np _ _ _ _ _ _ i0frame _ _ _ _ i0spec p a).
  destruct (input0_insert_pair p a); cbn; congruence.
Qed.
Lemma global0_decode_np bs : global0_decode bs <> Panic.
Proof.
  unfold global0_decode. destruct (split_limit _ _) as [lim behind].
  pose proof (dec_map_nopanic (fun p d => map_err err0_of_ierr (global0_insert_pair p d)) err0_of_serr (S (length lim)) gdec0_init lim) as H.
  destruct (dec_map _ _ _ _ _) as [[s r]| |]; cbn [bind]; try discriminate.
  - destruct (gd0_tx s); discriminate.
  - exfalso. apply H; [|reflexivity]. intros p a. pose proof (frame_np _ _ _ _ _ _ g0frame _ _ _ _ g0spec p a).
    destruct (global0_insert_pair p a); cbn; congruence.
Qed.

(** ** Key types *)
Lemma o0slot_unknown t : o0slot t = O0Unknown <-> output0_type_key t = false /\ proprietary_type t = false.
Proof. unfold o0slot, output0_type_key, proprietary_type. destruct t; cbn; split; intros H; (discriminate || now destruct H || auto). Qed.
Lemma i0slot_unknown t : i0slot t = I0Unknown <-> input0_type t = false /\ proprietary_type t = false.
Proof. unfold i0slot, input0_type, proprietary_type. destruct t; cbn; split; intros H; (discriminate || now destruct H || auto). Qed.
Lemma g0slot_unknown t : g0slot t = G0Unknown <-> global0_type t = false /\ proprietary_type t = false.
Proof. unfold g0slot, global0_type, proprietary_type. destruct t; cbn; split; intros H; (discriminate || now destruct H || auto). Qed.
Lemma output0_excluded_spec t : output0_excluded t = output_v2_type t.
Proof. destruct t; reflexivity. Qed.
Lemma input0_excluded_spec t : input0_excluded t = input_v2_type t.
Proof. destruct t; reflexivity. Qed.
Lemma global0_excluded_spec t : global0_excluded t = global_v2_type t.
Proof. destruct t; reflexivity. Qed.

Lemma unknown_iff {F} (slot : byte -> F) unk exc known v2 (m : list (key * bytes)) :
  (forall t, slot t = unk <-> known t = false /\ proprietary_type t = false) ->
  (forall t, exc t = v2 t) ->
  wf_unknowns (fun t => slot t = unk /\ exc t = false) m <-> map_of sk_key (unknown_key0 known v2) wf_value m.
Proof.
  intros H1 H2. split; apply wf_map_impl; intros k; unfold unknown_key0.
  - intros (A & B & D). rewrite H1 in B. rewrite H2 in D. tauto.
  - intros (A & B & D & E). rewrite H1, H2. tauto.
Qed.

(** ** Outputs *)
Lemma wf_output0_iff o : wf_output0 o <-> swf o0ty o0get o0fwf o.
Proof.
  split.
  - intros H f. destruct f; try apply H. apply (unknown_iff _ _ _ _ _ _ o0slot_unknown output0_excluded_spec), H.
  - intros H. constructor.
    + exact (H O0RedeemScript).
    + exact (H O0WitnessScript).
    + exact (H O0Bip32).
    + exact (H O0TapInternalKey).
    + exact (H O0TapTree).
    + exact (H O0TapKeyOrigins).
    + exact (H O0Proprietary).
    + apply (unknown_iff _ _ _ _ _ _ o0slot_unknown output0_excluded_spec). exact (H O0Unknown).
Qed.
Lemma output0_acc_wf l o : output0_acc l o -> wf_output0 o.
Proof.
  intros (H1 & H2). apply wf_output0_iff.
  refine (frame_wf _ _ _ o0field_dec _ _ _ o0frame _ _ _ _ o0spec _ _ _ _ H1 H2).
  exact (frame_init_wf _ _ _ _ _ _ _ _ o0spec _ o0init_empty).
Qed.
Lemma output0_pairs_wf o : wf_output0 o -> Forall wf_pair (output0_pairs o).
Proof. intros H. apply wf_output0_iff in H. rewrite o0pairs_eq. exact (frame_pairs_wf _ _ _ _ _ _ _ _ _ o0spec _ H). Qed.
Lemma output0_pairs_nodup o : wf_output0 o -> NoDup (map p_key (output0_pairs o)).
Proof. intros H. apply wf_output0_iff in H. rewrite o0pairs_eq. exact (frame_nodup _ _ _ _ _ _ _ _ _ o0spec o0order_nodup _ H). Qed.
Lemma output0_rt o : wf_output0 o ->
  exists o', output0_acc (output0_pairs o) o' /\ forall f, o0get f o' = o0norm f (o0get f o).
Proof.
  intros H. pose proof (output0_pairs_wf o H) as Hp. apply wf_output0_iff in H.
  destruct (frame_rt _ _ _ o0field_dec _ _ _ o0frame _ _ _ _ _ o0spec o0order_nodup o0order_all o output0_default H o0init_empty) as (o' & E & En).
  exists o'. split; auto. split; auto. now rewrite o0pairs_eq.
Qed.
Lemma o0norm_eq o o' : (forall f, o0get f o' = o0norm f (o0get f o)) -> wf_output0 o -> output0_eq o o'.
Proof.
  intros En Hw. split.
  - pose proof (En O0TapTree) as E. cbn in E. rewrite E. pose proof (wo0_tap_tree _ Hw) as Ht.
    destruct (o0_tap_tree o) as [t|]; [|reflexivity]. cbn. f_equal. now destruct (tt_norm_spec t Ht) as (_ & -> & _).
  - pose proof (En O0RedeemScript). pose proof (En O0WitnessScript).
    pose proof (En O0Bip32). pose proof (En O0TapInternalKey). pose proof (En O0TapKeyOrigins).
    pose proof (En O0Proprietary). pose proof (En O0Unknown).
    cbn in *. destruct o, o'. unfold set_o0_tap_tree. cbn in *. subst. reflexivity.
Qed.
Lemma o0norm_exact o o' : (forall f, o0get f o' = o0norm f (o0get f o)) ->
  opt_of (fun t => exists sh, wf_shape sh /\ no_tie sh /\ node_of sh = Some t) (o0_tap_tree o) -> o' = o.
Proof.
  intros En Ht. apply (fo_ext _ _ _ _ _ _ o0frame). intros f. rewrite En. destruct f; try reflexivity. cbn.
  destruct (o0_tap_tree o) as [t|]; [|reflexivity]. cbn. f_equal.
  destruct Ht as (sh & H1 & H2 & H3). unfold tt_norm. now rewrite (taptree_roundtrip_exact sh t).
Qed.

(** ** Inputs *)
Lemma wf_input0_iff i : wf_input0 i <-> swf i0ty i0get i0fwf i.
Proof.
  split.
  - intros H f. destruct f; try apply H; try apply preimages_iff, H.
    apply (unknown_iff _ _ _ _ _ _ i0slot_unknown input0_excluded_spec), H.
  - intros H. constructor.
    + exact (H I0NonWitnessUtxo).
    + exact (H I0WitnessUtxo).
    + exact (H I0PartialSigs).
    + exact (H I0SighashType).
    + exact (H I0RedeemScript).
    + exact (H I0WitnessScript).
    + exact (H I0Bip32).
    + exact (H I0FinalScriptSig).
    + exact (H I0FinalScriptWitness).
    + apply preimages_iff. exact (H I0Ripemd160).
    + apply preimages_iff. exact (H I0Sha256).
    + apply preimages_iff. exact (H I0Hash160).
    + apply preimages_iff. exact (H I0Hash256).
    + exact (H I0TapKeySig).
    + exact (H I0TapScriptSigs).
    + exact (H I0TapScripts).
    + exact (H I0TapKeyOrigins).
    + exact (H I0TapInternalKey).
    + exact (H I0TapMerkleRoot).
    + exact (H I0Proprietary).
    + apply (unknown_iff _ _ _ _ _ _ i0slot_unknown input0_excluded_spec). exact (H I0Unknown).
Qed.
Lemma input0_acc_wf l i : input0_acc l i -> wf_input0 i.
Proof.
  intros (H1 & H2). apply wf_input0_iff.
  refine (frame_wf _ _ _ i0field_dec _ _ _ i0frame _ _ _ _ i0spec _ _ _ _ H1 H2).
  exact (frame_init_wf _ _ _ _ _ _ _ _ i0spec _ i0init_empty).
Qed.
Lemma input0_pairs_wf i : wf_input0 i -> Forall wf_pair (input0_pairs i).
Proof. intros H. apply wf_input0_iff in H. rewrite i0pairs_eq. exact (frame_pairs_wf _ _ _ _ _ _ _ _ _ i0spec _ H). Qed.
Lemma input0_pairs_nodup i : wf_input0 i -> NoDup (map p_key (input0_pairs i)).
Proof. intros H. apply wf_input0_iff in H. rewrite i0pairs_eq. exact (frame_nodup _ _ _ _ _ _ _ _ _ i0spec i0order_nodup _ H). Qed.
Lemma input0_rt i : wf_input0 i -> input0_acc (input0_pairs i) i.
Proof.
  intros H. pose proof (input0_pairs_wf i H) as Hp. apply wf_input0_iff in H.
  destruct (frame_rt _ _ _ i0field_dec _ _ _ i0frame _ _ _ _ _ i0spec i0order_nodup i0order_all i input0_default H i0init_empty) as (i' & E & En).
  assert (i' = i). { apply (fo_ext _ _ _ _ _ _ i0frame). intros f. rewrite En. now destruct f. }
  subst i'. split; auto. now rewrite i0pairs_eq.
Qed.

(** ** The global map *)

(** The fields of the global map as the decoder holds them. *)
Definition to_gdec0 (p : psbt0) : gdec0 :=
  GDec0 (Some (p0_unsigned_tx p)) (if 0 <? p0_version p then Some (p0_version p) else None)
        (p0_unknown p) (p0_xpub p) (p0_proprietary p).

Lemma g0pairs_eq p : global0_pairs p = spairs g0ty g0get g0fpairs g0order (to_gdec0 p).
Proof.
  unfold global0_pairs, spairs, g0order, to_gdec0.
  cbn [flat_map g0fpairs g0get gd0_tx gd0_version gd0_xpub gd0_proprietary gd0_unknown opt_pairs].
  destruct (0 <? p0_version p); cbn [opt_pairs]; rewrite app_nil_r; reflexivity.
Qed.

(** The well-formedness of the fields without the sizes. *)
Definition wf_g0 (p : psbt0) : Prop :=
  wf_unsigned_tx (p0_unsigned_tx p) /\ p0_version p = 0 /\ map_of sk_xpub wf_xpub wf_keysource (p0_xpub p)
  /\ map_of sk_propkey wf_propkey wf_value (p0_proprietary p)
  /\ map_of sk_key (unknown_key0 global0_type global_v2_type) wf_value (p0_unknown p).

Lemma wf_g0_swf p : wf_g0 p -> swf g0ty g0get g0fwf (to_gdec0 p).
Proof.
  intros (H1 & H2 & H3 & H4 & H5) f. unfold to_gdec0. rewrite H2. destruct f; cbn; auto.
  now apply (unknown_iff _ _ _ _ _ _ g0slot_unknown global0_excluded_spec).
Qed.
Lemma swf_wf_g0 p v : swf g0ty g0get g0fwf (GDec0 (Some (p0_unsigned_tx p)) v (p0_unknown p) (p0_xpub p) (p0_proprietary p)) ->
  p0_version p = opt_default 0 v -> wf_g0 p.
Proof.
  intros H Ev. split; [exact (H G0Tx)|]. split; [|split; [exact (H G0Xpub)|split; [exact (H G0Proprietary)|]]].
  - rewrite Ev. pose proof (H G0Version) as Q. cbn in Q. destruct v; cbn in *; auto.
  - apply (unknown_iff _ _ _ _ _ _ g0slot_unknown global0_excluded_spec). exact (H G0Unknown).
Qed.
Lemma global0_acc_wf l p : global0_acc l p -> wf_g0 p.
Proof.
  intros (H1 & _ & v & H2 & H3). eapply swf_wf_g0; [|exact H3].
  refine (frame_wf _ _ _ g0field_dec _ _ _ g0frame _ _ _ _ g0spec _ _ _ _ H1 H2).
  exact (frame_init_wf _ _ _ _ _ _ _ _ g0spec _ g0init_empty).
Qed.
Lemma global0_pairs_wf p : wf_g0 p -> Forall wf_pair (global0_pairs p).
Proof. intros H. apply wf_g0_swf in H. rewrite g0pairs_eq. exact (frame_pairs_wf _ _ _ _ _ _ _ _ _ g0spec _ H). Qed.
Lemma global0_pairs_nodup p : wf_g0 p -> NoDup (map p_key (global0_pairs p)).
Proof. intros H. apply wf_g0_swf in H. rewrite g0pairs_eq. exact (frame_nodup _ _ _ _ _ _ _ _ _ g0spec g0order_nodup _ H). Qed.
Lemma global0_rt p : wf_g0 p -> blen (ser_pairs (global0_pairs p)) <= MAX_VEC_SIZE -> global0_acc (global0_pairs p) p.
Proof.
  intros H Hs. pose proof (global0_pairs_wf p H) as Hp. pose proof (proj1 (proj2 H)) as Hv. apply wf_g0_swf in H.
  destruct (frame_rt _ _ _ g0field_dec _ _ _ g0frame _ _ _ _ _ g0spec g0order_nodup g0order_all (to_gdec0 p) gdec0_init H g0init_empty) as (i' & E & En).
  assert (i' = to_gdec0 p). { apply (fo_ext _ _ _ _ _ _ g0frame). intros f. rewrite En. now destruct f. }
  subst i'. split; auto. split; auto. exists None. rewrite g0pairs_eq, E. unfold to_gdec0. rewrite Hv. auto.
Qed.

(** ** Sizes *)
Lemma ser_pair_size p : blen (ser_pair p) = pair_size (blen (k_data (p_key p))) (blen (p_value p)).
Proof.
  unfold pair_size, varint_size, ser_pair, ser_key, enc_bytes. rewrite !blen_app.
  change (k_type (p_key p) :: k_data (p_key p)) with ([k_type (p_key p)] ++ k_data (p_key p)).
  rewrite ?blen_cons, ?blen_app. cbn [blen]. change (blen [k_type (p_key p)]) with 1. lia.
Qed.

End Facts.
