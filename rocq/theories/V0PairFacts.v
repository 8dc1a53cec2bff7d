(** Pairs of accepted v0 PSBTs: repeated keys, order, pairs that are not interpreted;
    and why no byte string is a v0 and a v2 PSBT. *)
From Coq Require Import Permutation.
From Verif Require Import Base OMap Consensus ConsensusFacts Ext Raw RawFacts TapTree TapTreeFacts
  Serialize SerializeFacts MapCodec MapFacts V2Global V2GlobalFacts V2Psbt SpecCodec SpecCodecFacts SpecPsbt
  V2PsbtFacts V2CodecFacts V2WireFacts V2PairFacts
  V0Error V0Input V0Output V0Psbt V0OutputFacts V0InputFacts V0GlobalFacts SpecPsbt0 V0PsbtFacts V0WireFacts.
Local Open Scope N_scope.

Lemma nodup_positions (l : list pair) :
  (forall i j p q, (i < j)%nat -> nth_error l i = Some p -> nth_error l j = Some q -> p_key p <> p_key q) ->
  NoDup (map p_key l).
Proof.
  induction l as [|p l IH]; intros H; cbn; constructor.
  - intros Hin. apply in_map_iff in Hin as (q & E & Hq). apply In_nth_error in Hq as (n & Hn).
    exact (H 0%nat (S n) p q ltac:(lia) eq_refl Hn (eq_sym E)).
  - apply IH. intros i j a b Hij Hi Hj. exact (H (S i) (S j) a b ltac:(lia) Hi Hj).
Qed.

Section Facts.
Context {X : Ext} {L : ExtLaws X}.

(** ** Repeated keys *)
Lemma output0_dup l o : output0_acc l o -> NoDup (map p_key l).
Proof.
  intros (_ & H). apply nodup_positions. intros i j p q Hij Hi Hj E.
  refine (frame_dup_positions _ _ _ o0field_dec _ _ _ o0frame (o0slot (ptype p)) _ _ _ _ H i j p q Hij Hi Hj E eq_refl).
  apply o0dup. now destruct (o0slot _).
Qed.
Lemma input0_dup l o : input0_acc l o -> NoDup (map p_key l).
Proof.
  intros (_ & H). apply nodup_positions. intros i j p q Hij Hi Hj E.
  refine (frame_dup_positions _ _ _ i0field_dec _ _ _ i0frame (i0slot (ptype p)) _ _ _ _ H i j p q Hij Hi Hj E eq_refl).
  apply i0dup. now destruct (i0slot _).
Qed.
Lemma global0_dup l o : global0_acc l o -> NoDup (map p_key l).
Proof.
  intros (_ & _ & v & H & _). apply nodup_positions. intros i j p q Hij Hi Hj E.
  refine (frame_dup_positions _ _ _ g0field_dec _ _ _ g0frame (g0slot (ptype p)) _ _ _ _ H i j p q Hij Hi Hj E eq_refl).
  apply g0dup. now destruct (g0slot _).
Qed.

(** ** Order *)
Lemma output0_reorder l l' o : Permutation l l' -> output0_acc l o -> output0_acc l' o.
Proof.
  intros R (Hw & H). split; [eapply Permutation_Forall; eauto|].
  refine (MapFacts.frame_perm _ _ _ o0field_dec _ _ _ o0frame _ _ _ _ o0spec o0special _ _ _ _ o0comm _ Hw R _ H).
  - exact (frame_init_wf _ _ _ _ _ _ _ _ o0spec _ o0init_empty).
  - intros f Hf. destruct f; discriminate Hf.
Qed.
Lemma input0_reorder l l' o : Permutation l l' -> input0_acc l o -> input0_acc l' o.
Proof.
  intros R (Hw & H). split; [eapply Permutation_Forall; eauto|].
  refine (MapFacts.frame_perm _ _ _ i0field_dec _ _ _ i0frame _ _ _ _ i0spec i0special _ _ _ _ i0comm _ Hw R _ H).
  - exact (frame_init_wf _ _ _ _ _ _ _ _ i0spec _ i0init_empty).
  - intros f Hf. destruct f; discriminate Hf.
Qed.
Lemma global0_reorder l l' o : Permutation l l' -> global0_acc l o -> global0_acc l' o.
Proof.
  intros R (Hw & Hs & v & H & Hv). split; [eapply Permutation_Forall; eauto|]. split.
  { unfold ser_pairs in *. rewrite blen_app in *. now rewrite <- (enc_all_perm _ _ _ R). }
  exists v. split; auto.
  refine (MapFacts.frame_perm _ _ _ g0field_dec _ _ _ g0frame _ _ _ _ g0spec g0special _ _ _ _ g0comm _ Hw R _ H).
  - exact (frame_init_wf _ _ _ _ _ _ _ _ g0spec _ g0init_empty).
  - intros f Hf. destruct f; discriminate Hf.
Qed.

Lemma deserialize0_reorder bs bs' p lg lis los lg' lis' los' :
  psbt0_deserialize bs = Ok p -> maps0_of bs p lg lis los -> maps0_of bs' p lg' lis' los' ->
  Permutation lg lg' -> Forall2 (@Permutation pair) lis lis' -> Forall2 (@Permutation pair) los los' ->
  psbt0_deserialize bs' = Ok p.
Proof.
  intros D M (w & t & E & Hw & N1 & N2) R1 R2 R3. pose proof (deserialize0_unique _ _ _ _ _ D M) as (A1 & A2 & A3 & A4).
  apply psbt_wire_ser in Hw as (-> & _). apply deserialize0_iff. exists lg', lis', los', t.
  split; [now rewrite E, <- !app_assoc|]. split; [eapply global0_reorder; eauto|].
  split; [|split; [|exact A4]].
  - clear -R2 A2 L. revert A2. generalize (p0_inputs p). induction R2; intros is A; inversion A; subst; constructor; auto. eapply input0_reorder; eauto.
  - clear -R3 A3 L. revert A3. generalize (p0_outputs p). induction R3; intros is A; inversion A; subst; constructor; auto. eapply output0_reorder; eauto.
Qed.

(** ** Pairs that are not interpreted *)
Lemma output0_raw l o : output0_acc l o ->
  Permutation (filter (raw_pair output0_type_key) (output0_pairs o)) (filter (raw_pair output0_type_key) l).
Proof.
  intros Ha. pose proof (output0_acc_wf _ _ Ha) as Hw. apply wf_output0_iff in Hw. destruct Ha as (_ & H).
  assert (A : forall p, raw_pair output0_type_key p = of_slot o0field_dec o0slot O0Unknown p || of_slot o0field_dec o0slot O0Proprietary p).
  { intros p. unfold raw_pair, of_slot, ptype, o0slot, output0_type_key. destruct (k_type (p_key p)); reflexivity. }
  assert (B : forall p, of_slot o0field_dec o0slot O0Unknown p = true -> of_slot o0field_dec o0slot O0Proprietary p = false).
  { intros p. unfold of_slot. destruct (o0slot (ptype p)); discriminate || reflexivity. }
  rewrite !(raw_split _ _ _ _ A B), o0pairs_eq. apply Permutation_app.
  - exact (frame_raw o0ty o0get o0set o0field_dec o0upd o0slot _ o0frame o0fpairs o0order o0empty o0fwf o0norm o0spec o0order_nodup o0order_all
      O0Unknown l output0_default o o0raw_O0Unknown Hw H eq_refl).
  - exact (frame_raw o0ty o0get o0set o0field_dec o0upd o0slot _ o0frame o0fpairs o0order o0empty o0fwf o0norm o0spec o0order_nodup o0order_all
      O0Proprietary l output0_default o o0raw_O0Proprietary Hw H eq_refl).
Qed.
Lemma input0_raw l o : input0_acc l o ->
  Permutation (filter (raw_pair input0_type) (input0_pairs o)) (filter (raw_pair input0_type) l).
Proof.
  intros Ha. pose proof (input0_acc_wf _ _ Ha) as Hw. apply wf_input0_iff in Hw. destruct Ha as (_ & H).
  assert (A : forall p, raw_pair input0_type p = of_slot i0field_dec i0slot I0Unknown p || of_slot i0field_dec i0slot I0Proprietary p).
  { intros p. unfold raw_pair, of_slot, ptype, i0slot, input0_type. destruct (k_type (p_key p)); reflexivity. }
  assert (B : forall p, of_slot i0field_dec i0slot I0Unknown p = true -> of_slot i0field_dec i0slot I0Proprietary p = false).
  { intros p. unfold of_slot. destruct (i0slot (ptype p)); discriminate || reflexivity. }
  rewrite !(raw_split _ _ _ _ A B), i0pairs_eq. apply Permutation_app.
  - exact (frame_raw i0ty i0get i0set i0field_dec i0upd i0slot _ i0frame i0fpairs i0order i0empty i0fwf i0norm i0spec i0order_nodup i0order_all
      I0Unknown l input0_default o i0raw_I0Unknown Hw H eq_refl).
  - exact (frame_raw i0ty i0get i0set i0field_dec i0upd i0slot _ i0frame i0fpairs i0order i0empty i0fwf i0norm i0spec i0order_nodup i0order_all
      I0Proprietary l input0_default o i0raw_I0Proprietary Hw H eq_refl).
Qed.

(** All pairs of the global map are kept but a version pair, which can only say 0. *)
Definition not_version (q : pair) : bool := negb (beq (k_type (p_key q)) xfb).

Lemma g0_not_version f s : swf g0ty g0get g0fwf s ->
  filter not_version (g0fpairs f (g0get f s)) = if g0field_dec f G0Version then [] else g0fpairs f (g0get f s).
Proof.
  intros Hs. assert (T : forall q, In q (g0fpairs f (g0get f s)) -> g0slot (ptype q) = f).
  { intros q Hq. exact (fs_ty _ _ _ _ _ _ (g0spec f) _ _ (Hs f) Hq). }
  revert T. generalize (g0fpairs f (g0get f s)). intros ps. destruct (g0field_dec f G0Version) as [Ef|Nf]; intros T.
  - induction ps as [|q ps IH]; [reflexivity|]. cbn [filter]. unfold not_version at 1.
    assert (k_type (p_key q) = xfb) as ->.
    { pose proof (T q (or_introl eq_refl)) as Tq. rewrite Ef in Tq. symmetry. now apply g0slot_G0Version in Tq. }
    cbn. apply IH. intros; apply T; cbn; auto.
  - induction ps as [|q ps IH]; [reflexivity|]. cbn [filter]. unfold not_version at 1.
    assert (beq (k_type (p_key q)) xfb = false) as ->.
    { destruct (beq _ _) eqn:B; auto. apply beq_eq in B. pose proof (T q (or_introl eq_refl)) as Tq.
      unfold ptype in Tq. rewrite B in Tq. cbn in Tq. congruence. }
    cbn [negb]. f_equal. apply IH. intros; apply T; cbn; auto.
Qed.

Lemma global0_kept l p : global0_acc l p ->
  Permutation (global0_pairs p) (filter not_version l) /\
  Forall (fun q => k_type (p_key q) = xfb -> q = Pair (Key xfb []) (repeat x00 4)) l.
Proof.
  intros Ha. pose proof (global0_acc_wf _ _ Ha) as W. destruct Ha as (Hw & _ & v & H & Hv). pose proof H as H0.
  apply (frame_perm g0frame g0raw g0order_nodup g0order_all) in H.
  assert (E0 : spairs g0ty g0get g0fpairs g0order gdec0_init = []) by reflexivity. rewrite E0, app_nil_r in H. clear E0.
  assert (S0 : swf g0ty g0get g0fwf (GDec0 (Some (p0_unsigned_tx p)) v (p0_unknown p) (p0_xpub p) (p0_proprietary p))).
  { refine (frame_wf _ _ _ g0field_dec _ _ _ g0frame _ _ _ _ g0spec _ _ _ _ Hw H0).
    exact (frame_init_wf _ _ _ _ _ _ _ _ g0spec _ g0init_empty). }
  pose proof (S0 G0Version) as V. cbn in V. pose proof (proj1 (proj2 W)) as Hv0.
  split.
  - apply (Permutation_filter not_version) in H. rewrite <- H. clear H.
    rewrite g0pairs_eq. unfold spairs, g0order. cbn [flat_map]. rewrite !filter_app, !(g0_not_version _ _ S0).
    unfold to_gdec0. rewrite Hv0. reflexivity.
  - eapply Permutation_Forall; [exact H|]. apply Forall_forall. intros q Hq Et. unfold spairs in Hq.
    apply in_flat_map in Hq as (f & _ & Hq).
    assert (Es : g0slot (ptype q) = f) by exact (fs_ty _ _ _ _ _ _ (g0spec f) _ _ (S0 f) Hq).
    unfold ptype in Es. rewrite Et in Es. cbn in Es. subst f. cbn [g0fpairs g0get gd0_version] in Hq.
    destruct v as [n|]; [|destruct Hq]. cbn in V. subst n. destruct Hq as [<-|[]]. reflexivity.
Qed.

Lemma deserialize0_raw bs p lg lis los lg' lis' los' :
  psbt0_deserialize bs = Ok p -> maps0_of bs p lg lis los -> maps0_of (psbt0_serialize p) p lg' lis' los' ->
  Permutation lg' (filter not_version lg) /\
  Forall2 (fun l l' => Permutation (filter (raw_pair input0_type) l') (filter (raw_pair input0_type) l)) lis lis' /\
  Forall2 (fun l l' => Permutation (filter (raw_pair output0_type_key) l') (filter (raw_pair output0_type_key) l)) los los'.
Proof.
  intros D M M'. pose proof (deserialize0_wf _ _ D) as W. pose proof (deserialize0_unique _ _ _ _ _ D M) as A.
  assert (E : lg' = global0_pairs p /\ lis' = map input0_pairs (p0_inputs p) /\ los' = map output0_pairs (p0_outputs p)).
  { pose proof (serialize0_pairs_wf _ W) as (W1 & W2 & W3).
    destruct M' as (w & t & E & Hw & N1 & N2). rewrite serialize0_wire in E by assumption.
    apply psbt_wire_ser in Hw as (-> & Q1 & Q2 & Q3). rewrite <- !app_assoc in E. apply app_inv_head in E.
    symmetry in E. apply ser_pairs_unique in E as [-> E]; auto.
    apply sers_unique in E as [-> E]; auto; [|now rewrite map_length].
    rewrite <- (app_nil_r (concat (map ser_pairs (map output0_pairs _)))) in E.
    apply sers_unique in E as [-> E]; auto. now rewrite map_length. }
  destruct E as (-> & -> & ->). destruct A as (A1 & A2 & A3 & _). split; [now apply global0_kept|]. split.
  - clear -A2 L. induction A2; cbn; constructor; auto. now apply input0_raw.
  - clear -A3 L. induction A3; cbn; constructor; auto. now apply output0_raw.
Qed.

(** ** Errors of the decoder *)

(** Errors that only the first five bytes cause. *)
Definition gate_err (e : err0) : bool :=
  match e with E0InvalidMagic | E0InvalidSeparator => true | _ => false end.
Lemma gate_ierr e : gate_err (err0_of_ierr e) = false.
Proof. destruct e as [ | | |[]| | | | | | | | | | | | | ]; reflexivity. Qed.
Lemma gate_serr e : gate_err (err0_of_serr e) = false.
Proof. destruct e; reflexivity. Qed.

Lemma dec_map_gate {A} (ins : pair -> A -> res ierr A) fuel : forall s bs e,
  dec_map (fun p s => map_err err0_of_ierr (ins p s)) err0_of_serr fuel s bs = Err e -> gate_err e = false.
Proof.
  induction fuel as [|n IH]; intros s bs e H; cbn [dec_map] in H; [injection H as <-; reflexivity|].
  destruct (dec_pair bs) as [[p r]|e'|]; [| |discriminate].
  - destruct (ins p s) as [s'|e'|]; cbn [map_err bind] in H; [now apply IH in H| |discriminate].
    injection H as <-. apply gate_ierr.
  - assert (e = err0_of_serr e') as -> by (destruct e'; congruence). apply gate_serr.
Qed.
Lemma dec_maps_gate {A} (dec : reader err0 A) fuel : (forall bs e, dec bs = Err e -> gate_err e = false) ->
  forall n bs e, dec_maps dec E0Io fuel n bs = Err e -> gate_err e = false.
Proof.
  intros Hd. induction fuel as [|f IH]; intros n bs e H; cbn [dec_maps] in H; destruct (n =? 0); try discriminate.
  - injection H as <-. reflexivity.
  - destruct (dec bs) as [[a r]|e'|] eqn:E; cbn [bind] in H; [| |discriminate].
    + destruct (dec_maps dec E0Io f (n - 1) r) as [[l r']|e'|] eqn:E2; cbn [bind] in H; try discriminate.
      injection H as <-. eauto.
    + injection H as <-. eauto.
Qed.
Lemma unsigned_checks_gate l e : unsigned_inputs_checks l = Err e -> gate_err e = false.
Proof.
  induction l as [|i l IH]; cbn [unsigned_inputs_checks]; [discriminate|].
  destruct (negb _); cbn [fail_if bind]; [intros H; injection H as <-; reflexivity|].
  destruct (negb _); cbn [fail_if bind]; [intros H; injection H as <-; reflexivity|auto].
Qed.
Lemma deserialize0_body_gate d e : psbt0_deserialize (HEAD ++ d) = Err e -> gate_err e = false.
Proof.
  rewrite deserialize0_head. intros H. destruct (global0_decode d) as [[g d1]|e'|] eqn:E; cbn [bind] in H; [| |discriminate].
  2:{ injection H as <-. unfold global0_decode in E. destruct (split_limit _ _) as [lim behind].
      destruct (dec_map _ _ _ _ lim) as [[dd r]|e1|] eqn:E1; cbn [bind] in E; [| |discriminate].
      - destruct (gd0_tx dd); cbn [ok_or bind] in E; [discriminate|]. injection E as <-. reflexivity.
      - injection E as <-. now apply dec_map_gate in E1. }
  unfold unsigned_tx_checks in H. destruct (unsigned_inputs_checks _) as [[]|e'|] eqn:E2; cbn [bind] in H; [| |discriminate].
  2:{ injection H as <-. now apply unsigned_checks_gate in E2. }
  destruct (dec_maps input0_decode _ _ _ _) as [[is d2]|e'|] eqn:E3; cbn [bind] in H; [| |discriminate].
  2:{ injection H as <-. eapply dec_maps_gate; [|exact E3]. intros bs e0 H0. eapply dec_map_gate. exact H0. }
  destruct (dec_maps output0_decode _ _ _ _) as [[os d3]|e'|] eqn:E4; cbn [bind] in H; [discriminate| |discriminate].
  injection H as <-. eapply dec_maps_gate; [|exact E4]. intros bs e0 H0. eapply dec_map_gate. exact H0.
Qed.

Lemma magic0_gate bs :
  psbt0_deserialize bs = Err E0InvalidMagic <-> (forall t, bs <> [x70; x73; x62; x74] ++ t).
Proof.
  destruct (bytes_eqb (firstn 4 bs) MAGIC_BYTES) eqn:E.
  - split.
    + intros H. exfalso. destruct (bytes_eqb (firstn 1 (skipn 4 bs)) [PSBT_SEPARATOR]) eqn:E2.
      * rewrite (head_split _ E E2) in H. now apply deserialize0_body_gate in H.
      * unfold psbt0_deserialize in H. rewrite E, E2 in H. discriminate H.
    + intros H. exfalso. apply bytes_eqb_eq in E. apply (H (skipn 4 bs)).
      rewrite <- (firstn_skipn 4 bs) at 1. rewrite E. reflexivity.
  - split.
    + intros _ t ->. discriminate E.
    + intros _. unfold psbt0_deserialize. rewrite E. reflexivity.
Qed.
Lemma separator0_gate bs :
  psbt0_deserialize bs = Err E0InvalidSeparator <->
  (exists t, bs = [x70; x73; x62; x74] ++ t) /\ (forall t, bs <> [x70; x73; x62; x74; xff] ++ t).
Proof.
  destruct (bytes_eqb (firstn 4 bs) MAGIC_BYTES) eqn:E.
  - assert (Em : bs = [x70; x73; x62; x74] ++ skipn 4 bs).
    { apply bytes_eqb_eq in E. rewrite <- (firstn_skipn 4 bs) at 1. now rewrite E. }
    destruct (bytes_eqb (firstn 1 (skipn 4 bs)) [PSBT_SEPARATOR]) eqn:E2.
    + split.
      * intros H. exfalso. rewrite (head_split _ E E2) in H. now apply deserialize0_body_gate in H.
      * intros [_ H]. exfalso. apply (H (skipn 5 bs)). now apply head_split.
    + split.
      * intros _. split; [eauto|]. intros t ->. discriminate E2.
      * intros _. unfold psbt0_deserialize. now rewrite E, E2.
  - split.
    + unfold psbt0_deserialize. rewrite E. discriminate.
    + intros [[t ->] _]. discriminate E.
Qed.

(** ** New PSBTs *)
Lemma from_unsigned_wf t : wf_tx t -> tx_base_size t <= 3999992 -> unsigned t ->
  exists p, from_unsigned_tx t = Ok p /\ p0_unsigned_tx p = t /\ wf_psbt0 p /\ no_tap_ties0 p.
Proof.
  intros Hw Hs Hu. eexists. split.
  { unfold from_unsigned_tx, unsigned_tx_checks. cbn [p0_unsigned_tx].
    rewrite (proj2 (unsigned_checks_iff (tx_input t)) Hu). cbn [bind]. reflexivity. }
  split; [reflexivity|]. split.
  - constructor; cbn [p0_unsigned_tx p0_version p0_xpub p0_proprietary p0_unknown p0_inputs p0_outputs]; auto;
      try (split; constructor); try (now rewrite repeat_length).
    + unfold MAX_VALUE. lia.
    + unfold global0_size. cbn [p0_unsigned_tx p0_xpub p0_proprietary p0_unknown sum_size fold_right].
      unfold pair_size. assert (varint_size (tx_base_size t) <= 5) by
        (unfold varint_size, enc_varint; repeat match goal with |- context [if ?b then _ else _] => destruct b eqn:? end;
         unfold blen; cbn [length]; rewrite ?le_enc_length; lia).
      change (varint_size (0 + 1)) with 1. lia.
    + apply Forall_forall. intros i Hi. apply repeat_spec in Hi. subst i. apply wf_input0_iff.
      exact (frame_init_wf _ _ _ _ _ _ _ _ i0spec _ i0init_empty).
    + apply Forall_forall. intros i Hi. apply repeat_spec in Hi. subst i. apply wf_output0_iff.
      exact (frame_init_wf _ _ _ _ _ _ _ _ o0spec _ o0init_empty).
  - apply Forall_forall. intros o Ho. cbn [p0_outputs] in Ho. apply repeat_spec in Ho. subst o. exact I.
Qed.
Lemma unsigned_checks_err l :
  unsigned_inputs_checks l = Ok tt \/ unsigned_inputs_checks l = Err E0UnsignedTxHasScriptSigs
  \/ unsigned_inputs_checks l = Err E0UnsignedTxHasScriptWitnesses.
Proof.
  induction l as [|i l IH]; cbn [unsigned_inputs_checks]; [auto|].
  destruct (negb _); cbn [fail_if bind]; [auto|]. destruct (negb _); cbn [fail_if bind]; auto.
Qed.

(** ** Key types of the other version *)
Lemma ins_all_each {A} (ins : pair -> A -> res ierr A) l : forall s s', ins_all ins l s = Ok s' ->
  Forall (fun p => exists a a', ins p a = Ok a') l.
Proof.
  induction l as [|p l IH]; intros s s' H; cbn [ins_all] in H; constructor; binds H; eauto.
Qed.

Lemma global0_has_tx l p : global0_acc l p -> In (Pair (Key x00 []) (enc_tx_nowit (p0_unsigned_tx p))) l.
Proof.
  intros Ha. apply global0_kept in Ha as [Ha _].
  apply (Permutation_in (Pair (Key x00 []) (enc_tx_nowit (p0_unsigned_tx p)))) in Ha; [|cbn; auto].
  now apply filter_In in Ha as [Ha _].
Qed.
Lemma global0_one_tx l p : global0_acc l p ->
  filter (fun q => beq (k_type (p_key q)) x00) l = [Pair (Key x00 []) (enc_tx_nowit (p0_unsigned_tx p))].
Proof.
  intros Ha. pose proof (global0_acc_wf _ _ Ha) as W. apply global0_kept in Ha as [Ha _].
  apply (Permutation_filter (fun q => beq (k_type (p_key q)) x00)) in Ha. apply wf_g0_swf in W.
  assert (E1 : filter (fun q => beq (k_type (p_key q)) x00) (filter not_version l)
               = filter (fun q => beq (k_type (p_key q)) x00) l).
  { clear. induction l as [|q l IH]; [reflexivity|]. cbn [filter]. unfold not_version at 1.
    destruct (beq (k_type (p_key q)) xfb) eqn:E; cbn [negb filter].
    - apply beq_eq in E. rewrite E. exact IH.
    - now rewrite IH. }
  rewrite E1, g0pairs_eq in Ha. clear E1.
  rewrite (filter_ext_eq _ (of_slot g0field_dec g0slot G0Tx)) in Ha.
  2:{ intros q. unfold of_slot, g0slot, ptype. destruct (k_type (p_key q)); reflexivity. }
  rewrite (filter_slot_spairs g0ty g0get g0field_dec g0upd g0slot g0fpairs g0order g0empty g0fwf g0norm g0spec g0order_nodup g0order_all G0Tx _ W) in Ha.
  now apply Permutation_length_1_inv in Ha.
Qed.
Lemma global0_no_v2 l p : global0_acc l p -> Forall (fun q => global_v2_type (k_type (p_key q)) = false) l.
Proof.
  intros (_ & _ & v & H & _). apply ins_all_each in H. eapply Forall_impl; [|exact H]. intros q (a & a' & Hq).
  unfold global0_insert_pair in Hq. destruct (k_type (p_key q)); try reflexivity; discriminate Hq.
Qed.
Lemma input0_no_v2 l p : input0_acc l p -> Forall (fun q => input_v2_type (k_type (p_key q)) = false) l.
Proof.
  intros (_ & H). apply ins_all_each in H. eapply Forall_impl; [|exact H]. intros q (a & a' & Hq).
  unfold input0_insert_pair in Hq. destruct (k_type (p_key q)); try reflexivity; discriminate Hq.
Qed.
Lemma output0_no_v2 l p : output0_acc l p -> Forall (fun q => output_v2_type (k_type (p_key q)) = false) l.
Proof.
  intros (_ & H). apply ins_all_each in H. eapply Forall_impl; [|exact H]. intros q (a & a' & Hq).
  unfold output0_insert_pair in Hq. destruct (k_type (p_key q)); try reflexivity; discriminate Hq.
Qed.
Lemma global_no_tx `{C : Cfg} l g : global_acc l g -> Forall (fun q => k_type (p_key q) <> x00) l.
Proof.
  intros (_ & d & H & _). apply ins_all_each in H. eapply Forall_impl; [|exact H]. intros q (a & a' & Hq) E.
  unfold global_insert_pair in Hq. rewrite E in Hq. cbn in Hq. rewrite ?andb_false_r in Hq. discriminate Hq.
Qed.

Lemma versions_disjoint `{C : Cfg} bs p q : psbt_deserialize bs = Ok p -> psbt0_deserialize bs = Ok q -> False.
Proof.
  intros H H0. apply deserialize_iff in H as (lg & lis & los & r & E & A1 & _).
  apply deserialize0_iff in H0 as (lg0 & lis0 & los0 & r0 & E0 & A0 & _).
  rewrite E in E0. apply app_inv_head in E0. apply ser_pairs_unique in E0 as [-> _]; [|apply A0|apply ser_pairs_spec, A1].
  apply global_no_tx in A1. apply global0_has_tx in A0. rewrite Forall_forall in A1. now apply (A1 _ A0).
Qed.

End Facts.
