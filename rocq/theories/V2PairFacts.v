(** Duplicate pairs, uninterpreted pairs and the order of pairs in v2 PSBTs. *)
From Coq Require Import Permutation.
From Verif Require Import Base OMap Consensus ConsensusFacts Ext Raw RawFacts TapTree TapTreeFacts
  Serialize SerializeFacts MapCodec MapFacts V2Global V2Input V2Output V2Psbt
  V2OutputFacts V2InputFacts V2GlobalFacts SpecCodec SpecCodecFacts SpecPsbt V2PsbtFacts V2CodecFacts V2WireFacts.
Local Open Scope N_scope.

(** ** Generic *)
Section Frame.
Context {S F : Type} {fty : F -> Type} {get : forall f, S -> fty f} {set : forall f, fty f -> S -> S}
  {Fdec : forall a b : F, {a = b} + {a <> b}}
  {upd : forall f, pair -> fty f -> res ierr (fty f)} {slot : byte -> F} {ins : pair -> S -> res ierr S}.
Hypothesis O : frame_ok fty get set upd slot ins.

(** After a pair that leaves its field full, no pair for the field is accepted. *)
Lemma frame_blocked l1 p l2 q s s' f :
  slot (ptype p) = f -> slot (ptype q) = f -> In q l2 ->
  ins_all ins (l1 ++ p :: l2) s = Ok s' ->
  exists v v', upd f p v = Ok v' /\ exists q' v'', slot (ptype q') = f /\ upd f q' v' = Ok v''.
Proof.
  intros Ep Eq Hin H. pose proof (frame_fields fty get set Fdec upd slot ins O _ _ _ H f) as Q.
  rewrite filter_app in Q. cbn [filter] in Q.
  assert (of_slot Fdec slot f p = true) as E by now apply of_slot_true. rewrite E in Q.
  rewrite ins_all_app in Q. apply bind_ok in Q as (v & _ & Q). cbn [ins_all] in Q.
  apply bind_ok in Q as (v' & Q1 & Q2). exists v, v'. split; auto.
  assert (In q (filter (of_slot Fdec slot f) l2)) as Hq.
  { apply filter_In. split; auto. now apply of_slot_true. }
  destruct (filter (of_slot Fdec slot f) l2) as [|q' r] eqn:El; [destruct Hq|].
  cbn [ins_all] in Q2. apply bind_ok in Q2 as (v'' & Q2 & _). exists q', v''. split; auto.
  assert (In q' (filter (of_slot Fdec slot f) l2)) as Hq' by (rewrite El; left; reflexivity).
  apply filter_In in Hq' as [_ Hq']. now apply of_slot_true in Hq'.
Qed.
End Frame.

Lemma positions_split (l : list pair) i j p q : (i < j)%nat -> nth_error l i = Some p -> nth_error l j = Some q ->
  exists l1 l2, l = l1 ++ p :: l2 /\ In q l2.
Proof.
  intros Hij Hi Hj. destruct (nth_error_split _ _ Hi) as (l1 & l2 & -> & El). exists l1, l2. split; auto.
  rewrite nth_error_app2 in Hj by lia. replace (j - length l1)%nat with (Datatypes.S (j - i - 1)) in Hj by lia.
  cbn in Hj. now apply nth_error_In in Hj.
Qed.

Lemma Permutation_short {A} (l l' : list A) : (length l <= 1)%nat -> Permutation l l' -> l = l'.
Proof.
  destruct l as [|a [|b l]]; cbn; intros H P; [|now apply Permutation_length_1_inv in P|lia].
  now apply Permutation_nil in P.
Qed.

Lemma filter_ext_eq {A} (P Q : A -> bool) l : (forall a, P a = Q a) -> filter P l = filter Q l.
Proof. intros H. apply filter_ext. exact H. Qed.

Lemma reordered_sel tss l l' ts (P : pair -> bool) :
  reordered tss l l' -> In ts tss -> (forall p, P p = existsb (beq (ptype p)) ts) -> filter P l = filter P l'.
Proof.
  intros [HP H] Hin HE.
  rewrite !(filter_ext_eq P _ _ HE). destruct (H ts Hin) as [Hl|E]; [|exact E].
  apply Permutation_short; [exact Hl|]. now apply Permutation_filter.
Qed.

Lemma Permutation_filter_or {A} (P Q : A -> bool) l : (forall a, P a = true -> Q a = false) ->
  Permutation (filter (fun a => P a || Q a) l) (filter P l ++ filter Q l).
Proof.
  intros H. induction l as [|a l IH]; cbn; auto. destruct (P a) eqn:E.
  - rewrite (H _ E). cbn. now constructor.
  - cbn. destruct (Q a); auto. rewrite IH. apply Permutation_middle.
Qed.

Section Facts.
Context `{X : Ext} {L : ExtLaws X} `{C : Cfg}.

(** ** C04 *)
Lemma placeholder_block {A} (ip : A -> bool) (de : bytes -> res serr A) p v v' q v'' :
  ins_placeholder ip de p v = Ok v' -> ins_placeholder ip de q v' = Ok v'' -> de (p_value p) = Ok v' /\ ip v' = true.
Proof.
  unfold ins_placeholder. intros H1 H2. destruct (ip v); [|discriminate]. cbn [negb] in H1. apply map_err_ok in H1.
  destruct (ip v'); [auto|discriminate].
Qed.

Lemma output_dup l o : output_acc l o -> distinct_keys_except dup_output l.
Proof.
  intros (_ & H & _) i j p q Hij Hi Hj E.
  destruct (ospecial (oslot (ptype p))) eqn:Es.
  2:{ exfalso. exact (frame_dup_positions oty oget oset ofield_dec oupd oslot _ oframe _ _ _ _ (odup _ Es) H i j p q Hij Hi Hj E eq_refl). }
  destruct (positions_split _ _ _ _ _ Hij Hi Hj) as (l1 & l2 & -> & Hin).
  assert (Et : ptype q = ptype p) by (unfold ptype; now rewrite E).
  destruct (oslot (ptype p)) eqn:Ef; try discriminate Es;
    destruct (frame_blocked (Fdec := ofield_dec) oframe _ _ _ q _ _ _ Ef ltac:(now rewrite Et) Hin H) as (v & v' & H1 & q' & v'' & Eq & H2);
    cbn [oupd] in H1, H2; destruct (placeholder_block _ _ _ _ _ _ _ H1 H2) as [H3 H4].
  - left. apply oslot_OAmount in Ef. split; [now symmetry|]. apply N.eqb_eq in H4.
    pose proof (amount_canonical _ _ H3) as Hv. rewrite H4 in Hv. now symmetry.
  - right. apply oslot_OScriptPubkey in Ef. split; [now symmetry|]. unfold de_script in H3.
    destruct v'; [|discriminate]. now inj H3.
Qed.

Lemma input_dup l o : input_acc l o -> distinct_keys_except dup_input l.
Proof.
  intros (Hw & H & _) i j p q Hij Hi Hj E.
  destruct (ispecial (islot (ptype p))) eqn:Es.
  2:{ exfalso. exact (frame_dup_positions ity iget iset ifield_dec iupd islot _ iframe _ _ _ _ (idup _ Es) H i j p q Hij Hi Hj E eq_refl). }
  destruct (positions_split _ _ _ _ _ Hij Hi Hj) as (l1 & l2 & -> & Hin).
  assert (Et : ptype q = ptype p) by (unfold ptype; now rewrite E).
  destruct (islot (ptype p)) eqn:Ef; try discriminate Es;
    destruct (frame_blocked (Fdec := ifield_dec) iframe _ _ _ q _ _ _ Ef ltac:(now rewrite Et) Hin H) as (v & v' & H1 & q' & v'' & Eq & H2);
    cbn [iupd] in H1, H2; destruct (placeholder_block _ _ _ _ _ _ _ H1 H2) as [H3 H4].
  - left. apply islot_IPreviousTxid in Ef. split; [now symmetry|]. apply bytes_eqb_eq in H4. subst v'.
    unfold de_hash in H3. destruct (_ =? _); [|discriminate]. now inj H3.
  - right. apply islot_ISpentOutputIndex in Ef. split; [now symmetry|]. apply N.eqb_eq in H4.
    pose proof (u32_canonical _ _ H3) as Hv. rewrite <- H4 in Hv. now symmetry.
Qed.

Lemma gcounts_block p v v' q v'' : gcounts_upd p v = Ok v' -> gcounts_upd q v' = Ok v'' -> beq (ptype p) x04 = true.
Proof.
  unfold gcounts_upd. intros H1 H2. destruct (beq (ptype p) x04); auto.
  assert (is_none (snd v') = false) as E.
  { unfold gins_output_count in H1. destruct (is_empty _); [|discriminate]. destruct (is_none _); [|discriminate]. binds H1. now inj H1. }
  exfalso. unfold gins_input_count, gins_output_count in H2. rewrite E in H2.
  destruct (beq _ _), (is_empty _); discriminate.
Qed.

Lemma global_dup l g : global_acc l g -> distinct_keys_except dup_global l.
Proof.
  intros (_ & d & H & _) i j p q Hij Hi Hj E.
  destruct (gspecial (gslot (ptype p))) eqn:Es.
  2:{ exfalso. exact (frame_dup_positions gty gget gset gfield_dec gupd gslot _ gframe _ _ _ _ (gdup _ Es) H i j p q Hij Hi Hj E eq_refl). }
  destruct (positions_split _ _ _ _ _ Hij Hi Hj) as (l1 & l2 & -> & Hin).
  assert (Et : ptype q = ptype p) by (unfold ptype; now rewrite E).
  destruct (gslot (ptype p)) eqn:Ef; try discriminate Es;
    destruct (frame_blocked (Fdec := gfield_dec) gframe _ _ _ q _ _ _ Ef ltac:(now rewrite Et) Hin H) as (v & v' & H1 & q' & v'' & Eq & H2).
  cbn [gupd] in H1, H2. apply beq_eq. exact (gcounts_block _ _ _ _ _ H1 H2).
Qed.

(** ** C05 *)
Lemma raw_split (known : byte -> bool) (P Q : pair -> bool) l :
  (forall p, raw_pair known p = P p || Q p) -> (forall p, P p = true -> Q p = false) ->
  Permutation (filter (raw_pair known) l) (filter P l ++ filter Q l).
Proof. intros H1 H2. rewrite (filter_ext_eq _ _ l H1). now apply Permutation_filter_or. Qed.

Lemma output_raw l o : output_acc l o ->
  Permutation (filter (raw_pair output_type_key) (output_pairs o)) (filter (raw_pair output_type_key) l).
Proof.
  intros Ha. pose proof (output_acc_wf _ _ Ha) as Hw. apply wf_output_iff in Hw as [Hw _]. destruct Ha as (_ & H & _).
  assert (A : forall p, raw_pair output_type_key p = of_slot ofield_dec oslot OUnknowns p || of_slot ofield_dec oslot OProprietaries p).
  { intros p. unfold raw_pair, of_slot, ptype, oslot, output_type_key. destruct feat_sp, (k_type (p_key p)); reflexivity. }
  assert (B : forall p, of_slot ofield_dec oslot OUnknowns p = true -> of_slot ofield_dec oslot OProprietaries p = false).
  { intros p. unfold of_slot. destruct (oslot (ptype p)); discriminate || reflexivity. }
  rewrite !(raw_split _ _ _ _ A B), opairs_eq. apply Permutation_app.
  - exact (frame_raw oty oget oset ofield_dec oupd oslot _ oframe ofpairs oorder oempty ofwf onorm ospec oorder_nodup oorder_all
      OUnknowns l output_invalid o oraw_OUnknowns Hw H eq_refl).
  - exact (frame_raw oty oget oset ofield_dec oupd oslot _ oframe ofpairs oorder oempty ofwf onorm ospec oorder_nodup oorder_all
      OProprietaries l output_invalid o oraw_OProprietaries Hw H eq_refl).
Qed.

Lemma input_raw l o : input_acc l o ->
  Permutation (filter (raw_pair input_type) (input_pairs o)) (filter (raw_pair input_type) l).
Proof.
  intros Ha. pose proof (input_acc_wf _ _ Ha) as Hw. apply wf_input_iff in Hw as [Hw _]. destruct Ha as (_ & H & _).
  assert (A : forall p, raw_pair input_type p = of_slot ifield_dec islot IUnknowns p || of_slot ifield_dec islot IProprietaries p).
  { intros p. unfold raw_pair, of_slot, ptype, islot, input_type. destruct feat_sp, (k_type (p_key p)); reflexivity. }
  assert (B : forall p, of_slot ifield_dec islot IUnknowns p = true -> of_slot ifield_dec islot IProprietaries p = false).
  { intros p. unfold of_slot. destruct (islot (ptype p)); discriminate || reflexivity. }
  rewrite !(raw_split _ _ _ _ A B), ipairs_eq. apply Permutation_app.
  - exact (frame_raw ity iget iset ifield_dec iupd islot _ iframe ifpairs iorder iempty ifwf inorm ispec iorder_nodup iorder_all
      IUnknowns l input_invalid o iraw_IUnknowns Hw H eq_refl).
  - exact (frame_raw ity iget iset ifield_dec iupd islot _ iframe ifpairs iorder iempty ifwf inorm ispec iorder_nodup iorder_all
      IProprietaries l input_invalid o iraw_IProprietaries Hw H eq_refl).
Qed.

Lemma global_raw l o : global_acc l o ->
  Permutation (filter (raw_pair global_type) (global_pairs o)) (filter (raw_pair global_type) l).
Proof.
  intros Ha. pose proof (global_acc_wf _ _ Ha) as Hw. apply wf_global_iff in Hw as [Hw _]. destruct Ha as (H1 & d & H & Hc).
  assert (Hd : swf gty gget gfwf d).
  { refine (frame_wf _ _ _ gfield_dec _ _ _ gframe _ _ _ _ gspec _ _ _ _ H1 H).
    exact (frame_init_wf _ _ _ _ _ _ _ _ gspec _ ginit_empty). }
  assert (A : forall p, raw_pair global_type p = of_slot gfield_dec gslot GUnknowns p || of_slot gfield_dec gslot GProprietaries p).
  { intros p. unfold raw_pair, of_slot, ptype, gslot, global_type. destruct feat_sp, (k_type (p_key p)); reflexivity. }
  assert (B : forall p, of_slot gfield_dec gslot GUnknowns p = true -> of_slot gfield_dec gslot GProprietaries p = false).
  { intros p. unfold of_slot. destruct (gslot (ptype p)); discriminate || reflexivity. }
  pose proof (frame_raw gty gget gset gfield_dec gupd gslot _ gframe gfpairs gorder gempty gfwf gnorm gspec gorder_nodup gorder_all
      GUnknowns l gdec_init d graw_GUnknowns Hd H eq_refl) as P1.
  pose proof (frame_raw gty gget gset gfield_dec gupd gslot _ gframe gfpairs gorder gempty gfwf gnorm gspec gorder_nodup gorder_all
      GProprietaries l gdec_init d graw_GProprietaries Hd H eq_refl) as P2.
  assert (Q : forall f s, swf gty gget gfwf s -> filter (of_slot gfield_dec gslot f) (spairs gty gget gfpairs gorder s) = gfpairs f (gget f s)).
  { intros f s Hs. exact (filter_slot_spairs gty gget gfield_dec gupd gslot gfpairs gorder gempty gfwf gnorm gspec gorder_nodup gorder_all f s Hs). }
  rewrite (Q _ _ Hd) in P1. rewrite (Q _ _ Hd) in P2.
  apply global_check_iff in Hc as (v & tv & ic & oc & Ev & Et & Ec & Hi & Ho & Hsp & Eo).
  rewrite !(raw_split _ _ _ _ A B), gpairs_eq. apply Permutation_app.
  - rewrite (Q _ _ Hw). rewrite Eo. exact P1.
  - rewrite (Q _ _ Hw). rewrite Eo. exact P2.
Qed.

Lemma deserialize_raw bs p lg lis los lg' lis' los' :
  psbt_deserialize bs = Ok p -> maps_of bs p lg lis los -> maps_of (psbt_serialize p) p lg' lis' los' ->
  Permutation (filter (raw_pair global_type) lg') (filter (raw_pair global_type) lg) /\
  Forall2 (fun l l' => Permutation (filter (raw_pair input_type) l') (filter (raw_pair input_type) l)) lis lis' /\
  Forall2 (fun l l' => Permutation (filter (raw_pair output_type_key) l') (filter (raw_pair output_type_key) l)) los los'.
Proof.
  intros D M M'. pose proof (deserialize_wf _ _ D) as W. pose proof (deserialize_unique _ _ _ _ _ D M) as A.
  destruct (psbt_roundtrip_norm p W) as (os' & D' & _ & Hos).
  assert (E : lg' = global_pairs (p_global p) /\ lis' = map input_pairs (p_inputs p) /\ los' = map output_pairs (p_outputs p)).
  { pose proof (serialize_pairs_wf _ W) as (W1 & W2 & W3).
    destruct M' as (w & t & E & Hw & N1 & N2). rewrite serialize_wire in E by assumption.
    apply psbt_wire_ser in Hw as (-> & Q1 & Q2 & Q3). rewrite <- !app_assoc in E. apply app_inv_head in E.
    symmetry in E. apply ser_pairs_unique in E as [-> E]; auto.
    apply sers_unique in E as [-> E]; auto; [|now rewrite map_length].
    rewrite <- (app_nil_r (concat (map ser_pairs (map output_pairs _)))) in E.
    apply sers_unique in E as [-> E]; auto. now rewrite map_length. }
  destruct E as (-> & -> & ->). destruct A as (A1 & A2 & A3 & _). split; [now apply global_raw|]. split.
  - clear -A2 L. induction A2; cbn; constructor; auto. now apply input_raw.
  - clear -A3 L. induction A3; cbn; constructor; auto. now apply output_raw.
Qed.

(** ** C13 *)
Lemma output_reorder l l' o : reordered [[x03]; [x04]] l l' -> output_acc l o -> output_acc l' o.
Proof.
  intros R (Hw & H & Hc). pose proof (proj1 R) as HP. split; [eapply Permutation_Forall; eauto|]. split; auto.
  refine (frame_perm _ _ _ ofield_dec _ _ _ oframe _ _ _ _ ospec ospecial _ _ _ _ ocomm _ Hw HP _ H).
  - exact (frame_init_wf _ _ _ _ _ _ _ _ ospec _ oinit_empty).
  - intros f Hf. destruct f; try discriminate Hf.
    + apply (reordered_sel _ _ _ [x03] _ R); [cbn; auto|]. intros p. cbn [existsb].
      rewrite orb_false_r. destruct (beq (ptype p) x03) eqn:E.
      * apply of_slot_true. apply oslot_OAmount. symmetry. now apply beq_eq.
      * destruct (of_slot _ _ _ _) eqn:E2; auto. apply of_slot_true in E2. apply oslot_OAmount in E2. rewrite <- E2 in E. discriminate.
    + apply (reordered_sel _ _ _ [x04] _ R); [cbn; auto|]. intros p. cbn [existsb].
      rewrite orb_false_r. destruct (beq (ptype p) x04) eqn:E.
      * apply of_slot_true. apply oslot_OScriptPubkey. symmetry. now apply beq_eq.
      * destruct (of_slot _ _ _ _) eqn:E2; auto. apply of_slot_true in E2. apply oslot_OScriptPubkey in E2. rewrite <- E2 in E. discriminate.
Qed.

Lemma input_reorder l l' o : reordered [[x0e]; [x0f]] l l' -> input_acc l o -> input_acc l' o.
Proof.
  intros R (Hw & H & Hc). pose proof (proj1 R) as HP. split; [eapply Permutation_Forall; eauto|]. split; auto.
  refine (frame_perm _ _ _ ifield_dec _ _ _ iframe _ _ _ _ ispec ispecial _ _ _ _ icomm _ Hw HP _ H).
  - exact (frame_init_wf _ _ _ _ _ _ _ _ ispec _ iinit_empty).
  - intros f Hf. destruct f; try discriminate Hf.
    + apply (reordered_sel _ _ _ [x0e] _ R); [cbn; auto|]. intros p. cbn [existsb].
      rewrite orb_false_r. destruct (beq (ptype p) x0e) eqn:E.
      * apply of_slot_true. apply islot_IPreviousTxid. symmetry. now apply beq_eq.
      * destruct (of_slot _ _ _ _) eqn:E2; auto. apply of_slot_true in E2. apply islot_IPreviousTxid in E2. rewrite <- E2 in E. discriminate.
    + apply (reordered_sel _ _ _ [x0f] _ R); [cbn; auto|]. intros p. cbn [existsb].
      rewrite orb_false_r. destruct (beq (ptype p) x0f) eqn:E.
      * apply of_slot_true. apply islot_ISpentOutputIndex. symmetry. now apply beq_eq.
      * destruct (of_slot _ _ _ _) eqn:E2; auto. apply of_slot_true in E2. apply islot_ISpentOutputIndex in E2. rewrite <- E2 in E. discriminate.
Qed.

Lemma global_reorder l l' o : reordered [[x04; x05]] l l' -> global_acc l o -> global_acc l' o.
Proof.
  intros R (Hw & d & H & Hc). pose proof (proj1 R) as HP. split; [eapply Permutation_Forall; eauto|]. exists d. split; auto.
  refine (frame_perm _ _ _ gfield_dec _ _ _ gframe _ _ _ _ gspec gspecial _ _ _ _ gcomm _ Hw HP _ H).
  - exact (frame_init_wf _ _ _ _ _ _ _ _ gspec _ ginit_empty).
  - intros f Hf. destruct f; try discriminate Hf.
    apply (reordered_sel _ _ _ [x04; x05] _ R); [cbn; auto|]. intros p. cbn [existsb].
    rewrite orb_false_r. destruct (beq (ptype p) x04 || beq (ptype p) x05) eqn:E.
    + apply of_slot_true. apply gslot_GCounts. apply orb_true_iff in E as [E|E]; apply beq_eq in E; rewrite E; auto.
    + destruct (of_slot _ _ _ _) eqn:E2; auto. apply of_slot_true in E2. apply gslot_GCounts in E2. destruct E2 as [E2|E2]; rewrite <- E2 in E; discriminate.
Qed.

Lemma deserialize_reorder bs bs' p lg lis los lg' lis' los' :
  psbt_deserialize bs = Ok p -> maps_of bs p lg lis los -> maps_of bs' p lg' lis' los' ->
  reordered [[x04; x05]] lg lg' -> Forall2 (reordered [[x0e]; [x0f]]) lis lis' ->
  Forall2 (reordered [[x03]; [x04]]) los los' ->
  psbt_deserialize bs' = Ok p.
Proof.
  intros D M (w & t & E & Hw & N1 & N2) R1 R2 R3. pose proof (deserialize_unique _ _ _ _ _ D M) as (A1 & A2 & A3 & A4).
  apply psbt_wire_ser in Hw as (-> & _). apply deserialize_iff. exists lg', lis', los', t.
  split; [now rewrite E, <- !app_assoc|]. split; [eapply global_reorder; eauto|].
  split; [|split; [|exact A4]].
  - clear -R2 A2 L. revert A2. generalize (p_inputs p). induction R2; intros is A; inversion A; subst; constructor; auto. eapply input_reorder; eauto.
  - clear -R3 A3 L. revert A3. generalize (p_outputs p). induction R3; intros is A; inversion A; subst; constructor; auto. eapply output_reorder; eauto.
Qed.

(** ** C08 *)
Lemma gcounts_origin l : forall c c', ins_all gcounts_upd l c = Ok c' -> Forall (fun p => x04 = ptype p \/ x05 = ptype p) l ->
  (fst c' = fst c \/ exists p n r, In p l /\ ptype p = x04 /\ dec_varint (p_value p) = Ok (n, r) /\ fst c' = Some n) /\
  (snd c' = snd c \/ exists p n r, In p l /\ ptype p = x05 /\ dec_varint (p_value p) = Ok (n, r) /\ snd c' = Some n).
Proof.
  induction l as [|p l IH]; intros c c' H Hl; cbn [ins_all] in H; [inj H; auto|].
  apply bind_ok in H as (c1 & H1 & H). apply Forall_cons_iff in Hl as [Hp Hl]. destruct (IH _ _ H Hl) as [I1 I2].
  unfold gcounts_upd in H1. destruct (beq (ptype p) x04) eqn:E.
  - apply beq_eq in E. unfold gins_input_count in H1. destruct (is_empty _); [|discriminate].
    destruct (is_none _); [|discriminate]. apply bind_ok in H1 as ([n r] & H1 & H2). apply map_err_ok in H1. inj H2. cbn [fst snd] in *.
    split.
    + destruct I1 as [I1|(q & m & r' & Q1 & Q2 & Q3 & Q4)]; right.
      * exists p, n, r. cbn; auto.
      * exists q, m, r'. cbn; auto.
    + destruct I2 as [I2|(q & m & r' & Q1 & Q2 & Q3 & Q4)]; auto. right. exists q, m, r'. cbn; auto.
  - assert (ptype p = x05) as E5. { destruct Hp as [Hp|Hp]; auto. rewrite <- Hp in E. discriminate. }
    unfold gins_output_count in H1. destruct (is_empty _); [|discriminate].
    destruct (is_none _); [|discriminate]. apply bind_ok in H1 as ([n r] & H1 & H2). apply map_err_ok in H1. inj H2. cbn [fst snd] in *.
    split.
    + destruct I1 as [I1|(q & m & r' & Q1 & Q2 & Q3 & Q4)]; auto. right. exists q, m, r'. cbn; auto.
    + destruct I2 as [I2|(q & m & r' & Q1 & Q2 & Q3 & Q4)]; right.
      * exists p, n, r. cbn; auto.
      * exists q, m, r'. cbn; auto.
Qed.

Lemma global_counts_origin l g : global_acc l g -> has_count l x04 (g_input_count g) /\ has_count l x05 (g_output_count g).
Proof.
  intros (_ & d & H & Hc). apply global_check_iff in Hc as (v & tv & ic & oc & Ev & Et & Ec & Hi & Ho & Hsp & ->).
  cbn [g_input_count g_output_count].
  pose proof (frame_fields _ _ _ gfield_dec _ _ _ gframe _ _ _ H GCounts) as Q. cbn [gupd gget] in Q.
  destruct (gcounts_origin _ _ _ Q) as [I1 I2].
  { apply Forall_forall. intros p Hp. apply filter_In in Hp as [_ Hp]. apply of_slot_true in Hp. now apply gslot_GCounts. }
  rewrite Ec in I1, I2. cbn [fst snd gdec_init gd_counts] in I1, I2. split.
  - destruct I1 as [I1|(q & m & r' & Q1 & Q2 & Q3 & Q4)]; [discriminate|]. injection Q4 as <-.
    apply filter_In in Q1 as [Q1 _]. apply dec_varint_canon in Q3 as [E Hn].
    exists q, (enc_varint ic), r'. repeat split; auto. now apply enc_varint_spec.
  - destruct I2 as [I2|(q & m & r' & Q1 & Q2 & Q3 & Q4)]; [discriminate|]. injection Q4 as <-.
    apply filter_In in Q1 as [Q1 _]. apply dec_varint_canon in Q3 as [E Hn].
    exists q, (enc_varint oc), r'. repeat split; auto. now apply enc_varint_spec.
Qed.

Lemma deserialize_panic_counts bs : psbt_deserialize bs = Panic ->
  exists lg w t ni no, bs = [x70; x73; x62; x74; xff] ++ w ++ t /\ map_wire lg w /\
    has_count lg x04 ni /\ has_count lg x05 no /\ (ISIZE_MAX < ni * size_input \/ ISIZE_MAX < no * size_output).
Proof.
  intros H. apply deserialize_panic in H as (lg & g & t & E & A & Hs). destruct (global_counts_origin _ _ A) as [H1 H2].
  exists lg, (ser_pairs lg), t, (g_input_count g), (g_output_count g). split; auto. split; auto.
  apply ser_pairs_spec, A.
Qed.

End Facts.
