(** Field laws of the v0 global map (src/v0/bitcoin/map/global.rs) and their consequences. *)
From Coq Require Import Permutation.
From Verif Require Import Base OMap Consensus ConsensusFacts Ext Raw RawFacts TapTree TapTreeFacts
  Serialize SerializeFacts MapCodec MapFacts V2OutputFacts V2InputFacts V2Global V2GlobalFacts V2Psbt V2Roles
  V0Error V0Input V0Output V0Psbt.
Local Open Scope N_scope.

Ltac slot_tac0 slot :=
  unfold slot; split;
  [ intros <-; reflexivity
  | intros H;
    repeat match type of H with
      | (if ?b then _ else _) = _ =>
          let E := fresh "E" in destruct b eqn:E; [try discriminate H; apply beq_eq in E; now subst|]
      end; discriminate H ].

(** The fields of [gdec0] in the order in which they are serialized. *)
Inductive g0field : Type :=
| G0Tx
| G0Xpub
| G0Version
| G0Proprietary
| G0Unknown.

Definition g0field_dec (a b : g0field) : {a = b} + {a <> b}.
Proof. decide equality. Defined.

Definition g0order : list g0field :=
  [G0Tx; G0Xpub; G0Version; G0Proprietary; G0Unknown].

Section Facts.
Context `{X : Ext} {L : ExtLaws X}.

(** ** The hand written fields accept the same pairs as the generic ones *)

(** Unsigned transactions that [de_unsigned_tx] reads back. *)
Definition wf_unsigned_tx (t : tx) : Prop :=
  (wf_tx t /\ Forall (fun i => ti_witness i = []) (tx_input t)) /\ wf_value (enc_tx_nowit t).

Lemma de_unsigned_tx_rt t : wf_unsigned_tx t -> de_unsigned_tx (enc_tx_nowit t) = Ok t.
Proof.
  intros (((Hv & Hl & Hni & Hi & Hno & Ho) & Hw) & _). unfold de_unsigned_tx, enc_tx_nowit.
  rewrite dec_u32_rt by assumption. cbn [map_err bind].
  rewrite dec_txins_rt.
  2:{ split; auto. rewrite Forall_forall in *. intros i Hin. split; auto. }
  cbn [map_err bind]. rewrite dec_txouts_rt by auto. cbn [map_err bind].
  rewrite <- (app_nil_r (enc_u32 (tx_lock_time t))). rewrite dec_u32_rt by assumption. cbn. now destruct t.
Qed.
Lemma de_unsigned_tx_inv b t : de_unsigned_tx b = Ok t ->
  b = enc_tx_nowit t /\ wf_tx t /\ Forall (fun i => ti_witness i = []) (tx_input t).
Proof.
  unfold de_unsigned_tx. intros H. binds H. apply map_err_ok in Hx, Hx0, Hx1, Hx2.
  apply dec_u32_canon in Hx as [-> Hv]. apply (dec_vec_canon _ _ _ dec_txin_canon) in Hx0 as [-> [Hni Hi]].
  apply (dec_vec_canon _ _ _ dec_txout_canon) in Hx1 as [-> [Hno Ho]]. apply dec_u32_canon in Hx2 as [-> Hl].
  match type of Hx3 with context [is_empty ?r] => destruct r end; cbn [is_empty negb fail_if bind] in Hx3; [|discriminate]. inj H.
  unfold enc_tx_nowit. cbn [tx_version tx_lock_time tx_input tx_output]. rewrite app_nil_r. split; auto. split.
  - unfold wf_tx. cbn [tx_version tx_lock_time tx_input tx_output]. repeat split; auto.
    eapply Forall_impl; [|exact Hi]. now intros i [Q _].
  - eapply Forall_impl; [|exact Hi]. now intros i [_ Q].
Qed.
Lemma de_unsigned_tx_np b : de_unsigned_tx b <> Panic.
Proof.
  unfold de_unsigned_tx. pose proof (dec_u32_nopanic b).
  assert (Hi : nopanic (dec_vec dec_txin)) by apply dec_vec_nopanic, dec_txin_nopanic.
  assert (Ho : nopanic (dec_vec dec_txout)) by apply dec_vec_nopanic, dec_txout_nopanic.
  destruct (dec_u32 b) as [[v r1]| |]; cbn [map_err bind]; try congruence.
  pose proof (Hi r1). destruct (dec_vec dec_txin r1) as [[ins r2]| |]; cbn [map_err bind]; try congruence.
  pose proof (Ho r2). destruct (dec_vec dec_txout r2) as [[outs r3]| |]; cbn [map_err bind]; try congruence.
  pose proof (dec_u32_nopanic r3). destruct (dec_u32 r3) as [[lt r4]| |]; cbn [map_err bind]; try congruence.
  destruct (negb _); discriminate.
Qed.
Lemma unsigned_tx_codec : codec_ok VLIM wf_unsigned_tx enc_tx_nowit de_unsigned_tx.
Proof.
  constructor.
  - apply de_unsigned_tx_rt.
  - intros a [_ H]. exact H.
  - intros b a Hb H. apply de_unsigned_tx_inv in H as (-> & H1 & H2). split; auto.
  - apply de_unsigned_tx_np.
Qed.
Lemma g0ins_tx_equiv p a a' : ins_opt de_unsigned_tx p a = Ok a' <-> g0ins_tx p a = Ok a'.
Proof.
  unfold ins_opt, g0ins_tx. destruct (is_empty _); [|split; discriminate].
  destruct a as [a|]; cbn [is_none]; [split; discriminate|]. tauto.
Qed.
Lemma g0ins_tx_np p a : g0ins_tx p a <> Panic.
Proof.
  unfold g0ins_tx. destruct (is_empty _); [|discriminate]. destruct (is_none a); [|discriminate].
  pose proof (de_unsigned_tx_np (p_value p)). destruct (de_unsigned_tx _); cbn; congruence.
Qed.

Definition de_g0version (b : bytes) : res serr N :=
  n <- de_u32 b ;; if n =? 0 then Ok n else Err SNoMorePairs.
Lemma g0version_codec : codec_ok VLIM (eq 0) ser_u32 de_g0version.
Proof.
  unfold de_g0version. constructor.
  - intros a <-. rewrite de_u32_rt by reflexivity. reflexivity.
  - intros a <-. unfold ser_u32, blen. rewrite enc_u32_length. lims. lia.
  - intros b a _ H. binds H. destruct (x =? 0) eqn:E; [|discriminate]. inj H. lia.
  - intros b. pose proof (de_u32_np b : de_u32 b <> Panic). destruct (de_u32 b); cbn; try congruence. destruct (_ =? _); discriminate.
Qed.
Lemma g0ins_version_equiv p a a' : ins_opt de_g0version p a = Ok a' <-> g0ins_version p a = Ok a'.
Proof.
  unfold ins_opt, g0ins_version, de_g0version. destruct (is_empty _); [|split; discriminate].
  destruct a as [a|]; cbn [is_none]; [split; discriminate|].
  rewrite de_u32_four. destruct (blen (p_value p) =? 4) eqn:E; cbn [negb fail_if bind].
  - rewrite dec_u32_four by assumption. cbn [map_err bind].
    destruct (le_dec (p_value p) =? 0); cbn [negb fail_if bind map_err]; split; try discriminate; auto.
  - split; [|discriminate]. intros H. exfalso. destruct (de_u32 (p_value p)) eqn:D; [|discriminate..].
    apply de_u32_not_four in D. congruence.
Qed.
Lemma g0ins_version_np p a : g0ins_version p a <> Panic.
Proof.
  unfold g0ins_version, fail_if. destruct (is_empty _); [|discriminate]. destruct (is_none a); [|discriminate].
  destruct (negb _); [discriminate|]. cbn [bind]. pose proof (dec_u32_nopanic (p_value p)).
  destruct (dec_u32 _) as [[n r]| |]; cbn; try congruence. destruct (negb _); discriminate.
Qed.

Lemma g0ins_xpub_equiv p m m' : ins_map sk_xpub dek_xpub de_keysource p m = Ok m' <-> g0ins_xpub p m = Ok m'.
Proof.
  unfold ins_map, g0ins_xpub, dek_xpub. destruct (is_empty (k_data _)); cbn [negb]; [split; discriminate|].
  destruct (de_xpub _) as [x|]; cbn [ok_or map_err bind]; [|split; discriminate].
  unfold m_mem. destruct (m_get sk_xpub x m).
  - split; [discriminate|]. destruct (_ || _); cbn [fail_if bind]; [discriminate|].
    destruct (_ <? _); discriminate.
  - destruct (de_keysource (p_value p)) as [k|e|] eqn:Ek; cbn [map_err bind].
    + destruct (keysource_len_mod _ _ Ek) as [E1 E2]. rewrite E1, E2.
      replace (is_empty (p_value p)) with false by (destruct (p_value p); [discriminate E1|reflexivity]).
      cbn [negb orb fail_if bind].
      pose proof (keysource_read _ E1 E2) as Q. rewrite Ek in Q. apply Ok_inj in Q. rewrite Q. tauto.
    + split; [discriminate|]. destruct (_ || _) eqn:E2; cbn [fail_if bind]; [discriminate|].
      apply orb_false_iff in E2 as [_ E2]. apply negb_false_iff in E2.
      destruct (blen (p_value p) <? 4) eqn:E1; cbn [fail_if bind]; [discriminate|].
      rewrite (keysource_read _ E1 E2) in Ek. discriminate.
    + now apply de_keysource_np in Ek.
Qed.
Lemma g0ins_xpub_np p m : g0ins_xpub p m <> Panic.
Proof.
  unfold g0ins_xpub, fail_if. destruct (negb _); [|discriminate].
  destruct (de_xpub _); cbn [ok_or bind]; [|discriminate].
  destruct (_ || _); [discriminate|]. cbn [bind]. destruct (_ <? _); [discriminate|]. cbn [bind].
  destruct (m_get _ _ _); discriminate.
Qed.


(** Type of a field. *)
Definition g0ty (f : g0field) : Type :=
  match f with
  | G0Tx => option tx
  | G0Xpub => list (xpub * keysource)
  | G0Version => option N
  | G0Proprietary => list (propkey * bytes)
  | G0Unknown => list (key * bytes)
  end.

Definition g0get (f : g0field) : gdec0 -> g0ty f :=
  match f return gdec0 -> g0ty f with
  | G0Tx => gd0_tx
  | G0Xpub => gd0_xpub
  | G0Version => gd0_version
  | G0Proprietary => gd0_proprietary
  | G0Unknown => gd0_unknown
  end.

Definition g0set (f : g0field) : g0ty f -> gdec0 -> gdec0 :=
  match f return g0ty f -> gdec0 -> gdec0 with
  | G0Tx => set_gd0_tx
  | G0Xpub => set_gd0_xpub
  | G0Version => set_gd0_version
  | G0Proprietary => set_gd0_proprietary
  | G0Unknown => set_gd0_unknown
  end.

(** The field a key type belongs to. *)
Definition g0slot (t : byte) : g0field :=
  if beq t x00 then G0Tx else
  if beq t x01 then G0Xpub else
  if beq t xfb then G0Version else
  if beq t xfc then G0Proprietary else
  G0Unknown.

(** What a pair does to its field. *)
Definition g0upd (f : g0field) : pair -> g0ty f -> res ierr (g0ty f) :=
  match f return pair -> g0ty f -> res ierr (g0ty f) with
  | G0Tx => g0ins_tx
  | G0Xpub => g0ins_xpub
  | G0Version => g0ins_version
  | G0Proprietary => ins_prop IDeser
  | G0Unknown => guarded global0_excluded (fun p => IExcludedKey (ptype p)) ins_unknown
  end.

(** The pairs of a field. *)
Definition g0fpairs (f : g0field) : g0ty f -> list pair :=
  match f return g0ty f -> list pair with
  | G0Tx => opt_pairs x00 enc_tx_nowit
  | G0Xpub => map_pairs x01 ser_xpub ser_keysource
  | G0Version => opt_pairs xfb ser_u32
  | G0Proprietary => prop_pairs
  | G0Unknown => unknown_pairs
  end.

(** The field before the first pair. *)
Definition g0empty (f : g0field) : g0ty f :=
  match f return g0ty f with
  | G0Tx => None
  | G0Xpub => []
  | G0Version => None
  | G0Proprietary => []
  | G0Unknown => []
  end.

(** Well-formed contents of a field. *)
Definition g0fwf (f : g0field) : g0ty f -> Prop :=
  match f return g0ty f -> Prop with
  | G0Tx => opt_all wf_unsigned_tx
  | G0Xpub => wf_map sk_xpub wf_xpub wf_keysource
  | G0Version => opt_all (eq 0)
  | G0Proprietary => wf_props
  | G0Unknown => wf_unknowns (fun t => g0slot t = G0Unknown /\ global0_excluded t = false)
  end.

(** What is read back. *)
Definition g0norm (f : g0field) : g0ty f -> g0ty f :=
  match f return g0ty f -> g0ty f with
  | G0Tx => fun a => a
  | G0Xpub => fun a => a
  | G0Version => fun a => a
  | G0Proprietary => fun a => a
  | G0Unknown => fun a => a
  end.

Lemma g0frame : frame_ok g0ty g0get g0set g0upd g0slot global0_insert_pair.
Proof.
  constructor.
  - intros f v s. destruct f; reflexivity.
  - intros f g v s H. destruct f, g; try reflexivity; now destruct H.
  - intros s s' H.
    pose proof (H G0Tx) as E0.
    pose proof (H G0Xpub) as E1.
    pose proof (H G0Version) as E2.
    pose proof (H G0Proprietary) as E3.
    pose proof (H G0Unknown) as E4.
    clear H. destruct s, s'. cbn in E0, E1, E2, E3, E4. subst. reflexivity.
  - intros p s. unfold global0_insert_pair, g0slot, ptype. cbv zeta.
    destruct (beq (k_type (p_key p)) x00); [reflexivity|].
    destruct (beq (k_type (p_key p)) x01); [reflexivity|].
    destruct (beq (k_type (p_key p)) xfb); [reflexivity|].
    destruct (beq (k_type (p_key p)) xfc); [reflexivity|].
    cbn [g0upd]. unfold guarded, ptype. destruct (global0_excluded (k_type (p_key p))); reflexivity.
Qed.

Lemma g0slot_G0Tx t : x00 = t <-> g0slot t = G0Tx.
Proof. slot_tac0 g0slot. Qed.
Lemma g0slot_G0Xpub t : x01 = t <-> g0slot t = G0Xpub.
Proof. slot_tac0 g0slot. Qed.
Lemma g0slot_G0Version t : xfb = t <-> g0slot t = G0Version.
Proof. slot_tac0 g0slot. Qed.
Lemma g0slot_G0Proprietary t : xfc = t <-> g0slot t = G0Proprietary.
Proof. slot_tac0 g0slot. Qed.

Lemma g0spec f : fspec (fun t => g0slot t = f) (g0upd f) (g0fpairs f) (g0empty f) (g0fwf f) (g0norm f).
Proof.
  destruct f; cbn [g0upd g0fpairs g0empty g0fwf g0norm g0ty].

  - apply (fspec_types (eq x00)); [intros t; apply g0slot_G0Tx|]. exact (fspec_equiv _ _ _ (fun p a a' _ => g0ins_tx_equiv p a a') _ _ _ _ g0ins_tx_np (opt_fspec x00 _ _ _ unsigned_tx_codec)).
  - apply (fspec_types (eq x01)); [intros t; apply g0slot_G0Xpub|]. exact (fspec_equiv _ _ _ (fun p a a' _ => g0ins_xpub_equiv p a a') _ _ _ _ g0ins_xpub_np (map_fspec x01 sk_xpub _ _ _ _ _ _ sk_xpub_inj xpub_codec keysource_codec xpub_nonempty)).
  - apply (fspec_types (eq xfb)); [intros t; apply g0slot_G0Version|]. exact (fspec_equiv _ _ _ (fun p a a' _ => g0ins_version_equiv p a a') _ _ _ _ g0ins_version_np (opt_fspec xfb _ _ _ g0version_codec)).
  - apply (fspec_types (eq xfc)); [intros t; apply g0slot_G0Proprietary|]. exact (prop_fspec IDeser).
  - exact (fspec_guard (fun t => g0slot t = G0Unknown /\ global0_excluded t = false) _ _ _ _ (fun t => iff_refl _) _ _ _ _ (unknown_fspec (fun t => g0slot t = G0Unknown /\ global0_excluded t = false))).
Qed.

Definition g0special (f : g0field) : bool := false.

Lemma g0dup f : g0special f = false -> fdup (fun t => g0slot t = f) (g0upd f).
Proof.
  destruct f; intros Hsp; try discriminate Hsp; clear Hsp; cbn [g0upd g0fwf g0ty].

  - apply (fdup_types (eq x00)); [intros t; apply g0slot_G0Tx|]. exact (fdup_equiv _ _ _ (fun p a a' _ => g0ins_tx_equiv p a a') (opt_fdup x00 _)).
  - apply (fdup_types (eq x01)); [intros t; apply g0slot_G0Xpub|]. exact (fdup_equiv _ _ _ (fun p a a' _ => g0ins_xpub_equiv p a a') (map_fdup x01 sk_xpub _ _ sk_xpub_inj)).
  - apply (fdup_types (eq xfb)); [intros t; apply g0slot_G0Version|]. exact (fdup_equiv _ _ _ (fun p a a' _ => g0ins_version_equiv p a a') (opt_fdup xfb _)).
  - apply (fdup_types (eq xfc)); [intros t; apply g0slot_G0Proprietary|]. exact (prop_fdup IDeser).
  - exact (fdup_guard (fun t => g0slot t = G0Unknown /\ global0_excluded t = false) _ _ _ _ (fun t => iff_refl _) (unknown_fdup (fun t => g0slot t = G0Unknown /\ global0_excluded t = false))).
Qed.

Lemma g0comm f : g0special f = false -> fcomm (fun t => g0slot t = f) (g0upd f) (g0fwf f).
Proof.
  destruct f; intros Hsp; try discriminate Hsp; clear Hsp; cbn [g0upd g0fwf g0ty].

  - apply (fcomm_types (eq x00)); [intros t; apply g0slot_G0Tx|]. exact (fcomm_equiv _ _ _ (fun p a a' _ => g0ins_tx_equiv p a a') _ (opt_fcomm x00 _ _)).
  - apply (fcomm_types (eq x01)); [intros t; apply g0slot_G0Xpub|]. exact (fcomm_equiv _ _ _ (fun p a a' _ => g0ins_xpub_equiv p a a') _ (map_fcomm x01 sk_xpub _ _ _ _ sk_xpub_inj)).
  - apply (fcomm_types (eq xfb)); [intros t; apply g0slot_G0Version|]. exact (fcomm_equiv _ _ _ (fun p a a' _ => g0ins_version_equiv p a a') _ (opt_fcomm xfb _ _)).
  - apply (fcomm_types (eq xfc)); [intros t; apply g0slot_G0Proprietary|]. exact (prop_fcomm IDeser).
  - exact (fcomm_guard (fun t => g0slot t = G0Unknown /\ global0_excluded t = false) _ _ _ _ (fun t => iff_refl _) _ (unknown_fcomm (fun t => g0slot t = G0Unknown /\ global0_excluded t = false))).
Qed.

Lemma g0raw_G0Proprietary : fraw (fun t => g0slot t = G0Proprietary) (g0upd G0Proprietary) (g0fpairs G0Proprietary).
Proof. apply (fraw_types (eq xfc)); [intros t; apply g0slot_G0Proprietary|]. exact (prop_fraw IDeser). Qed.

Lemma g0raw_G0Unknown : fraw (fun t => g0slot t = G0Unknown) (g0upd G0Unknown) (g0fpairs G0Unknown).
Proof. exact (fraw_guard (fun t => g0slot t = G0Unknown /\ global0_excluded t = false) _ _ _ _ (fun t => iff_refl _) _ (unknown_fraw (fun t => g0slot t = G0Unknown /\ global0_excluded t = false))). Qed.

Lemma g0order_nodup : NoDup g0order.
Proof. apply (NoDup_nodup_dec g0field_dec). vm_compute. reflexivity. Qed.
Lemma g0order_all f : In f g0order.
Proof. apply (in_dec_true g0field_dec). destruct f; vm_compute; reflexivity. Qed.

Lemma g0init_empty f : g0get f gdec0_init = g0empty f.
Proof. destruct f; reflexivity. Qed.
End Facts.
