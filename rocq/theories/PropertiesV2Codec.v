(** C01-C06, C08-C13, C56: reading and writing v2 PSBTs. *)
From Coq Require Import Permutation.
From Verif Require Import Base OMap Consensus Ext ExtInstance Raw RawFacts TapTree TapTreeFacts Serialize MapCodec
  V2Global V2Input V2Output V2Psbt SpecCodec SpecCodecFacts SpecPsbt V2PsbtFacts V2CodecFacts
  V2WireFacts V2PairFacts SampleV2.
Local Open Scope N_scope.

Local Notation cfg0 := (cfg_of false false).
(** Used by the examples only; the theorems bind their own. *)
#[local] Existing Instance toy | 100.
#[local] Instance ex_cfg : Cfg | 100 := cfg_of false false.

Lemma sample_wf : @wf_psbt toy cfg0 sample.
Proof. exact (@deserialize_wf toy toy_laws cfg0 _ _ sample_decodes). Qed.

Definition wf_pairb (p : pair) : bool :=
  (blen (k_data (p_key p)) <=? MAX_VEC_SIZE) && (blen (p_value p) <=? MAX_VALUE).
Lemma wf_pairb_all l : forallb wf_pairb l = true -> Forall wf_pair l.
Proof.
  intros H. rewrite forallb_forall in H. apply Forall_forall. intros p Hp. apply H in Hp. unfold wf_pairb in Hp.
  apply andb_true_iff in Hp as [H1 H2]. split; [unfold wf_key; lia|]. unfold wf_value. lia.
Qed.
Lemma sample_of_maps g is os p t : forallb wf_pairb g = true -> forallb (forallb wf_pairb) is = true ->
  forallb (forallb wf_pairb) os = true -> length is = length (p_inputs p) -> length os = length (p_outputs p) ->
  maps_of (sample_of g is os ++ t) p g is os.
Proof.
  assert (A : forall ls, forallb (forallb wf_pairb) ls = true -> Forall (Forall wf_pair) ls).
  { intros ls H. rewrite forallb_forall in H. apply Forall_forall. intros l Hl. apply wf_pairb_all. auto. }
  intros H1 H2 H3 H4 H5. exists (sample_of g is os), t. split; auto. split; auto.
  apply psbt_wire_intro; auto. now apply wf_pairb_all.
Qed.
Lemma sample_maps : maps_of sample_bytes sample sample_global [sample_input_a; sample_input_b] [sample_output_a; sample_output_b].
Proof.
  rewrite <- (app_nil_r sample_bytes). unfold sample_bytes. apply sample_of_maps; vm_compute; reflexivity.
Qed.
Lemma sample_raw_maps : maps_of (@psbt_serialize toy cfg0 sample) sample
  (@global_pairs cfg0 (p_global sample)) (map (@input_pairs toy cfg0) (p_inputs sample))
  (map (@output_pairs cfg0) (p_outputs sample)).
Proof. exact (@serialize_maps toy toy_laws cfg0 _ sample_wf). Qed.

(** ** C01: round trip *)

Theorem C01_roundtrip : forall (X : Ext) (L : ExtLaws X) (C : Cfg) p,
  wf_psbt p -> exists p', psbt_deserialize (psbt_serialize p) = Ok p' /\ psbt_eq p p'.
Proof. intros X L C. exact psbt_roundtrip. Qed.
Print Assumptions C01_roundtrip.

(** The well-formedness conditions are exactly what the round trip needs. *)
Theorem C01_roundtrip_exact : forall (X : Ext) (L : ExtLaws X) (C : Cfg) p,
  no_tap_ties p -> (wf_psbt p <-> psbt_deserialize (psbt_serialize p) = Ok p).
Proof.
  intros X L C p Ht. split; [intros H; now apply psbt_roundtrip_exact|apply deserialize_wf].
Qed.
Print Assumptions C01_roundtrip_exact.

Example C01_example :
  @wf_psbt toy cfg0 sample /\ @psbt_deserialize toy cfg0 (psbt_serialize sample) = Ok sample
  /\ length (p_inputs sample) = 2%nat /\ length (p_outputs sample) = 2%nat.
Proof. split; [exact sample_wf|]. split; [vm_compute; reflexivity|split; reflexivity]. Qed.
Lemma sample_no_ties : @no_tap_ties toy sample.
Proof.
  assert (V : forall s, blen s < U64 -> wf_shape (TL s 192)) by (intros s H; split; [exact H|split; reflexivity]).
  set (sh := TB (TL [x51] 192) (TL [x52] 192)).
  assert (N1 : bytes_eqb (@shash toy (TL [x51] 192)) (@shash toy (TL [x52] 192)) = false) by (vm_compute; reflexivity).
  assert (E : exists o1 o2, p_outputs sample = [o1; o2] /\ out_tap_tree o1 = None /\ out_tap_tree o2 = @node_of toy sh).
  { eexists _, _. split; [vm_compute; reflexivity|]. split; [reflexivity|vm_compute; reflexivity]. }
  destruct E as (o1 & o2 & E & E1 & E2). unfold no_tap_ties. rewrite E.
  constructor; [now rewrite E1|]. constructor; [|constructor]. rewrite E2.
  destruct (@node_of toy sh) as [t|] eqn:Et; [|exact I]. exists sh. split; [split; now apply V|]. split; [|assumption].
  apply bytes_eqb_neq in N1. exact (conj I (conj I N1)).
Qed.

(** A PSBT whose only defect is an output of amount zero is written but not read back. *)
Theorem C01_zero_amount_refuted :
  exists p, @psbt_deserialize toy cfg0 (psbt_serialize p) = Err (DecodeOutput ODMissingValue)
    /\ g_input_count (p_global p) = blen (p_inputs p) /\ g_output_count (p_global p) = blen (p_outputs p)
    /\ exists o1 o2, p_outputs p = [o1; o2] /\ p_outputs sample = [set_out_amount 4000 o1; o2] /\ out_amount o1 = 0
    /\ p_inputs p = p_inputs sample /\ p_global p = p_global sample.
Proof.
  exists (set_p_outputs (match p_outputs sample with o1 :: l => set_out_amount 0 o1 :: l | [] => [] end) sample).
  split; [vm_compute; reflexivity|]. split; [reflexivity|]. split; [reflexivity|].
  eexists _, _. split; [vm_compute; reflexivity|]. split; [vm_compute; reflexivity|]. split; [reflexivity|]. split; reflexivity.
Qed.
Print Assumptions C01_zero_amount_refuted.

(** ** C02: decoded PSBTs are stable *)

Theorem C02_stable : forall (X : Ext) (L : ExtLaws X) (C : Cfg) bs p,
  psbt_deserialize bs = Ok p -> exists p', psbt_deserialize (psbt_serialize p) = Ok p' /\ psbt_eq p p'.
Proof. intros X L C bs p H. apply psbt_roundtrip. now apply deserialize_wf in H. Qed.
Print Assumptions C02_stable.

Theorem C02_stable_exact : forall (X : Ext) (L : ExtLaws X) (C : Cfg) bs p,
  psbt_deserialize bs = Ok p -> no_tap_ties p -> psbt_deserialize (psbt_serialize p) = Ok p.
Proof. intros X L C bs p H Ht. apply psbt_roundtrip_exact; auto. now apply deserialize_wf in H. Qed.
Print Assumptions C02_stable_exact.

Example C02_example : @psbt_deserialize toy cfg0 sample_bytes = Ok sample /\ @no_tap_ties toy sample
  /\ bytes_eqb (@psbt_serialize toy cfg0 sample) sample_bytes = false.
Proof. split; [exact sample_decodes|]. split; [exact sample_no_ties|vm_compute; reflexivity]. Qed.

(** ** C03: no duplicate keys in what is written *)

Theorem C03_serialized_maps : forall (X : Ext) (L : ExtLaws X) (C : Cfg) p,
  wf_psbt p -> exists lg lis los, psbt_wire lg lis los (psbt_serialize p)
    /\ length lis = length (p_inputs p) /\ length los = length (p_outputs p)
    /\ NoDup (map p_key lg) /\ Forall (fun l => NoDup (map p_key l)) lis /\ Forall (fun l => NoDup (map p_key l)) los.
Proof.
  intros X L C p H. exists (global_pairs (p_global p)), (map input_pairs (p_inputs p)), (map output_pairs (p_outputs p)).
  split.
  { destruct (serialize_maps p H) as (w & t & E & W & _). rewrite serialize_wire by assumption.
    now apply psbt_wire_intro; apply serialize_pairs_wf. }
  split; [apply map_length|]. split; [apply map_length|].
  split; [apply global_pairs_nodup, H|]. split; apply Forall_forall; intros l Hl; apply in_map_iff in Hl as (a & <- & Ha).
  - apply input_pairs_nodup. pose proof (wp_inputs _ H) as Q. rewrite Forall_forall in Q. auto.
  - apply output_pairs_nodup. pose proof (wp_outputs _ H) as Q. rewrite Forall_forall in Q. auto.
Qed.
Print Assumptions C03_serialized_maps.
Example C03_example : @wf_psbt toy cfg0 sample /\ length (@global_pairs cfg0 (p_global sample)) = 8%nat.
Proof. split; [exact sample_wf|reflexivity]. Qed.

(** ** C04: duplicate keys are rejected on decoding *)

(** The full statement is false: see the three witnesses below.  What holds: a repeated
    key is accepted only for the input count and for the four fields whose absence the
    decoder marks by a placeholder value. *)
Theorem C04_no_duplicates_partial : forall (X : Ext) (L : ExtLaws X) (C : Cfg) bs p lg lis los,
  psbt_deserialize bs = Ok p -> maps_of bs p lg lis los ->
  distinct_keys_except dup_global lg /\ Forall (distinct_keys_except dup_input) lis
  /\ Forall (distinct_keys_except dup_output) los.
Proof.
  intros X L C bs p lg lis los H M. destruct (deserialize_unique _ _ _ _ _ H M) as (A1 & A2 & A3 & _).
  split; [eapply global_dup; eauto|]. split.
  - clear -A2 L. induction A2; constructor; auto. eapply input_dup; eauto.
  - clear -A3 L. induction A3; constructor; auto. eapply output_dup; eauto.
Qed.
Print Assumptions C04_no_duplicates_partial.

(** Every accepted string has exactly one reading as maps, so the theorem applies to it. *)
Theorem C04_maps_exist : forall (X : Ext) (L : ExtLaws X) (C : Cfg) bs p,
  psbt_deserialize bs = Ok p ->
  exists lg lis los, maps_of bs p lg lis los
    /\ forall lg' lis' los', maps_of bs p lg' lis' los' -> lg' = lg /\ lis' = lis /\ los' = los.
Proof. intros X L C bs p H. now apply maps_unique. Qed.
Print Assumptions C04_maps_exist.

Example C04_example : @psbt_deserialize toy cfg0 sample_bytes = Ok sample
  /\ maps_of sample_bytes sample sample_global [sample_input_a; sample_input_b] [sample_output_a; sample_output_b].
Proof. split; [exact sample_decodes|exact sample_maps]. Qed.

Definition dup_key (l : list pair) : Prop := exists i j p q, (i < j)%nat /\
  nth_error l i = Some p /\ nth_error l j = Some q /\ p_key p = p_key q /\ p_value p <> p_value q.

(** A global map with two input counts, 7 and 2. *)
Theorem C04_input_count_refuted : exists bs p lg lis los,
  @psbt_deserialize toy cfg0 bs = Ok p /\ maps_of bs p lg lis los /\ dup_key lg.
Proof.
  exists (sample_of (pr x04 [] [x07] :: sample_global) [sample_input_a; sample_input_b] [sample_output_a; sample_output_b]), sample.
  eexists _, _, _. split; [vm_compute; reflexivity|]. split.
  - rewrite <- (app_nil_r (sample_of _ _ _)). apply sample_of_maps; vm_compute; reflexivity.
  - exists 0%nat, 4%nat. eexists _, _. split; [lia|]. split; [reflexivity|]. split; [reflexivity|]. split; [reflexivity|discriminate].
Qed.
Print Assumptions C04_input_count_refuted.

(** An input map with two previous txids and two output indices. *)
Theorem C04_outpoint_refuted : exists bs p lg lis los,
  @psbt_deserialize toy cfg0 bs = Ok p /\ maps_of bs p lg lis los /\ Exists dup_key lis.
Proof.
  exists (sample_of sample_global
    [pr x0e [] (repeat x00 32) :: pr x0f [] (repeat xff 4) :: sample_input_a; sample_input_b] [sample_output_a; sample_output_b]), sample.
  eexists _, _, _. split; [vm_compute; reflexivity|]. split.
  - rewrite <- (app_nil_r (sample_of _ _ _)). apply sample_of_maps; vm_compute; reflexivity.
  - constructor. exists 0%nat, 2%nat. eexists _, _. split; [lia|]. split; [reflexivity|]. split; [reflexivity|]. split; [reflexivity|discriminate].
Qed.
Print Assumptions C04_outpoint_refuted.

(** An output map with two amounts, 0 and 4000. *)
Theorem C04_amount_refuted : exists bs p lg lis los,
  @psbt_deserialize toy cfg0 bs = Ok p /\ maps_of bs p lg lis los /\ Exists dup_key los.
Proof.
  exists (sample_of sample_global [sample_input_a; sample_input_b] [pr x03 [] (repeat x00 8) :: sample_output_a; sample_output_b]), sample.
  eexists _, _, _. split; [vm_compute; reflexivity|]. split.
  - rewrite <- (app_nil_r (sample_of _ _ _)). apply sample_of_maps; vm_compute; reflexivity.
  - constructor. exists 0%nat, 1%nat. eexists _, _. split; [lia|]. split; [reflexivity|]. split; [reflexivity|]. split; [reflexivity|discriminate].
Qed.
Print Assumptions C04_amount_refuted.

(** ** C05: unknown and proprietary pairs *)

Theorem C05_raw_pairs_survive : forall (X : Ext) (L : ExtLaws X) (C : Cfg) bs p lg lis los lg' lis' los',
  psbt_deserialize bs = Ok p -> maps_of bs p lg lis los -> maps_of (psbt_serialize p) p lg' lis' los' ->
  Permutation (filter (raw_pair global_type) lg') (filter (raw_pair global_type) lg) /\
  Forall2 (fun l l' => Permutation (filter (raw_pair input_type) l') (filter (raw_pair input_type) l)) lis lis' /\
  Forall2 (fun l l' => Permutation (filter (raw_pair output_type_key) l') (filter (raw_pair output_type_key) l)) los los'.
Proof. intros X L C. exact deserialize_raw. Qed.
Print Assumptions C05_raw_pairs_survive.

Example C05_example : @psbt_deserialize toy cfg0 sample_bytes = Ok sample
  /\ (exists lg lis los, maps_of (@psbt_serialize toy cfg0 sample) sample lg lis los)
  /\ filter (@raw_pair (@global_type cfg0)) sample_global = [pr xfc [x02; x61; x62; x05; x09] [x0a; x0b]; pr xf0 [x01] [x02; x03]].
Proof. split; [exact sample_decodes|]. split; [|reflexivity]. eexists _, _, _. exact sample_raw_maps. Qed.

(** ** C06: magic and separator (v2; v0 is in PropertiesV0) *)

Theorem C06_v2_magic : forall (X : Ext) (C : Cfg) bs,
  psbt_deserialize bs = Err InvalidMagic <-> (forall t, bs <> [x70; x73; x62; x74] ++ t).
Proof. intros X C. exact magic_gate. Qed.
Print Assumptions C06_v2_magic.

Theorem C06_v2_separator : forall (X : Ext) (C : Cfg) bs,
  psbt_deserialize bs = Err InvalidSeparator <->
  (exists t, bs = [x70; x73; x62; x74] ++ t) /\ (forall t, bs <> [x70; x73; x62; x74; xff] ++ t).
Proof. intros X C. exact separator_gate. Qed.
Print Assumptions C06_v2_separator.

Theorem C06_v2_accepted : forall (X : Ext) (C : Cfg) bs p,
  psbt_deserialize bs = Ok p -> exists t, bs = [x70; x73; x62; x74; xff] ++ t.
Proof. intros X C bs p H. apply deserialize_gate in H. eauto. Qed.
Print Assumptions C06_v2_accepted.

Example C06_v2_example :
  @psbt_deserialize toy cfg0 [x70; x73; x62] = Err InvalidMagic /\
  @psbt_deserialize toy cfg0 [x70; x73; x62; x74] = Err InvalidSeparator /\
  @psbt_deserialize toy cfg0 [x70; x73; x62; x74; x00] = Err InvalidSeparator.
Proof. repeat split. Qed.

(** ** C08: decoding never panics *)

(** False as it stands: a count of 2^64-1 makes [Vec::with_capacity] panic. *)
Theorem C08_capacity_refuted : exists bs, (length bs < 50)%nat /\ @psbt_deserialize toy cfg0 bs = Panic.
Proof.
  exists (sample_of [pr xfb [] (le4 2); pr x02 [] (le4 2); pr x04 [] (repeat xff 9); pr x05 [] [x01]] [] []).
  split; [vm_compute; repeat constructor|vm_compute; reflexivity].
Qed.
Print Assumptions C08_capacity_refuted.

(** Nothing else panics: a panic implies a declared count whose vector exceeds
    [isize::MAX] bytes. *)
Theorem C08_only_capacity_partial : forall (X : Ext) (L : ExtLaws X) (C : Cfg) bs,
  psbt_deserialize bs = Panic ->
  exists lg w t ni no, bs = [x70; x73; x62; x74; xff] ++ w ++ t /\ map_wire lg w /\
    has_count lg x04 ni /\ has_count lg x05 no /\ (ISIZE_MAX < ni * size_input \/ ISIZE_MAX < no * size_output).
Proof. intros X L C. exact deserialize_panic_counts. Qed.
Print Assumptions C08_only_capacity_partial.

(** ** C09: bytes after the PSBT *)

Theorem C09_trailing_bytes_ignored : forall (X : Ext) (L : ExtLaws X) (C : Cfg) bs p t,
  psbt_deserialize bs = Ok p -> psbt_deserialize (bs ++ t) = Ok p.
Proof. intros X L C. exact deserialize_extend. Qed.
Print Assumptions C09_trailing_bytes_ignored.
Example C09_example : @psbt_deserialize toy cfg0 (sample_bytes ++ [x01; x02]) = Ok sample.
Proof. apply (@C09_trailing_bytes_ignored toy toy_laws cfg0). exact sample_decodes. Qed.

(** ** C10: truncated PSBTs *)

Theorem C10_prefix_rejected : forall (X : Ext) (L : ExtLaws X) (C : Cfg) p pre suf q,
  wf_psbt p -> psbt_serialize p = pre ++ suf -> suf <> [] -> psbt_deserialize pre <> Ok q.
Proof. intros X L C. exact deserialize_truncated. Qed.
Print Assumptions C10_prefix_rejected.
Example C10_example : @wf_psbt toy cfg0 sample /\
  exists pre suf, @psbt_serialize toy cfg0 sample = pre ++ suf /\ suf <> [] /\ length pre = 500%nat.
Proof.
  split; [exact sample_wf|]. exists (firstn 500 (psbt_serialize sample)), (skipn 500 (psbt_serialize sample)).
  split; [symmetry; apply firstn_skipn|]. split; [|vm_compute; reflexivity]. vm_compute. discriminate.
Qed.

(** ** C11: counts and required fields after decoding *)

Theorem C11_counts_and_fields : forall (X : Ext) (L : ExtLaws X) (C : Cfg) bs p,
  psbt_deserialize bs = Ok p ->
  g_input_count (p_global p) = N.of_nat (length (p_inputs p)) /\
  g_output_count (p_global p) = N.of_nat (length (p_outputs p)) /\
  g_version (p_global p) = 2 /\
  (forall i, In i (p_inputs p) -> length (in_previous_txid i) = 32%nat /\ in_previous_txid i <> repeat x00 32
     /\ in_spent_output_index i < 2 ^ 32 - 1) /\
  (forall o, In o (p_outputs p) -> 0 < out_amount o < 2 ^ 64 /\ (feat_sp = false -> out_script_pubkey o <> [])).
Proof.
  intros X L C bs p H. apply deserialize_wf in H. split; [apply H|]. split; [apply H|]. split; [apply H|]. split.
  - intros i Hi. pose proof (wp_inputs _ H) as Q. rewrite Forall_forall in Q. apply Q in Hi. repeat split; apply Hi.
  - intros o Hi. pose proof (wp_outputs _ H) as Q. rewrite Forall_forall in Q. apply Q in Hi.
    pose proof (wo_amount _ Hi) as Q1. pose proof (wo_amount_nonzero _ Hi). unfold wf_u64, U64 in Q1.
    split; [split; [lia|exact Q1]|apply Hi].
Qed.
Print Assumptions C11_counts_and_fields.
Example C11_example : @psbt_deserialize toy cfg0 sample_bytes = Ok sample /\ g_input_count (p_global sample) = 2.
Proof. split; [exact sample_decodes|reflexivity]. Qed.

(** ** C12: preimages (v2; v0 is in PropertiesV0) *)

Theorem C12_v2_preimages : forall (X : Ext) (L : ExtLaws X) (C : Cfg) bs p i h pre,
  psbt_deserialize bs = Ok p -> In i (p_inputs p) ->
  (In (h, pre) (in_ripemd160_preimages i) -> ripemd160 pre = h) /\
  (In (h, pre) (in_sha256_preimages i) -> sha256 pre = h) /\
  (In (h, pre) (in_hash160_preimages i) -> ripemd160 (sha256 pre) = h) /\
  (In (h, pre) (in_hash256_preimages i) -> sha256 (sha256 pre) = h).
Proof.
  intros X L C bs p i h pre H Hi. apply deserialize_wf in H. pose proof (wp_inputs _ H) as Q.
  rewrite Forall_forall in Q. apply Q in Hi. clear Q H.
  assert (A : forall n f m, preimages n f m -> In (h, pre) m -> f pre = h).
  { intros n f m [_ P] Hin. rewrite Forall_forall in P. exact (P _ Hin). }
  split; [apply (A _ _ _ (wi_ripemd160 _ Hi))|]. split; [apply (A _ _ _ (wi_sha256 _ Hi))|].
  split; [apply (A _ _ _ (wi_hash160 _ Hi))|apply (A _ _ _ (wi_hash256 _ Hi))].
Qed.
Print Assumptions C12_v2_preimages.
Example C12_v2_example : @psbt_deserialize toy cfg0 sample_bytes = Ok sample /\
  match p_inputs sample with i :: _ => in_sha256_preimages i = [(@sha256 toy pre_a, pre_a)] | [] => False end.
Proof. split; [exact sample_decodes|vm_compute; reflexivity]. Qed.

(** ** C13: the order of pairs *)

(** False as it stands: the input count must come before the output count. *)
Theorem C13_count_order_refuted : exists bs bs' p lg lis los lg',
  @psbt_deserialize toy cfg0 bs = Ok p /\ maps_of bs p lg lis los /\ maps_of bs' p lg' lis los /\
  Permutation lg lg' /\ NoDup (map p_key lg) /\
  @psbt_deserialize toy cfg0 bs' = Err (DecodeGlobal (GDInsertPair (IDuplicateKey (Key x04 [])))).
Proof.
  set (is := [sample_input_a; sample_input_b]). set (os := [sample_output_a; sample_output_b]).
  set (lg := [pr xfb [] (le4 2); pr x02 [] (le4 2); pr x04 [] [x02]; pr x05 [] [x02]]).
  set (lg' := [pr xfb [] (le4 2); pr x02 [] (le4 2); pr x05 [] [x02]; pr x04 [] [x02]]).
  set (bs := sample_of lg is os).
  assert (match @psbt_deserialize toy cfg0 bs with Ok p => length (p_inputs p) = 2%nat /\ length (p_outputs p) = 2%nat | _ => False end) as D
    by (vm_compute; split; reflexivity).
  destruct (@psbt_deserialize toy cfg0 bs) as [p| |] eqn:E; [|destruct D|destruct D]. destruct D as [N1 N2].
  exists bs, (sample_of lg' is os), p, lg, is, os, lg'. split; [exact E|].
  split; [rewrite <- (app_nil_r bs); apply sample_of_maps; rewrite ?N1, ?N2; reflexivity|].
  split; [rewrite <- (app_nil_r (sample_of _ _ _)); apply sample_of_maps; rewrite ?N1, ?N2; reflexivity|].
  split; [repeat constructor|]. split; [|vm_compute; reflexivity].
  cbn. repeat constructor; cbn; intros Q; repeat (destruct Q as [Q|Q]; [discriminate|]); exact Q.
Qed.
Print Assumptions C13_count_order_refuted.

(** Any reordering that keeps the order of the counts (and of repeated placeholder
    pairs) is harmless. *)
Theorem C13_pair_order_partial : forall (X : Ext) (L : ExtLaws X) (C : Cfg) bs bs' p lg lis los lg' lis' los',
  psbt_deserialize bs = Ok p -> maps_of bs p lg lis los -> maps_of bs' p lg' lis' los' ->
  reordered [[x04; x05]] lg lg' -> Forall2 (reordered [[x0e]; [x0f]]) lis lis' ->
  Forall2 (reordered [[x03]; [x04]]) los los' ->
  psbt_deserialize bs' = Ok p.
Proof. intros X L C. exact deserialize_reorder. Qed.
Print Assumptions C13_pair_order_partial.
Example C13_example :
  let lg' := [pr xf0 [x01] [x02; x03]; pr x04 [] [x02]; pr xfc [x02; x61; x62; x05; x09] [x0a; x0b]; pr x06 [] [x03];
              pr x05 [] [x02]; pr x03 [] (le4 7); pr x02 [] (le4 2); pr xfb [] (le4 2)] in
  let is' := [rev sample_input_a; rev sample_input_b] in
  let os' := [rev sample_output_a; rev sample_output_b] in
  @psbt_deserialize toy cfg0 sample_bytes = Ok sample /\
  maps_of (sample_of lg' is' os') sample lg' is' os' /\
  reordered [[x04; x05]] sample_global lg' /\ Forall2 (reordered [[x0e]; [x0f]]) [sample_input_a; sample_input_b] is' /\
  Forall2 (reordered [[x03]; [x04]]) [sample_output_a; sample_output_b] os'.
Proof.
  cbv zeta. split; [exact sample_decodes|].
  assert (R : forall tss l, forallb (fun ts => Nat.leb (length (filter (fun p => existsb (beq (k_type (p_key p))) ts) l)) 1) tss = true ->
    reordered tss l (rev l)).
  { intros tss l H. split; [apply Permutation_rev|]. intros ts Hts. left. rewrite forallb_forall in H. apply H in Hts. cbv zeta. lia. }
  split; [rewrite <- (app_nil_r (sample_of _ _ _)); apply sample_of_maps; vm_compute; reflexivity|].
  split; [|split; [|]; repeat (constructor; try (apply R; vm_compute; reflexivity))].
  split.
  - change sample_global with ([pr xfb [] (le4 2); pr x02 [] (le4 2); pr x03 [] (le4 7); pr x04 [] [x02]; pr x05 [] [x02];
   pr x06 [] [x03]; pr xfc [x02; x61; x62; x05; x09] [x0a; x0b]; pr xf0 [x01] [x02; x03]]).
    rewrite Permutation_rev. cbn [rev app]. constructor.
    change (Permutation ([pr xfc [x02; x61; x62; x05; x09] [x0a; x0b]; pr x06 [] [x03]; pr x05 [] [x02]] ++ pr x04 [] [x02] :: [pr x03 [] (le4 7); pr x02 [] (le4 2); pr xfb [] (le4 2)])
      (pr x04 [] [x02] :: [pr xfc [x02; x61; x62; x05; x09] [x0a; x0b]; pr x06 [] [x03]; pr x05 [] [x02]] ++ [pr x03 [] (le4 7); pr x02 [] (le4 2); pr xfb [] (le4 2)])).
    symmetry. apply Permutation_middle.
  - intros ts [<-|[]]. right. vm_compute. reflexivity.
Qed.

(** ** C56: silent payment fields *)

Theorem C56_silent_payments : forall (X : Ext) (L : ExtLaws X) (C : Cfg) bs p,
  psbt_deserialize bs = Ok p ->
  (g_sp_ecdh_shares (p_global p) = [] <-> g_sp_dleq_proofs (p_global p) = []) /\
  (forall k v, In (k, v) (g_sp_dleq_proofs (p_global p)) -> length v = 64%nat) /\
  (forall i, In i (p_inputs p) -> (in_sp_ecdh_shares i = [] <-> in_sp_dleq_proofs i = []) /\
     (forall k v, In (k, v) (in_sp_dleq_proofs i) -> length v = 64%nat)) /\
  (forall o, In o (p_outputs p) -> (out_sp_v0_label o <> None -> out_sp_v0_info o <> None) /\
     (forall b, out_sp_v0_info o = Some b -> length b = 66%nat)).
Proof.
  intros X L C bs p H. apply deserialize_wf in H.
  assert (A : forall m : list (bytes * bytes), sp_field (map_of bkey wf_secp wf_dleq) [] m -> forall k v, In (k, v) m -> length v = 64%nat).
  { unfold sp_field. intros m Hm k v Hin. destruct feat_sp; [|subst; destruct Hin]. destruct Hm as [_ Hm].
    rewrite Forall_forall in Hm. destruct (Hm _ Hin) as [_ Q]. exact Q. }
  split; [apply (wp_global _ H)|]. split; [apply A, (wp_global _ H)|]. split.
  - intros i Hi. pose proof (wp_inputs _ H) as Q. rewrite Forall_forall in Q. apply Q in Hi.
    split; [apply Hi|apply A, Hi].
  - intros o Hi. pose proof (wp_outputs _ H) as Q. rewrite Forall_forall in Q. apply Q in Hi.
    split; [apply Hi|]. pose proof (wo_info _ Hi) as W. unfold sp_field in W. intros b E. rewrite E in W.
    destruct feat_sp; [exact W|discriminate].
Qed.
Print Assumptions C56_silent_payments.

(** With the feature: an output with silent payment info and label, a global map and an
    input with a share and a proof. *)
Definition sp_bytes : bytes :=
  sample_of (sample_global ++ [pr x07 pk_a pk_b; pr x08 pk_a (repeat x07 64)])
    [sample_input_a ++ [pr x1d pk_a pk_b; pr x1e pk_a (repeat x08 64)]; sample_input_b]
    [sample_output_a ++ [pr x09 [] (pk_a ++ pk_b); pr x0a [] (le4 5)]; sample_output_b].
Example C56_example :
  match @psbt_deserialize toy (cfg_of true false) sp_bytes with
  | Ok p => g_sp_dleq_proofs (p_global p) = [(pk_a, repeat x07 64)] /\
      match p_inputs p with i :: _ => in_sp_ecdh_shares i = [(pk_a, pk_b)] | [] => False end /\
      match p_outputs p with o :: _ => out_sp_v0_label o = Some 5 | [] => False end
  | _ => False
  end.
Proof. vm_compute. split; [reflexivity|]. split; reflexivity. Qed.
