(** C06, C07, C12 (v0), C45, C46, C73-C77: reading and writing v0 PSBTs. *)
From Coq Require Import Permutation.
From Verif Require Import Base OMap Consensus ConsensusFacts Ext ExtInstance Raw RawFacts TapTree TapTreeFacts Serialize MapCodec
  V2Global V2Psbt SpecCodec SpecCodecFacts SpecPsbt V2PsbtFacts V2WireFacts
  SampleV2 V0Error V0Input V0Output V0Psbt SpecPsbt0 V0PsbtFacts V0WireFacts V0PairFacts SpecTx TxWireFacts SampleV0.
Local Open Scope N_scope.

Local Notation cfg0 := (cfg_of false false).
(** Used by the examples only; the theorems bind their own. *)
#[local] Existing Instance toy | 100.
#[local] Instance ex_cfg : Cfg | 100 := cfg_of false false.

Lemma sample0_wf : @wf_psbt0 toy sample0.
Proof. exact (@deserialize0_wf toy toy_laws _ _ sample0_decodes). Qed.

Definition wf_pairb0 (p : pair) : bool :=
  (blen (k_data (p_key p)) <=? MAX_VEC_SIZE) && (blen (p_value p) <=? MAX_VALUE).
Lemma wf_pairb0_all l : forallb wf_pairb0 l = true -> Forall wf_pair l.
Proof.
  intros H. rewrite forallb_forall in H. apply Forall_forall. intros p Hp. apply H in Hp. unfold wf_pairb0 in Hp.
  apply andb_true_iff in Hp as [H1 H2]. split; [unfold wf_key; lia|]. unfold wf_value. lia.
Qed.
Lemma sample0_of_maps g is os p t : forallb wf_pairb0 g = true -> forallb (forallb wf_pairb0) is = true ->
  forallb (forallb wf_pairb0) os = true -> length is = length (p0_inputs p) -> length os = length (p0_outputs p) ->
  maps0_of (sample_of g is os ++ t) p g is os.
Proof.
  assert (A : forall ls, forallb (forallb wf_pairb0) ls = true -> Forall (Forall wf_pair) ls).
  { intros ls H. rewrite forallb_forall in H. apply Forall_forall. intros l Hl. apply wf_pairb0_all. auto. }
  intros H1 H2 H3 H4 H5. exists (sample_of g is os), t. split; auto. split; auto.
  apply psbt_wire_intro; auto. now apply wf_pairb0_all.
Qed.
Lemma sample0_maps : maps0_of sample0_bytes sample0 sample0_global
  [sample0_input_a; sample0_input_b] [sample0_output_a; sample0_output_b].
Proof.
  rewrite <- (app_nil_r sample0_bytes). unfold sample0_bytes. apply sample0_of_maps; vm_compute; reflexivity.
Qed.
Lemma sample0_raw_maps : maps0_of (@psbt0_serialize toy sample0) sample0
  (@global0_pairs sample0) (map (@input0_pairs toy) (p0_inputs sample0))
  (map output0_pairs (p0_outputs sample0)).
Proof. exact (@serialize0_maps toy toy_laws _ sample0_wf). Qed.

(** ** C06: magic and separator *)

Theorem C06_v0_magic : forall (X : Ext) bs,
  psbt0_deserialize bs = Err E0InvalidMagic <-> (forall t, bs <> [x70; x73; x62; x74] ++ t).
Proof. intros X. exact magic0_gate. Qed.
Print Assumptions C06_v0_magic.

Theorem C06_v0_separator : forall (X : Ext) bs,
  psbt0_deserialize bs = Err E0InvalidSeparator <->
  (exists t, bs = [x70; x73; x62; x74] ++ t) /\ (forall t, bs <> [x70; x73; x62; x74; xff] ++ t).
Proof. intros X. exact separator0_gate. Qed.
Print Assumptions C06_v0_separator.

Theorem C06_v0_accepted : forall (X : Ext) bs p,
  psbt0_deserialize bs = Ok p -> exists t, bs = [x70; x73; x62; x74; xff] ++ t.
Proof. intros X bs p H. apply deserialize0_gate in H. eauto. Qed.
Print Assumptions C06_v0_accepted.

Example C06_v0_example :
  @psbt0_deserialize toy [x70; x73; x62] = Err E0InvalidMagic /\
  @psbt0_deserialize toy [x70; x73; x62; x74] = Err E0InvalidSeparator /\
  @psbt0_deserialize toy [x70; x73; x62; x74; x00] = Err E0InvalidSeparator /\
  is_ok (@psbt0_deserialize toy sample0_bytes) = true.
Proof. repeat split. Qed.

(** ** C07: a byte string is a PSBT of one version at most *)

Theorem C07_one_version : forall (X : Ext) (L : ExtLaws X) (C : Cfg) bs p q,
  psbt_deserialize bs = Ok p -> psbt0_deserialize bs <> Ok q.
Proof. intros X L C bs p q H H0. exact (versions_disjoint bs p q H H0). Qed.
Print Assumptions C07_one_version.

Theorem C07_one_version_conv : forall (X : Ext) (L : ExtLaws X) (C : Cfg) bs p q,
  psbt0_deserialize bs = Ok q -> psbt_deserialize bs <> Ok p.
Proof. intros X L C bs p q H H0. exact (versions_disjoint bs p q H0 H). Qed.
Print Assumptions C07_one_version_conv.

Example C07_example : is_ok (@psbt_deserialize toy cfg0 sample_bytes) = true /\ is_ok (@psbt0_deserialize toy sample0_bytes) = true
  /\ @psbt0_deserialize toy sample_bytes = Err (E0Version 1)
  /\ is_ok (@psbt_deserialize toy cfg0 sample0_bytes) = false.
Proof. split; [vm_compute; reflexivity|]. split; [vm_compute; reflexivity|]. split; vm_compute; reflexivity. Qed.

(** ** C12: preimages *)

Theorem C12_v0_preimages : forall (X : Ext) (L : ExtLaws X) bs p i h pre,
  psbt0_deserialize bs = Ok p -> In i (p0_inputs p) ->
  (In (h, pre) (i0_ripemd160_preimages i) -> ripemd160 pre = h) /\
  (In (h, pre) (i0_sha256_preimages i) -> sha256 pre = h) /\
  (In (h, pre) (i0_hash160_preimages i) -> ripemd160 (sha256 pre) = h) /\
  (In (h, pre) (i0_hash256_preimages i) -> sha256 (sha256 pre) = h).
Proof.
  intros X L bs p i h pre H Hi. apply deserialize0_wf in H. pose proof (wp0_inputs _ H) as Q.
  rewrite Forall_forall in Q. apply Q in Hi. clear Q H.
  assert (A : forall n f m, preimages n f m -> In (h, pre) m -> f pre = h).
  { intros n f m [_ P] Hin. rewrite Forall_forall in P. exact (P _ Hin). }
  split; [apply (A _ _ _ (wi0_ripemd160 _ Hi))|]. split; [apply (A _ _ _ (wi0_sha256 _ Hi))|].
  split; [apply (A _ _ _ (wi0_hash160 _ Hi))|apply (A _ _ _ (wi0_hash256 _ Hi))].
Qed.
Print Assumptions C12_v0_preimages.
Example C12_v0_example : @psbt0_deserialize toy sample0_bytes = Ok sample0 /\
  match p0_inputs sample0 with i :: _ => i0_sha256_preimages i = [(@sha256 toy pre_a, pre_a)] | [] => False end.
Proof. split; [exact sample0_decodes|vm_compute; reflexivity]. Qed.

(** ** C45: round trip *)

Theorem C45_roundtrip : forall (X : Ext) (L : ExtLaws X) p,
  wf_psbt0 p -> exists p', psbt0_deserialize (psbt0_serialize p) = Ok p' /\ psbt0_eq p p'.
Proof. intros X L. exact psbt0_roundtrip. Qed.
Print Assumptions C45_roundtrip.

(** The well-formedness conditions are exactly what the round trip needs. *)
Theorem C45_roundtrip_exact : forall (X : Ext) (L : ExtLaws X) p,
  no_tap_ties0 p -> (wf_psbt0 p <-> psbt0_deserialize (psbt0_serialize p) = Ok p).
Proof.
  intros X L p Ht. split; [intros H; now apply psbt0_roundtrip_exact|apply deserialize0_wf].
Qed.
Print Assumptions C45_roundtrip_exact.

(** PSBTs made from a transaction: rejected exactly when it carries a signature. *)
Theorem C45_from_unsigned_tx : forall (X : Ext) (L : ExtLaws X) t,
  wf_tx t -> tx_base_size t <= 3999992 ->
  (unsigned t -> exists p, from_unsigned_tx t = Ok p /\ p0_unsigned_tx p = t
     /\ length (p0_inputs p) = length (tx_input t) /\ length (p0_outputs p) = length (tx_output t)
     /\ psbt0_deserialize (psbt0_serialize p) = Ok p) /\
  (~ unsigned t -> from_unsigned_tx t = Err E0UnsignedTxHasScriptSigs \/ from_unsigned_tx t = Err E0UnsignedTxHasScriptWitnesses).
Proof.
  intros X L t Hw Hs. split.
  - intros Hu. destruct (from_unsigned_wf t Hw Hs Hu) as (p & E & Et & W & T). exists p. split; [exact E|]. split; [exact Et|].
    rewrite <- Et. split; [apply W|]. split; [apply W|]. now apply psbt0_roundtrip_exact.
  - intros Hn. unfold from_unsigned_tx, unsigned_tx_checks. cbn [p0_unsigned_tx].
    destruct (unsigned_checks_err (tx_input t)) as [E|[->| ->]]; cbn [bind]; auto. now apply unsigned_checks_iff in E.
Qed.
Print Assumptions C45_from_unsigned_tx.

Lemma sample0_no_ties : @no_tap_ties0 toy sample0.
Proof.
  assert (V : forall s, blen s < U64 -> wf_shape (TL s 192)) by (intros s H; split; [exact H|split; reflexivity]).
  set (sh := TB (TL [x51] 192) (TL [x52] 192)).
  assert (N1 : bytes_eqb (@shash toy (TL [x51] 192)) (@shash toy (TL [x52] 192)) = false) by (vm_compute; reflexivity).
  assert (E : exists o1 o2, p0_outputs sample0 = [o1; o2] /\ o0_tap_tree o1 = None /\ o0_tap_tree o2 = @node_of toy sh).
  { eexists _, _. split; [vm_compute; reflexivity|]. split; [reflexivity|vm_compute; reflexivity]. }
  destruct E as (o1 & o2 & E & E1 & E2). unfold no_tap_ties0. rewrite E.
  constructor; [now rewrite E1|]. constructor; [|constructor]. rewrite E2.
  destruct (@node_of toy sh) as [t|] eqn:Et; [|exact I]. exists sh. split; [split; now apply V|]. split; [|assumption].
  apply bytes_eqb_neq in N1. exact (conj I (conj I N1)).
Qed.
Example C45_example : @wf_psbt0 toy sample0 /\ @no_tap_ties0 toy sample0
  /\ @psbt0_deserialize toy (psbt0_serialize sample0) = Ok sample0
  /\ length (p0_inputs sample0) = 2%nat /\ length (p0_xpub sample0) = 1%nat.
Proof. split; [exact sample0_wf|]. split; [exact sample0_no_ties|]. split; [vm_compute; reflexivity|split; reflexivity]. Qed.
Example C45_from_example : is_ok (@from_unsigned_tx sample0_tx) = true /\ tx_base_size sample0_tx = 166.
Proof. split; vm_compute; reflexivity. Qed.

(** A value of version 1 is written but not read back. *)
Theorem C45_version_refuted : exists p, @psbt0_deserialize toy (psbt0_serialize p) = Err (E0Version 1)
  /\ p = Psbt0 (p0_unsigned_tx sample0) 1 (p0_xpub sample0) (p0_proprietary sample0) (p0_unknown sample0)
           (p0_inputs sample0) (p0_outputs sample0).
Proof. eexists. split; [|reflexivity]. vm_compute. reflexivity. Qed.
Print Assumptions C45_version_refuted.

(** ** C46: decoded PSBTs are stable and unsigned *)

Theorem C46_unsigned : forall (X : Ext) (L : ExtLaws X) bs p,
  psbt0_deserialize bs = Ok p ->
  (forall i, In i (tx_input (p0_unsigned_tx p)) -> ti_script_sig i = [] /\ ti_witness i = []) /\
  length (p0_inputs p) = length (tx_input (p0_unsigned_tx p)) /\
  length (p0_outputs p) = length (tx_output (p0_unsigned_tx p)) /\ p0_version p = 0.
Proof.
  intros X L bs p H. apply deserialize0_wf in H. split; [|split; [apply H|split; apply H]].
  pose proof (wp0_unsigned _ H) as Q. unfold unsigned in Q. now rewrite Forall_forall in Q.
Qed.
Print Assumptions C46_unsigned.

Theorem C46_stable : forall (X : Ext) (L : ExtLaws X) bs p,
  psbt0_deserialize bs = Ok p -> exists p', psbt0_deserialize (psbt0_serialize p) = Ok p' /\ psbt0_eq p p'.
Proof. intros X L bs p H. apply psbt0_roundtrip. now apply deserialize0_wf in H. Qed.
Print Assumptions C46_stable.

Theorem C46_stable_exact : forall (X : Ext) (L : ExtLaws X) bs p,
  psbt0_deserialize bs = Ok p -> no_tap_ties0 p -> psbt0_deserialize (psbt0_serialize p) = Ok p.
Proof. intros X L bs p H Ht. apply psbt0_roundtrip_exact; auto. now apply deserialize0_wf in H. Qed.
Print Assumptions C46_stable_exact.

Example C46_example : @psbt0_deserialize toy sample0_bytes = Ok sample0 /\ @no_tap_ties0 toy sample0
  /\ bytes_eqb (@psbt0_serialize toy sample0) sample0_bytes = false.
Proof. split; [exact sample0_decodes|]. split; [exact sample0_no_ties|vm_compute; reflexivity]. Qed.

(** ** C48: decoding a v0 PSBT never panics *)
Theorem C48_deserialize : forall (X : Ext) (L : ExtLaws X) bs, psbt0_deserialize bs <> Panic.
Proof. intros X L. exact deserialize0_np. Qed.
Print Assumptions C48_deserialize.

(** ** C73: no repeated keys, neither read nor written *)

Theorem C73_no_duplicates : forall (X : Ext) (L : ExtLaws X) bs p lg lis los,
  psbt0_deserialize bs = Ok p -> maps0_of bs p lg lis los ->
  NoDup (map p_key lg) /\ Forall (fun l => NoDup (map p_key l)) lis /\ Forall (fun l => NoDup (map p_key l)) los.
Proof.
  intros X L bs p lg lis los H M. destruct (deserialize0_unique _ _ _ _ _ H M) as (A1 & A2 & A3 & _).
  split; [eapply global0_dup; eauto|]. split.
  - clear -A2 L. induction A2; constructor; auto. eapply input0_dup; eauto.
  - clear -A3 L. induction A3; constructor; auto. eapply output0_dup; eauto.
Qed.
Print Assumptions C73_no_duplicates.

(** Every accepted string has exactly one reading as maps, so the theorem applies to it. *)
Theorem C73_maps_exist : forall (X : Ext) (L : ExtLaws X) bs p,
  psbt0_deserialize bs = Ok p ->
  exists lg lis los, maps0_of bs p lg lis los
    /\ forall lg' lis' los', maps0_of bs p lg' lis' los' -> lg' = lg /\ lis' = lis /\ los' = los.
Proof. intros X L bs p H. now apply maps0_unique. Qed.
Print Assumptions C73_maps_exist.

Theorem C73_written : forall (X : Ext) (L : ExtLaws X) p,
  wf_psbt0 p -> exists lg lis los, psbt_wire lg lis los (psbt0_serialize p)
    /\ length lis = length (p0_inputs p) /\ length los = length (p0_outputs p)
    /\ NoDup (map p_key lg) /\ Forall (fun l => NoDup (map p_key l)) lis /\ Forall (fun l => NoDup (map p_key l)) los.
Proof.
  intros X L p H. exists (global0_pairs p), (map input0_pairs (p0_inputs p)), (map output0_pairs (p0_outputs p)).
  split.
  { rewrite serialize0_wire. now apply psbt_wire_intro; apply serialize0_pairs_wf. }
  split; [apply map_length|]. split; [apply map_length|].
  split; [apply global0_pairs_nodup, wf_psbt0_g0, H|]. split; apply Forall_forall; intros l Hl; apply in_map_iff in Hl as (a & <- & Ha).
  - apply input0_pairs_nodup. pose proof (wp0_inputs _ H) as Q. rewrite Forall_forall in Q. auto.
  - apply output0_pairs_nodup. pose proof (wp0_outputs _ H) as Q. rewrite Forall_forall in Q. auto.
Qed.
Print Assumptions C73_written.
Example C73_example : @psbt0_deserialize toy sample0_bytes = Ok sample0 /\ @wf_psbt0 toy sample0 /\
  maps0_of sample0_bytes sample0 sample0_global [sample0_input_a; sample0_input_b] [sample0_output_a; sample0_output_b] /\
  @psbt0_deserialize toy (sample_of sample0_global [sample0_input_a ++ [pr xf1 [] [x0a]]; sample0_input_b]
    [sample0_output_a; sample0_output_b]) = Err (E0DuplicateKey (Key xf1 [])).
Proof. split; [exact sample0_decodes|]. split; [exact sample0_wf|]. split; [exact sample0_maps|vm_compute; reflexivity]. Qed.

(** ** C74: the order of pairs does not matter *)

Theorem C74_pair_order : forall (X : Ext) (L : ExtLaws X) bs bs' p lg lis los lg' lis' los',
  psbt0_deserialize bs = Ok p -> maps0_of bs p lg lis los -> maps0_of bs' p lg' lis' los' ->
  Permutation lg lg' -> Forall2 (@Permutation pair) lis lis' -> Forall2 (@Permutation pair) los los' ->
  psbt0_deserialize bs' = Ok p.
Proof. intros X L. exact deserialize0_reorder. Qed.
Print Assumptions C74_pair_order.
Example C74_example :
  @psbt0_deserialize toy sample0_bytes = Ok sample0 /\
  maps0_of (sample_of (rev sample0_global) [rev sample0_input_a; rev sample0_input_b]
      [rev sample0_output_a; rev sample0_output_b]) sample0
    (rev sample0_global) [rev sample0_input_a; rev sample0_input_b] [rev sample0_output_a; rev sample0_output_b] /\
  Permutation sample0_global (rev sample0_global) /\
  Forall2 (@Permutation pair) [sample0_input_a; sample0_input_b] [rev sample0_input_a; rev sample0_input_b].
Proof.
  split; [exact sample0_decodes|]. split.
  - rewrite <- (app_nil_r (sample_of _ _ _)). apply sample0_of_maps; vm_compute; reflexivity.
  - split; [apply Permutation_rev|]. repeat constructor; apply Permutation_rev.
Qed.

(** ** C75: what is not interpreted is kept *)

(** The global map keeps every pair but a version pair, which can only say 0; the input
    and output maps keep every pair of a type that BIP-174 and BIP-371 do not define. *)
Theorem C75_raw_pairs_survive : forall (X : Ext) (L : ExtLaws X) bs p lg lis los lg' lis' los',
  psbt0_deserialize bs = Ok p -> maps0_of bs p lg lis los -> maps0_of (psbt0_serialize p) p lg' lis' los' ->
  Permutation lg' (filter (fun q => negb (beq (k_type (p_key q)) xfb)) lg) /\
  Forall2 (fun l l' => Permutation (filter (raw_pair input0_type) l') (filter (raw_pair input0_type) l)) lis lis' /\
  Forall2 (fun l l' => Permutation (filter (raw_pair output0_type_key) l') (filter (raw_pair output0_type_key) l)) los los'.
Proof. intros X L. exact deserialize0_raw. Qed.
Print Assumptions C75_raw_pairs_survive.
Theorem C75_version_pair : forall (X : Ext) (L : ExtLaws X) bs p lg lis los,
  psbt0_deserialize bs = Ok p -> maps0_of bs p lg lis los ->
  forall q, In q lg -> k_type (p_key q) = xfb -> k_data (p_key q) = [] /\ p_value q = [x00; x00; x00; x00].
Proof.
  intros X L bs p lg lis los H M q Hq E. destruct (deserialize0_unique _ _ _ _ _ H M) as (A1 & _).
  apply global0_kept in A1 as [_ A1]. rewrite Forall_forall in A1. rewrite (A1 _ Hq E). split; reflexivity.
Qed.
Print Assumptions C75_version_pair.
Example C75_example : @psbt0_deserialize toy sample0_bytes = Ok sample0
  /\ (exists lg lis los, maps0_of (@psbt0_serialize toy sample0) sample0 lg lis los)
  /\ filter (raw_pair input0_type) sample0_input_a = [pr xf1 [] [x09]]
  /\ length (filter (fun q => negb (beq (k_type (p_key q)) xfb)) sample0_global) = 4%nat.
Proof. split; [exact sample0_decodes|]. split; [|split; reflexivity]. eexists _, _, _. exact sample0_raw_maps. Qed.

(** ** C76: missing and additional bytes *)

Theorem C76_prefix_rejected : forall (X : Ext) (L : ExtLaws X) p pre suf q,
  wf_psbt0 p -> psbt0_serialize p = pre ++ suf -> suf <> [] -> psbt0_deserialize pre <> Ok q.
Proof. intros X L. exact deserialize0_truncated. Qed.
Print Assumptions C76_prefix_rejected.
Theorem C76_trailing_bytes_ignored : forall (X : Ext) (L : ExtLaws X) bs p t,
  psbt0_deserialize bs = Ok p -> psbt0_deserialize (bs ++ t) = Ok p.
Proof. intros X L. exact deserialize0_extend. Qed.
Print Assumptions C76_trailing_bytes_ignored.
Example C76_example : @wf_psbt0 toy sample0 /\
  (exists pre suf, @psbt0_serialize toy sample0 = pre ++ suf /\ suf <> [] /\ length pre = 400%nat) /\
  @psbt0_deserialize toy (sample0_bytes ++ [x01; x02]) = Ok sample0.
Proof.
  split; [exact sample0_wf|]. split.
  - exists (firstn 400 (psbt0_serialize sample0)), (skipn 400 (psbt0_serialize sample0)).
    split; [symmetry; apply firstn_skipn|]. split; [|vm_compute; reflexivity]. vm_compute. discriminate.
  - apply (@C76_trailing_bytes_ignored toy toy_laws). exact sample0_decodes.
Qed.

(** ** C77: the unsigned transaction is there once, the pairs of version 2 are not *)

Theorem C77_key_types : forall (X : Ext) (L : ExtLaws X) bs p lg lis los,
  psbt0_deserialize bs = Ok p -> maps0_of bs p lg lis los ->
  (exists b, legacy_wire (p0_unsigned_tx p) b /\ filter (fun q => beq (k_type (p_key q)) x00) lg = [Pair (Key x00 []) b]) /\
  Forall (fun q => global_v2_type (k_type (p_key q)) = false) lg /\
  Forall (Forall (fun q => input_v2_type (k_type (p_key q)) = false)) lis /\
  Forall (Forall (fun q => output_v2_type (k_type (p_key q)) = false)) los.
Proof.
  intros X L bs p lg lis los H M. destruct (deserialize0_unique _ _ _ _ _ H M) as (A1 & A2 & A3 & _).
  split.
  { exists (enc_tx_nowit (p0_unsigned_tx p)). split; [|now apply global0_one_tx].
    destruct (wp0_tx _ (deserialize0_wf _ _ H)) as (W1 & W2 & W3 & W4 & W5 & W6). apply wf_txins_split in W4 as [W4 _].
    apply legacy_wire_iff. auto 10. }
  split; [now apply global0_no_v2 in A1|]. split.
  - clear -A2 L. induction A2; constructor; auto. eapply input0_no_v2; eauto.
  - clear -A3 L. induction A3; constructor; auto. eapply output0_no_v2; eauto.
Qed.
Print Assumptions C77_key_types.
Example C77_example : @psbt0_deserialize toy sample0_bytes = Ok sample0 /\
  maps0_of sample0_bytes sample0 sample0_global [sample0_input_a; sample0_input_b] [sample0_output_a; sample0_output_b] /\
  @psbt0_deserialize toy (sample_of sample0_global [pr x0f [] (le4 1) :: sample0_input_a; sample0_input_b]
    [sample0_output_a; sample0_output_b]) = Err (E0ExcludedKey x0f).
Proof. split; [exact sample0_decodes|]. split; [exact sample0_maps|vm_compute; reflexivity]. Qed.
