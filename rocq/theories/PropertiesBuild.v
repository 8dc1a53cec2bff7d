(** C126: the PSBT that creator, constructor and builders make is the one asked for. *)
From Verif Require Import Base OMap Consensus Ext ExtInstance Raw TapTree Serialize V2Global V2Input V2Output V2Psbt V2Roles SpecRoles SpecPsbt
  V2PsbtFacts V2CodecFacts V2WireFacts V2RolesFacts SpecBuild BuildFacts SampleV2.
Local Open Scope N_scope.

(** Used by the examples only; the theorems bind their own. *)
#[local] Existing Instance toy | 100.
#[local] Instance ex_cfg : Cfg | 100 := cfg_of false false.

(** A built input spends the given output; each call sets its own field, the last call of a
    kind counts, and nothing else is set. *)
Theorem C126_input : forall op l, let i := build_input op l in
  outpoint_of i = op /\ in_min_time i = latest bc_time l /\ in_min_height i = latest bc_height l
  /\ in_witness_utxo i = latest bc_segwit l /\ in_non_witness_utxo i = latest bc_legacy l
  /\ in_sequence i = None /\ in_sighash_type i = None
  /\ input_has_sig_data i = false /\ input_is_finalized i = false
  /\ in_redeem_script i = None /\ in_witness_script i = None /\ in_final_script_sig i = None /\ in_final_script_witness i = None
  /\ in_bip32_derivations i = [] /\ in_ripemd160_preimages i = [] /\ in_sha256_preimages i = [] /\ in_hash160_preimages i = []
  /\ in_hash256_preimages i = [] /\ in_tap_scripts i = [] /\ in_tap_key_origins i = [] /\ in_tap_internal_key i = None
  /\ in_tap_merkle_root i = None /\ in_sp_ecdh_shares i = [] /\ in_sp_dleq_proofs i = [] /\ in_proprietaries i = [] /\ in_unknowns i = [].
Proof.
  intros op l i. unfold i. rewrite build_input_eq. destruct op. repeat split.
Qed.
Print Assumptions C126_input.
Theorem C126_output : forall u, let o := build_output u in
  payment_of o = (to_value u, to_script u) /\ output_tx_out o = u
  /\ out_redeem_script o = None /\ out_witness_script o = None /\ out_bip32_derivations o = [] /\ out_tap_internal_key o = None
  /\ out_tap_tree o = None /\ out_tap_key_origins o = [] /\ out_sp_v0_info o = None /\ out_sp_v0_label o = None
  /\ out_proprietaries o = [] /\ out_unknowns o = [].
Proof. intros [v s] o. repeat split. Qed.
Print Assumptions C126_output.

(** Signatures of any kind are signature data. *)
Theorem C126_sig_data : forall i,
  input_has_sig_data i = true <-> in_partial_sigs i <> [] \/ in_tap_key_sig i <> None \/ in_tap_script_sigs i <> [].
Proof.
  intros i. unfold input_has_sig_data. destruct (in_partial_sigs i), (in_tap_key_sig i), (in_tap_script_sigs i); cbn; intuition congruence.
Qed.
Print Assumptions C126_sig_data.

(** Constructing never fails, and yields the PSBT that was asked for. *)
Theorem C126_asked : forall (X : Ext) (C : Cfg) (E : Type) k cs ks, Forall (allowed k) ks ->
  N.of_nat (length (all_of kc_input ks)) < 2 ^ 64 -> N.of_nat (length (all_of kc_output ks)) < 2 ^ 64 ->
  exists p, construct (E := E) k cs ks = Ok p /\ as_asked k cs ks p.
Proof. intros X C E k cs ks. exact (construct_asked k cs ks). Qed.
Print Assumptions C126_asked.

(** The updater gets a PSBT with the same contents that nobody may modify; its transaction
    has the version, the inputs, the outputs and the lock time asked for. *)
Theorem C126_transaction : forall (X : Ext) (C : Cfg) k cs ks p q, as_asked k cs ks p -> constructor_updater p = Ok q ->
  p_inputs q = all_of kc_input ks /\ p_outputs q = all_of kc_output ks
  /\ (forall b, N.testbit (g_tx_modifiable_flags (p_global q)) b = true <-> b = 2 /\ In CcSingle cs)
  /\ exists t, unsigned_tx q = Ok t
     /\ tx_version t = match latest cc_version cs with Some v => v | None => 2 end
     /\ bip370_lock_time q (Some (tx_lock_time t))
     /\ ((forall i, In i (all_of kc_input ks) -> ~ needs_lock i) ->
         tx_lock_time t = match latest cc_fallback cs with Some n => n | None => 0 end)
     /\ map (fun i => (ti_txid i, ti_vout i)) (tx_input t) = map outpoint_of (all_of kc_input ks)
     /\ Forall (fun i => ti_script_sig i = [] /\ ti_witness i = []) (tx_input t)
     /\ map (fun o => (to_value o, to_script o)) (tx_output t) = map payment_of (all_of kc_output ks).
Proof.
  intros X C k cs ks p q [A1 A2 A3 A4 A5 A6 A7 A8 A9] H. unfold constructor_updater, constructor_psbt in H.
  destruct (determine_lock_time (constructor_no_more_outputs (constructor_no_more_inputs p))) as [n| |] eqn:D; [|discriminate|discriminate].
  cbn [bind] in H. injection H as <-. set (q := constructor_no_more_outputs (constructor_no_more_inputs p)) in *.
  split; [exact A1|]. split; [exact A2|]. split.
  { intros b. pose proof (flag_clear _ _ _ _ 1 (flag_clear _ _ _ _ 0 A5 eq_refl) eq_refl b) as F. etransitivity; [exact F|]. intuition congruence. }
  unfold unsigned_tx. rewrite D. cbn [bind]. eexists. split; [reflexivity|]. cbn [tx_version tx_lock_time tx_input tx_output].
  pose proof (proj1 (determine_ok_iff _ _) D) as B.
  split; [exact A3|]. split; [exact B|]. split.
  { intros Hn. pose proof (LFallback q) as G. assert (Hq : forall i, In i (p_inputs q) -> ~ needs_lock i).
    { intros i Hi. apply Hn. rewrite <- A1. exact Hi. }
    specialize (G Hq). apply determine_ok_iff in G. rewrite D in G. injection G as ->. change (p_global q) with (p_global q).
    replace (g_fallback_lock_time (p_global q)) with (g_fallback_lock_time (p_global p)) by reflexivity. now rewrite A4. }
  split; [|split].
  - rewrite map_map, <- A1. reflexivity.
  - apply Forall_forall. intros i Hi. apply in_map_iff in Hi as (j & <- & _). split; reflexivity.
  - rewrite map_map, <- A2. reflexivity.
Qed.
Print Assumptions C126_transaction.

(** The updater is refused exactly when one input needs a time and another a height. *)
Theorem C126_conflict : forall (X : Ext) (C : Cfg) k cs ks p, as_asked k cs ks p ->
  ((forall q, constructor_updater p <> Ok q) <->
   exists i j, In i (all_of kc_input ks) /\ In j (all_of kc_input ks) /\ only_time i /\ only_height j)
  /\ constructor_updater p <> Panic.
Proof.
  intros X C k cs ks p [A1 _ _ _ _ _ _ _ _]. unfold constructor_updater, constructor_psbt.
  set (q := constructor_no_more_outputs (constructor_no_more_inputs p)) in *.
  assert (E : p_inputs q = all_of kc_input ks) by exact A1.
  pose proof (determine_bip370 q) as B. pose proof (determine_err_iff q) as Q. pose proof (determine_nopanic q) as NP.
  destruct (determine_lock_time q) as [n|e|]; cbn [bind]; [| |congruence].
  - split; [|discriminate]. split; [intros H; now specialize (H q)|]. intros (i & j & H1 & H2 & H3 & H4).
    rewrite <- E in H1, H2. exfalso. destruct Q as [_ Q]. destruct Q as [e Q]; [exact (LConflict q i j H1 H2 H3 H4)|discriminate].
  - split; [|discriminate]. split; [|discriminate]. intros _. destruct Q as [Q _].
    assert (G : bip370_lock_time q None) by (apply Q; eauto). inversion G; subst. rewrite <- E. eauto 8.
Qed.
Print Assumptions C126_conflict.

(** What was built from inputs and outputs of the builders can be read by others. *)
Definition from_builder (c : kcall) : Prop :=
  match c with
  | KcInput i => exists op l, good_outpoint op /\ Forall good_call l /\ i = build_input op l
  | KcOutput o => exists u, good_payment u /\ o = build_output u
  | _ => True
  end.
Definition good_ccall (c : ccall) : Prop :=
  match c with CcVersion v => v < 2 ^ 32 | CcFallback n => n < 2 ^ 32 | _ => True end.
Theorem C126_read : forall (X : Ext) (L : ExtLaws X) (C : Cfg) (CL : CfgLaws C) k cs ks p, as_asked k cs ks p ->
  Forall from_builder ks -> Forall good_ccall cs ->
  N.of_nat (length (all_of kc_input ks)) * size_input <= ISIZE_MAX ->
  N.of_nat (length (all_of kc_output ks)) * size_output <= ISIZE_MAX ->
  wf_psbt p /\ psbt_deserialize (psbt_serialize p) = Ok p.
Proof.
  intros X L C CL k cs ks p [A1 A2 A3 A4 A5 A6 A7 A8 A9] Hk Hc M1 M2. rewrite Forall_forall in Hk, Hc.
  assert (N1 : N.of_nat (length (all_of kc_input ks)) < 2 ^ 64).
  { pose proof (@size_input_pos C CL) as Z. apply N.le_lt_trans with ISIZE_MAX; [|reflexivity]. etransitivity; [|exact M1].
    rewrite <- (N.mul_1_r (N.of_nat _)) at 1. apply N.mul_le_mono_l. lia. }
  assert (N2 : N.of_nat (length (all_of kc_output ks)) < 2 ^ 64).
  { pose proof (@size_output_pos C CL) as Z. apply N.le_lt_trans with ISIZE_MAX; [|reflexivity]. etransitivity; [|exact M2].
    rewrite <- (N.mul_1_r (N.of_nat _)) at 1. apply N.mul_le_mono_l. lia. }
  assert (Fi : forall i, In i (all_of kc_input ks) -> exists op l, good_outpoint op /\ Forall good_call l /\ i = build_input op l).
  { intros i. clear -Hk. induction ks as [|c r IH]; cbn [all_of]; [now intros []|]. specialize (IH (fun d Hd => Hk d (or_intror Hd))).
    pose proof (Hk c (or_introl eq_refl)) as F. destruct c; cbn [kc_input] in *; auto. intros [<-|H]; auto. }
  assert (Fo : forall o, In o (all_of kc_output ks) -> exists u, good_payment u /\ o = build_output u).
  { intros i. clear -Hk. induction ks as [|c r IH]; cbn [all_of]; [now intros []|]. specialize (IH (fun d Hd => Hk d (or_intror Hd))).
    pose proof (Hk c (or_introl eq_refl)) as F. destruct c; cbn [kc_output] in *; auto. intros [<-|H]; auto. }
  assert (W : wf_psbt p).
  { destruct A7 as (B1 & B2 & B3 & B4 & B5). constructor.
    - constructor.
      + exact A6.
      + rewrite A3. destruct (latest cc_version cs) as [v|] eqn:E; [|reflexivity]. apply latest_in in E as (c & Hin & E).
        apply Hc in Hin. destruct c; try discriminate. injection E as ->. exact Hin.
      + rewrite A4. destruct (latest cc_fallback cs) as [v|] eqn:E; [|exact I]. apply latest_in in E as (c & Hin & E).
        apply Hc in Hin. destruct c; try discriminate. injection E as ->. exact Hin.
      + destruct (N.eq_dec (g_tx_modifiable_flags (p_global p)) 0) as [->|Hz]; [lia|].
        pose proof (N.bit_log2 _ Hz) as Hb. apply A5 in Hb. apply N.log2_lt_cancel. change (N.log2 256) with 8. lia.
      + rewrite A8. exact N1.
      + rewrite A9. exact N2.
      + rewrite B1. apply map_of_nil.
      + rewrite B2. unfold sp_field. destruct feat_sp; [apply map_of_nil|reflexivity].
      + rewrite B3. unfold sp_field. destruct feat_sp; [apply map_of_nil|reflexivity].
      + now rewrite B2, B3.
      + rewrite B4. apply map_of_nil.
      + rewrite B5. apply map_of_nil.
    - rewrite A1. apply Forall_forall. intros i Hi. apply Fi in Hi as (op & l & H1 & H2 & ->). now apply build_input_wf.
    - rewrite A2. apply Forall_forall. intros o Ho. apply Fo in Ho as (u & H & ->). now apply build_output_wf.
    - now rewrite A1.
    - now rewrite A2.
    - now rewrite A1.
    - now rewrite A2. }
  split; [exact W|]. apply psbt_roundtrip_exact; [exact W|].
  unfold no_tap_ties. rewrite A2. apply Forall_forall. intros o Ho. apply Fo in Ho as (u & H & ->). cbn. exact I.
Qed.
Print Assumptions C126_read.

(** Each of the flags is one bit (BIP-370: bits 0, 1 and 2). *)
Theorem C126_flags : forall g,
  is_inputs_modifiable g = N.testbit (g_tx_modifiable_flags g) 0
  /\ is_outputs_modifiable g = N.testbit (g_tx_modifiable_flags g) 1
  /\ has_sighash_single g = N.testbit (g_tx_modifiable_flags g) 2
  /\ forall b,
     N.testbit (g_tx_modifiable_flags (set_inputs_modifiable_flag g)) b = N.testbit (g_tx_modifiable_flags g) b || (0 =? b)
     /\ N.testbit (g_tx_modifiable_flags (set_outputs_modifiable_flag g)) b = N.testbit (g_tx_modifiable_flags g) b || (1 =? b)
     /\ N.testbit (g_tx_modifiable_flags (set_sighash_single_flag g)) b = N.testbit (g_tx_modifiable_flags g) b || (2 =? b)
     /\ N.testbit (g_tx_modifiable_flags (clear_inputs_modifiable_flag g)) b = N.testbit (g_tx_modifiable_flags g) b && negb (0 =? b)
     /\ N.testbit (g_tx_modifiable_flags (clear_outputs_modifiable_flag g)) b = N.testbit (g_tx_modifiable_flags g) b && negb (1 =? b)
     /\ N.testbit (g_tx_modifiable_flags (clear_sighash_single_flag g)) b = N.testbit (g_tx_modifiable_flags g) b && negb (2 =? b).
Proof.
  intros g. split; [exact (has_bit _ 0)|]. split; [exact (has_bit _ 1)|]. split; [exact (has_bit _ 2)|]. intros b.
  split; [exact (bit_lor _ 0 b)|]. split; [exact (bit_lor _ 1 b)|]. split; [exact (bit_lor _ 2 b)|].
  split; [exact (bit_ldiff _ 0 b)|]. split; [exact (bit_ldiff _ 1 b)|exact (bit_ldiff _ 2 b)].
Qed.
Print Assumptions C126_flags.

(** Version 1, a fallback lock time, two inputs with lock times set twice, one output. *)
Definition ex_calls : list ccall := [CcVersion 2; CcFallback 5; CcSingle; CcOutputs; CcVersion 1].
Definition ex_input : input := build_input (txid_a, 3) [BcTime 600000000; BcHeight 100; BcSegwit (TxOut 5000 p2wpkh_a); BcHeight 200].
Definition ex_input2 : input := build_input (txid_b, 0) [BcHeight 150; BcLegacy (Tx 2 0 [TxIn txid_a 0 [x51] 0 []] [TxOut 7000 p2wpkh_a])].
Definition ex_ks : list kcall :=
  [KcInput ex_input; KcOutput (build_output (TxOut 4000 p2wpkh_a)); KcNoOutputs; KcInput ex_input2].
Definition ex_built : psbt := match construct (E := Empty_set) KModifiable ex_calls ex_ks with Ok p => p | _ => empty_psbt end.
Example C126_example :
  Forall (allowed KModifiable) ex_ks /\ Forall from_builder ex_ks /\ Forall good_ccall ex_calls
  /\ as_asked KModifiable ex_calls ex_ks ex_built
  /\ g_tx_modifiable_flags (p_global ex_built) = 5 /\ g_tx_version (p_global ex_built) = 1
  /\ (exists q t, constructor_updater ex_built = Ok q /\ unsigned_tx q = Ok t /\ tx_lock_time t = 200)
  /\ psbt_deserialize (psbt_serialize ex_built) = Ok ex_built
  /\ only_height ex_input2 /\ only_time (build_input (txid_a, 1) [BcTime 600000000]).
Proof.
  assert (A : Forall (allowed KModifiable) ex_ks) by (repeat constructor).
  destruct (C126_asked toy ex_cfg Empty_set KModifiable ex_calls ex_ks A eq_refl eq_refl) as (p & Ep & Q).
  assert (p = ex_built) as -> by (unfold ex_built; now rewrite Ep).
  split; [exact A|]. split.
  { repeat constructor; cbn [from_builder]; try exact I.
    - exists (txid_a, 3). eexists. split; [|split; [|reflexivity]].
      + split; [reflexivity|]. split; [discriminate|reflexivity].
      + repeat constructor; cbn; unfold wf_time, wf_height, LOCK_TIME_THRESHOLD, U32; try lia; vm_compute; discriminate.
    - exists (TxOut 4000 p2wpkh_a). split; [|reflexivity]. split; [reflexivity|]. split; [reflexivity|]. split; vm_compute; discriminate.
    - exists (txid_b, 0). eexists. split; [|split; [|reflexivity]].
      + split; [reflexivity|]. split; [discriminate|reflexivity].
      + repeat constructor; cbn; unfold wf_time, wf_height, LOCK_TIME_THRESHOLD, U32; try lia; try (vm_compute; congruence). }
  split; [repeat constructor; cbn; lia|]. split; [exact Q|].
  split; [vm_compute; reflexivity|]. split; [vm_compute; reflexivity|]. split.
  { do 2 eexists. split; [vm_compute; reflexivity|]. split; vm_compute; reflexivity. }
  split; [vm_compute; reflexivity|]. split; (split; [discriminate|reflexivity]).
Qed.
